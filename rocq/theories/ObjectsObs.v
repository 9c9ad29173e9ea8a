(** Object observations: C27, C28. *)
From Coq Require Import List ZArith QArith Lia Reals Permutation Sorted Bool.
From Verif Require Import SMap GraphModel GraphSpec GraphComp DataModel DataSpec DataProofs DetectModel DetectProofs GeomModel GeomSpec GeomProofs
  ChainModel ChainSpec ChainProofs ChainCam ObjectsModel ObjectsSpec ObjectsProofs ObjectsSave ObjectsBuild ObjectsMerge.
Import ListNotations.
Close Scope Q_scope.
Close Scope R_scope.
Open Scope nat_scope.

Section Obs.
Context {pt : Type}.
Implicit Types (t : tables pt) (o : obj3d) (oo : objobs pt) (ot : otables pt).

(** board observations among [ns] whose board belongs to o *)
Definition picked t o (ns : list nat) : list (nat * bobs pt) :=
  flat_map (fun n => match nth_error (mvals (t_obs t)) n with
                     | Some b => match mfind (o_board b) (ob_boards o) with Some _ => [(n, b)] | None => [] end
                     | None => [] end) ns.
Definition extend o (pk : list (nat * bobs pt)) oo : objobs pt :=
  mkOO (oo_obj oo) (last (map (fun e => o_cam (snd e)) pk) (oo_cam oo)) (last (map (fun e => o_frame (snd e)) pk) (oo_frame oo))
       (oo_boards oo ++ map (fun e => o_board (snd e)) pk) (oo_bobs oo ++ map fst pk)
       (oo_pts oo ++ flat_map (fun e => o_pts (snd e)) pk)
       (oo_ids oo ++ flat_map (fun e => map (b2o o (o_board (snd e))) (o_ids (snd e))) pk).

Lemma last_cons_default {A} (l : list A) a d : last (a :: l) d = last l a.
Proof. revert a d. induction l as [|x l IH]; intros a d; auto. change (last (a :: x :: l) d) with (last (x :: l) d). rewrite !IH. auto. Qed.
Lemma gather_ok t o : paired t -> forall ns oo, gather_boards t o ns oo = Some (extend o (picked t o ns) oo).
Proof.
  intros Hp. induction ns as [|n ns IH]; intros oo; cbn [gather_boards].
  - unfold picked, extend. cbn. rewrite !app_nil_r. destruct oo; auto.
  - change (picked t o (n :: ns)) with (match nth_error (mvals (t_obs t)) n with
                     | Some b => match mfind (o_board b) (ob_boards o) with Some _ => [(n, b)] | None => [] end
                     | None => [] end ++ picked t o ns).
    destruct (nth_error (mvals (t_obs t)) n) as [b|] eqn:E; [|apply IH].
    destruct (mfind (o_board b) (ob_boards o)) eqn:E2; [|apply IH].
    unfold insertNewBoardObs. assert (L := Hp b (nth_error_In _ _ E)). rewrite L, Nat.leb_refl, firstn_all. rewrite IH. f_equal.
    unfold extend. cbn [oo_obj oo_cam oo_frame oo_boards oo_bobs oo_pts oo_ids app map flat_map fst snd].
    rewrite <- !app_assoc, !last_cons_default. auto.
Qed.

(** what init3DObjectObs stores for each camera observation *)
Definition entry t (i : Z) o (kc : (Z * Z) * camobs_t) : list ((Z * Z) * objobs pt) :=
  let oo := extend o (picked t o (mvals (co_obs (snd kc)))) (new_objobs i) in
  if Nat.ltb 0 (length (oo_ids oo)) then [(fst kc, oo)] else [].
Definition store_all (es : list ((Z * Z) * objobs pt)) ot : otables pt :=
  fold_left (fun ot e => store_objobs (fst e) (oo_obj (snd e)) (snd e) ot) es ot.
Lemma init_one t i o : paired t -> forall cos ot,
  init3DObjectObs t i o cos ot = Some (store_all (flat_map (entry t i o) cos) ot).
Proof.
  intros Hp. induction cos as [|[key co] cos IH]; intros ot; auto. cbn [init3DObjectObs flat_map]. rewrite gather_ok by auto.
  unfold entry at 1. cbn [fst snd]. destruct (Nat.ltb 0 (length (oo_ids (extend o (picked t o (mvals (co_obs co))) (new_objobs i))))).
  - rewrite IH. reflexivity.
  - rewrite IH. reflexivity.
Qed.
Definition pass t (objs : smap Z obj3d) : list ((Z * Z) * objobs pt) :=
  flat_map (fun '(i, o) => flat_map (entry t i o) (t_camobs t)) objs.
Lemma init_all t : paired t -> forall objs ot, initAll3DObjectObs t objs ot = Some (store_all (pass t objs) ot).
Proof.
  intros Hp. induction objs as [|[i o] objs IH]; intros ot; auto. cbn [initAll3DObjectObs pass flat_map]. rewrite init_one by auto.
  rewrite IH. unfold store_all. rewrite fold_left_app. auto.
Qed.
Lemma merge_all t objs : paired t -> mergeAllObjectObs t objs = Some (store_all (concat (repeat (pass t objs) (length objs))) empty_otables).
Proof.
  intros Hp. unfold mergeAllObjectObs.
  assert (G : forall (l : smap Z obj3d) ot, fold_left (fun acc _ => match acc with Some ot => initAll3DObjectObs t objs ot | None => None end) l (Some ot)
     = Some (store_all (concat (repeat (pass t objs) (length l))) ot)).
  { induction l as [|x l IH]; intros ot; auto. cbn [fold_left length repeat concat]. rewrite init_all by auto. rewrite IH.
    unfold store_all. rewrite fold_left_app. auto. }
  apply G.
Qed.
Lemma store_all_list es : forall ot, ot_all (store_all es ot) = ot_all ot ++ map snd es.
Proof.
  unfold store_all. induction es as [|e es IH]; intros ot; cbn [fold_left map]; [rewrite app_nil_r; auto|].
  rewrite IH. cbn. rewrite <- app_assoc. auto.
Qed.

Lemma combine_app' {A B} (l1 l2 : list A) (m1 m2 : list B) : length l1 = length m1 -> combine (l1 ++ l2) (m1 ++ m2) = combine l1 m1 ++ combine l2 m2.
Proof. revert m1. induction l1 as [|a l1 IH]; intros [|b m1] H; cbn in *; try lia; auto. f_equal. auto. Qed.
Lemma where_snoc {A} (p : A -> bool) l x : where_ p (l ++ [x]) = where_ p l ++ (if p x then [length l] else []).
Proof.
  unfold where_. rewrite app_length. cbn [length]. rewrite Nat.add_1_r, seq_S, combine_app' by apply seq_length.
  rewrite filter_app, map_app. cbn. destruct (p x); auto.
Qed.
Lemma table_of_lpush {K} `{KeyOrd K} (k k' : K) n m : table_of k' (lpush k n m) = table_of k' m ++ (if key_dec k' k then [n] else []).
Proof.
  unfold table_of at 1, lpush. destruct (key_dec k' k) as [->|N].
  - rewrite mfind_mset_eq. auto.
  - rewrite mfind_mset_neq, app_nil_r by auto. auto.
Qed.
Lemma store_ok key oo ot : otables_ok ot -> key = (oo_cam oo, oo_frame oo) -> otables_ok (store_objobs key (oo_obj oo) oo ot).
Proof.
  intros O ->. unfold store_objobs. cbn [fst snd]. constructor; cbn [ot_all ot_camobs ot_frames ot_cams ot_objs].
  - intros c f. rewrite table_of_lpush, where_snoc, (ot_ok_camobs _ O). f_equal.
    destruct (key_dec (c, f) (oo_cam oo, oo_frame oo)) as [E|N].
    + injection E as -> ->. rewrite !Z.eqb_refl. auto.
    + destruct (Z.eqb_spec (oo_cam oo) c), (Z.eqb_spec (oo_frame oo) f); cbn; auto. congruence.
  - intros f. rewrite table_of_lpush, where_snoc, (ot_ok_frames _ O). f_equal.
    destruct (key_dec f (oo_frame oo)), (Z.eqb_spec (oo_frame oo) f); auto; congruence.
  - intros f. rewrite table_of_lpush, where_snoc, (ot_ok_cams _ O). f_equal.
    destruct (key_dec f (oo_cam oo)), (Z.eqb_spec (oo_cam oo) f); auto; congruence.
  - intros f. rewrite table_of_lpush, where_snoc, (ot_ok_objs _ O). f_equal.
    destruct (key_dec f (oo_obj oo)), (Z.eqb_spec (oo_obj oo) f); auto; congruence.
Qed.
Lemma store_all_ok es : forall ot, otables_ok ot -> (forall k oo, In (k, oo) es -> k = (oo_cam oo, oo_frame oo)) -> otables_ok (store_all es ot).
Proof.
  unfold store_all. induction es as [|[k oo] es IH]; intros ot O H; auto. cbn [fold_left fst snd]. apply IH.
  - apply store_ok; auto. apply H. left; auto.
  - intros; apply H; right; auto.
Qed.
Lemma empty_ok : otables_ok (@empty_otables pt).
Proof. constructor; reflexivity. Qed.

(** contents of an entry *)
Lemma picked_In t o ns n b : In (n, b) (picked t o ns) <->
  In n ns /\ nth_error (mvals (t_obs t)) n = Some b /\ In (o_board b) (mkeys (ob_boards o)).
Proof.
  unfold picked. rewrite in_flat_map. split.
  - intros (m & Hm & H). destruct (nth_error (mvals (t_obs t)) m) as [b'|] eqn:E; [|destruct H].
    destruct (mfind (o_board b') (ob_boards o)) eqn:E2; [|destruct H]. destruct H as [[= -> ->]|[]].
    split; auto. split; auto. apply mfind_Some_key; eauto.
  - intros (Hm & E & Hb). exists n. split; auto. rewrite E. apply mfind_Some_key in Hb as (z & ->). left; auto.
Qed.
Lemma picked_fst_NoDup t o ns : NoDup ns -> NoDup (map fst (picked t o ns)).
Proof.
  induction ns as [|n ns IH]; intros N; [constructor|]. inversion N; subst.
  change (picked t o (n :: ns)) with (match nth_error (mvals (t_obs t)) n with
                     | Some b => match mfind (o_board b) (ob_boards o) with Some _ => [(n, b)] | None => [] end
                     | None => [] end ++ picked t o ns).
  destruct (nth_error (mvals (t_obs t)) n) as [b|]; [|apply IH; auto]. destruct (mfind (o_board b) (ob_boards o)); [|apply IH; auto].
  cbn. constructor; [|apply IH; auto]. intros Hi. apply in_map_iff in Hi as ([m b'] & E & Hi). cbn in E. subst m. apply picked_In in Hi. tauto.
Qed.
Lemma last_all {A} (l : list A) d x : l <> [] -> (forall y, In y l -> y = x) -> last l d = x.
Proof.
  intros N H. destruct l as [|a l]; [congruence|]. rewrite last_cons_default. clear N. revert a H.
  induction l as [|b l IH]; intros a H; [apply H; left; auto|]. rewrite last_cons_default. apply IH. intros y Hy. apply H. right; auto.
Qed.

Lemma entry_ok t i o c f co e : linked_up t -> paired t -> mfind (c, f) (t_camobs t) = Some co -> In e (entry t i o ((c, f), co)) ->
  fst e = (c, f) /\ oo_obj (snd e) = i /\ oo_cam (snd e) = c /\ oo_frame (snd e) = f /\ gathers t o (snd e).
Proof.
  intros LU Hp Hco He. unfold entry in He. cbn [fst snd] in He.
  set (pk := picked t o (mvals (co_obs co))) in *. set (oo := extend o pk (new_objobs i)) in *.
  destruct (Nat.ltb_spec 0 (length (oo_ids oo))) as [L|L]; [|destruct He]. destruct He as [<-|[]]. cbn [fst snd].
  assert (PK : forall n b, In (n, b) pk <-> nth_error (mvals (t_obs t)) n = Some b /\ o_cam b = c /\ o_frame b = f /\ In (o_board b) (mkeys (ob_boards o))).
  { intros n b. unfold pk. rewrite picked_In, (lu_list _ LU c f co n Hco). split.
    - intros ((b' & E & A & B) & E' & Hb). rewrite E in E'. injection E' as ->. auto.
    - intros (E & A & B & Hb). split; eauto. }
  assert (NE : pk <> []) by (intros E; unfold oo in L; rewrite E in L; cbn in L; lia).
  assert (Ec : oo_cam oo = c).
  { unfold oo, extend. cbn [oo_cam]. apply last_all; [destruct pk; [congruence|discriminate]|].
    intros y Hy. apply in_map_iff in Hy as ([n b] & <- & Hy). apply PK in Hy. tauto. }
  assert (Ef : oo_frame oo = f).
  { unfold oo, extend. cbn [oo_frame]. apply last_all; [destruct pk; [congruence|discriminate]|].
    intros y Hy. apply in_map_iff in Hy as ([n b] & <- & Hy). apply PK in Hy. tauto. }
  split; [auto|]. split; [auto|]. split; [auto|]. split; [auto|].
  assert (PP : forall e, In e pk -> length (o_pts (snd e)) = length (o_ids (snd e))).
  { intros [n b] H. apply Hp. apply PK in H as (E & _). eapply nth_error_In; eauto. }
  constructor.
  - intros n. rewrite Ec, Ef. change (oo_bobs oo) with (map fst pk). rewrite in_map_iff. split.
    + intros ([m b] & E & H). cbn in E. subst m. apply PK in H. eauto.
    + intros (b & H). exists (n, b). split; auto. apply PK. auto.
  - change (oo_bobs oo) with (map fst pk). apply picked_fst_NoDup. eapply lu_nodup; eauto.
  - exists (map snd pk). change (oo_bobs oo) with (map fst pk). split; [|split; [|split]].
    + assert (G : forall l, (forall e, In e l -> In e pk) -> Forall2 (fun n b => nth_error (mvals (t_obs t)) n = Some b) (map fst l) (map snd l)).
      { induction l as [|[n b] l IH]; intros H; constructor; [apply (PK n b); apply H; left; auto|apply IH; intros; apply H; right; auto]. }
      apply G. auto.
    + unfold oo, extend. cbn. rewrite map_map. auto.
    + unfold oo, extend. cbn [oo_pts new_objobs app]. rewrite flat_map_map. auto.
    + unfold oo, extend. cbn [oo_ids new_objobs app]. rewrite flat_map_map. auto.
  - unfold oo, extend in L |- *. cbn [oo_pts oo_ids new_objobs app] in *. intros E. clear -L E PP.
    induction pk as [|e pk IH]; cbn in *; [lia|]. apply app_eq_nil in E as (E1 & E2). rewrite app_length, map_length in L.
    assert (P1 := PP e (or_introl eq_refl)). rewrite E1 in P1. cbn in P1. apply IH; auto. lia.
Qed.

Lemma camobs_find t kc : linked_up t -> In kc (t_camobs t) -> mfind (fst kc) (t_camobs t) = Some (snd kc).
Proof. intros LU H. apply In_mfind; [apply LU|]. destruct kc; auto. Qed.
Lemma pass_ok t ol e : linked_up t -> paired t -> In e (pass t (dense ol)) ->
  fst e = (oo_cam (snd e), oo_frame (snd e)) /\ exists i o, nth_error ol i = Some o /\ oo_obj (snd e) = Z.of_nat i /\ gathers t o (snd e).
Proof.
  intros LU Hp H. unfold pass in H. apply in_flat_map in H as ([k o] & Ho & H). apply dense_In in Ho as (i & -> & Ho).
  apply in_flat_map in H as (kc & Hkc & H). assert (F := camobs_find t kc LU Hkc). destruct kc as [[c f] co]. cbn [fst snd] in F.
  destruct (entry_ok t (Z.of_nat i) o c f co e LU Hp F H) as (A & B & C & D & G). split; [congruence|]. eauto.
Qed.
(** one entry per object and camera observation *)
Definition okey oo : Z * (Z * Z) := (oo_obj oo, (oo_cam oo, oo_frame oo)).
Lemma pass_keys_NoDup t ol : linked_up t -> paired t -> NoDup (map okey (map snd (pass t (dense ol)))).
Proof.
  intros LU Hp. unfold pass.
  assert (C : forall i o cos, (forall kc, In kc cos -> In kc (t_camobs t)) -> NoDup (map fst cos) ->
     NoDup (map okey (map snd (flat_map (entry t i o) cos))) /\
     forall k, In k (map okey (map snd (flat_map (entry t i o) cos))) -> fst k = i /\ In (snd k) (map fst cos)).
  { induction cos as [|kc cos IH]; intros Hin N; cbn [flat_map map]; [split; [constructor|intros k []]|].
    inversion N; subst. destruct IH as (I1 & I2); auto. { intros; apply Hin; right; auto. }
    assert (F := camobs_find t kc LU (Hin kc (or_introl eq_refl))). destruct kc as [[c f] co]. cbn [fst snd] in *.
    assert (EK : forall k, In k (map okey (map snd (entry t i o ((c, f), co)))) -> k = (i, (c, f))).
    { intros k Hk. apply in_map_iff in Hk as (oo & <- & Hk). apply in_map_iff in Hk as (e & <- & He).
      destruct (entry_ok t i o c f co e LU Hp F He) as (A & B & C & D & _). unfold okey. congruence. }
    rewrite !map_app. split.
    - apply NoDup_app_intro'; auto.
      + unfold entry. destruct (Nat.ltb _ _); cbn; [constructor; [tauto|constructor]|constructor].
      + intros k K1 K2. apply EK in K1. apply I2 in K2. subst k. cbn in K2. tauto.
    - intros k Hk. apply in_app_or in Hk as [Hk|Hk]; [apply EK in Hk; subst; cbn; auto|destruct (I2 _ Hk) as (I3 & I4); split; [exact I3|right; exact I4]]. }
  assert (Nc : NoDup (map fst (t_camobs t))) by (apply (msorted_NoDup (t_camobs t)), LU).
  assert (G : forall objs : smap Z obj3d, NoDup (map fst objs) ->
     NoDup (map okey (map snd (flat_map (fun '(i, o) => flat_map (entry t i o) (t_camobs t)) objs))) /\
     forall k, In k (map okey (map snd (flat_map (fun '(i, o) => flat_map (entry t i o) (t_camobs t)) objs))) -> In (fst k) (map fst objs)).
  { induction objs as [|[i o] objs IH]; intros N; cbn [flat_map map fst]; [split; [constructor|intros k []]|].
    inversion N; subst. destruct IH as (I1 & I2); auto. destruct (C i o (t_camobs t)) as (C1 & C2); auto.
    rewrite !map_app. split.
    - apply NoDup_app_intro'; auto. intros k K1 K2. apply C2 in K1 as (K1 & _). apply I2 in K2. subst. auto.
    - intros k Hk. apply in_app_or in Hk as [Hk|Hk]; [apply C2 in Hk as (Hk & _); left; auto|apply I2 in Hk; right; auto]. }
  apply G. apply (msorted_NoDup (dense ol)). apply dense_sorted.
Qed.
(** every observation with a corner is in the entry of its camera, frame and object *)
Lemma pass_covers t ol n b i o : linked_up t -> paired t -> nth_error (mvals (t_obs t)) n = Some b -> o_pts b <> [] ->
  nth_error ol i = Some o -> In (o_board b) (mkeys (ob_boards o)) ->
  exists oo, In oo (map snd (pass t (dense ol))) /\ okey oo = (Z.of_nat i, (o_cam b, o_frame b)) /\ In n (oo_bobs oo).
Proof.
  intros LU Hp Hn Hpts Ho Hb.
  assert (K : In (o_cam b, o_frame b) (mkeys (t_camobs t))) by (apply (lu_keys _ LU); eauto).
  apply mfind_Some_key in K as (co & Hco).
  assert (In n (mvals (co_obs co))) as Hin by (apply (lu_list _ LU _ _ _ n Hco); eauto).
  assert (PK : In (n, b) (picked t o (mvals (co_obs co)))) by (apply picked_In; auto).
  set (oo := extend o (picked t o (mvals (co_obs co))) (new_objobs (Z.of_nat i))).
  assert (He : In ((o_cam b, o_frame b), oo) (entry t (Z.of_nat i) o ((o_cam b, o_frame b), co))).
  { unfold entry. cbn [fst snd]. fold oo. destruct (Nat.ltb_spec 0 (length (oo_ids oo))) as [L|L]; [left; auto|]. exfalso.
    assert (E : oo_ids oo = []) by (destruct (oo_ids oo); [auto|cbn in L; lia]).
    unfold oo, extend in E. cbn [oo_ids new_objobs app] in E.
    assert (B : length (o_ids b) = 0).
    { clear -E PK. induction (picked t o (mvals (co_obs co))) as [|e l IH]; [destruct PK|]. cbn in E. apply app_eq_nil in E as (E1 & E2).
      destruct PK as [->|PK]; [|auto]. cbn in E1. apply map_eq_nil in E1. rewrite E1. auto. }
    rewrite <- (Hp b (nth_error_In _ _ Hn)) in B. destruct (o_pts b); [congruence|discriminate]. }
  exists oo. split; [|split].
  - apply in_map_iff. exists ((o_cam b, o_frame b), oo). split; auto. unfold pass. apply in_flat_map. exists (Z.of_nat i, o).
    split; [apply dense_In; eauto|]. apply in_flat_map. exists ((o_cam b, o_frame b), co). split; auto. apply mfind_In. auto.
  - destruct (entry_ok t (Z.of_nat i) o _ _ co _ LU Hp Hco He) as (_ & B & C & D & _). cbn [snd] in *. unfold okey. congruence.
  - change (oo_bobs oo) with (map fst (picked t o (mvals (co_obs co)))). apply (in_map fst) in PK. auto.
Qed.

(** how many object observations use board observation n *)
Definition uses n oo : bool := existsb (Nat.eqb n) (oo_bobs oo).
Lemma uses_true n oo : uses n oo = true <-> In n (oo_bobs oo).
Proof. unfold uses. rewrite existsb_exists. split; [intros (x & H & E); apply Nat.eqb_eq in E; subst; auto|intros H; exists n; rewrite Nat.eqb_refl; auto]. Qed.
Lemma filter_one {A K} (key : A -> K) (p : A -> bool) l x : NoDup (map key l) -> In x l -> p x = true ->
  (forall y, In y l -> p y = true -> key y = key x) -> filter p l = [x].
Proof.
  induction l as [|a l IH]; intros N Hx Px H; [destruct Hx|]. cbn in N. inversion N; subst. cbn [filter].
  destruct Hx as [->|Hx].
  - rewrite Px. f_equal. apply DataProofs.filter_none. intros y Hy. destruct (p y) eqn:E; auto. exfalso. apply H2.
    rewrite <- (H y); auto. apply in_map; auto. right; auto.
  - destruct (p a) eqn:E.
    + exfalso. apply H2. rewrite (H a); auto; [|left; auto]. apply in_map; auto.
    + apply IH; auto. intros y Hy. apply H. right; auto.
Qed.
Lemma pass_count t bpts bss ol n b i o : objects_ok bpts bss ol -> linked_up t -> paired t ->
  nth_error (mvals (t_obs t)) n = Some b -> o_pts b <> [] -> nth_error ol i = Some o -> In (o_board b) (mkeys (ob_boards o)) ->
  exists oo, filter (uses n) (map snd (pass t (dense ol))) = [oo] /\ okey oo = (Z.of_nat i, (o_cam b, o_frame b)).
Proof.
  intros OK LU Hp Hn Hpts Ho Hb. destruct (pass_covers t ol n b i o LU Hp Hn Hpts Ho Hb) as (oo & Hin & K & Hu).
  exists oo. split; auto. apply (filter_one okey); auto.
  - apply pass_keys_NoDup; auto.
  - apply uses_true; auto.
  - intros oo' Hin' U. apply uses_true in U. rewrite K. apply in_map_iff in Hin' as (e & <- & He).
    destruct (pass_ok t ol e LU Hp He) as (_ & i' & o' & Ho' & Ei & G). apply (ga_bobs _ _ _ G) in U as (b' & Hn' & A & B & C).
    rewrite Hn in Hn'. injection Hn' as <-. unfold okey. rewrite Ei, <- A, <- B. f_equal. f_equal.
    destruct (nth_error_length_ex ol bss i o (eq_sym (ok_len _ _ _ OK)) Ho) as (bs & Hbs).
    destruct (nth_error_length_ex ol bss i' o' (eq_sym (ok_len _ _ _ OK)) Ho') as (bs' & Hbs').
    destruct (keys_In_bs _ _ _ _ (ok_wb _ _ _ OK i bs o Hbs Ho) Hb) as (P & HP).
    destruct (keys_In_bs _ _ _ _ (ok_wb _ _ _ OK i' bs' o' Hbs' Ho') C) as (P' & HP').
    eapply ok_board_unique; eauto.
Qed.
End Obs.
