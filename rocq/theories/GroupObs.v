(** Observations of camera groups. *)
From Coq Require Import List ZArith QArith Lia Reals Permutation Sorted Relations.
From Verif Require Import SMap GraphModel DataModel DataSpec DetectModel DetectProofs
  GeomModel ChainModel ObjectsModel ObjectsSpec ObjectsProofs ObjectsSave ObjectsBuild ObjectsMerge ObjectsObs
  GroupModel GroupSpec GroupProofs StageCams.
Import ListNotations.
Close Scope Q_scope.
Close Scope R_scope.
Open Scope nat_scope.

Section S.
Context {pt : Type}.
Implicit Types (all : list (objobs pt)) (ot : otables pt).

Definition sel all (cams : list Z) (n : nat) : bool :=
  match nth_error all n with Some oo => existsb (Z.eqb (oo_cam oo)) cams | None => false end.
Definition objs_of all (ns : list nat) : list Z :=
  flat_map (fun n => match nth_error all n with Some oo => [oo_obj oo] | None => [] end) ns.
Lemma collect_obs_ok all cams ns : forall go, collect_obs all cams ns go =
  mkGO (go_group go) (go_ids go ++ objs_of all (filter (sel all cams) ns)) (go_nums go ++ filter (sel all cams) ns).
Proof.
  induction ns as [|n ns IH]; intros go; cbn [collect_obs fold_left filter].
  - cbn. rewrite !app_nil_r. destruct go; auto.
  - unfold collect_obs in IH. rewrite IH. assert (SN : sel all cams n = match nth_error all n with Some oo => existsb (Z.eqb (oo_cam oo)) cams | None => false end) by auto.
    rewrite SN. clear SN. destruct (nth_error all n) as [oo|] eqn:E; auto.
    destruct (existsb (Z.eqb (oo_cam oo)) cams); auto.
    assert (A : forall l, objs_of all (n :: l) = oo_obj oo :: objs_of all l) by (intros l; unfold objs_of; cbn [flat_map]; rewrite E; auto).
    rewrite A. cbn [insertObjectObservation go_group go_ids go_nums]. rewrite <- !app_assoc. auto.
Qed.
Lemma objs_of_map all ns : (forall n, In n ns -> n < length all) ->
  map Some (objs_of all ns) = map (fun n => option_map oo_obj (nth_error all n)) ns.
Proof.
  induction ns as [|n ns IH]; intros H; auto. unfold objs_of. cbn [flat_map map]. fold (objs_of all ns). rewrite map_app, IH by (intros; apply H; right; auto).
  destruct (nth_error all n) eqn:E; auto. apply nth_error_None in E. specialize (H n (or_introl eq_refl)). lia.
Qed.
Lemma filter_filter {A} (p q : A -> bool) l : filter p (filter q l) = filter (fun x => q x && p x) l.
Proof. induction l as [|a l IH]; cbn; auto. destruct (q a); cbn; auto. destruct (p a); cbn; congruence. Qed.
Lemma sel_where all cams (p : objobs pt -> bool) : filter (sel all cams) (where_ p all) =
  where_ (fun oo => p oo && existsb (Z.eqb (oo_cam oo)) cams) all.
Proof.
  unfold where_. set (L := combine (seq 0 (length all)) all).
  assert (H : forall e, In e L -> nth_error all (fst e) = Some (snd e)).
  { intros [n x] He. unfold L in He. apply (combine_seq_In all 0) in He. destruct He as (_ & He). rewrite Nat.sub_0_r in He. auto. }
  clearbody L. induction L as [|e L IH]; auto. cbn [filter map].
  specialize (IH (fun x Hx => H x (or_intror Hx))). assert (E := H e (or_introl eq_refl)).
  destruct (p (snd e)); cbn [map filter andb]; auto. unfold sel at 1. rewrite E. destruct (existsb _ cams); cbn [map]; congruence.
Qed.

(** the observation of group G in frame f *)
Definition gob all (G : cgroup) (f : Z) : gobs_t :=
  mkGO (cg_id G) (objs_of all (where_ (seen_by G f) all)) (where_ (seen_by G f) all).
Definition nonempty all (e : cgroup * Z) : bool := Nat.ltb 0 (length (where_ (seen_by (fst e) (snd e)) all)).
Definition ekey (e : cgroup * Z) : Z * Z := (cg_id (fst e), snd e).

Variable ot : otables pt.
Hypothesis OT : otables_ok ot.
Notation all := (ot_all ot).
Lemma step_eq G t f : initFrameGroupObs ot (cg_id G) G t f =
  let nums := mset (cg_id G) (ptable (cg_id G) (gt_nums t) ++ where_ (seen_by G f) all) (gt_nums t) in
  if nonempty all (G, f) then
    mkGT (mset (cg_id G, f) (gob all G f) (gt_obs t)) (mset f (ptable f (gt_frames t) ++ [(cg_id G, f)]) (gt_frames t)) nums
         (mset (cg_id G) (ptable (cg_id G) (gt_gframes t) ++ [f]) (gt_gframes t))
  else mkGT (gt_obs t) (gt_frames t) nums (gt_gframes t).
Proof.
  unfold initFrameGroupObs. rewrite collect_obs_ok, (ot_ok_frames _ OT), sel_where. cbn [go_group go_ids go_nums app]. reflexivity.
Qed.

Definition run (steps : list (cgroup * Z)) (t : gtables) : gtables :=
  fold_left (fun t e => initFrameGroupObs ot (cg_id (fst e)) (fst e) t (snd e)) steps t.
Definition steps_of (groups : list cgroup) (frames : list Z) : list (cgroup * Z) :=
  flat_map (fun G => map (pair G) frames) groups.
Lemma init_all_run frames gl t : initAllCameraGroupObs ot frames (dense gl) t = run (steps_of gl frames) t.
Proof.
  unfold initAllCameraGroupObs, run, steps_of, dense. generalize 0 as s. revert t.
  induction gl as [|G gl IH]; intros t s; auto. cbn [dense_from fold_left flat_map]. rewrite fold_left_app, IH. f_equal.
  unfold initCameraGroupObs. clear. revert t. induction frames as [|f fr IH]; intros t; auto. cbn [fold_left map fst snd]. apply IH.
Qed.

Lemma ptable_mset {K V} `{KeyOrd K} (k k' : K) (l : list V) m : ptable k' (mset k l m) = if key_dec k' k then l else ptable k' m.
Proof.
  unfold ptable at 1. destruct (key_dec k' k) as [->|N]; [rewrite mfind_mset_eq; auto|]. rewrite mfind_mset_neq; auto.
Qed.

Record run_inv (D : list (cgroup * Z)) (t0 t : gtables) : Prop := {
  ri_sorted : msorted (gt_obs t);
  ri_obs : forall k go, mfind k (gt_obs t) = Some go <->
    exists e, In e D /\ nonempty all e = true /\ k = ekey e /\ go = gob all (fst e) (snd e);
  ri_frames : forall f, ptable f (gt_frames t) = map ekey (filter (fun e => Z.eqb (snd e) f && nonempty all e) D);
  ri_nums : forall i, ptable i (gt_nums t) = ptable i (gt_nums t0) ++
    flat_map (fun e => if Z.eqb (cg_id (fst e)) i then where_ (seen_by (fst e) (snd e)) all else []) D;
  ri_gframes : forall i, ptable i (gt_gframes t) = ptable i (gt_gframes t0) ++
    map snd (filter (fun e => Z.eqb (cg_id (fst e)) i && nonempty all e) D)
}.
Lemma run_ok nums gframes steps : NoDup (map ekey steps) ->
  run_inv steps (mkGT [] [] nums gframes) (run steps (mkGT [] [] nums gframes)).
Proof.
  intros N. set (t0 := mkGT [] [] nums gframes).
  assert (G : forall D S t, NoDup (map ekey (D ++ S)) -> run_inv D t0 t -> run_inv (D ++ S) t0 (run S t)).
  { intros D S. revert D. induction S as [|[G f] S IH]; intros D t ND I.
    - rewrite app_nil_r. auto.
    - change (run ((G, f) :: S) t) with (run S (initFrameGroupObs ot (cg_id G) G t f)).
      replace (D ++ (G, f) :: S) with ((D ++ [(G, f)]) ++ S) in * by (rewrite <- app_assoc; auto). apply IH; auto.
      assert (Fresh : forall e, In e D -> ekey e <> (cg_id G, f)).
      { rewrite !map_app in ND. apply NoDup_app_inv in ND as (ND & _). apply NoDup_app_inv in ND as (_ & _ & ND).
        intros e He E. apply (ND (cg_id G, f)); [rewrite <- E; apply in_map; auto|left; auto]. }
      rewrite step_eq. cbv zeta.
      assert (NUM : forall i, ptable i (mset (cg_id G) (ptable (cg_id G) (gt_nums t) ++ where_ (seen_by G f) all) (gt_nums t)) =
         ptable i (gt_nums t0) ++ flat_map (fun e => if Z.eqb (cg_id (fst e)) i then where_ (seen_by (fst e) (snd e)) all else []) (D ++ [(G, f)])).
      { intros i. rewrite ptable_mset, flat_map_app. cbn [flat_map fst snd]. rewrite app_nil_r, app_assoc, <- !(ri_nums _ _ _ I).
        destruct (key_dec i (cg_id G)) as [->|Ni]; [rewrite Z.eqb_refl; auto|].
        destruct (Z.eqb_spec (cg_id G) i); [congruence|]. rewrite app_nil_r. auto. }
      destruct (nonempty all (G, f)) eqn:NE; constructor; cbn [gt_obs gt_frames gt_nums gt_gframes]; auto.
      + apply mset_sorted. apply I.
      + intros k go. destruct (key_dec k (cg_id G, f)) as [->|Nk].
        * rewrite mfind_mset_eq. split.
          -- intros [= <-]. exists (G, f). split; [apply in_or_app; right; left; auto|]. auto.
          -- intros (e & He & _ & Ek & ->). apply in_app_or in He as [He|[<-|[]]]; auto. exfalso. eapply Fresh; eauto.
        * rewrite mfind_mset_neq by auto. rewrite (ri_obs _ _ _ I). split.
          -- intros (e & He & R). exists e. split; auto. apply in_or_app; auto.
          -- intros (e & He & R1 & R2 & R3). apply in_app_or in He as [He|[<-|[]]]; eauto. exfalso. apply Nk. auto.
      + intros f'. rewrite ptable_mset, filter_app, map_app, <- (ri_frames _ _ _ I). cbn [filter snd]. rewrite NE.
        destruct (key_dec f' f) as [->|Nf]; [rewrite Z.eqb_refl, (ri_frames _ _ _ I); auto|].
        destruct (Z.eqb_spec f f'); [congruence|]. cbn. rewrite app_nil_r. auto.
      + intros i. rewrite ptable_mset, filter_app, map_app, app_assoc, <- !(ri_gframes _ _ _ I). cbn [filter fst]. rewrite NE.
        destruct (key_dec i (cg_id G)) as [->|Ni]; [rewrite Z.eqb_refl; auto|].
        destruct (Z.eqb_spec (cg_id G) i); [congruence|]. cbn. rewrite app_nil_r. auto.
      + apply I.
      + intros k go. rewrite (ri_obs _ _ _ I). split.
        * intros (e & He & R). exists e. split; auto. apply in_or_app; auto.
        * intros (e & He & R1 & R2 & R3). apply in_app_or in He as [He|[<-|[]]]; eauto. congruence.
      + intros f'. rewrite filter_app, map_app, <- (ri_frames _ _ _ I). cbn [filter snd]. rewrite NE, andb_false_r. cbn. rewrite app_nil_r. auto.
      + intros i. rewrite filter_app, map_app, app_assoc, <- (ri_gframes _ _ _ I). cbn [filter fst]. rewrite NE, andb_false_r. cbn. rewrite app_nil_r. auto. }
  apply (G [] steps t0); auto. constructor; cbn.
  - constructor.
  - intros k go. split; [discriminate|intros (e & [] & _)].
  - auto.
  - intros i. rewrite app_nil_r. auto.
  - intros i. rewrite app_nil_r. auto.
Qed.

Lemma steps_NoDup css gl frames : groups_ok css gl -> NoDup frames -> NoDup (map ekey (steps_of gl frames)).
Proof.
  intros GK NF. assert (ND : NoDup (map cg_id gl)).
  { assert (E : forall s l, (forall i G, nth_error l i = Some G -> cg_id G = Z.of_nat (s + i)) -> map cg_id l = map Z.of_nat (seq s (length l))).
    { intros s l. revert s. induction l as [|G l IH]; intros s H; auto. cbn. f_equal; [rewrite (H 0 G eq_refl); f_equal; lia|].
      apply IH. intros i G' Hi. rewrite (H (S i) G' Hi). f_equal. lia. }
    rewrite (E 0 gl (gk_ids _ _ GK)). apply FinFun.Injective_map_NoDup; [intros x y; lia|apply seq_NoDup]. }
  clear GK. unfold steps_of. induction gl as [|G gl IH]; cbn [flat_map map]; [constructor|]. cbn in ND. inversion ND; subst.
  rewrite map_app. apply NoDup_app_intro'; auto.
  - rewrite map_map. unfold ekey. cbn. apply FinFun.Injective_map_NoDup; auto. intros x y [= ->]. auto.
  - intros k H1' H2'. rewrite map_map in H1'. apply in_map_iff in H1' as (f & <- & _). apply in_map_iff in H2' as ([G' f'] & E & H2').
    unfold ekey in E. cbn in E. injection E as E1 E2. apply in_flat_map in H2' as (G2 & HG & H2'). apply in_map_iff in H2' as (x & [= -> ->] & _).
    apply H1. rewrite <- E1. apply in_map. auto.
Qed.
Lemma steps_In gl frames e : In e (steps_of gl frames) <-> In (fst e) gl /\ In (snd e) frames.
Proof.
  unfold steps_of. rewrite in_flat_map. split.
  - intros (G & HG & H). apply in_map_iff in H as (f & <- & Hf). auto.
  - intros (H1 & H2). exists (fst e). split; auto. apply in_map_iff. exists (snd e). destruct e; auto.
Qed.
Lemma nonempty_iff G f : nonempty all (G, f) = true <-> exists oo, In oo all /\ seen_by G f oo = true.
Proof.
  unfold nonempty. cbn [fst snd]. rewrite StageProofs.length_pos. split.
  - intros (n & Hn). apply where_In in Hn as (x & Hx & P). exists x. split; [eapply nth_error_In; eauto|auto].
  - intros (oo & H & P). apply In_nth_error in H as (n & Hn). exists n. apply where_In. eauto.
Qed.

Lemma group_obs_ok css gl frames nums gframes : groups_ok css gl -> NoDup frames ->
  let t := initAllCameraGroupObs ot frames (dense gl) (mkGT [] [] nums gframes) in
  gtables_ok all frames gl t /\ run_inv (steps_of gl frames) (mkGT [] [] nums gframes) t.
Proof.
  intros GK NF. rewrite init_all_run. assert (ND := steps_NoDup css gl frames GK NF).
  assert (I := run_ok nums gframes (steps_of gl frames) ND). cbv zeta. split; [|exact I].
  set (t := run (steps_of gl frames) (mkGT [] [] nums gframes)) in *.
  assert (KEY : forall i G f, nth_error gl i = Some G -> ekey (G, f) = (Z.of_nat i, f)).
  { intros i G f H. unfold ekey. cbn. rewrite (gk_ids _ _ GK i G H). auto. }
  constructor.
  - apply I.
  - intros gi f. rewrite mfind_Some_key. split.
    + intros (go & H). apply (ri_obs _ _ _ I) in H as ([G f'] & He & NE & Ek & _). apply steps_In in He as (HG & Hf). cbn [fst snd] in *.
      apply In_nth_error in HG as (i & Hi). rewrite (KEY i G f' Hi) in Ek. injection Ek as -> ->.
      exists i, G. split; [auto|]. split; [auto|]. split; [auto|]. apply nonempty_iff. auto.
    + intros (i & G & -> & Hi & Hf & NE). exists (gob all G f). apply (ri_obs _ _ _ I). exists (G, f).
      split; [apply steps_In; split; auto; eapply nth_error_In; eauto|]. split; [apply nonempty_iff; auto|]. split; auto. symmetry. apply KEY; auto.
  - intros i f G go Hi H. apply (ri_obs _ _ _ I) in H as ([G' f'] & He & NE & Ek & ->). apply steps_In in He as (HG & Hf). cbn [fst snd] in *.
    apply In_nth_error in HG as (i' & Hi'). rewrite (KEY i' G' f' Hi') in Ek. injection Ek as Ei ->. apply Nat2Z.inj in Ei. subst i'.
    assert (G' = G) by congruence. subst G'. unfold gob. cbn [go_group go_ids go_nums]. split; [apply (gk_ids _ _ GK); auto|]. split; auto.
    apply objs_of_map. intros n Hn. apply where_In in Hn as (x & Hx & _). apply nth_error_Some. congruence.
  - intros f k. rewrite (ri_frames _ _ _ I), in_map_iff. split.
    + intros (e & <- & He). apply filter_In in He as (He & P). apply andb_prop in P as (P1 & P2). apply Z.eqb_eq in P1.
      split; [auto|]. apply mfind_Some_key. exists (gob all (fst e) (snd e)). apply (ri_obs _ _ _ I). eauto.
    + intros (<- & H). apply mfind_Some_key in H as (go & H). apply (ri_obs _ _ _ I) in H as (e & He & NE & -> & _).
      exists e. split; auto. apply filter_In. split; auto. rewrite NE. unfold ekey. cbn [snd]. rewrite Z.eqb_refl. auto.
  - intros f. rewrite (ri_frames _ _ _ I). apply NoDup_map_filter. auto.
  - intros gi f H. apply mfind_Some_key in H as (go & H). apply (ri_obs _ _ _ I) in H as (e & He & NE & Ek & _). unfold ekey in Ek. injection Ek as -> ->.
    rewrite (ri_gframes _ _ _ I). apply in_or_app. right. apply in_map. apply filter_In. split; auto. rewrite NE, Z.eqb_refl. auto.
Qed.
End S.
