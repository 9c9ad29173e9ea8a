(** Proofs about pair tables, covisibility graphs and chains of poses. *)
From Coq Require Import List ZArith QArith Lia Reals Lra Permutation Relations.
From Verif Require Import SMap GraphModel GraphSpec GraphInv GraphComp GraphDijkstra GraphPath
  DetectModel DetectProofs GeomModel GeomSpec GeomProofs GeomQuat GeomMedian ChainModel ChainSpec.
Import ListNotations.
Close Scope Q_scope.
Close Scope R_scope.
Open Scope nat_scope.

(** ** Pair tables *)
Definition keyb (a b : Z * Z) : bool := match kcmp a b with Eq => true | _ => false end.
Lemma keyb_true a b : keyb a b = true <-> a = b.
Proof. unfold keyb. rewrite <- kcmp_eq. destruct (kcmp a b); split; auto; discriminate. Qed.
Lemma keyb_refl a : keyb a a = true. Proof. apply keyb_true; auto. Qed.
Lemma keyb_false a b : a <> b -> keyb a b = false.
Proof. intros H. destruct (keyb a b) eqn:E; auto. apply keyb_true in E. contradiction. Qed.
Definition entries (k : Z * Z) (es : list ((Z * Z) * pose)) : list pose :=
  map snd (filter (fun e => keyb k (fst e)) es).
Lemma entries_app k l1 l2 : entries k (l1 ++ l2) = entries k l1 ++ entries k l2.
Proof. unfold entries. rewrite filter_app, map_app. auto. Qed.

Definition as_vector (l : list pose) : option (list pose) := match l with [] => None | _ => Some l end.
Lemma build_pairs_spec es : msorted (build_pairs es) /\
  forall k, mfind k (build_pairs es) = as_vector (entries k es).
Proof.
  unfold build_pairs. induction es as [|e es IH] using rev_ind; [split; [constructor|reflexivity]|].
  rewrite fold_left_app. cbn [fold_left]. destruct IH as (Hs & Hf).
  set (m := fold_left push_pair es []) in *. clearbody m. unfold push_pair.
  split; [apply mset_sorted; auto|]. intros k. rewrite entries_app. unfold entries at 2. cbn [filter fst].
  destruct (key_dec k (fst e)) as [->|N].
  - rewrite mfind_mset_eq, keyb_refl. rewrite Hf. cbn.
    destruct (entries (fst e) es); auto.
  - rewrite mfind_mset_neq by auto. rewrite (keyb_false k (fst e)) by auto. cbn. rewrite app_nil_r. apply Hf.
Qed.
Lemma as_vector_Some l r : as_vector l = Some r <-> l = r /\ r <> [].
Proof. destruct l; cbn; split; try discriminate; [intros [-> H]; congruence|intros [= <-]; split; [auto|discriminate]|intros [-> _]; auto]. Qed.

Lemma entries_flat {A} k (f : A -> list ((Z * Z) * pose)) l :
  entries k (flat_map f l) = flat_map (fun x => entries k (f x)) l.
Proof. induction l as [|x l IH]; cbn [flat_map]; auto. rewrite entries_app, IH. auto. Qed.

Definition rel_board (p1 p2 : pose) : pose := pmul (pinv p2) p1.
Definition rel_cam (p1 p2 : pose) : pose := pmul p2 (pinv p1).

Lemma flat_map_ext' {A B} (f g : A -> list B) l : (forall x, In x l -> f x = g x) -> flat_map f l = flat_map g l.
Proof. induction l as [|x l IH]; cbn; intros H; auto. rewrite H, IH; auto. Qed.
Lemma flat_map_filter {A B} (p : A -> bool) (g : A -> list B) l :
  flat_map (fun x => if p x then g x else []) l = flat_map g (filter p l).
Proof. induction l as [|x l IH]; cbn; auto. destruct (p x); cbn; rewrite IH; auto. Qed.
Lemma flat_map_map {A B C} (f : A -> B) (g : B -> list C) l : flat_map g (map f l) = flat_map (fun x => g (f x)) l.
Proof. induction l; cbn; congruence. Qed.
Lemma flat_map_single {A B} (f : A -> B) l : flat_map (fun x => [f x]) l = map f l.
Proof. induction l; cbn; congruence. Qed.
Lemma flat_map_nil {A B} (l : list A) : flat_map (fun _ => @nil B) l = [].
Proof. induction l; auto. Qed.

Lemma board_pairs_entries a b v : 
  entries (a, b) (board_pairs_of v) =
  if Z.eqb a b then [] else flat_map (fun p1 => map (rel_board p1) (poses_of b v)) (poses_of a v).
Proof.
  assert (Full : entries (a, b) (flat_map (fun '(b1, p1) => flat_map (fun '(b2, p2) =>
        if Z.eqb b1 b2 then [] else [((b1, b2), pmul (pinv p2) p1)]) v) v) =
     if Z.eqb a b then [] else flat_map (fun p1 => map (rel_board p1) (poses_of b v)) (poses_of a v)).
  { rewrite entries_flat.
    rewrite (flat_map_ext' _ (fun e => if Z.eqb (fst e) a then
       (if Z.eqb a b then [] else map (rel_board (snd e)) (poses_of b v)) else [])).
    - rewrite flat_map_filter. destruct (Z.eqb a b); [apply flat_map_nil|].
      unfold poses_of at 3. rewrite flat_map_map. auto.
    - intros [b1 p1] _. cbn [fst snd]. rewrite entries_flat.
      destruct (Z.eqb_spec b1 a) as [->|N].
      + destruct (Z.eqb_spec a b) as [->|N2].
        * rewrite (flat_map_ext' _ (fun _ => [])); [apply flat_map_nil|]. intros [b2 p2] _.
          destruct (Z.eqb_spec b b2) as [->|N3]; auto. unfold entries; cbn [filter fst].
          rewrite keyb_false; auto. congruence.
        * rewrite (flat_map_ext' _ (fun e => if Z.eqb (fst e) b then [rel_board p1 (snd e)] else [])).
          { rewrite flat_map_filter, flat_map_single. unfold poses_of. rewrite map_map. auto. }
          intros [b2 p2] _. cbn [fst snd]. destruct (Z.eqb_spec b2 b) as [->|N3].
          { destruct (Z.eqb_spec a b); [contradiction|]. unfold entries; cbn [filter fst]. rewrite keyb_refl. auto. }
          { destruct (Z.eqb_spec a b2); auto. unfold entries; cbn [filter fst]. rewrite keyb_false; auto. congruence. }
      + rewrite (flat_map_ext' _ (fun _ => [])); [apply flat_map_nil|]. intros [b2 p2] _.
        destruct (Z.eqb b1 b2); auto. unfold entries; cbn [filter fst]. rewrite keyb_false; auto. congruence. }
  unfold board_pairs_of. destruct (Nat.ltb_spec 1 (length v)) as [L|L]; auto.
  assert (E : (if Z.eqb a b then [] else flat_map (fun p1 => map (rel_board p1) (poses_of b v)) (poses_of a v)) = []).
  { destruct (Z.eqb_spec a b); auto. destruct v as [|[c p] [|]]; cbn in L; try lia; auto.
    unfold poses_of. cbn. destruct (Z.eqb_spec c a), (Z.eqb_spec c b); auto. congruence. }
  rewrite E. auto.
Qed.

Lemma boards_table views a b :
  mfind (a, b) (computeBoardsPairPose views) =
  if Z.eqb a b then None else as_vector (together rel_board views a b).
Proof.
  unfold computeBoardsPairPose. rewrite (proj2 (build_pairs_spec _)), entries_flat.
  rewrite (flat_map_ext' _ _ views (fun v _ => board_pairs_entries a b v)).
  destruct (Z.eqb a b); auto. rewrite flat_map_nil. auto.
Qed.

(** together: membership and symmetry *)
Lemma poses_of_In a v p : In p (poses_of a v) <-> In (a, p) v.
Proof.
  unfold poses_of. rewrite in_map_iff. split.
  - intros ([b q] & E & H). cbn in E. subst q. apply filter_In in H as (H & E). cbn in E. apply Z.eqb_eq in E. subst; auto.
  - intros H. exists (a, p). split; auto. apply filter_In. split; auto. cbn. apply Z.eqb_refl.
Qed.
Lemma together_In rel views a b p : In p (together rel views a b) <->
  exists v p1 p2, In v views /\ In (a, p1) v /\ In (b, p2) v /\ p = rel p1 p2.
Proof.
  unfold together. rewrite in_flat_map. split.
  - intros (v & Hv & H). apply in_flat_map in H as (p1 & H1 & H). apply in_map_iff in H as (p2 & <- & H2).
    apply poses_of_In in H1, H2. exists v, p1, p2. auto.
  - intros (v & p1 & p2 & Hv & H1 & H2 & ->). exists v. split; auto. apply in_flat_map. exists p1.
    split; [apply poses_of_In; auto|]. apply in_map. apply poses_of_In; auto.
Qed.
Lemma together_length rel views a b : 
  length (together rel views a b) =
  fold_right plus 0 (map (fun v => length (poses_of a v) * length (poses_of b v)) views).
Proof.
  unfold together. induction views as [|v views IH]; cbn; auto. rewrite app_length, IH. f_equal.
  induction (poses_of a v) as [|p l IHl]; cbn; auto. rewrite app_length, map_length, IHl. auto.
Qed.

(** swapping the loops permutes *)
Lemma flat_map_app_f {A B} (f g : A -> list B) l : 
  Permutation (flat_map (fun x => f x ++ g x) l) (flat_map f l ++ flat_map g l).
Proof.
  induction l as [|x l IH]; cbn; auto. rewrite <- !app_assoc. apply Permutation_app_head.
  eapply perm_trans; [apply Permutation_app_head; exact IH|].
  rewrite !app_assoc. apply Permutation_app_tail. apply Permutation_app_comm.
Qed.
Lemma swap_loops {A B C} (f : A -> B -> C) (l : list A) (m : list B) :
  Permutation (flat_map (fun x => map (f x) m) l) (flat_map (fun y => map (fun x => f x y) l) m).
Proof.
  induction l as [|x l IH]; cbn.
  - rewrite flat_map_nil. auto.
  - eapply perm_trans; [apply Permutation_app_head; exact IH|].
    apply Permutation_sym.
    eapply perm_trans; [apply (flat_map_app_f (fun y => [f x y]) (fun y => map (fun x => f x y) l))|].
    rewrite flat_map_single. auto.
Qed.
Lemma Permutation_flat {A B} (f g : A -> list B) l : (forall x, In x l -> Permutation (f x) (g x)) ->
  Permutation (flat_map f l) (flat_map g l).
Proof. induction l as [|x l IH]; cbn; intros H; auto. apply Permutation_app; auto. Qed.

Definition rigid_views (views : list (list (Z * pose))) : Prop :=
  forall v b p, In v views -> In (b, p) v -> rigid p.
Lemma rel_board_inv p1 p2 : rigid p1 -> rigid p2 -> pinv (rel_board p1 p2) = rel_board p2 p1.
Proof. intros H1 H2. unfold rel_board. rewrite pinv_pmul, pinv_pinv; auto. apply rigid_inv; auto. Qed.
Lemma rel_cam_inv p1 p2 : rigid p1 -> rigid p2 -> pinv (rel_cam p1 p2) = rel_cam p2 p1.
Proof. intros H1 H2. unfold rel_cam. rewrite pinv_pmul, pinv_pinv; auto. apply rigid_inv; auto. Qed.
Lemma together_inverse views a b : rigid_views views ->
  Permutation (map pinv (together rel_board views a b)) (together rel_board views b a).
Proof.
  intros H. unfold together. 
  rewrite flat_map_concat_map, concat_map, map_map, <- flat_map_concat_map.
  apply Permutation_flat. intros v Hv.
  eapply perm_trans; [|apply (swap_loops (fun p1 p2 => rel_board p2 p1))].
  rewrite flat_map_concat_map, concat_map, map_map, <- flat_map_concat_map.
  apply Permutation_flat. intros p1 H1. rewrite map_map.
  erewrite map_ext_in; [apply Permutation_refl|]. intros p2 H2. cbn.
  apply rel_board_inv; eapply H; eauto; apply poses_of_In; eauto.
Qed.
Lemma together_nonempty_sym rel views a b : together rel views a b <> [] -> together rel views b a <> [].
Proof.
  intros H. destruct (together rel views a b) as [|p l] eqn:E; [congruence|].
  assert (In p (together rel views a b)) as I by (rewrite E; left; auto). apply together_In in I.
  destruct I as (v & p1 & p2 & Hv & H1 & H2 & _). intros E2.
  assert (In (rel p2 p1) (together rel views b a)) as I by (apply together_In; eauto 8). rewrite E2 in I. destruct I.
Qed.

(** ** Covisibility graphs *)
Lemma counts_keys t : mkeys (counts t) = mkeys t.
Proof. unfold counts, mkeys. rewrite map_map. apply map_ext. intros [k ps]. auto. Qed.

Lemma covis_graph_grun g0 observed es : covis_graph g0 observed es = grun (covis_ops observed es).
Proof. reflexivity. Qed.

Lemma since_clear_acc_noclear l : forall acc, ~ In Clear l -> since_clear_acc acc l = acc ++ l.
Proof.
  induction l as [|o l IH]; cbn; intros acc H; [rewrite app_nil_r; auto|].
  destruct o; try (rewrite IH, <- app_assoc; auto). exfalso; auto.
Qed.
Lemma covis_since observed es : since_clear (covis_ops observed es) =
  map AddV observed ++ map (fun '(k, n) => AddE (fst k) (snd k) (1 # Pos.of_nat n)%Q) es.
Proof.
  unfold covis_ops, since_clear. cbn [since_clear_acc]. rewrite since_clear_acc_noclear; auto.
  intros H. apply in_app_or in H as [H|H]; apply in_map_iff in H as (x & E & _); [discriminate|].
  destruct x; discriminate.
Qed.
Lemma keep_first_ext l : forall seen seen', (forall x, In x seen <-> In x seen') -> keep_first seen l = keep_first seen' l.
Proof.
  induction l as [|x l IH]; cbn; intros s s' H; auto.
  assert (E : existsb (Z.eqb x) s = existsb (Z.eqb x) s').
  { destruct (existsb (Z.eqb x) s) eqn:E1, (existsb (Z.eqb x) s') eqn:E2; auto.
    - apply existsb_Zeqb in E1. apply H in E1. apply existsb_Zeqb in E1. congruence.
    - apply existsb_Zeqb in E2. apply H in E2. apply existsb_Zeqb in E2. congruence. }
  rewrite E. destruct (existsb (Z.eqb x) s'); auto. f_equal. apply IH. intros y. cbn. rewrite H. tauto.
Qed.
Lemma keep_first_nodup l : forall seen, NoDup l -> (forall x, In x l -> ~ In x seen) -> keep_first seen l = l.
Proof.
  induction l as [|x l IH]; cbn; intros s N H; auto. inversion N; subst.
  destruct (existsb (Z.eqb x) s) eqn:E; [apply existsb_Zeqb in E; exfalso; eapply H; eauto|].
  f_equal. apply IH; auto. intros y Hy [<-|Hs]; auto. eapply H; eauto.
Qed.
Lemma keep_first_app l1 : forall seen l2, keep_first seen (l1 ++ l2) = keep_first seen l1 ++ keep_first (rev l1 ++ seen) l2.
Proof.
  induction l1 as [|x l1 IH]; cbn; intros s l2; auto. destruct (existsb (Z.eqb x) s) eqn:E.
  - rewrite IH. f_equal. apply keep_first_ext. intros y. rewrite !in_app_iff. cbn [In].
    apply existsb_Zeqb in E. split; [tauto|]. intros [[H|[<-|[]]]|H]; auto.
  - cbn. rewrite IH, <- app_assoc. auto.
Qed.
Lemma keep_first_seen l : forall seen, (forall x, In x l -> In x seen) -> keep_first seen l = [].
Proof.
  induction l as [|x l IH]; cbn; intros s H; auto.
  destruct (existsb (Z.eqb x) s) eqn:E; auto.
  assert (existsb (Z.eqb x) s = true) by (apply existsb_Zeqb; auto). congruence.
Qed.

Lemma covisible_sym es a b : covisible es a b -> covisible es b a.
Proof. intros [H|H]; [right|left]; auto. Qed.
Lemma covisible_both es a b : both_orders es -> covisible es a b <-> In (a, b) (mkeys es).
Proof. intros B. split; [intros [H|H]; auto|left; auto]. Qed.
Section Covis.
Variables (observed : list Z) (es : smap (Z * Z) nat).
Hypothesis PP : proper_pairs observed es.
Notation ops := (covis_ops observed es).
Let g := grun ops.

Lemma covis_inserted : inserted ops = observed.
Proof.
  unfold inserted. rewrite covis_since, flat_map_app, !flat_map_map. rewrite keep_first_app.
  change (flat_map (fun x => op_indices (AddV x)) observed) with (flat_map (fun x : Z => [x]) observed).
  rewrite flat_map_single, map_id.
  rewrite keep_first_nodup; [|apply PP|auto]. rewrite keep_first_seen; [apply app_nil_r|].
  intros x H. apply in_flat_map in H as ([[a b] n] & Hin & H). rewrite app_nil_r. apply -> in_rev.
  assert (C : covisible es a b) by (apply (in_map fst) in Hin; left; auto).
  cbn in H. destruct H as [<-|[<-|[]]]; [eapply pp_observed; eauto|].
  eapply pp_observed; eauto. apply covisible_sym. eauto.
Qed.
Lemma covis_edge a b : edge ops a b <-> covisible es a b.
Proof.
  assert (I : forall a b w, In (AddE a b w) (since_clear ops) -> covisible es a b).
  { intros x y w H. rewrite covis_since in H. apply in_app_or in H as [H|H]; apply in_map_iff in H as (z & E & Hz); [discriminate|].
    destruct z as [[c d] n]. cbn in E. injection E as -> -> _. apply (in_map fst) in Hz. left. auto. }
  split.
  - intros (w & [H|H]); [eapply I; eauto|]. apply covisible_sym. eapply I; eauto.
  - intros [H|H]; apply in_map_iff in H as ([k n] & E & Hin); cbn in E; subst k; eexists; [left|right].
    + rewrite covis_since. apply in_or_app. right. apply in_map_iff. exists ((a, b), n). cbn. eauto.
    + rewrite covis_since. apply in_or_app. right. apply in_map_iff. exists ((b, a), n). cbn. eauto.
Qed.
Lemma covis_linked a b : linked ops a b <-> connected es a b.
Proof.
  unfold linked, connected. split; induction 1.
  - apply rt_step. apply covis_edge; auto.
  - apply rt_refl.
  - eapply rt_trans; eauto.
  - apply rt_step. apply covis_edge; auto.
  - apply rt_refl.
  - eapply rt_trans; eauto.
Qed.
Lemma covis_nofresh : no_fresh_self_edge ops.
Proof.
  intros pre v w post E. exfalso.
  assert (In (AddE v v w) (covis_ops observed es)) as H by (rewrite E; apply in_elt).
  unfold covis_ops in H. destruct H as [H|H]; [discriminate|].
  apply in_app_or in H as [H|H]; apply in_map_iff in H as (x & E2 & Hx); [discriminate|].
  destruct x as [[a b] n]. cbn in E2. injection E2 as -> -> _. apply (in_map fst) in Hx. cbn in Hx.
  eapply pp_irrefl; eauto. left. eauto.
Qed.
Lemma covis_nonneg : nonneg_weights ops.
Proof.
  intros a b w H. unfold covis_ops in H. destruct H as [H|H]; [discriminate|].
  apply in_app_or in H as [H|H]; apply in_map_iff in H as (x & E2 & Hx); [discriminate|].
  destruct x as [[c d] n]. injection E2 as _ _ <-. unfold Qle. cbn. lia.
Qed.
Lemma covis_names : vnames g = observed.
Proof. unfold g. rewrite (gi_names _ _ (Ginv_run _ covis_nofresh)). apply covis_inserted. Qed.

Lemma chain_consecutive R l : chain R l <-> consecutive R l.
Proof. induction l as [|a [|b l] IH]; cbn in *; tauto. Qed.

(** the components partition the observed indices into classes of connected *)
Lemma covis_components :
  let cs := connectedComponents g in
  NoDup (concat cs) /\ (forall v, In v (concat cs) <-> In v observed) /\
  (forall a b, In a observed -> In b observed -> ((exists c, In c cs /\ In a c /\ In b c) <-> connected es a b)) /\
  Forall (fun c => c <> [] /\ subseq c observed) cs /\ subseq (map (hd 0%Z) cs) observed.
Proof.
  destruct (components_main ops covis_nofresh) as (A & B & C & D & E). cbv zeta. fold g in A, B, C, D, E. rewrite covis_inserted in *.
  split; [auto|]. split; [auto|]. split; [|auto].
  intros a b Ha Hb. rewrite (C a b Ha Hb). apply covis_linked.
Qed.

Variable pick : dstate -> nat.
Hypothesis Hpick : good_heap pick.

Lemma covis_path a b : In a observed -> In b observed -> connected es a b ->
  exists l, route es a b l /\ forall step tr, path_pose step pick g tr a b = chain_transform step tr l.
Proof.
  intros Ha Hb Hc. rewrite <- covis_inserted in Ha, Hb. apply covis_linked in Hc.
  destruct (path_main ops pick covis_nofresh covis_nonneg Hpick a b Ha Hb Hc) as (l & q & P & (S1 & S2 & S3 & S4) & _).
  exists l. split.
  - split; [auto|]. split; [auto|]. split; [|auto]. apply chain_consecutive in S3.
    clear -S3 PP. induction l as [|x [|y l] IH]; cbn in *; auto. destruct S3 as (S3 & S4). split; [apply covis_edge; auto|exact (IH S4)].
  - intros step tr. unfold path_pose. fold g in P. rewrite P; auto. rewrite covis_inserted, covis_names. auto.
Qed.
End Covis.

(** ** Chains *)
Definition step_fold (step : pose -> pose -> pose) (tr : smap (Z * Z) pose) (acc : option pose) (l : list Z) : option pose :=
  fold_left (fun acc e => match acc, mfind e tr with Some t, Some c => Some (step t c) | _, _ => None end) (edges_of l) acc.

Lemma chain_inv_telescopes (W : Z -> pose) tr :
  (forall a, rigid (W a)) -> (forall a b c, mfind (a, b) tr = Some c -> c = pmul (pinv (W b)) (W a)) ->
  forall l a b, hd_error l = Some a -> hd_error (rev l) = Some b -> consecutive (fun x y => exists c, mfind (x, y) tr = Some c) l ->
  forall R, step_fold step_inv tr (Some (pmul R (W a))) l = Some (pmul R (W b)).
Proof.
  intros HW Htr. unfold step_fold. induction l as [|x l IH]; intros a b H1 H2 H3 R; [discriminate|].
  cbn in H1. injection H1 as ->. destruct l as [|y l].
  - cbn in H2. injection H2 as ->. reflexivity.
  - destruct H3 as ((c & E) & H3). cbn [edges_of fold_left]. rewrite E.
    apply Htr in E. subst c. unfold step_inv at 2.
    assert (pmul (pmul R (W a)) (pinv (pmul (pinv (W y)) (W a))) = pmul R (W y)) as ->.
    { rewrite pinv_pmul, pinv_pinv by auto using rigid_inv. rewrite <- !pmul_assoc.
      rewrite (pmul_assoc (W a)), pinv_r, pmul_id_l by auto. auto. }
    apply IH; auto. cbn in H2 |- *. destruct (rev l ++ [y]) eqn:E; [destruct (rev l); discriminate|]. auto.
Qed.
Lemma chain_transform_inv (W : Z -> pose) tr l a b :
  (forall a, rigid (W a)) -> (forall a b c, mfind (a, b) tr = Some c -> c = pmul (pinv (W b)) (W a)) ->
  hd_error l = Some a -> hd_error (rev l) = Some b -> consecutive (fun x y => exists c, mfind (x, y) tr = Some c) l ->
  chain_transform step_inv tr l = Some (pmul (pinv (W a)) (W b)).
Proof.
  intros HW Htr H1 H2 H3. unfold chain_transform.
  rewrite <- (pinv_l (W a)) by auto. apply (chain_inv_telescopes W tr HW Htr l a b); auto.
Qed.

Lemma chain_total step tr l : consecutive (fun x y => exists c, mfind (x, y) tr = Some c) l ->
  exists T, chain_transform step tr l = Some T.
Proof.
  unfold chain_transform. generalize pid as t. induction l as [|a [|b l] IH]; intros t H; cbn; eauto.
  destruct H as ((c & ->) & H). apply IH. auto.
Qed.
(** rigid transforms along a rigid table *)
Lemma chain_rigid step tr l T : (forall t c, rigid t -> rigid c -> rigid (step t c)) ->
  (forall k c, mfind k tr = Some c -> rigid c) -> chain_transform step tr l = Some T -> rigid T.
Proof.
  intros Hs Ht. unfold chain_transform. assert (H0 := rigid_id). revert H0. generalize pid as t.
  generalize (edges_of l) as es. induction es as [|e es IH]; intros t H0 H; cbn in H; [injection H as <-; auto|].
  destruct (mfind e tr) as [c|] eqn:E.
  - eapply IH; [|exact H]. apply Hs; eauto.
  - exfalso. clear -H. induction es; cbn in H; [discriminate|auto].
Qed.

(** ** Averages *)
Lemma initInterTransform_find svd lr uq t tr : msorted t -> initInterTransform svd lr uq t = Some tr ->
  mkeys tr = mkeys t /\ forall k, mfind k tr = match mfind k t with Some ps => average_pose svd lr uq ps | None => None end.
Proof.
  intros _ H. unfold initInterTransform in H. apply collect_Some in H. revert tr H.
  induction t as [|[k ps] t IH]; intros [|[k' p] tr] H; cbn in H; try discriminate; [split; auto|].
  injection H as H1 H2. destruct (average_pose svd lr uq ps) as [q|] eqn:E; [|discriminate].
  cbn in H1. injection H1 as -> ->. destruct (IH _ H2) as (K & F). split; [cbn; f_equal; exact K|].
  intros k2. cbn. rewrite ?E. destruct (pair_cmp k2 k'); auto.
Qed.
Lemma initInterTransform_exact svd lr uq t (f : Z * Z -> pose) : svd_ok svd -> log_ok lr ->
  (forall k ps, In (k, ps) t -> ps <> [] /\ rigid (f k) /\ forall p, In p ps -> p = f k) ->
  exists tr, initInterTransform svd lr uq t = Some tr /\ mkeys tr = mkeys t /\
    forall k, mfind k tr = match mfind k t with Some _ => Some (f k) | None => None end.
Proof.
  intros Hs Hl H. exists (map (fun '(k, _) => (k, f k)) t). split; [|split].
  - unfold initInterTransform. apply collect_Some. rewrite map_map. apply map_ext_in. intros [k ps] Hin.
    destruct (H _ _ Hin) as (H1 & H2 & H3). rewrite (average_pose_same svd lr uq ps (f k)); auto.
  - unfold mkeys. rewrite map_map. apply map_ext. intros [k ps]; auto.
  - intros k. clear. induction t as [|[k' ps] t IH]; cbn; auto. destruct (pair_cmp k k') eqn:E; auto.
    change (kcmp k k' = Eq) in E. apply kcmp_eq in E. subst; auto.
Qed.

Lemma min_of_spec c : c <> [] -> In (min_of c) c /\ forall x, In x c -> (min_of c <= x)%Z.
Proof.
  destruct c as [|a c]; [congruence|]. intros _. unfold min_of. cbn [hd tl].
  assert (G : forall l a, (fold_left Z.min l a = a \/ In (fold_left Z.min l a) l) /\
     (fold_left Z.min l a <= a)%Z /\ forall x, In x l -> (fold_left Z.min l a <= x)%Z).
  { induction l as [|y l IH]; intros b; cbn; [split; [auto|split; [lia|tauto]]|].
    destruct (IH (Z.min b y)) as (I1 & I2 & I3). split; [|split].
    - destruct I1 as [I1|I1]; auto. rewrite I1. destruct (Z.min_spec b y) as [(_ & ->)|(_ & ->)]; auto.
    - lia.
    - intros x [<-|Hx]; [lia|auto]. }
  destruct (G c a) as (I1 & I2 & I3). split; [destruct I1 as [->|]; cbn; auto|].
  intros x [<-|Hx]; auto.
Qed.
