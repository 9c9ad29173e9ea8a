(** Poses of all objects in all group observations (McCalib.cpp 1635-1641). *)
From Coq Require Import List ZArith Lia Reals Lra FunctionalExtensionality.
From Verif Require Import SMap DataModel GeomModel GeomSpec GeomProofs ChainModel ChainSpec ObjectsModel ObjectsSpec ObjectsProofs ObjectsBuild ObjectsObs GroupModel GroupSpec GroupProofs
  GroupObs GroupPose StageSpec StageProofs StageCams StageMerge ObjectsMerge PipelineProofs.
Import ListNotations.
Close Scope R_scope.
Open Scope nat_scope.

Section All.
Context {pt : Type}.
Variables (svd : (nat -> nat -> R) -> quat) (lr : mat3 -> vec3) (uq : bool).

(** values of group_pose_ (rotation vector, translation) of all object observations *)
Definition gposes := nat -> vec3 * vec3.
Definition gput (n : nat) (v : vec3 * vec3) (pg : gposes) : gposes := fun m => if Nat.eqb m n then v else pg m.

(** CameraGroup.cpp 164-176 for the object observation number n: setPoseInGroupMat.  No
    camera pose: impossible, every camera of the group has one (getCameraPoseMat's
    operator[] would give zeros). *)
Definition put_pose (all : list (objobs pt)) (op : nat -> pose) (G : cgroup) (pg : gposes) (n : nat) : gposes :=
  match nth_error all n with
  | Some oo => match pose_in_group G (oo_cam oo) (op n) with
               | Some M => gput n (lr (fst M), snd M) pg
               | None => pg
               end
  | None => pg (* expired pointer *)
  end.
(** CameraGroup.cpp 153-183: the frames of the group, the group observations of the frame
    that belong to the group *)
Definition computeObjPoseInCameraGroup (all : list (objobs pt)) (gt : gtables) (op : nat -> pose) (pg : gposes) (G : cgroup) : gposes :=
  fold_left (fun pg f =>
    fold_left (fun pg k =>
      match mfind k (gt_obs gt) with
      | Some go => if Z.eqb (cg_id G) (go_group go) then fold_left (put_pose all op G) (go_nums go) pg else pg
      | None => pg
      end) (ptable f (gt_frames gt)) pg) (ptable (cg_id G) (gt_gframes gt)) pg.

(** CameraGroupObs.cpp 42-108 for one group observation, its views read from the current
    values: object_pose_ and the values afterwards *)
Definition obs_view (all : list (objobs pt)) (pg : gposes) (ns : list nat) (j : nat) : Z * (vec3 * vec3) :=
  match nth_error ns j with
  | Some n => (match nth_error all n with Some oo => oo_cam oo | None => 0%Z end, pg n)
  | None => (0%Z, (vzero, vzero)) (* not read: positions are below the length *)
  end.
(** setPoseInGroupVec of each observation; a NaN pose leaves an unknown value, here the
    old one *)
Definition put_back (ns : list nat) (after : nat -> option (vec3 * vec3)) (pg : gposes) : gposes :=
  fold_left (fun pg jn => match after (fst jn) with Some v => gput (snd jn) v pg | None => pg end) (combine (seq 0 (length ns)) ns) pg.
Definition pose_one (all : list (objobs pt)) (groups : smap Z cgroup) (pg : gposes) (go : gobs_t)
  : smap Z (option (vec3 * vec3)) * gposes :=
  let ref := match mfind (go_group go) groups with Some G => cg_ref G | None => 0%Z end in
  let r := computeObjectsPose svd lr uq ref (go_ids go) (obs_view all pg (go_nums go)) in
  (fst r, put_back (go_nums go) (snd r) pg).

(** McCalib.cpp 1635-1641: object_pose_ of every group observation, and group_pose_ of the
    object observations, whose values before ([pg]) are uninitialised memory the first
    time *)
Definition computeAllObjPoseInCameraGroup (all : list (objobs pt)) (groups : smap Z cgroup) (gt : gtables) (op : nat -> pose) (pg : gposes)
  : smap (Z * Z) (smap Z (option (vec3 * vec3))) * gposes :=
  let pg1 := fold_left (computeObjPoseInCameraGroup all gt op) (mvals groups) pg in
  fold_left (fun st '(k, go) => let r := pose_one all groups (snd st) go in (mset k (fst r) (fst st), snd r)) (gt_obs gt) ([], pg1).
End All.

(** ** Facts *)
Section Facts.
Context {pt : Type}.
Variables (svd : (nat -> nat -> R) -> quat) (lr : mat3 -> vec3) (uq : bool).
Variables (all : list (objobs pt)) (frames : list Z) (css : list (list (Z * pose))) (gl : list cgroup) (gt : gtables).
Hypothesis GK : groups_ok css gl.
Hypothesis GT : gtables_ok all frames gl gt.
Variable op : nat -> pose.

(** the pose in group of observation n, if a group sees it *)
Definition in_group (G : cgroup) (n : nat) : option (vec3 * vec3) :=
  match nth_error all n with
  | Some oo => option_map (fun M => (lr (fst M), snd M)) (pose_in_group G (oo_cam oo) (op n))
  | None => None
  end.
Lemma put_pose_at G pg n m : put_pose lr all op G pg n m =
  if Nat.eqb m n then match in_group G n with Some v => v | None => pg m end else pg m.
Proof.
  unfold put_pose, in_group. destruct (nth_error all n) as [oo|]; [|destruct (Nat.eqb m n); auto].
  destruct (pose_in_group G (oo_cam oo) (op n)); cbn; [|destruct (Nat.eqb m n); auto]. unfold gput. destruct (Nat.eqb m n); auto.
Qed.
Lemma put_poses_at G ns : forall pg m, fold_left (put_pose lr all op G) ns pg m =
  if in_dec Nat.eq_dec m ns then match in_group G m with Some v => v | None => pg m end else pg m.
Proof.
  induction ns as [|n ns IH]; intros pg m; cbn [fold_left]; [destruct (in_dec Nat.eq_dec m []) as [[]|]; auto|].
  rewrite IH, put_pose_at. destruct (in_dec Nat.eq_dec m ns) as [H|H].
  - destruct (in_dec Nat.eq_dec m (n :: ns)) as [H'|H']; [|exfalso; apply H'; right; auto].
    destruct (in_group G m) eqn:E; auto. destruct (Nat.eqb_spec m n) as [->|N]; auto. rewrite E. auto.
  - destruct (Nat.eqb_spec m n) as [->|N].
    + destruct (in_dec Nat.eq_dec n (n :: ns)) as [H'|H']; [|exfalso; apply H'; left; auto]. auto.
    + destruct (in_dec Nat.eq_dec m (n :: ns)) as [[->|H']|H']; auto; contradiction.
Qed.
Lemma key_group k go : mfind k (gt_obs gt) = Some go -> exists i G, k = (Z.of_nat i, snd k) /\ nth_error gl i = Some G /\ cg_id G = Z.of_nat i /\ go_group go = Z.of_nat i /\
  go_nums go = where_ (seen_by G (snd k)) all /\ map Some (go_ids go) = map (fun n => option_map oo_obj (nth_error all n)) (go_nums go).
Proof.
  intros H. assert (Hk := H). apply mfind_In, in_map with (f := fst) in Hk. cbn in Hk. destruct k as [gi f]. apply (gto_keys _ _ _ _ GT) in Hk as (i & G & -> & HG & _).
  destruct (gto_obs _ _ _ _ GT i f G go HG H) as (A & B & C). exists i, G. cbn [snd]. split; auto. split; auto. split; [apply (gk_ids _ _ GK); auto|auto].
Qed.
Lemma nums_group i G f k go m : nth_error gl i = Some G -> mfind k (gt_obs gt) = Some go -> In m (go_nums go) ->
  In m (where_ (seen_by G f) all) -> k = (Z.of_nat i, f) /\ go_group go = Z.of_nat i.
Proof.
  intros HG Hk Hm Hm'. destruct (key_group k go Hk) as (j & G' & Ek & HG' & _ & Eg & En & _). rewrite En in Hm.
  apply where_In in Hm as (x & Hx & S1). apply where_In in Hm' as (y & Hy & S2). assert (y = x) by congruence. subst y.
  apply seen_by_iff in S1 as (F1 & C1). apply seen_by_iff in S2 as (F2 & C2).
  destruct (nth_error_length_ex gl css i G) as (cs & Hcs); [symmetry; apply GroupMerge.gk_len with (1 := GK)|auto|].
  destruct (nth_error_length_ex gl css j G') as (cs' & Hcs'); [symmetry; apply GroupMerge.gk_len with (1 := GK)|auto|].
  rewrite (gr_cams _ _ (GroupMerge.gk_wb css gl GK i cs G Hcs HG)) in C2. rewrite (gr_cams _ _ (GroupMerge.gk_wb css gl GK j cs' G' Hcs' HG')) in C1.
  apply in_map_iff in C1 as ((a & P) & Ea & C1). apply in_map_iff in C2 as ((a' & P') & Ea' & C2). cbn in Ea, Ea'. subst a a'.
  assert (j = i) by (eapply GroupMerge.gk_unique; eauto). subst j. split; [rewrite Ek; congruence|auto].
Qed.

(** setting one value by a loop *)
Lemma fold_sets {A} (F : gposes -> A -> gposes) (n : nat) v l : (forall pg a, In a l -> pg n = v -> F pg a n = v) ->
  (exists a, In a l /\ forall pg, F pg a n = v) -> forall pg, fold_left F l pg n = v.
Proof.
  assert (K : forall l, (forall pg a, In a l -> pg n = v -> F pg a n = v) -> forall pg, pg n = v -> fold_left F l pg n = v).
  { induction l0 as [|a l0 IH]; intros Kp pg E; cbn; auto. apply IH; [intros; apply Kp; [right|]; auto|]. apply Kp; [left|]; auto. }
  intros Kp (a & Ha & Sa). apply in_split in Ha as (l1 & l2 & ->). intros pg. rewrite fold_left_app. cbn [fold_left]. apply K; auto.
  intros pg' a' Ha'. apply Kp. apply in_or_app. right. right. auto.
Qed.

Lemma first_phase i G f go n v pg : nth_error gl i = Some G -> mfind (Z.of_nat i, f) (gt_obs gt) = Some go -> In n (go_nums go) -> in_group G n = Some v ->
  fold_left (computeObjPoseInCameraGroup lr all gt op) gl pg n = v.
Proof.
  intros HG Hk Hn Hv. destruct (key_group _ _ Hk) as (i0 & G0 & Ek & HG0 & Id & Eg & En & _). cbn [snd] in *. injection Ek as Ei. apply Nat2Z.inj in Ei. subst i0.
  assert (G0 = G) by congruence. subst G0. assert (Hn' := Hn). rewrite En in Hn'.
  assert (Set1 : forall go' pg0 k', mfind k' (gt_obs gt) = Some go' -> go_group go' = cg_id G -> pg0 n = v -> fold_left (put_pose lr all op G) (go_nums go') pg0 n = v).
  { intros go' pg0 k' _ _ E. rewrite put_poses_at, Hv. destruct (in_dec Nat.eq_dec n (go_nums go')); auto. }
  apply fold_sets.
  - intros pg0 G' HG' E. unfold computeObjPoseInCameraGroup. revert pg0 E. generalize (ptable (cg_id G') (gt_gframes gt)) as fs. induction fs as [|f' fs IH]; intros pg0 E; cbn [fold_left]; auto.
    apply IH. clear IH fs. revert pg0 E. generalize (ptable f' (gt_frames gt)) as ks. induction ks as [|k' ks IH]; intros pg0 E; cbn [fold_left]; auto. apply IH. clear IH ks.
    destruct (mfind k' (gt_obs gt)) as [go'|] eqn:Hk'; auto. destruct (Z.eqb_spec (cg_id G') (go_group go')) as [Q|Q]; auto.
    rewrite put_poses_at. destruct (in_dec Nat.eq_dec n (go_nums go')) as [I|I]; auto.
    destruct (nums_group i G f k' go' n HG Hk' I Hn') as (_ & Eg'). apply In_nth_error in HG' as (i' & Hi'). rewrite (gk_ids _ _ GK i' G' Hi'), Eg' in Q. apply Nat2Z.inj in Q. subst i'.
    assert (G' = G) by congruence. subst. rewrite Hv. auto.
  - exists G. split; [eapply nth_error_In; eauto|]. intros pg0. unfold computeObjPoseInCameraGroup. apply fold_sets.
    + intros pg1 f' _ E. revert pg1 E. generalize (ptable f' (gt_frames gt)) as ks. induction ks as [|k' ks IH]; intros pg1 E; cbn [fold_left]; auto. apply IH. clear IH ks.
      destruct (mfind k' (gt_obs gt)) as [go'|] eqn:Hk'; auto. destruct (Z.eqb_spec (cg_id G) (go_group go')) as [Q|Q]; auto. eapply Set1; eauto.
    + assert (Kin : In (Z.of_nat i, f) (mkeys (gt_obs gt))) by (apply mfind_Some_key; eauto).
      exists f. split; [rewrite Id; apply (gto_gframes _ _ _ _ GT); auto|]. intros pg1. apply fold_sets.
      * intros pg2 k' _ E. destruct (mfind k' (gt_obs gt)) as [go'|] eqn:Hk'; auto. destruct (Z.eqb_spec (cg_id G) (go_group go')) as [Q|Q]; auto. eapply Set1; eauto.
      * exists (Z.of_nat i, f). split; [apply (gto_frames _ _ _ _ GT); auto|]. intros pg2. rewrite Hk, Id, Eg, Z.eqb_refl, put_poses_at, Hv.
        destruct (in_dec Nat.eq_dec n (go_nums go)); auto. contradiction.
Qed.

(** second phase *)
Lemma put_back_out after ns : forall pg m, ~ In m ns -> put_back ns after pg m = pg m.
Proof.
  unfold put_back. generalize 0 as s. induction ns as [|n ns IH]; intros s pg m H; cbn [length seq combine fold_left]; auto. rewrite IH by (intros I; apply H; right; auto).
  cbn [fst snd]. destruct (after s); auto. unfold gput. destruct (Nat.eqb_spec m n) as [->|]; auto. exfalso. apply H. left. auto.
Qed.
Lemma put_back_in after ns : NoDup ns -> forall pg j n, nth_error ns j = Some n -> put_back ns after pg n = match after j with Some v => v | None => pg n end.
Proof.
  intros ND. unfold put_back. assert (G : forall s pg j n, nth_error ns j = Some n ->
    fold_left (fun pg jn => match after (fst jn) with Some v => gput (snd jn) v pg | None => pg end) (combine (seq s (length ns)) ns) pg n = match after (s + j) with Some v => v | None => pg n end).
  { induction ND as [|n ns N ND IH]; intros s pg [|j] m H; cbn in H; try discriminate; cbn [length seq combine fold_left fst snd].
    - injection H as <-. rewrite Nat.add_0_r. assert (O := put_back_out). unfold put_back in O.
      assert (O' : forall ns s pg m, ~ In m ns -> fold_left (fun pg jn => match after (fst jn) with Some v => gput (snd jn) v pg | None => pg end) (combine (seq s (length ns)) ns) pg m = pg m).
      { clear. induction ns as [|n ns IH]; intros s pg m H; cbn [length seq combine fold_left]; auto. rewrite IH by (intros I; apply H; right; auto).
        cbn [fst snd]. destruct (after s); auto. unfold gput. destruct (Nat.eqb_spec m n) as [->|]; auto. exfalso. apply H. left. auto. }
      rewrite O' by auto. destruct (after s); auto. unfold gput. rewrite Nat.eqb_refl. auto.
    - rewrite (IH (S s) _ j m H). replace (S s + j) with (s + S j) by lia. destruct (after (s + S j)); auto. destruct (after s); auto.
      unfold gput. destruct (Nat.eqb_spec m n) as [->|]; auto. exfalso. apply N. eapply nth_error_In; eauto. }
  intros pg j n H. apply (G 0). auto.
Qed.
Lemma put_back_agree after ns (pga pgb : gposes) n : pga n = pgb n -> put_back ns after pga n = put_back ns after pgb n.
Proof.
  unfold put_back. generalize (combine (seq 0 (length ns)) ns) as M. intros M. revert pga pgb.
  induction M as [|jn M IH]; intros pga pgb E; cbn [fold_left]; auto. apply IH. destruct (after (fst jn)); auto. unfold gput. destruct (Nat.eqb n (snd jn)); auto.
Qed.
Lemma obs_view_ext (pg pg' : gposes) ns : (forall n, In n ns -> pg n = pg' n) -> obs_view all pg ns = obs_view all pg' ns.
Proof.
  intros H. apply functional_extensionality. intros j. unfold obs_view. destruct (nth_error ns j) as [n|] eqn:E; auto. rewrite H; auto. eapply nth_error_In; eauto.
Qed.

(** the result for one group observation, from the poses in group of its observations *)
Definition one_result (G : cgroup) (pg : gposes) (go : gobs_t) := computeObjectsPose svd lr uq (cg_ref G) (go_ids go) (obs_view all pg (go_nums go)).
Definition one_step (st : smap (Z * Z) (smap Z (option (vec3 * vec3))) * gposes) (e : Z * Z * gobs_t) :=
  let r := pose_one svd lr uq all (dense gl) (snd st) (snd e) in (mset (fst e) (fst r) (fst st), snd r).
Lemma second_phase : forall L st, NoDup (map fst L) ->
  (forall e e' n, In e L -> In e' L -> In n (go_nums (snd e)) -> In n (go_nums (snd e')) -> fst e = fst e') ->
  let r := fold_left one_step L st in
  (forall k, ~ In k (map fst L) -> mfind k (fst r) = mfind k (fst st)) /\
  (forall k go, In (k, go) L -> mfind k (fst r) = Some (fst (pose_one svd lr uq all (dense gl) (snd st) go)) /\
     forall n, In n (go_nums go) -> snd r n = snd (pose_one svd lr uq all (dense gl) (snd st) go) n) /\
  (forall n, (forall e, In e L -> ~ In n (go_nums (snd e))) -> snd r n = snd st n).
Proof.
  induction L as [|[k0 go0] L IH]; intros st ND Dj r; subst r; cbn [fold_left]; [split; [auto|split; [intros k go []|auto]]|].
  inversion ND as [|? ? N0 ND']; subst. 
  destruct (IH (one_step st (k0, go0)) ND') as (A & B & C); [intros e e' n H1 H2; apply Dj; right; auto|]. clear IH.
  assert (St : forall m, ~ In m (go_nums go0) -> snd (one_step st (k0, go0)) m = snd st m) by (intros m Hm; unfold one_step, pose_one; cbn [fst snd]; apply put_back_out; auto).
  split; [|split].
  - intros k Hk. cbn in Hk. rewrite A by tauto. unfold one_step. cbn [fst snd]. apply mfind_mset_neq. intros ->. apply Hk. auto.
  - intros k go [E|Hin].
    + injection E as <- <-. split.
      * rewrite A by auto. unfold one_step. cbn [fst snd]. apply mfind_mset_eq.
      * intros n Hn. rewrite C; [auto|]. intros e He Hn'. assert (Q := Dj (k0, go0) e n (or_introl eq_refl) (or_intror He) Hn Hn'). cbn in Q. subst. apply N0. apply in_map. auto.
    + assert (Ex : forall n, In n (go_nums go) -> snd (one_step st (k0, go0)) n = snd st n).
      { intros n Hn. apply St. intros H0. assert (Q := Dj (k0, go0) (k, go) n (or_introl eq_refl) (or_intror Hin) H0 Hn). cbn in Q. subst. apply N0. apply in_map with (f := fst) in Hin. auto. }
      destruct (B k go Hin) as (B1 & B2). assert (V : obs_view all (snd (one_step st (k0, go0))) (go_nums go) = obs_view all (snd st) (go_nums go)) by (apply obs_view_ext; auto).
      split.
      * rewrite B1. unfold pose_one. cbn [fst]. rewrite V. auto.
      * intros n Hn. rewrite B2 by auto. unfold pose_one. cbn [snd]. rewrite V. apply put_back_agree. auto.
  - intros n Hn. rewrite C; [apply St; apply (Hn (k0, go0)); left; auto|]. intros e He. apply Hn. right. auto.
Qed.

(** the views of object o in group observation go of group G: cameras and poses in group *)
Definition true_view (G : cgroup) (go : gobs_t) (j : nat) : Z * (vec3 * vec3) :=
  match nth_error (go_nums go) j with
  | Some n => match nth_error all n, in_group G n with
              | Some oo, Some v => (oo_cam oo, v)
              | _, _ => (0%Z, (vzero, vzero))
              end
  | None => (0%Z, (vzero, vzero))
  end.
Lemma in_group_total i G f go n : nth_error gl i = Some G -> mfind (Z.of_nat i, f) (gt_obs gt) = Some go -> In n (go_nums go) ->
  exists oo v, nth_error all n = Some oo /\ In (oo_cam oo) (cg_cams G) /\ oo_frame oo = f /\ in_group G n = Some v.
Proof.
  intros HG Hk Hn. destruct (key_group _ _ Hk) as (i0 & G0 & Ek & HG0 & Id & Eg & En & _). cbn [snd] in *. injection Ek as Ei. apply Nat2Z.inj in Ei. subst i0.
  assert (G0 = G) by congruence. subst G0. rewrite En in Hn. apply where_In in Hn as (oo & Ho & S). apply seen_by_iff in S as (F & C).
  destruct (nth_error_length_ex gl css i G) as (cs & Hcs); [symmetry; apply GroupMerge.gk_len with (1 := GK)|auto|].
  assert (GR := GroupMerge.gk_wb css gl GK i cs G Hcs HG). assert (C' := C). rewrite (gr_cams _ _ GR) in C'. apply in_map_iff in C' as ((c & P) & Ec & Hin). cbn in Ec. subst c.
  exists oo. unfold in_group, pose_in_group. rewrite Ho, (proj2 (gr_poses _ _ GR (oo_cam oo) P) Hin). cbn [option_map]. eauto.
Qed.
Lemma all_poses i G f go pg : nth_error gl i = Some G -> mfind (Z.of_nat i, f) (gt_obs gt) = Some go ->
  let r := computeAllObjPoseInCameraGroup svd lr uq all (dense gl) gt op pg in
  let q := computeObjectsPose svd lr uq (cg_ref G) (go_ids go) (true_view G go) in
  mfind (Z.of_nat i, f) (fst r) = Some (fst q) /\
  forall j n v, nth_error (go_nums go) j = Some n -> snd q j = Some v -> snd r n = v.
Proof.
  intros HG Hk r q. subst r. unfold computeAllObjPoseInCameraGroup. rewrite dense_vals.
  set (pg1 := fold_left (computeObjPoseInCameraGroup lr all gt op) gl pg).
  replace (fold_left _ (gt_obs gt) ([], pg1)) with (fold_left one_step (gt_obs gt) ([], pg1)).
  2:{ generalize (@nil (Z * Z * smap Z (option (vec3 * vec3))), pg1) as st. clear Hk. induction (gt_obs gt) as [|[k g] L IH]; intros st; cbn [fold_left]; [reflexivity|]. apply IH. }
  assert (SO := gto_sorted _ _ _ _ GT).
  destruct (second_phase (gt_obs gt) ([], pg1)) as (_ & B & _).
  - apply msorted_NoDup. auto.
  - intros [k1 g1] [k2 g2] n H1 H2 N1 N2. cbn [fst snd] in *. apply In_mfind in H1; auto. apply In_mfind in H2; auto.
    destruct (key_group _ _ H1) as (i1 & G1 & E1 & HG1 & _ & _ & En1 & _). rewrite En1 in N1.
    destruct (nums_group i1 G1 (snd k1) k2 g2 n HG1 H2 N2 N1) as (-> & _). auto.
  - destruct (key_group _ _ Hk) as (i0 & G0 & Ek & HG0 & Id & Eg & En & _). cbn [snd] in *. injection Ek as Ei. apply Nat2Z.inj in Ei. subst i0.
    assert (G0 = G) by congruence. subst G0.
    assert (Eq : computeObjectsPose svd lr uq (cg_ref G) (go_ids go) (obs_view all pg1 (go_nums go)) = q).
    { subst q. f_equal. apply functional_extensionality. intros j. unfold obs_view, true_view. destruct (nth_error (go_nums go) j) as [n|] eqn:Ej; auto.
      apply nth_error_In in Ej. destruct (in_group_total i G f go n HG Hk Ej) as (oo & v & Ho & _ & _ & Hv). rewrite Ho, Hv.
      unfold pg1. rewrite (first_phase i G f go n v pg HG Hk Ej Hv). auto. }
    destruct (B (Z.of_nat i, f) go) as (B1 & B2); [apply mfind_In; auto|]. unfold pose_one in B1, B2. cbn [fst snd] in B1, B2.
    rewrite Eg, (dense_nth gl i G HG), Eq in B1, B2. split; [auto|]. intros j n v Hj Hv. rewrite B2 by (eapply nth_error_In; eauto).
    assert (NDn : NoDup (go_nums go)) by (rewrite En; apply where_NoDup). rewrite (put_back_in _ _ NDn _ j n Hj), Hv. auto.
Qed.

(** positions in go_ids turned into numbers of observations *)
Lemma places_nums (nums : list nat) (ids : list Z) o (q : nat -> bool) : length ids = length nums ->
  (forall j n i, nth_error nums j = Some n -> nth_error ids j = Some i -> q n = Z.eqb i o) ->
  map (fun j => nth j nums 0) (places ids o) = filter q nums.
Proof.
  intros L H. unfold places, where_.
  assert (G : forall pre ids nums', length ids = length nums' -> (forall j n i, nth_error nums' j = Some n -> nth_error ids j = Some i -> q n = Z.eqb i o) ->
    map (fun j => nth j (pre ++ nums') 0) (map fst (filter (fun e : nat * Z => Z.eqb (snd e) o) (combine (seq (length pre) (length ids)) ids))) = filter q nums').
  { clear. intros pre ids. revert pre. induction ids as [|i ids IH]; intros pre [|n nums'] L H; cbn in L; try lia; auto. cbn [length seq combine filter].
    assert (E : pre ++ n :: nums' = (pre ++ [n]) ++ nums') by (rewrite <- app_assoc; auto).
    specialize (IH (pre ++ [n]) nums' ltac:(lia) (fun j => H (S j))). rewrite app_length, Nat.add_1_r in IH. cbn [snd]. rewrite (H 0 n i eq_refl eq_refl).
    destruct (Z.eqb i o); cbn [map fst]; rewrite E, IH; auto. f_equal. rewrite app_nth1 by (rewrite app_length; cbn; lia). rewrite app_nth2, Nat.sub_diag by lia. auto. }
  apply (G [] ids nums L H).
Qed.
Lemma where_from_sorted {A} (p : A -> bool) (l : list A) : forall s, Sorted.StronglySorted lt (map fst (filter (fun e => p (snd e)) (combine (seq s (length l)) l))).
Proof.
  induction l as [|a l IH]; intros s; cbn [length seq combine filter map]; [constructor|]. cbn [snd]. destruct (p a); [|apply IH]. cbn [map fst]. constructor; [apply IH|].
  apply Forall_forall. intros n Hn. apply where_from_In in Hn as (j & x & -> & _). lia.
Qed.
Lemma filter_sorted (q : nat -> bool) l : Sorted.StronglySorted lt l -> Sorted.StronglySorted lt (filter q l).
Proof.
  induction 1 as [|a l S IH F]; cbn; [constructor|]. destruct (q a); auto. constructor; auto. rewrite Forall_forall in *. intros x Hx. apply filter_In in Hx as (Hx & _). auto.
Qed.

(** the observations of object o in a group observation *)
Definition of_object (o : Z) (n : nat) : bool := match nth_error all n with Some oo => Z.eqb (oo_obj oo) o | None => false end.
Definition shown (G : cgroup) (n : nat) : Z * (vec3 * vec3) :=
  match nth_error all n, in_group G n with Some oo, Some v => (oo_cam oo, v) | _, _ => (0%Z, (vzero, vzero)) end.
Lemma group_pose_map ref (view : nat -> Z * (vec3 * vec3)) (h : nat -> nat) (view' : nat -> Z * (vec3 * vec3)) js : (forall j, In j js -> view j = view' (h j)) ->
  group_pose svd lr uq ref view js = group_pose svd lr uq ref view' (map h js).
Proof.
  intros H. rewrite !group_pose_spec.
  assert (E1 : last_of_ref ref view js = last_of_ref ref view' (map h js)).
  { unfold last_of_ref. generalize (@None (vec3 * vec3)) as acc. induction js as [|j js IH]; intros acc; cbn [map fold_left]; auto. rewrite (H j) by (left; auto). apply IH.
    intros j' Hj'. apply H. right. auto. }
  assert (M : forall B (g : Z * (vec3 * vec3) -> B), map (fun j => g (view j)) js = map (fun n => g (view' n)) (map h js)).
  { intros B g. rewrite map_map. apply map_ext_in. intros j Hj. rewrite (H j Hj). auto. }
  rewrite <- E1. destruct (last_of_ref ref view js); auto. unfold mean_trans.
  rewrite (M R (fun v => vx (snd (snd v)))), (M R (fun v => vy (snd (snd v)))), (M R (fun v => vz (snd (snd v)))), (M vec3 (fun v => fst (snd v))). auto.
Qed.
Lemma group_pose_all i G f go pg o : nth_error gl i = Some G -> mfind (Z.of_nat i, f) (gt_obs gt) = Some go -> In o (go_ids go) ->
  let r := computeAllObjPoseInCameraGroup svd lr uq all (dense gl) gt op pg in
  let L := filter (of_object o) (go_nums go) in
  let p := group_pose svd lr uq (cg_ref G) (shown G) L in
  L <> [] /\ (exists m, mfind (Z.of_nat i, f) (fst r) = Some m /\ mfind o m = Some p) /\ forall n v, In n L -> p = Some v -> snd r n = v.
Proof.
  intros HG Hk Ho r L p. destruct (all_poses i G f go pg HG Hk) as (A & B). fold r in A, B.
  destruct (computeObjectsPose_ok svd lr uq (cg_ref G) (go_ids go) (true_view G go)) as (C1 & C2). set (q := computeObjectsPose svd lr uq (cg_ref G) (go_ids go) (true_view G go)) in *.
  destruct (key_group _ _ Hk) as (i0 & G0 & Ek & HG0 & Id & Eg & En & Ei). cbn [snd] in *. injection Ek as E0. apply Nat2Z.inj in E0. subst i0.
  assert (G0 = G) by congruence. subst G0. clear HG0.
  assert (Len : length (go_ids go) = length (go_nums go)) by (apply (f_equal (@length _)) in Ei; rewrite !map_length in Ei; auto).
  assert (Al : forall j n i, nth_error (go_nums go) j = Some n -> nth_error (go_ids go) j = Some i -> exists oo, nth_error all n = Some oo /\ oo_obj oo = i).
  { intros j n k Hj Hi. assert (Q : nth_error (map Some (go_ids go)) j = Some (Some k)) by (rewrite nth_error_map, Hi; auto). rewrite Ei, nth_error_map, Hj in Q. cbn in Q. injection Q as Q.
    destruct (nth_error all n) as [oo|]; [|discriminate]. cbn in Q. injection Q as Q. eauto. }
  assert (EL : map (fun j => nth j (go_nums go) 0) (places (go_ids go) o) = L).
  { apply places_nums; auto. intros j n k Hj Hi. destruct (Al j n k Hj Hi) as (oo & Hoo & <-). unfold of_object. rewrite Hoo. auto. }
  assert (Ep : group_pose svd lr uq (cg_ref G) (true_view G go) (places (go_ids go) o) = p).
  { unfold p. rewrite <- EL. apply group_pose_map. intros j Hj. unfold places in Hj. apply where_In in Hj as (x & Hx & _).
    assert (Lt : j < length (go_nums go)) by (rewrite <- Len; apply nth_error_Some; congruence).
    unfold true_view, shown. rewrite (nth_error_nth' (go_nums go) 0 Lt). auto. }
  split; [|split].
  - rewrite <- EL. apply places_nonempty in Ho. destruct (places (go_ids go) o); [congruence|discriminate].
  - exists (fst q). split; auto. rewrite C1. destruct (in_dec Z.eq_dec o (go_ids go)); [|contradiction]. rewrite Ep. auto.
  - intros n v Hn Hv. rewrite <- EL in Hn. apply in_map_iff in Hn as (j & <- & Hj). unfold places in Hj. apply where_In in Hj as (x & Hx & Ex). apply Z.eqb_eq in Ex. subst x.
    assert (Lt : j < length (go_nums go)) by (rewrite <- Len; apply nth_error_Some; congruence).
    apply (B j); [apply nth_error_nth'; auto|]. rewrite (C2 j o Hx), Ep. auto.
Qed.
End Facts.
