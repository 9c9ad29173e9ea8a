(** C23, C29, C30, C31, C32: relative poses, camera groups and their observations. *)
From Coq Require Import String List ZArith QArith Lia Reals Lra Permutation Sorted Relations.
From Verif Require Import SMap GraphModel GraphSpec GraphDijkstra GraphPath DataModel DataSpec DataProofs DetectModel DetectSpec
  GeomModel GeomSpec GeomProofs ChainModel ChainSpec ChainProofs ChainCam
  ObjectsModel ObjectsSpec ObjectsProofs ObjectsBuild ObjectsMerge ObjectsObs GroupModel GroupSpec GroupProofs GroupMerge GroupObs GroupPose
  StageModel StageSpec StageProofs StageMain StageCams DirectCams StageMerge PipelineModel PipelineSpec PipelineProofs StalePairs ChainPairs PropObjects.
Import ListNotations.
Close Scope Q_scope.
Close Scope R_scope.
Open Scope nat_scope.

Lemma as_vector_entry {A} (f : A -> pose) (L : list A) o (a b : Z) :
  o = (if Z.eqb a b then None else as_vector (map f L)) ->
  (a = b \/ L = [] -> o = None) /\ (a <> b -> L <> [] -> o = Some (map f L)).
Proof.
  intros ->. split.
  - intros [->| ->]; [rewrite Z.eqb_refl; auto|]. destruct (Z.eqb a b); auto.
  - intros H H'. apply Z.eqb_neq in H. rewrite H. destruct L; [congruence|]. reflexivity.
Qed.

(** ** C29 *)

(** Boards.  The entry of (a, b) lists one relative pose per image and pair of
    observations of a and b in it; no image, no entry; no entry for (a, a). *)
Theorem C29_board_pairs :
  forall (pt : Type) nc nb (ins : list (insertion pt)) t, after_detection nc nb ins t ->
  forall (bp : nat -> pose) (a b : Z),
  exists L : list ((Z * Z) * (nat * nat)), NoDup L /\
    (forall c f n m, In ((c, f), (n, m)) L <-> exists x y, obs_at t n x /\ obs_at t m y /\ o_board x = a /\ o_board y = b /\
       o_cam x = c /\ o_cam y = c /\ o_frame x = f /\ o_frame y = f) /\
    (a = b \/ L = [] -> mfind (a, b) (computeBoardsPairPose (board_views t bp)) = None) /\
    (a <> b -> L <> [] -> mfind (a, b) (computeBoardsPairPose (board_views t bp)) =
       Some (map (fun e => pmul (pinv (bp (snd (snd e)))) (bp (fst (snd e)))) L)).
Proof.
  intros pt nc nb ins t AD bp a b. destruct (boards_pairs nc nb ins t AD bp a b) as (L & N & I & E).
  exists L. split; [auto|]. split; [auto|]. apply as_vector_entry. auto.
Qed.
Print Assumptions C29_board_pairs.

(** Cameras, after calibrate3DObjects: one relative pose per frame and pair of views of
    one object. *)
Theorem C29_camera_pairs :
  forall (pt : Type) svd lr uq pick g0, good_heap pick ->
  forall (bpts : Z -> list vec3) nc nb (ins : list (insertion pt)) t, after_detection nc nb ins t -> paired t ->
  forall bp rf s, keeps_boards rf -> calibrate3DObjects svd lr uq pick g0 bpts t bp rf = Some s ->
  forall (op : nat -> pose) (a b : Z),
  exists L : list (Z * (nat * nat)), NoDup L /\
    (forall f n m, In (f, (n, m)) L <-> exists x y, nth_error (ot_all (ca_oobs s)) n = Some x /\ nth_error (ot_all (ca_oobs s)) m = Some y /\
       oo_cam x = a /\ oo_cam y = b /\ oo_obj x = oo_obj y /\ oo_frame x = f /\ oo_frame y = f) /\
    (a = b \/ L = [] -> mfind (a, b) (computeCamerasPairPose (cam_frames t (ca_oobs s) op)) = None) /\
    (a <> b -> L <> [] -> mfind (a, b) (computeCamerasPairPose (cam_frames t (ca_oobs s) op)) =
       Some (map (fun e => pmul (op (snd (snd e))) (pinv (op (fst (snd e))))) L)).
Proof.
  intros pt svd lr uq pick g0 Hh bpts nc nb ins t AD Hp bp rf s K E op a b.
  destruct (objects_part_start svd lr uq pick g0 Hh bpts nc nb ins t AD Hp bp rf K) as (s' & ol & bss & _ & OK & E' & _ & Eot).
  assert (s' = s) by congruence. subst s'.
  destruct (cams_pairs nc nb ins t AD Hp bpts bss ol OK _ Eot op a b) as (L & N & I & F).
  exists L. split; [auto|]. split; [auto|]. apply as_vector_entry. auto.
Qed.
Print Assumptions C29_camera_pairs.

(** Objects, at any time: one relative pose per camera group, frame and pair of object
    observations by cameras of the group. *)
Theorem C29_object_pairs :
  forall (pt : Type) svd lr uq pick g0, good_heap pick ->
  forall (bpts : Z -> list vec3) nc nb (ins : list (insertion pt)) t, after_detection nc nb ins t -> paired t ->
  forall s, reached svd lr uq pick g0 bpts t s ->
  forall (gp : Z * Z -> Z -> pose) (a b : Z),
  exists L : list ((Z * Z) * (nat * nat)), NoDup L /\
    (forall gi f n m, In ((gi, f), (n, m)) L <-> exists G x y, mfind gi (ca_groups s) = Some G /\
       nth_error (ot_all (ca_oobs s)) n = Some x /\ nth_error (ot_all (ca_oobs s)) m = Some y /\ oo_obj x = a /\ oo_obj y = b /\
       oo_frame x = f /\ oo_frame y = f /\ In (oo_cam x) (cg_cams G) /\ In (oo_cam y) (cg_cams G)) /\
    (a = b \/ L = [] -> mfind (a, b) (computeObjectsPairPose (group_views (ca_oobs s) (ca_gobs s) gp)) = None) /\
    (a <> b -> L <> [] -> mfind (a, b) (computeObjectsPairPose (group_views (ca_oobs s) (ca_gobs s) gp)) =
       Some (map (fun e => pmul (pinv (gp (fst e) b)) (gp (fst e) a)) L)).
Proof.
  intros pt svd lr uq pick g0 Hh bpts nc nb ins t AD Hp s Rd gp a b.
  destruct (reached_ok svd lr uq pick g0 Hh bpts nc nb ins t AD Hp s Rd) as (bss & ol & css & gl & CO).
  assert (Fr := known_frames nc nb ins t AD (ca_oobs s) ol (co_obs _ _ _ _ _ _ _ CO)).
  destruct (objs_pairs (ca_oobs s) gl (mkeys (t_frames t)) (ca_gobs s) (co_gobs _ _ _ _ _ _ _ CO) Fr gp a b) as (L & N & I & F).
  exists L. split; [auto|]. split; [|apply as_vector_entry; auto].
  intros gi f n m. rewrite I, (co_groups _ _ _ _ _ _ _ CO). split.
  - intros (i & G & x & y & -> & HG & R). exists G, x, y. split; [apply dense_nth; auto|auto].
  - intros (G & x & y & HG & R). apply mfind_In, dense_In in HG as (i & -> & HG). exists i, G, x, y. auto.
Qed.
Print Assumptions C29_object_pairs.

(** (b, a) lists the inverses of (a, b), for all three tables. *)
Definition opposite (t : pair_table) : Prop := forall a b ps, mfind (a, b) t = Some ps ->
  exists qs, mfind (b, a) t = Some qs /\ Permutation (map pinv ps) qs.
Lemma opposite_table (f : Z -> Z -> list pose) t : (forall a b, mfind (a, b) t = if Z.eqb a b then None else as_vector (f a b)) ->
  (forall a b, Permutation (map pinv (f a b)) (f b a)) -> opposite t.
Proof.
  intros F I a b ps H. rewrite F in H. rewrite F, Z.eqb_sym. destruct (Z.eqb a b); [discriminate|].
  apply as_vector_Some in H as (<- & H). exists (f b a). split; [|auto]. apply as_vector_Some. split; auto.
  intros Q. specialize (I a b). rewrite Q in I. apply Permutation_sym, Permutation_nil in I. apply map_eq_nil in I. auto.
Qed.
Theorem C29_opposite_pairs_are_inverse :
  (forall (pt : Type) nc nb (ins : list (insertion pt)) t, after_detection nc nb ins t ->
   forall bp, (forall n o, obs_at t n o -> rigid (bp n)) -> opposite (computeBoardsPairPose (board_views t bp))) /\
  forall (pt : Type) svd lr uq pick g0, good_heap pick ->
  forall (bpts : Z -> list vec3) nc nb (ins : list (insertion pt)) t, after_detection nc nb ins t -> paired t ->
  (forall bp rf s, keeps_boards rf -> calibrate3DObjects svd lr uq pick g0 bpts t bp rf = Some s ->
   forall op, (forall n oo, nth_error (ot_all (ca_oobs s)) n = Some oo -> rigid (op n)) ->
   opposite (computeCamerasPairPose (cam_frames t (ca_oobs s) op))) /\
  forall s, reached svd lr uq pick g0 bpts t s ->
  forall gp, (forall k go o, mfind k (gt_obs (ca_gobs s)) = Some go -> In o (go_ids go) -> rigid (gp k o)) ->
  opposite (computeObjectsPairPose (group_views (ca_oobs s) (ca_gobs s) gp)).
Proof.
  split; [|intros pt svd lr uq pick g0 Hh bpts nc nb ins t AD Hp; split].
  - intros pt nc nb ins t AD bp R. eapply opposite_table; [apply boards_table|]. intros a b. apply together_inverse.
    intros v x p Hv Hx. apply (views_In nc nb ins t AD) in Hv as (c & f & co & Hc & ->). apply (view_In nc nb ins t AD bp c f) in Hx; auto.
    destruct Hx as (n & o & Ho & _ & _ & _ & ->). eauto.
  - intros bp rf s K E op R. destruct (objects_part_start svd lr uq pick g0 Hh bpts nc nb ins t AD Hp bp rf K) as (s' & ol & bss & _ & OK & E' & _ & Eot).
    assert (s' = s) by congruence. subst s'.
    eapply opposite_table; [intros; apply cameras_table; eapply cams_gated; eauto|]. intros a b. apply cam_together_inverse.
    intros n fr c o p Hf Hx. eapply frame_In in Hf as (m & oo & Hm & _ & _ & ->); eauto.
  - intros s Rd gp R. destruct (reached_ok svd lr uq pick g0 Hh bpts nc nb ins t AD Hp s Rd) as (bss & ol & css & gl & CO).
    assert (GT := co_gobs _ _ _ _ _ _ _ CO).
    eapply opposite_table; [intros; apply objects_table; eapply views_ogated; eauto|]. intros a b. apply obj_together_inverse.
    intros n ids P o Hv Ho. eapply group_view_entry in Hv as (k & go & Hk & -> & -> & ->); eauto.
Qed.
Print Assumptions C29_opposite_pairs_are_inverse.

(** Noise-free poses: the averaged relative pose of every covisible pair is the true one.
    Boards: board b at W b, camera c in frame f at X c f. *)
Theorem C29_exact_board_transforms :
  forall (pt : Type) svd lr uq, svd_ok svd -> log_ok lr ->
  forall nc nb (ins : list (insertion pt)) t, after_detection nc nb ins t ->
  forall W X bp, exact_boards t W X bp ->
  exists tr, initInterTransform svd lr uq (computeBoardsPairPose (board_views t bp)) = Some tr /\
    forall a b p, mfind (a, b) tr = Some p <-> seen_together t a b /\ p = pmul (pinv (W b)) (W a).
Proof.
  intros pt svd lr uq Hs Hl nc nb ins t AD W X bp EX.
  destruct (board_transforms_exact nc nb ins t AD svd lr uq bp W X EX Hs Hl) as (tr & E & H).
  exists tr. split; auto. intros a b p. assert (G := boards_table_good nc nb ins t AD bp).
  destruct (initInterTransform_find svd lr uq _ tr (gt_sorted _ _ G) E) as (Ks & _).
  split.
  - intros Hm. split; [|eauto]. apply (boards_covisible nc nb ins t AD bp). left. rewrite counts_keys, <- Ks. apply mfind_Some_key. eauto.
  - intros (S & ->). apply (boards_covisible nc nb ins t AD bp) in S. rewrite (covisible_both _ a b (good_both _ _ G)) in S. rewrite counts_keys, <- Ks in S.
    apply mfind_Some_key in S as (q & Hq). rewrite Hq. f_equal. eauto.
Qed.
Print Assumptions C29_exact_board_transforms.
(** Cameras: camera c at C c, object o in frame f at Y f o. *)
Theorem C29_exact_camera_transforms :
  forall (pt : Type) svd lr uq pick g0, good_heap pick -> svd_ok svd -> log_ok lr ->
  forall (bpts : Z -> list vec3) nc nb (ins : list (insertion pt)) t, after_detection nc nb ins t -> paired t ->
  forall bp rf s, keeps_boards rf -> calibrate3DObjects svd lr uq pick g0 bpts t bp rf = Some s ->
  forall C Y op, exact_objects (ot_all (ca_oobs s)) C Y op ->
  exists tr, initInterTransform svd lr uq (computeCamerasPairPose (cam_frames t (ca_oobs s) op)) = Some tr /\
    forall a b p, mfind (a, b) tr = Some p <-> share_object (ot_all (ca_oobs s)) a b /\ p = pmul (C b) (pinv (C a)).
Proof.
  intros pt svd lr uq pick g0 Hh Hs Hl bpts nc nb ins t AD Hp bp rf s K E C Y op EX.
  destruct (objects_part_start svd lr uq pick g0 Hh bpts nc nb ins t AD Hp bp rf K) as (s' & ol & bss & _ & OK & E' & _ & Eot).
  assert (s' = s) by congruence. subst s'.
  destruct (cam_transforms_exact nc nb ins t AD Hp bpts bss ol OK _ Eot svd lr uq op C Y EX Hs Hl) as (tr & Et & Ks & H).
  exists tr. split; auto. intros a b p. split.
  - intros Hm. split; [|eauto]. apply (cams_covisible nc nb ins t AD Hp bpts bss ol OK _ Eot op). left. rewrite counts_keys, <- Ks. apply mfind_Some_key. eauto.
  - intros (S & ->). apply (cams_covisible nc nb ins t AD Hp bpts bss ol OK _ Eot op) in S. rewrite (covisible_both _ a b (good_both _ _ (cams_table_good nc nb ins t AD Hp bpts bss ol OK _ Eot op))) in S. rewrite counts_keys, <- Ks in S.
    apply mfind_Some_key in S as (q & Hq). rewrite Hq. f_equal. eauto.
Qed.
Print Assumptions C29_exact_camera_transforms.
(** Objects: object o at V o, seen by group g in frame f at X (g, f). *)
Theorem C29_exact_object_transforms :
  forall (pt : Type) svd lr uq pick g0, good_heap pick -> svd_ok svd -> log_ok lr ->
  forall (bpts : Z -> list vec3) nc nb (ins : list (insertion pt)) t, after_detection nc nb ins t -> paired t ->
  forall s, reached svd lr uq pick g0 bpts t s ->
  forall V X gp, exact_group_poses (ca_gobs s) V X gp ->
  exists tr, initInterTransform svd lr uq (computeObjectsPairPose (group_views (ca_oobs s) (ca_gobs s) gp)) = Some tr /\
    forall a b p, mfind (a, b) tr = Some p <->
      seen_by_group (ot_all (ca_oobs s)) (mvals (ca_groups s)) a b /\ p = pmul (pinv (V b)) (V a).
Proof.
  intros pt svd lr uq pick g0 Hh Hs Hl bpts nc nb ins t AD Hp s Rd V X gp EX.
  destruct (reached_ok svd lr uq pick g0 Hh bpts nc nb ins t AD Hp s Rd) as (bss & ol & css & gl & CO).
  assert (Fr := known_frames nc nb ins t AD (ca_oobs s) ol (co_obs _ _ _ _ _ _ _ CO)).
  destruct CO as [E1 OK OT Ob Cov E2 GK GT NU CA KE]. rewrite E2, dense_vals.
  assert (Objs : forall oo, In oo (ot_all (ca_oobs s)) -> exists i o, nth_error ol i = Some o /\ oo_obj oo = Z.of_nat i).
  { intros oo H. destruct (Ob oo H) as (i & o & A & B & _). eauto. }
  assert (TG := objects_table_good _ _ _ OK (ca_oobs s) OT Objs gl _ _ GT gp).
  set (pairs := computeObjectsPairPose (group_views (ca_oobs s) (ca_gobs s) gp)) in *.
  destruct (initInterTransform_exact svd lr uq pairs (fun k => pmul (pinv (V (snd k))) (V (fst k))) Hs Hl) as (tr & E & K & F).
  - intros [a b] ps Hin. split; [eapply gt_nonempty; eauto|]. cbn [fst snd].
    destruct EX as (HV & HX & HO). split; [apply rigid_mul; auto; apply rigid_inv; auto|].
    intros p Hin2. apply In_mfind in Hin; [|apply TG]. unfold pairs in Hin. rewrite objects_table in Hin by (eapply views_ogated; eauto).
    destruct (Z.eqb a b); [discriminate|].
    apply as_vector_Some in Hin as (<- & _). apply obj_together_In in Hin2 as (n & ids & P & H & Ha & Hb & ->).
    eapply group_view_entry in H as (k & go & Hk & -> & -> & ->); eauto. rewrite (HO k go a Hk Ha), (HO k go b Hk Hb).
    unfold rel_board. rewrite pinv_pmul by auto. rewrite <- pmul_assoc, (pmul_assoc (pinv (X k))), pinv_l, pmul_id_l by auto. auto.
  - exists tr. split; auto. intros a b p.
    assert (CV := objects_covisible bpts bss ol OK (ca_oobs s) OT Objs gl _ _ GT Fr gp a b). fold pairs in CV. rewrite (covisible_both _ a b (good_both _ _ TG)) in CV. rewrite counts_keys in CV.
    rewrite F, <- CV, mfind_Some_key. destruct (mfind (a, b) pairs) as [ps|].
    + split; [intros H; injection H as <-; eauto|]. intros (_ & ->). auto.
    + split; [discriminate|]. intros ((? & ?) & _). discriminate.
Qed.
Print Assumptions C29_exact_object_transforms.

(** ** C23 *)

(** the group is right: with camera c at C c (world to camera), every camera has its pose
    relative to the reference camera *)
Definition true_group (C : Z -> pose) (G : cgroup) : Prop :=
  forall c P, mfind c (cg_poses G) = Some P -> P = pmul (C c) (pinv (C (cg_ref G))).
(** the exact relative poses of the steps of a path, multiplied in path order from left
    to right *)
Definition in_path_order (C : Z -> pose) (l : list Z) : pose :=
  fold_left pmul (map (fun e => pmul (C (snd e)) (pinv (C (fst e)))) (edges_of l)) pid.
(** the last step on the left *)
Definition last_step_left (C : Z -> pose) (l : list Z) : pose :=
  fold_left (fun acc p => pmul p acc) (map (fun e => pmul (C (snd e)) (pinv (C (fst e)))) (edges_of l)) pid.
Definition starts_ends (l : list Z) (a b : Z) : Prop := hd_error l = Some a /\ hd_error (rev l) = Some b.

Lemma starts_ends_cons x y l a b : starts_ends (x :: y :: l) a b <-> a = x /\ starts_ends (y :: l) y b.
Proof.
  assert (Q : hd_error (rev (x :: y :: l)) = hd_error (rev (y :: l))).
  { cbn [rev]. destruct (rev l ++ [y]) eqn:Q; [destruct (rev l); discriminate|]. reflexivity. }
  unfold starts_ends. rewrite Q. cbn [hd_error]. split.
  - intros (E & H). injection E as ->. auto.
  - intros (-> & _ & H). auto.
Qed.
Lemma starts_ends_one x a b : starts_ends [x] a b <-> a = x /\ b = x.
Proof. unfold starts_ends. cbn. split; [intros (A & B); injection A; injection B; auto|]. intros (-> & ->). auto. Qed.
(** what the claim asks for: the right pose is the product with the last step on the left *)
Lemma last_step_left_right C l a b : (forall c, rigid (C c)) -> starts_ends l a b -> last_step_left C l = pmul (C b) (pinv (C a)).
Proof.
  intros R. unfold last_step_left.
  assert (Q : forall l a b r, starts_ends l a b -> fold_left (fun acc p => pmul p acc) (map (fun e => pmul (C (snd e)) (pinv (C (fst e)))) (edges_of l))
      (pmul (C a) (pinv (C r))) = pmul (C b) (pinv (C r))).
  { induction l0 as [|x l0 IH]; intros a' b' r H; [destruct H; discriminate|]. destruct l0 as [|y l0].
    - apply starts_ends_one in H as (-> & ->). reflexivity.
    - apply starts_ends_cons in H as (-> & H).
      change (edges_of (x :: y :: l0)) with ((x, y) :: edges_of (y :: l0)). cbn [map fold_left fst snd].
      replace (pmul (pmul (C y) (pinv (C x))) (pmul (C x) (pinv (C r)))) with (pmul (C y) (pinv (C r))); [apply IH; auto|].
      rewrite <- pmul_assoc, (pmul_assoc (pinv (C x))), pinv_l, pmul_id_l by auto. auto. }
  intros H. rewrite <- (Q l a b a H). rewrite pinv_r by auto. auto.
Qed.
Lemma in_path_order_short C l a b : (forall c, rigid (C c)) -> starts_ends l a b -> length l <= 2 -> in_path_order C l = pmul (C b) (pinv (C a)).
Proof.
  intros R H L. destruct l as [|x [|y [|z l]]]; [destruct H; discriminate| | |cbn in L; lia].
  - apply starts_ends_one in H as (-> & ->). unfold in_path_order. cbn. rewrite pinv_r by auto. auto.
  - apply starts_ends_cons in H as (-> & H). apply starts_ends_one in H as (_ & ->). unfold in_path_order. cbn [edges_of map fold_left fst snd].
    rewrite pmul_id_l; auto.
Qed.
Lemma step_same_turn (C : Z -> pose) x y : rigid (C x) -> fst (C x) = fst (C y) -> pmul (C y) (pinv (C x)) = (mid, vadd (snd (C y)) (vscale (-1) (snd (C x)))).
Proof.
  intros R E. apply rigid_det in R. destruct (C x) as [A u], (C y) as [B v]. cbn [fst snd] in *. subst B. unfold pmul, pinv. cbn [fst snd]. rewrite minv_r by auto. f_equal.
  rewrite mv_scale, <- mv_mm, minv_r, mv_id by auto. apply vec3_eq; cbn; ring.
Qed.
Lemma in_path_order_same_turn C l a b : (forall c, rigid (C c)) -> (forall x y, fst (C x) = fst (C y)) -> starts_ends l a b ->
  in_path_order C l = pmul (C b) (pinv (C a)).
Proof.
  intros R T. unfold in_path_order.
  assert (Q : forall l a b r, starts_ends l a b -> fold_left pmul (map (fun e => pmul (C (snd e)) (pinv (C (fst e)))) (edges_of l))
      (pmul (C a) (pinv (C r))) = pmul (C b) (pinv (C r))).
  { induction l0 as [|x l0 IH]; intros a' b' r H; [destruct H; discriminate|]. destruct l0 as [|y l0].
    - apply starts_ends_one in H as (-> & ->). reflexivity.
    - apply starts_ends_cons in H as (-> & H).
      change (edges_of (x :: y :: l0)) with ((x, y) :: edges_of (y :: l0)). cbn [map fold_left fst snd].
      replace (pmul (pmul (C x) (pinv (C r))) (pmul (C y) (pinv (C x)))) with (pmul (C y) (pinv (C r))); [apply IH; auto|].
      rewrite !step_same_turn by auto. unfold pmul. cbn [fst snd]. rewrite mm_id_l, mv_id. f_equal. apply vec3_eq; cbn; ring. }
  intros H. rewrite <- (Q l a b a H). rewrite pinv_r by auto. auto.
Qed.

(** Exact object poses: the pose of every camera is the product of the exact relative
    poses along a chain of cameras sharing objects, from the reference camera to it, in
    path order. *)
Theorem C23_poses_are_products_in_path_order :
  forall (pt : Type) svd lr uq pick g0, good_heap pick -> svd_ok svd -> log_ok lr ->
  forall (bpts : Z -> list vec3) nc nb (ins : list (insertion pt)) t, after_detection nc nb ins t -> paired t ->
  forall bp rf s, keeps_boards rf -> calibrate3DObjects svd lr uq pick g0 bpts t bp rf = Some s ->
  forall C Y op, exact_objects (ot_all (ca_oobs s)) C Y op ->
  exists groups, cameras_stage svd lr uq pick g0 t (ca_oobs s) op = Some groups /\
  forall k G c P, In (k, G) groups -> mfind c (cg_poses G) = Some P ->
  exists l, starts_ends l (cg_ref G) c /\ NoDup l /\ consecutive (share_object (ot_all (ca_oobs s))) l /\
    (forall x, In x l -> In x (cg_cams G)) /\ P = in_path_order C l.
Proof.
  intros pt svd lr uq pick g0 Hh Hs Hl bpts nc nb ins t AD Hp bp rf s K E C Y op EX.
  destruct (objects_part_start svd lr uq pick g0 Hh bpts nc nb ins t AD Hp bp rf K) as (s' & ol & bss & _ & OK & E' & _ & Eot).
  assert (s' = s) by congruence. subst s'.
  destruct (cam_transforms_exact nc nb ins t AD Hp bpts bss ol OK _ Eot svd lr uq op C Y EX Hs Hl) as (tr & Et & Ks & H).
  destruct (cameras_stage_main nc nb ins t AD Hp bpts bss ol OK _ Eot svd lr uq pick g0 Hh op) as (gl & css & Eg & GK & Cams & Link & _ & Rt).
  exists (dense gl). split; auto. intros k G c P HG HP. apply dense_In in HG as (i & -> & HG).
  destruct (nth_error_length_ex gl css i G (eq_sym (gk_len css gl GK)) HG) as (cs & Hcs).
  assert (GR := gk_wb css gl GK i cs G Hcs HG). apply (gr_poses _ _ GR) in HP.
  destruct (Rt tr Et i cs G c P Hcs HG HP) as (l & (R1 & R2 & R3 & R4) & Ch).
  assert (Sh : consecutive (share_object (ot_all (ca_oobs s))) l).
  { clear -R3 AD Hp OK Eot. induction l as [|x l IH]; [exact I|]. destruct l as [|y l]; [exact I|]. destruct R3 as (A & B). split; [|apply IH; exact B].
    apply (cams_covisible nc nb ins t AD Hp bpts bss ol OK _ Eot op). auto. }
  exists l. split; [split; auto|]. split; [auto|]. split; [auto|]. split.
  - assert (Q : forall x, In x l -> clos_refl_trans Z (share_object (ot_all (ca_oobs s))) (cg_ref G) x).
    { clear -Sh R1. revert R1 Sh. generalize (cg_ref G) as r. induction l as [|x l IH]; intros r R1 Sh y Hy; [destruct Hy|].
      cbn in R1. injection R1 as ->. destruct Hy as [<-|Hy]; [apply rt_refl|]. destruct l as [|z l]; [destruct Hy|]. destruct Sh as (A & B).
      eapply rt_trans; [apply rt_step; exact A|]. apply IH; auto. }
    assert (Rin : In (cg_ref G) (map fst (concat css))).
    { destruct (gk_or css gl GK i G HG) as [M _ _]. rewrite (gr_cams _ _ GR) in M. apply in_map_iff in M as (e & <- & M). apply in_map.
      apply in_concat. exists cs. split; auto. eapply nth_error_In; eauto. }
    intros x Hx. assert (Xin : In x (map fst (concat css))).
    { destruct (Z.eq_dec x (cg_ref G)) as [->|Nx]; auto. apply Cams. specialize (Q x Hx). apply clos_rt_rtn1 in Q. inversion Q as [|y z (D & a & b & Ha & Hb & E1 & E2 & _)]; [congruence|].
      subst. assert (Ob := oo_cam_observed nc nb ins t AD Hp ol _ Eot b Hb). apply (proj2 (observed_cams_ok nc nb ins t AD)) in Ob. auto. }
    destruct (proj2 (Link (cg_ref G) x Rin Xin) (Q x Hx)) as (cs' & I1 & I2 & I3).
    apply In_nth_error in I1 as (i' & Hi'). assert (i' = i).
    { destruct (gk_or css gl GK i G HG) as [M _ _]. rewrite (gr_cams _ _ GR) in M. apply in_map_iff in M as ((r & p) & Er & M). cbn in Er. subst r.
      apply in_map_iff in I2 as ((r & p') & Er & M'). cbn in Er. subst r. symmetry. eapply gk_unique; eauto. }
    subst i'. assert (cs' = cs) by congruence. subst. rewrite (gr_cams _ _ GR). auto.
  - destruct (chain_fwd_product tr l P Ch) as (ps & F & ->). unfold in_path_order. f_equal.
    clear -F H. revert F. generalize (edges_of l) as es. induction 1 as [|e p es ps A F IH]; cbn; auto. rewrite IH. f_equal. destruct e. eauto.
Qed.
Print Assumptions C23_poses_are_products_in_path_order.

(** Hence right for groups of at most two cameras, and for cameras that all have the same
    orientation. *)
Theorem C23_small_groups_are_right_partial :
  forall (pt : Type) svd lr uq pick g0, good_heap pick -> svd_ok svd -> log_ok lr ->
  forall (bpts : Z -> list vec3) nc nb (ins : list (insertion pt)) t, after_detection nc nb ins t -> paired t ->
  forall bp rf s, keeps_boards rf -> calibrate3DObjects svd lr uq pick g0 bpts t bp rf = Some s ->
  forall C Y op, exact_objects (ot_all (ca_oobs s)) C Y op ->
  exists groups, cameras_stage svd lr uq pick g0 t (ca_oobs s) op = Some groups /\
  forall k G, In (k, G) groups -> length (cg_cams G) <= 2 \/ (forall a b, fst (C a) = fst (C b)) -> true_group C G.
Proof.
  intros pt svd lr uq pick g0 Hh Hs Hl bpts nc nb ins t AD Hp bp rf s K E C Y op EX.
  destruct (C23_poses_are_products_in_path_order pt svd lr uq pick g0 Hh Hs Hl bpts nc nb ins t AD Hp bp rf s K E C Y op EX) as (groups & Eg & H).
  exists groups. split; auto. intros k G HG S c P HP. destruct (H k G c P HG HP) as (l & SE & N & _ & Sub & ->). destruct S as [S|S].
  - apply in_path_order_short; auto; [apply EX|]. assert (Q := NoDup_incl_length N Sub). lia.
  - apply in_path_order_same_turn; auto. apply EX.
Qed.
Print Assumptions C23_small_groups_are_right_partial.

(** And right for every camera that has two or more common views with the reference camera,
    whatever the orientations: the weight of such an edge is truncated to 0 (C04), so the
    chain is the two cameras. *)
Theorem C23_direct_views_are_right_partial :
  forall (pt : Type) svd lr uq pick g0, good_heap pick -> svd_ok svd -> log_ok lr ->
  forall (bpts : Z -> list vec3) nc nb (ins : list (insertion pt)) t, after_detection nc nb ins t -> paired t ->
  forall bp rf s, keeps_boards rf -> calibrate3DObjects svd lr uq pick g0 bpts t bp rf = Some s ->
  forall C Y op, exact_objects (ot_all (ca_oobs s)) C Y op ->
  exists groups, cameras_stage svd lr uq pick g0 t (ca_oobs s) op = Some groups /\
  forall k G c P, In (k, G) groups -> mfind c (cg_poses G) = Some P ->
  several_views (ot_all (ca_oobs s)) (cg_ref G) c -> P = pmul (C c) (pinv (C (cg_ref G))).
Proof.
  intros pt svd lr uq pick g0 Hh Hs Hl bpts nc nb ins t AD Hp bp rf s K E C Y op EX.
  destruct (objects_part_start svd lr uq pick g0 Hh bpts nc nb ins t AD Hp bp rf K) as (s' & ol & bss & _ & OK & E' & _ & Eot).
  assert (s' = s) by congruence. subst s'.
  destruct (cam_transforms_exact nc nb ins t AD Hp bpts bss ol OK _ Eot svd lr uq op C Y EX Hs Hl) as (tr & Et & Ks & H).
  destruct (cameras_stage_main nc nb ins t AD Hp bpts bss ol OK _ Eot svd lr uq pick g0 Hh op) as (gl & css & Eg & GK & _).
  exists (dense gl). split; auto. intros k G c P HG HP SV. apply dense_In in HG as (i & -> & HG).
  destruct (Z.eq_dec c (cg_ref G)) as [->|N].
  - assert (Q := go_id _ (gk_or css gl GK i G HG)). assert (P = pid) by congruence. subst P. rewrite pinv_r; [auto|]. apply EX.
  - assert (Ch := cameras_direct nc nb ins t AD Hp bpts bss ol OK _ Eot svd lr uq pick g0 Hh op gl Eg css GK tr Et i G c P HG HP N SV).
    unfold chain_transform in Ch. cbn [edges_of fold_left] in Ch. destruct (mfind (cg_ref G, c) tr) as [p|] eqn:Q; [|discriminate Ch].
    injection Ch as <-. rewrite (H _ _ _ Q). unfold step_fwd. apply pmul_id_l.
Qed.
Print Assumptions C23_direct_views_are_right_partial.

(** ** C30 *)
(** camera c is a member of group number k *)
Definition member (groups : smap Z cgroup) (k c : Z) : Prop := exists G, mfind k groups = Some G /\ In c (cg_cams G).

Lemma member_nth css gl k c : groups_ok css gl -> (member (dense gl) k c <->
  exists i cs, k = Z.of_nat i /\ nth_error css i = Some cs /\ In c (map fst cs)).
Proof.
  intros GK. unfold member. split.
  - intros (G & HG & Hc). apply mfind_In, dense_In in HG as (i & -> & HG).
    destruct (nth_error_length_ex gl css i G (eq_sym (gk_len css gl GK)) HG) as (cs & Hcs).
    exists i, cs. rewrite <- (gr_cams _ _ (gk_wb css gl GK i cs G Hcs HG)). auto.
  - intros (i & cs & -> & Hcs & Hc). destruct (nth_error_length_ex css gl i cs (gk_len css gl GK) Hcs) as (G & HG).
    exists G. split; [apply dense_nth; auto|]. rewrite (gr_cams _ _ (gk_wb css gl GK i cs G Hcs HG)). auto.
Qed.
Lemma members_concat css gl c : groups_ok css gl -> ((exists k, member (dense gl) k c) <-> In c (map fst (concat css))).
Proof.
  intros GK. split.
  - intros (k & M). apply (member_nth css gl k c GK) in M as (i & cs & _ & Hcs & Hc). rewrite concat_map. apply in_concat. exists (map fst cs). split; auto.
    apply in_map. eapply nth_error_In; eauto.
  - rewrite concat_map. intros H. apply in_concat in H as (l & Hl & Hc). apply in_map_iff in Hl as (cs & <- & Hl). apply In_nth_error in Hl as (i & Hi).
    exists (Z.of_nat i). apply (member_nth css gl _ c GK). eauto.
Qed.
Lemma member_unique css gl k k' c : groups_ok css gl -> member (dense gl) k c -> member (dense gl) k' c -> k = k'.
Proof.
  intros GK M M'. apply (member_nth css gl k c GK) in M as (i & cs & -> & Hcs & Hc). apply (member_nth css gl k' c GK) in M' as (i' & cs' & -> & Hcs' & Hc').
  apply in_map_iff in Hc as ((x & P) & E & Hc). apply in_map_iff in Hc' as ((x' & P') & E' & Hc'). cbn in E, E'. subst.
  f_equal. eapply gk_unique; eauto.
Qed.
Lemma same_group_concat css gl a b : groups_ok css gl ->
  ((exists k, member (dense gl) k a /\ member (dense gl) k b) <-> exists cs, In cs css /\ In a (map fst cs) /\ In b (map fst cs)).
Proof.
  intros GK. split.
  - intros (k & M & M'). apply (member_nth css gl k a GK) in M as (i & cs & -> & Hcs & Hc). apply (member_nth css gl _ b GK) in M' as (i' & cs' & E & Hcs' & Hc').
    apply Nat2Z.inj in E. subst i'. assert (cs' = cs) by congruence. subst. exists cs. split; auto. eapply nth_error_In; eauto.
  - intros (cs & H & Ha & Hb). apply In_nth_error in H as (i & H). exists (Z.of_nat i). split; apply (member_nth css gl _ _ GK); eauto.
Qed.

(** The groups made from the first object observations: exactly the cameras with an
    observation are members, each of one group; two cameras are in one group iff they are
    linked by a chain of cameras that see one object in one frame. *)
Theorem C30_camera_groups_partition :
  forall (pt : Type) svd lr uq pick g0, good_heap pick ->
  forall (bpts : Z -> list vec3) nc nb (ins : list (insertion pt)) t, after_detection nc nb ins t -> paired t ->
  forall bp rf s, keeps_boards rf -> calibrate3DObjects svd lr uq pick g0 bpts t bp rf = Some s ->
  forall op, exists groups, cameras_stage svd lr uq pick g0 t (ca_oobs s) op = Some groups /\
    (forall k G, In (k, G) groups -> NoDup (cg_cams G) /\ group_origin G /\ forall c, In c (cg_cams G) <-> exists P, mfind c (cg_poses G) = Some P) /\
    (forall c, (exists k, member groups k c) <-> exists n o, obs_at t n o /\ o_cam o = c) /\
    (forall c k k', member groups k c -> member groups k' c -> k = k') /\
    forall a b k k', member groups k a -> member groups k' b -> (k = k' <-> clos_refl_trans Z (share_object (ot_all (ca_oobs s))) a b).
Proof.
  intros pt svd lr uq pick g0 Hh bpts nc nb ins t AD Hp bp rf s K E op.
  destruct (objects_part_start svd lr uq pick g0 Hh bpts nc nb ins t AD Hp bp rf K) as (s' & ol & bss & _ & OK & E' & _ & Eot).
  assert (s' = s) by congruence. subst s'.
  destruct (cameras_stage_main nc nb ins t AD Hp bpts bss ol OK _ Eot svd lr uq pick g0 Hh op) as (gl & css & Eg & GK & Cams & Link & _ & _).
  exists (dense gl). split; auto. split; [|split; [|split]].
  - intros k G HG. apply dense_In in HG as (i & -> & HG). destruct (nth_error_length_ex gl css i G (eq_sym (gk_len css gl GK)) HG) as (cs & Hcs).
    assert (GR := gk_wb css gl GK i cs G Hcs HG). split; [rewrite (gr_cams _ _ GR); apply GR|]. split; [eapply gk_or; eauto|].
    intros c. rewrite (gr_cams _ _ GR), in_map_iff. split.
    + intros ((x & P) & <- & H). exists P. apply (gr_poses _ _ GR). auto.
    + intros (P & H). apply (gr_poses _ _ GR) in H. exists (c, P). auto.
  - intros c. rewrite (members_concat css gl c GK). apply Cams.
  - intros c k k'. eapply member_unique; eauto.
  - intros a b k k' Ma Mb. rewrite <- Link.
    + rewrite <- (same_group_concat css gl a b GK). split; [intros ->; eauto|]. intros (j & Ja & Jb).
      rewrite (member_unique css gl k j a GK Ma Ja). eapply member_unique; eauto.
    + apply (members_concat css gl a GK). eauto.
    + apply (members_concat css gl b GK). eauto.
Qed.
Print Assumptions C30_camera_groups_partition.


(** *** C23 refuted: cameras 0 and 1 see the board in frame 0, cameras 1 and 2 in frame 1 *)
Definition three_ins : list (insertion pt2) :=
  [mkIns 0%Z 0%Z 0%Z five_corners five_ids EmptyString; mkIns 1%Z 0%Z 0%Z five_corners five_ids EmptyString;
   mkIns 1%Z 1%Z 0%Z five_corners five_ids EmptyString; mkIns 2%Z 1%Z 0%Z five_corners five_ids EmptyString].
Definition three_t : tables pt2 := run_of 3 1 three_ins.
Example three_after : after_detection 3 1 three_ins three_t.
Proof. apply run_after. unfold three_ins. repeat constructor; cbn; lia. Qed.
Example three_paired : paired three_t.
Proof. intros b H. vm_compute in H. repeat (destruct H as [<-|H]; [reflexivity|]). destruct H. Qed.
(** camera 1 is turned by 90 degrees, camera 2 too and shifted *)
Definition three_C (c : Z) : pose :=
  if Z.eqb c 1 then (turn, V3 0 0 0)%R else if Z.eqb c 2 then (turn, V3 1 0 0)%R else pid.
Definition three_op (n : nat) : pose :=
  match n with 0 => three_C 0 | 1 => three_C 1 | 2 => three_C 1 | _ => three_C 2 end.
Lemma three_rigid c : rigid (three_C c).
Proof.
  unfold three_C. destruct (Z.eqb c 1); [apply turn_rotation|]. destruct (Z.eqb c 2); [apply turn_rotation|]. apply rot_id.
Qed.
Lemma list_start_end (l : list Z) (a b c : Z) : a <> c -> NoDup l -> starts_ends l a c -> (forall x, In x l -> x = a \/ x = b \/ x = c) ->
  l = [a; c] \/ l = [a; b; c].
Proof.
  intros N ND (H & R) Sub. destruct l as [|x l]; [discriminate|]. cbn in H. injection H as ->.
  destruct l as [|y l]; [cbn in R; congruence|]. inversion ND as [|? ? A ND1]; subst. inversion ND1 as [|? ? B ND2]; subst.
  destruct l as [|z l].
  - cbn in R. injection R as ->. auto.
  - inversion ND2 as [|? ? C ND3]; subst. assert (Y : y <> a) by (intros ->; apply A; left; auto). assert (Z : z <> a) by (intros ->; apply A; right; left; auto).
    assert (YZ : y <> z) by (intros ->; apply B; left; auto).
    destruct l as [|w l].
    + cbn in R. injection R as ->. destruct (Sub y) as [?|[->|?]]; [right; left; auto|congruence|auto|congruence].
    + exfalso. inversion ND3 as [|? ? D _]; subst. assert (w <> a) by (intros ->; apply A; right; right; left; auto).
      assert (w <> y) by (intros ->; apply B; right; left; auto). assert (w <> z) by (intros ->; apply C; left; auto).
      destruct (Sub y) as [?|[?|?]], (Sub z) as [?|[?|?]], (Sub w) as [?|[?|?]]; cbn; auto; congruence.
Qed.
(** *** three cameras that see the board together in two frames: C23_direct_views_are_right_partial applies *)
Definition star_ins : list (insertion pt2) :=
  map (fun cf : Z * Z => mkIns (fst cf) (snd cf) 0%Z five_corners five_ids EmptyString) [(0, 0); (1, 0); (2, 0); (0, 1); (1, 1); (2, 1)]%Z.
Definition star_t : tables pt2 := run_of 3 1 star_ins.
Example star_after : after_detection 3 1 star_ins star_t.
Proof. apply run_after. unfold star_ins. repeat constructor; cbn; lia. Qed.
Example star_paired : paired star_t.
Proof. intros b H. vm_compute in H. repeat (destruct H as [<-|H]; [reflexivity|]). destruct H. Qed.
Definition star_op (n : nat) : pose := match n with 0 | 1 => three_C 0 | 2 | 3 => three_C 1 | _ => three_C 2 end.
Example C23_direct_example : forall svd lr uq, svd_ok svd -> log_ok lr ->
  exists s groups k G P, calibrate3DObjects svd lr uq pick_first empty_graph grid star_t (fun _ => pid) ob_poses = Some s /\
    exact_objects (ot_all (ca_oobs s)) three_C (fun _ _ => pid) star_op /\
    cameras_stage svd lr uq pick_first empty_graph star_t (ca_oobs s) star_op = Some groups /\ In (k, G) groups /\ cg_ref G = 0%Z /\
    mfind 2%Z (cg_poses G) = Some P /\ several_views (ot_all (ca_oobs s)) (cg_ref G) 2 /\ P = pmul (three_C 2) (pinv (three_C 0)).
Proof.
  intros svd lr uq Hs Hl.
  destruct (calibrate3DObjects svd lr uq pick_first empty_graph grid star_t (fun _ => pid) ob_poses) as [s|] eqn:E0; [|vm_compute in E0; discriminate].
  assert (All : map (fun oo => (oo_cam oo, oo_frame oo)) (ot_all (ca_oobs s)) = [(0, 0); (0, 1); (1, 0); (1, 1); (2, 0); (2, 1)]%Z).
  { vm_compute in E0. injection E0 as <-. reflexivity. }
  assert (Obj : Forall (fun oo => oo_obj oo = 0%Z) (ot_all (ca_oobs s))) by (vm_compute in E0; injection E0 as <-; repeat constructor).
  assert (EX : exact_objects (ot_all (ca_oobs s)) three_C (fun _ _ => pid) star_op).
  { split; [apply three_rigid|]. split; [intros f o; apply rot_id|]. intros n oo H.
    assert (Q : nth_error [(0, 0); (0, 1); (1, 0); (1, 1); (2, 0); (2, 1)]%Z n = Some (oo_cam oo, oo_frame oo)) by (rewrite <- All, nth_error_map, H; auto).
    rewrite pmul_id_r. destruct n as [|[|[|[|[|[|n]]]]]]; cbn in Q; try (injection Q as <- _; reflexivity). destruct n; discriminate. }
  assert (CV : forall a b f, In (a, f) [(0, 0); (0, 1); (1, 0); (1, 1); (2, 0); (2, 1)]%Z -> In (b, f) [(0, 0); (0, 1); (1, 0); (1, 1); (2, 0); (2, 1)]%Z -> common_view (ot_all (ca_oobs s)) a b f 0).
  { intros a b f Ha Hb. rewrite <- All in Ha, Hb. apply in_map_iff in Ha as (x & E1 & Hx). apply in_map_iff in Hb as (y & E2 & Hy). injection E1 as <- <-. injection E2 as <- E2.
    rewrite Forall_forall in Obj. exists x, y. rewrite (Obj x Hx), (Obj y Hy). auto 10. }
  assert (SV : several_views (ot_all (ca_oobs s)) 0 2) by (exists 0%Z, 0%Z, 1%Z, 0%Z; split; [congruence|]; split; apply CV; cbn; auto 10).
  destruct (C30_camera_groups_partition pt2 svd lr uq pick_first empty_graph pick_first_good grid 3 1 star_ins star_t star_after star_paired
    (fun _ => pid) ob_poses s keep_boards E0 star_op) as (groups & Eg & Gp & Mem & Uni & Link).
  destruct (C23_direct_views_are_right_partial pt2 svd lr uq pick_first empty_graph pick_first_good Hs Hl grid 3 1 star_ins star_t star_after star_paired
    (fun _ => pid) ob_poses s keep_boards E0 three_C (fun _ _ => pid) star_op EX) as (groups' & Eg' & H).
  assert (groups' = groups) by congruence. subst groups'.
  assert (M0 : exists k, member groups k 0) by (apply Mem; exists 0; eexists; split; reflexivity).
  assert (M2 : exists k, member groups k 2) by (apply Mem; exists 2; eexists; split; reflexivity).
  destruct M0 as (k & M0), M2 as (k2 & M2).
  assert (E02 : k = k2). { apply (Link 0%Z 2%Z); auto; apply rt_step. destruct SV as (f & o & _ & _ & _ & (x & y & Hx & Hy & A1 & A2 & A3 & A4 & A5 & A6) & _). split; [lia|]. exists x, y. repeat (split; [congruence|]). congruence. }
  subst k2. destruct M2 as (G & HG & H2). destruct M0 as (G0 & HG0 & H0). assert (G0 = G) by congruence. subst G0. apply mfind_In in HG.
  destruct (Gp k G HG) as (_ & GO & Po). destruct (proj1 (Po 2%Z) H2) as (P & HP).
  assert (Ro : cg_ref G = 0%Z).
  { assert (Q1 := go_min _ GO 0%Z H0). assert (Q3 : exists n o, obs_at star_t n o /\ o_cam o = cg_ref G) by (apply Mem; exists k, G; split; [auto|apply GO]).
    destruct Q3 as (n & o & Hn & Ho). assert (Q4 : (0 <= o_cam o)%Z); [|lia].
    unfold obs_at in Hn. vm_compute in Hn. destruct n as [|[|[|[|[|[|n]]]]]]; cbn in Hn; try (injection Hn as <-; cbn; lia). destruct n; discriminate. }
  exists s, groups, k, G, P. split; [auto|]. split; [auto|]. split; [auto|]. split; [auto|]. split; [auto|]. split; [auto|]. rewrite Ro. split; [auto|].
  rewrite <- Ro at 1. apply (H k G 2%Z P HG HP). rewrite Ro. auto.
Qed.
Theorem C23_long_chains_refuted : forall svd lr uq, svd_ok svd -> log_ok lr ->
  exists (nc nb : nat) (ins : list (insertion pt2)) t bp s C Y op groups k G, after_detection nc nb ins t /\ paired t /\
    calibrate3DObjects svd lr uq pick_first empty_graph grid t bp ob_poses = Some s /\
    exact_objects (ot_all (ca_oobs s)) C Y op /\
    cameras_stage svd lr uq pick_first empty_graph t (ca_oobs s) op = Some groups /\ In (k, G) groups /\ ~ true_group C G.
Proof.
  intros svd lr uq Hs Hl.
  destruct (calibrate3DObjects svd lr uq pick_first empty_graph grid three_t (fun _ => pid) ob_poses) as [s|] eqn:E0; [|vm_compute in E0; discriminate].
  assert (All : map (fun oo => (oo_cam oo, oo_frame oo)) (ot_all (ca_oobs s)) = [(0, 0); (1, 0); (1, 1); (2, 1)]%Z).
  { vm_compute in E0. injection E0 as <-. reflexivity. }
  assert (EX : exact_objects (ot_all (ca_oobs s)) three_C (fun _ _ => pid) three_op).
  { split; [apply three_rigid|]. split; [intros f o; apply rot_id|]. intros n oo H.
    assert (Q : nth_error [(0, 0); (1, 0); (1, 1); (2, 1)]%Z n = Some (oo_cam oo, oo_frame oo)) by (rewrite <- All, nth_error_map, H; auto).
    rewrite pmul_id_r. destruct n as [|[|[|[|n]]]]; cbn in Q; try (injection Q as <- _; reflexivity). destruct n; discriminate. }
  destruct (C30_camera_groups_partition pt2 svd lr uq pick_first empty_graph pick_first_good grid 3 1 three_ins three_t three_after three_paired
    (fun _ => pid) ob_poses s keep_boards E0 three_op) as (groups & Eg & Gp & Mem & Uni & Link).
  destruct (C23_poses_are_products_in_path_order pt2 svd lr uq pick_first empty_graph pick_first_good Hs Hl grid 3 1 three_ins three_t three_after three_paired
    (fun _ => pid) ob_poses s keep_boards E0 three_C (fun _ _ => pid) three_op EX) as (groups' & Eg' & H).
  assert (groups' = groups) by congruence. subst groups'.
  assert (M0 : exists k, member groups k 0) by (apply Mem; exists 0; eexists; split; reflexivity).
  assert (M1 : exists k, member groups k 1) by (apply Mem; exists 1; eexists; split; reflexivity).
  assert (M2 : exists k, member groups k 2) by (apply Mem; exists 3; eexists; split; reflexivity).
  assert (Cams : forall n o, obs_at three_t n o -> (0 <= o_cam o <= 2)%Z).
  { intros n o Hn. unfold obs_at in Hn. vm_compute in Hn. destruct n as [|[|[|[|n]]]]; cbn in Hn; try (injection Hn as <-; cbn; lia). destruct n; discriminate. }
  destruct M0 as (k & M0), M1 as (k1 & M1), M2 as (k2 & M2).
  assert (Obj : Forall (fun oo => oo_obj oo = 0%Z) (ot_all (ca_oobs s))) by (vm_compute in E0; injection E0 as <-; repeat constructor).
  assert (Sh : forall a b, share_object (ot_all (ca_oobs s)) a b <-> a <> b /\ exists f, In (a, f) [(0, 0); (1, 0); (1, 1); (2, 1)]%Z /\ In (b, f) [(0, 0); (1, 0); (1, 1); (2, 1)]%Z).
  { intros a b. rewrite <- All. split.
    - intros (D & x & y & Hx & Hy & <- & <- & F & _). split; auto. exists (oo_frame x). split; apply in_map_iff; [exists x|exists y; rewrite F]; auto.
    - intros (D & f & Ha & Hb). apply in_map_iff in Ha as (x & E1 & Hx). apply in_map_iff in Hb as (y & E2 & Hy). injection E1 as <- <-. injection E2 as <- E2.
      split; auto. exists x, y. rewrite Forall_forall in Obj. rewrite (Obj x Hx), (Obj y Hy). auto 10. }
  assert (S01 : share_object (ot_all (ca_oobs s)) 0 1) by (apply Sh; split; [lia|]; exists 0%Z; cbn; auto).
  assert (S12 : share_object (ot_all (ca_oobs s)) 1 2) by (apply Sh; split; [lia|]; exists 1%Z; cbn; auto 10).
  assert (E01 : k = k1) by (apply (Link 0%Z 1%Z); auto; apply rt_step; auto).
  assert (E12 : k1 = k2) by (apply (Link 1%Z 2%Z); auto; apply rt_step; auto).
  subst k1 k2. destruct M2 as (G & HG & H2). destruct M0 as (G0 & HG0 & H0). assert (G0 = G) by congruence. subst G0.
  exists 3, 1, three_ins, three_t, (fun _ => pid), s, three_C, (fun _ _ => pid), three_op, groups, k, G.
  split; [apply three_after|]. split; [apply three_paired|]. split; [auto|]. split; [auto|]. split; [auto|].
  apply mfind_In in HG. split; [auto|]. intros T.
  destruct (Gp k G HG) as (_ & GO & Po). destruct (proj1 (Po 2%Z) H2) as (P & HP).
  assert (Ro : cg_ref G = 0%Z).
  { assert (Q1 := go_min _ GO 0%Z H0). assert (Q2 := go_member _ GO). 
    assert (Q3 : exists n o, obs_at three_t n o /\ o_cam o = cg_ref G).
    { apply Mem. exists k, G. auto. }
    destruct Q3 as (n & o & Hn & Ho). assert (Q3 := Cams n o Hn). lia. }
  destruct (H k G 2%Z P HG HP) as (l & SE & ND & Co & Sub & EP). rewrite Ro in SE.
  assert (Sub' : forall x, In x l -> x = 0%Z \/ x = 1%Z \/ x = 2%Z).
  { intros x Hx. assert (Q : exists n o, obs_at three_t n o /\ o_cam o = x) by (apply Mem; exists k, G; auto).
    destruct Q as (n & o & Hn & <-). assert (Q := Cams n o Hn). lia. }
  rewrite (T 2%Z P HP), Ro in EP.
  destruct (list_start_end l 0 1 2 ltac:(lia) ND SE Sub') as [->| ->].
  - destruct Co as (Co & _). apply Sh in Co as (_ & f & I1 & I2). cbn in I1, I2.
    destruct I1 as [I1|[I1|[I1|[I1|[]]]]], I2 as [I2|[I2|[I2|[I2|[]]]]]; injection I1; injection I2; intros; subst; lia.
  - unfold in_path_order, three_C, pmul, pinv in EP. cbn in EP. injection EP. intros. lra.
Qed.
Print Assumptions C23_long_chains_refuted.

(** *** Merging groups (used for C23 and C30) *)
(** the relative poses of the steps of a path of groups *)
Definition group_steps (prs : smap (Z * Z) (pose * nat)) (l : list Z) (ps : list pose) : Prop :=
  Forall2 (fun e p => exists n, mfind e prs = Some (p, n)) (edges_of l) ps.
(** the two groups have a computed relative pose *)
Definition has_pair (prs : smap (Z * Z) (pose * nat)) (a b : Z) : Prop := exists p n, mfind (a, b) prs = Some (p, n).
Lemma mfind_edges prs a b : (In (a, b) (mkeys (map (fun '(k, (_, n)) => (k, n)) prs)) <-> has_pair prs a b).
Proof.
  unfold has_pair. replace (mkeys (map (fun '(k, (_, n)) => (k, n)) prs)) with (mkeys prs).
  - rewrite mfind_Some_key. split; [intros ([p n] & H); eauto|intros (p & n & H); eauto].
  - unfold mkeys. rewrite map_map. apply map_ext. intros [k [p n]]. auto.
Qed.
Lemma mfind_steps (prs : smap (Z * Z) (pose * nat)) e p : mfind e (map (fun '(k, (P, _)) => (k, P)) prs) = Some p <-> exists n, mfind e prs = Some (p, n).
Proof.
  induction prs as [|[k [P n]] prs IH]; cbn [map mfind]; [split; [discriminate|intros (? & ?); discriminate]|].
  destruct (kcmp e k); auto.
  split; [intros H; injection H as ->; eauto|]. intros (m & H). injection H as -> ->. auto.
Qed.
Lemma consecutive_imp (P Q : Z -> Z -> Prop) l : (forall a b, P a b -> Q a b) -> consecutive P l -> consecutive Q l.
Proof. intros H. induction l as [|x [|y l] IH]; cbn; auto. intros (A1 & A2). split; [auto|]. apply IH. exact A2. Qed.

Lemma steps_consecutive prs l ps : group_steps prs l ps -> consecutive (has_pair prs) l.
Proof.
  unfold group_steps. revert ps. induction l as [|x [|y l] IH]; cbn; auto. intros ps H. inversion H as [|e p es' ps' (n & Hn) F]; subst.
  split; [exists p, n; auto|]. apply (IH ps'). exact F.
Qed.
Lemma connected_pairs prs a b : connected (map (fun '(k, (_, n)) => (k, n)) prs) a b <-> clos_refl_sym_trans Z (has_pair prs) a b.
Proof.
  unfold connected, covisible. split.
  - induction 1 as [u v [W|W]|u|u v w A1 A2 A3 A4]; [| |apply rst_refl|eapply rst_trans; eauto].
    + apply rst_step, mfind_edges. auto.
    + apply rst_sym, rst_step, mfind_edges. auto.
  - induction 1 as [u v W|u|u v W IH|u v w A1 A2 A3 A4]; [apply rt_step; left; apply mfind_edges; auto|apply rt_refl| |eapply rt_trans; eauto].
    clear W. induction IH as [u v [W|W]|u|u v w A1 A2 A3 A4]; [apply rt_step; right; auto|apply rt_step; left; auto|apply rt_refl|eapply rt_trans; eauto].
Qed.
Lemma rt_iff (P Q : Z -> Z -> Prop) : (forall a b, P a b <-> Q a b) -> forall a b, clos_refl_trans Z P a b <-> clos_refl_trans Z Q a b.
Proof.
  intros H a b. split.
  - induction 1 as [u v W|u|u v w A1 A2 A3 A4]; [apply rt_step, H; auto|apply rt_refl|eapply rt_trans; eauto].
  - induction 1 as [u v W|u|u v w A1 A2 A3 A4]; [apply rt_step, H; auto|apply rt_refl|eapply rt_trans; eauto].
Qed.

Section Merged.
Variables (pt : Type) (svd : (nat -> nat -> R) -> quat) (lr : mat3 -> vec3) (uq : bool) (pick : dstate -> nat) (g0 : graph).
Hypothesis Hh : good_heap pick.
Variables (bpts : Z -> list vec3) (nc nb : nat) (ins : list (insertion pt)) (t : tables pt).
Hypothesis AD : after_detection nc nb ins t.
Hypothesis Hp : paired t.
Lemma merged_groups prs s s' : reached svd lr uq pick g0 bpts t s ->
  usable_pairs (observed_groups (ca_groups s) (ca_gobs s)) (length (ca_groups s)) (map (fun '(k, (_, n)) => (k, n)) prs) ->
  mergeGroups pick g0 t prs s = Some s' ->
  (forall k' G', mfind k' (ca_groups s') = Some G' -> exists r R, mfind r (ca_groups s) = Some R /\ cg_ref R = cg_ref G' /\
     forall c P', mfind c (cg_poses G') = Some P' -> exists k G P l ps, mfind k (ca_groups s) = Some G /\ mfind c (cg_poses G) = Some P /\
       starts_ends l r k /\ NoDup l /\ consecutive (has_pair prs) l /\ group_steps prs l ps /\ P' = pmul P (fold_left pmul ps pid) /\
       (forall p n, r <> k -> mfind (r, k) prs = Some (p, n) -> 2 <= n -> fold_left pmul ps pid = p)) /\
  (forall k G c, mfind k (ca_groups s) = Some G -> group_sees t G -> In c (cg_cams G) -> exists k', member (ca_groups s') k' c) /\
  (forall a b k l k' l', member (ca_groups s) k a -> member (ca_groups s) l b -> member (ca_groups s') k' a -> member (ca_groups s') l' b ->
     (k' = l' <-> clos_refl_sym_trans Z (has_pair prs) k l)).
Proof.
  intros Rd UP EM. destruct (reached_ok svd lr uq pick g0 Hh bpts nc nb ins t AD Hp s Rd) as (bss & ol & css & gl & CO).
  destruct (groups_keep_ok pick g0 Hh bpts nc nb ins t AD prs s s' bss ol css gl CO UP EM) as (css' & gl' & CO' & _ & _ & PP & L & Mi & Tot & Mg).
  assert (GK := co_groups_ok _ _ _ _ _ _ _ CO). assert (GK' := co_groups_ok _ _ _ _ _ _ _ CO').
  assert (E2 := co_groups _ _ _ _ _ _ _ CO). assert (E2' := co_groups _ _ _ _ _ _ _ CO').
  destruct (observed_groups_ok css gl (ca_gobs s) GK) as (So & IO). rewrite <- E2 in IO, So.
  set (obs := observed_groups (ca_groups s) (ca_gobs s)) in *. set (es := map (fun '(k, (_, n)) => (k, n)) prs) in *.
  set (V := vertices obs es) in *. set (comps := connectedComponents (covis_graph g0 V es)) in *.
  destruct (comps_partition V es PP g0) as (CN & CI & CC). fold comps in CN, CI, CC.
  assert (L' := gk_len css' gl' GK').
  split; [|split].
  - intros k' G' HG'. rewrite E2' in HG'. apply mfind_In, dense_In in HG' as (i & -> & HG').
    destruct (nth_error_length_ex gl' comps i G' L HG') as (c & Hc). destruct (nth_error_length_ex gl' css' i G' (eq_sym L') HG') as (cs' & Hcs').
    assert (Cin := nth_error_In _ _ Hc). assert (Om := Mi c Cin). apply IO in Om as (r & R & Er & HR & _).
    assert (Gr' := gk_wb css' gl' GK' i cs' G' Hcs' HG').
    destruct (nth_error_length_ex gl css r R (eq_sym (gk_len css gl GK)) HR) as (rs & Hrs). assert (Rr := gk_wb css gl GK r rs R Hrs HR).
    destruct (comp_facts V es PP g0 c Cin) as (Ne & _). destruct (min_of_spec c Ne) as (Hm & Hmin).
    assert (Det : forall a P', In (a, P') cs' -> exists k G P l ps, In (Z.of_nat k) c /\ nth_error gl k = Some G /\ In a (cg_cams G) /\ mfind a (cg_poses G) = Some P /\
       starts_ends l (Z.of_nat r) (Z.of_nat k) /\ NoDup l /\ consecutive (has_pair prs) l /\ group_steps prs l ps /\ P' = pmul P (fold_left pmul ps pid) /\
       (forall p n, Z.of_nat r <> Z.of_nat k -> mfind (Z.of_nat r, Z.of_nat k) prs = Some (p, n) -> 2 <= n -> fold_left pmul ps pid = p)).
    { intros a P' Hin. apply (Mg i c cs' Hc Hcs') in Hin as (j & bs & T & P & J1 & J2 & J3 & J4 & ->).
      destruct (nth_error_length_ex css gl j bs (gk_len css gl GK) J2) as (G & HG). assert (Gr := gk_wb css gl GK j bs G J2 HG).
      destruct (comp_path V es (map (fun '(k, (P, _)) => (k, P)) prs) PP pick Hh g0 step_fwd c (Z.of_nat j) Cin J1) as (l & (R1 & R2 & R3 & R4) & EP).
      assert (Dir : forall p n, Z.of_nat r <> Z.of_nat j -> mfind (Z.of_nat r, Z.of_nat j) prs = Some (p, n) -> 2 <= n -> T = p).
      { intros p n Nj Hn L2. rewrite Er in J4. rewrite (covis_direct g0 V es pick step_fwd (map (fun '(k, (P, _)) => (k, P)) prs) (Z.of_nat r) (Z.of_nat j) n PP Hh Nj) in J4; [|unfold es; apply in_map_iff; exists ((Z.of_nat r, Z.of_nat j), (p, n)); split; [auto|eapply mfind_In; eauto]|auto].
        unfold chain_transform in J4. cbn [edges_of fold_left] in J4. rewrite (proj2 (mfind_steps prs (Z.of_nat r, Z.of_nat j) p) (ex_intro _ n Hn)) in J4. injection J4 as <-. unfold step_fwd. apply pmul_id_l. }
      rewrite EP in J4. destruct (chain_fwd_product _ _ _ J4) as (ps & F & ->). exists j, G, P, l, ps. rewrite Er in R1.
      split; auto. split; auto. split; [rewrite (gr_cams _ _ Gr); apply (in_map fst) in J3; auto|]. split; [apply (gr_poses _ _ Gr); auto|]. split; [split; auto|]. split; auto.
      assert (F' : group_steps prs l ps) by (unfold group_steps; clear -F; induction F; constructor; auto; apply mfind_steps; auto).
      split; [eapply steps_consecutive; eauto|]. split; [auto|]. split; [auto|exact Dir]. }
    exists (Z.of_nat r), R. split; [rewrite E2; apply dense_nth; auto|]. split.
    + assert (Go := gk_or css gl GK r R HR). assert (Go' := gk_or css' gl' GK' i G' HG').
      assert (A1 : In (cg_ref R) (cg_cams G')).
      { assert (M := go_member _ Go). rewrite (gr_cams _ _ Rr) in M. apply in_map_iff in M as ((x & P) & Ex & M). cbn in Ex. subst x.
        destruct (Tot c Cin) as (tps & Etps). destruct (component_poses_mem _ _ _ _ _ _ (Z.of_nat r) Etps) as (T & ET); [rewrite <- Er; auto|].
        rewrite (gr_cams _ _ Gr'). apply (in_map fst _ (cg_ref R, pmul P T)). apply (Mg i c cs' Hc Hcs'). exists r, rs, T, P.
        split; [rewrite <- Er; auto|]. split; auto. }
      apply (go_min _ Go') in A1. assert (A2 := go_member _ Go'). rewrite (gr_cams _ _ Gr') in A2. apply in_map_iff in A2 as ((x & P) & Ex & A2). cbn in Ex. subst x.
      destruct (Det _ _ A2) as (k & G & _ & _ & _ & K1 & K2 & K3 & _). apply (go_min _ (gk_or css gl GK k G K2)) in K3.
      assert (cg_ref R <= cg_ref G)%Z; [|lia]. specialize (Hmin _ K1). rewrite Er in Hmin. assert (Q : r = k \/ r < k) by lia. destruct Q as [->|Q]; [assert (R = G) by congruence; subst; lia|].
      assert (cg_ref R < cg_ref G)%Z; [|lia]. apply (sorted_nth (map cg_ref gl) (gk_refs _ _ GK) r k); auto; rewrite nth_error_map; [rewrite HR|rewrite K2]; auto.
    + intros a P' HP'. apply (gr_poses _ _ Gr') in HP'. destruct (Det a P' HP') as (k & G & P & l & ps & _ & K2 & _ & K3). exists (Z.of_nat k), G, P, l, ps.
      split; [rewrite E2; apply dense_nth; auto|]. auto.
  - intros k G a HG HS Ha. rewrite E2 in HG. apply mfind_In, dense_In in HG as (j & -> & HG).
    assert (Oj : In (Z.of_nat j) V).
    { apply vertices_In; [apply sorted_lt_NoDup; auto|]. left. apply IO. exists j, G. split; auto. split; auto. apply (co_nums _ _ _ _ _ _ _ CO j G HG). auto. }
    apply CI in Oj. apply in_concat in Oj as (c & Cin & Hj). assert (Cin' := Cin). apply In_nth_error in Cin' as (i & Hc).
    destruct (nth_error_length_ex comps css' i c (eq_trans (eq_sym L) (eq_sym L')) Hc) as (cs' & Hcs'). exists (Z.of_nat i).
    rewrite E2'. apply (member_nth css' gl' _ a GK'). exists i, cs'. split; auto. split; auto.
    destruct (nth_error_length_ex gl css j G (eq_sym (gk_len css gl GK)) HG) as (bs & Hbs). assert (Gr := gk_wb css gl GK j bs G Hbs HG).
    rewrite (gr_cams _ _ Gr) in Ha. apply in_map_iff in Ha as ((x & P) & Ex & Ha). cbn in Ex. subst x.
    destruct (Tot c Cin) as (tps & Etps). destruct (component_poses_mem _ _ _ _ _ _ _ Etps Hj) as (T & ET).
    apply (in_map fst _ (a, pmul P T)). apply (Mg i c cs' Hc Hcs'). exists j, bs, T, P. auto 10.
  - assert (W : forall a k k', member (ca_groups s) k a -> member (ca_groups s') k' a -> exists i c, k' = Z.of_nat i /\ nth_error comps i = Some c /\ In k c).
    { intros a k k' M M'. rewrite E2' in M'. apply (member_nth css' gl' _ a GK') in M' as (i & cs' & -> & Hcs' & Ha).
      destruct (nth_error_length_ex css' comps i cs' (eq_trans L' L) Hcs') as (c & Hc). exists i, c. split; auto. split; auto.
      apply in_map_iff in Ha as ((x & P) & Ex & Ha). cbn in Ex. subst x. destruct (proj1 (Mg i c cs' Hc Hcs' a P) Ha) as (j & bs & T & P0 & J1 & J2 & J3 & _).
      assert (Mj : member (ca_groups s) (Z.of_nat j) a) by (rewrite E2; apply (member_nth css gl _ a GK); exists j, bs; split; auto; split; auto; apply (in_map fst) in J3; auto).
      rewrite E2 in M, Mj. rewrite (member_unique css gl k _ a GK M Mj). auto. }
    intros a b k l k' l' Ma Mb Ma' Mb'. destruct (W a k k' Ma Ma') as (i & c & -> & Hc & Hk). destruct (W b l l' Mb Mb') as (i' & c' & -> & Hc' & Hl).
    assert (VI : forall i x c, nth_error comps i = Some c -> In x c -> In x V) by (intros i0 x c0 H0 H1; apply CI; apply in_concat; exists c0; split; auto; eapply nth_error_In; eauto).
    assert (CE := connected_pairs prs). fold es in CE. rewrite <- CE, <- (CC k l) by eauto. split.
    + intros E. apply Nat2Z.inj in E. subst i'. assert (c' = c) by congruence. subst. exists c. split; auto. eapply nth_error_In; eauto.
    + intros (d & Hd & Dk & Dl). apply In_nth_error in Hd as (j & Hd). f_equal.
      rewrite (NoDup_concat_unique comps i j c d k CN Hc Hd Hk Dk). symmetry. apply (NoDup_concat_unique comps i' j c' d l CN Hc' Hd Hl Dl).
Qed.
End Merged.
