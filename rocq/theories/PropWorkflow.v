(** Whole runs of the calibration application: C39, C50, C51. *)
From Coq Require Import List ZArith QArith Lia Reals Lra Permutation Sorted.
From Verif Require Import SMap GraphModel GraphSpec DataModel DataSpec DataProofs DetectModel DetectSpec DetectProofs RansacModel RansacSpec RansacProofs
  GeomModel GeomSpec GeomProofs GeomMedian ChainModel ChainSpec ChainProofs ChainCam
  ObjectsModel ObjectsSpec ObjectsProofs ObjectsSave ObjectsBuild ObjectsMerge ObjectsObs
  GroupModel GroupSpec GroupProofs GroupMerge GroupObs StageModel StageSpec StageProofs StageMain StageCams StageMerge
  PipelineModel PipelineSpec PipelineProofs ObjectsMain EstimateAll HandEyeModel HandEyeProofs CameraModel ResidualModel ResidualSpec ResidualProofs ResidualMain ResidualGroup
  ResidualSolve FileModel IntrinsicModel GroupAll PropHandEye PropStale PropResidual PropFile WorkflowModel WorkflowRigid WorkflowProofs WorkflowReach WorkflowWhole.
Import ListNotations.
Close Scope Q_scope.
Close Scope R_scope.
Open Scope nat_scope.

(** ** C39 *)
(** Whatever the optimiser does (as long as it leaves alone what it is not given), with
    fix_intrinsic set the intrinsic parameters after the run are those after
    initialisation. *)
Theorem C39_fixed_intrinsics_never_change :
  forall svd lr uq pick g0 solve bpts models thresh it env pose0 calib2 fixi, ceres solve -> fixi <> 0%Z ->
  forall src t0 p0 gp0 r, calibrate svd lr uq pick g0 solve bpts models thresh it env pose0 calib2 fixi src t0 p0 gp0 = Some r ->
  exists i, initializeCalibrationAllCam bpts models src t0 (pa_intr p0) = Some i /\ forall c, pa_intr (ru_p r) c = i c.
Proof.
  intros svd lr uq pick g0 solve bpts models thresh it env pose0 calib2 fixi CE F src t0 p0 gp0 r E.
  exact (calibrate_intr svd lr uq pick g0 solve bpts models thresh it env pose0 calib2 fixi CE src t0 p0 gp0 r F E).
Qed.

(** what initialisation leaves for each camera *)
Lemma init_each bpts models src t i0 i : NoDup (mkeys (t_cams t)) -> initializeCalibrationAllCam bpts models src t i0 = Some i ->
  (forall c, In c (mkeys (t_cams t)) -> init_camera bpts models src t c (i0 c) = Some (i c)) /\ (forall c, ~ In c (mkeys (t_cams t)) -> i c = i0 c).
Proof.
  unfold initializeCalibrationAllCam. revert i0. induction (mkeys (t_cams t)) as [|c l IH]; intros i0 N E; cbn [fold_left] in E.
  - injection E as <-. split; [intros c []|auto].
  - inversion N as [|? ? Hc N']; subst. destruct (init_camera bpts models src t c (i0 c)) as [x|] eqn:Ex; cbn [option_map] in E.
    + apply (IH _ N') in E as (A & B). split.
      * intros d [<-|Hd].
        -- rewrite (B c Hc), Z.eqb_refl. exact Ex.
        -- specialize (A d Hd). destruct (Z.eqb_spec d c) as [Q|_]; [rewrite Q in Hd; contradiction|exact A].
      * intros d Hd. rewrite B by (intros H; apply Hd; right; auto). destruct (Z.eqb_spec d c) as [Q|_]; [|auto]. exfalso. apply Hd. left; auto.
    + exfalso. clear - E. induction l as [|a l IH]; cbn in E; [discriminate E|auto].
Qed.
Lemma records_of models r c k : In (c, k) (saved_cameras models r) -> r_K k = getCameraMat (pa_intr (ru_p r) c) /\ r_dist k = getDistortionVector (models c) (pa_intr (ru_p r) c) /\ r_type k = models c.
Proof.
  unfold saved_cameras, saveCamerasParams. intros H.
  assert (G : forall gs out op c k, In (c, k) (fst (fold_left (fun '(out, is_open) '(g, G) =>
         (if is_open : bool then out ++ group_records (cameras_of models r) g G else out, false)) gs (out, op))) -> In (c, k) out \/ exists g G, In (c, k) (group_records (cameras_of models r) g G)).
  { clear. induction gs as [|(g, G) gs IH]; intros out op c k H; cbn [fold_left] in H; [left; exact H|].
    apply IH in H as [H|H]; [|auto]. destruct op; [|auto]. apply in_app_iff in H as [H|H]; [auto|]. right. eauto. }
  apply G in H as [[]|(g & G' & H)]. unfold group_records in H. apply in_flat_map in H as (d & _ & H).
  destruct (mfind d (cameras_of models r)) as [ca|] eqn:Ec; [|destruct H]. destruct (mfind d (cg_poses G')) as [P|]; [|destruct H].
  destruct H as [H|[]]. injection H as -> <-. cbn [r_K r_dist r_type].
  apply mfind_In in Ec. unfold cameras_of in Ec. apply in_map_iff in Ec as ((c', e) & Eq & _). injection Eq as -> <-. cbn [k_intr k_model]. auto.
Qed.
(** Started from a file of camera parameters, with fix_intrinsic set: the parameters saved
    for a camera are those of the file. *)
Theorem C39_the_file_is_kept :
  forall svd lr uq pick g0 solve bpts models thresh it env pose0 calib2 fixi, ceres solve -> fixi <> 0%Z ->
  forall file t0 p0 gp0 r, NoDup (mkeys (t_cams t0)) -> calibrate svd lr uq pick g0 solve bpts models thresh it env pose0 calib2 fixi (FromFile file) t0 p0 gp0 = Some r ->
  forall c k, In c (mkeys (t_cams t0)) -> In (c, k) (saved_cameras models r) ->
  exists e, entry file c = Some e /\ (proper_matrix (r_K e) -> coefficients (models c) (length (r_dist e)) -> r_K k = r_K e /\ r_dist k = r_dist e).
Proof.
  intros svd lr uq pick g0 solve bpts models thresh it env pose0 calib2 fixi CE F file t0 p0 gp0 r N E c k Hc Hk.
  destruct (C39_fixed_intrinsics_never_change svd lr uq pick g0 solve bpts models thresh it env pose0 calib2 fixi CE F _ _ _ _ _ E) as (i & Ei & Ha).
  apply (init_each _ _ _ _ _ _ N) in Ei as (Ei & _). specialize (Ei c Hc). cbn [init_camera] in Ei. destruct (entry file c) as [e|]; [|discriminate Ei].
  exists e. split; [auto|]. intros PM CO. destruct (C38_set_then_get (models c) (r_K e) (r_dist e) (pa_intr p0 c) PM CO) as (i' & Es & Eg).
  rewrite Ei in Es. injection Es as Es. destruct (records_of _ _ _ _ Hk) as (-> & -> & _). rewrite Ha, Es. unfold getIntrinsics in Eg. injection Eg as -> ->. auto.
Qed.
(** A named file that is missing does not stop the run and is not replaced by an
    initialisation from images (as the comment at McCalib.cpp 657-659 has it): the cameras keep
    whatever was in memory, and with fix_intrinsic that is what is saved. *)
Theorem C39_missing_file_leaves_memory :
  (forall bpts models t i0, exists i, initializeCalibrationAllCam bpts models NoFile t i0 = Some i /\ forall c, i c = i0 c) /\
  (forall svd lr uq pick g0 solve bpts models thresh it env pose0 calib2 fixi, ceres solve -> fixi <> 0%Z ->
   forall t0 p0 gp0 r, calibrate svd lr uq pick g0 solve bpts models thresh it env pose0 calib2 fixi NoFile t0 p0 gp0 = Some r ->
   forall c k, In (c, k) (saved_cameras models r) -> (r_K k, r_dist k) = getIntrinsics (models c) (pa_intr p0 c)).
Proof.
  assert (I : forall bpts models t i0, exists i, initializeCalibrationAllCam bpts models NoFile t i0 = Some i /\ forall c, i c = i0 c).
  { intros bpts models t i0. unfold initializeCalibrationAllCam. cbn [init_camera].
    assert (G : forall l i, (forall c, i c = i0 c) -> exists i', fold_left (fun acc c => match acc with Some i => option_map (fun x c' => if Z.eqb c' c then x else i c') (Some (i c)) | None => None end) l (Some i) = Some i' /\ forall c, i' c = i0 c).
    { induction l as [|c l IH]; intros i H; cbn [fold_left option_map]; [eauto|]. apply IH. intros c'. destruct (Z.eqb_spec c' c) as [->|]; auto. }
    apply G. auto. }
  split; [exact I|]. intros svd lr uq pick g0 solve bpts models thresh it env pose0 calib2 fixi CE F t0 p0 gp0 r E c k Hk.
  destruct (C39_fixed_intrinsics_never_change svd lr uq pick g0 solve bpts models thresh it env pose0 calib2 fixi CE F _ _ _ _ _ E) as (i & Ei & Ha).
  destruct (I bpts models t0 (pa_intr p0)) as (i' & Ei' & Hi). rewrite Ei in Ei'. injection Ei' as <-.
  destruct (records_of _ _ _ _ Hk) as (-> & -> & _). rewrite Ha, Hi. reflexivity.
Qed.
Print Assumptions C39_missing_file_leaves_memory.

(** Without fix_intrinsic the intrinsic parameters change only while each camera is refined
    on its own and in the last refinement. *)
Theorem C39_intrinsics_change_in_two_steps :
  forall svd lr uq pick g0 solve bpts models thresh it env pose0 calib2 fixi, ceres solve ->
  forall src t0 p0 gp0 r, calibrate svd lr uq pick g0 solve bpts models thresh it env pose0 calib2 fixi src t0 p0 gp0 = Some r ->
  exists r0 r1, initIntrinsic solve bpts models thresh it env pose0 fixi src t0 p0 gp0 = Some r0 /\ (forall c, pa_intr (ru_p r1) c = pa_intr (ru_p r0) c) /\
                (if Z.eqb fixi 0 then refine_intrinsic_step solve bpts models r1 = Some r else r = r1).
Proof.
  intros svd lr uq pick g0 solve bpts models thresh it env pose0 calib2 fixi CE src t0 p0 gp0 r E.
  apply bind_Some in E as (r0 & E0 & E). exists r0.
  apply bind_Some in E as (r1 & E1 & E). apply bind_Some in E as (r2 & E2 & E). apply bind_Some in E as (r3 & E3 & E). apply bind_Some in E as (r4 & E4 & E).
  apply bind_Some in E as (r5 & E5 & E). apply bind_Some in E as (r6 & E6 & E). apply bind_Some in E as (r7 & E7 & E).
  apply bind_Some in E1 as (x1 & E1 & E1'). apply bind_Some in E1' as (x2 & E1' & E1'').
  apply bind_Some in E2 as (y1 & E2 & E2'). apply bind_Some in E2' as (y2 & E2' & E2'').
  apply bind_Some in E as (z1 & E & E'). apply bind_Some in E' as (z2 & E' & E''). apply bind_Some in E'' as (z3 & E'' & E3').
  exists z3. split; [auto|]. split; [|destruct (Z.eqb fixi 0); [exact E3'|injection E3' as <-; auto]].
  enough (S : same_intr r0 z3) by exact S.
  eapply same_trans; [eapply new_objects_intr; eauto|]. eapply same_trans; [eapply estimate_intr; eauto|]. eapply same_trans; [eapply refine_objs_intr; eauto|].
  eapply same_trans; [eapply new_groups_intr; eauto|]. eapply same_trans; [eapply group_poses_intr; eauto|]. eapply same_trans; [eapply refine_intr; eauto|].
  eapply same_trans; [eapply merge_intr; eauto|]. eapply same_trans; [eapply pairs_intr; eauto|]. eapply same_trans; [eapply mergeGroups_intr; eauto|].
  eapply same_trans; [eapply merge_intr; eauto|]. eapply same_trans; [eapply mergeGroups_intr; eauto|].
  eapply same_trans; [eapply estimate_intr; eauto|]. eapply same_trans; [eapply group_poses_intr; eauto|]. eapply refine_intr; eauto.
Qed.
Print Assumptions C39_fixed_intrinsics_never_change.
Print Assumptions C39_the_file_is_kept.
Print Assumptions C39_intrinsics_change_in_two_steps.

(** ** C50 *)
Lemma refine_both_obs solve bpts models s p p' n : ceres solve -> refineAllCameraGroupAndObjects solve bpts models s p = Some p' -> pa_pose p' (KObjObs n) = pa_pose p (KObjObs n).
Proof.
  intros CE E. eapply solve_each_pose; [eauto| |exact E]. intros G q bs b _ Eb Hb.
  apply (gather_In _ _ _ b Eb) in Hb as ((k, m) & y & _ & Ey & Hy). destruct (view_data s m) as [(oo, o)|]; [|injection Ey as <-; destruct Hy].
  destruct (corner_blocks_shape _ _ _ _ _ _ _ Ey Hy) as (bd & x & u & ->). cbn. destruct (negb _), (negb _); cbn; intuition discriminate.
Qed.
Lemma refine_all_obs solve bpts models s p p' n : ceres solve -> refineAllCameraGroupAndObjectsAndIntrinsic solve bpts models s p = Some p' -> pa_pose p' (KObjObs n) = pa_pose p (KObjObs n).
Proof.
  intros CE E. eapply solve_each_pose; [eauto| |exact E]. intros G q bs b _ Eb Hb.
  apply (gather_In _ _ _ b Eb) in Hb as ((k, m) & y & _ & Ey & Hy). destruct (view_data s m) as [(oo, o)|]; [|injection Ey as <-; destruct Hy].
  destruct (corner_blocks_shape _ _ _ _ _ _ _ Ey Hy) as (bd & x & u & ->). cbn. destruct (negb _), (negb _); cbn; intuition discriminate.
Qed.
Lemma put_group_obs m n : forall p p', put_group_poses m p = Some p' -> pa_pose p' (KObjObs n) = pa_pose p (KObjObs n).
Proof.
  unfold put_group_poses. assert (G : forall m (acc : option params) p', 
    fold_left (fun acc '(k, om) => fold_left (fun acc '(o, v) => match acc, v with Some p, Some P => Some (put_pose (KGroup k o) P p) | _, _ => None end) om acc) m acc = Some p' ->
    exists p, acc = Some p /\ pa_pose p' (KObjObs n) = pa_pose p (KObjObs n)).
  { clear m. induction m as [|(k, om) m IH]; intros acc p' E; cbn [fold_left] in E; [eauto|]. apply IH in E as (p1 & E & ->). clear IH m.
    revert acc E. induction om as [|(o, v) om IH]; intros acc E; cbn [fold_left] in E; [eauto|]. apply IH in E as (p2 & E & ->).
    destruct acc as [p|]; [|discriminate E]. destruct v as [P|]; [|discriminate E]. injection E as <-. exists p. auto. }
  intros p p' E. apply G in E as (q & [= <-] & ->). auto.
Qed.
Lemma same_ids bpts rf rg (s : calib pt2) : map (fun e => (fst e, ob_id (snd e))) (ca_objs (refine_calib bpts rf rg s)) = map (fun e => (fst e, ob_id (snd e))) (ca_objs s).
Proof. unfold refine_calib, refine_objects. cbn [ca_objs]. rewrite map_map. apply map_ext. intros (k, o). reflexivity. Qed.
Lemma saved_ids (p : params) (s s' : calib pt2) : map (fun e => (fst e, ob_id (snd e))) (ca_objs s') = map (fun e => (fst e, ob_id (snd e))) (ca_objs s) -> ca_oobs s' = ca_oobs s -> save3DObjPose p s' = save3DObjPose p s.
Proof.
  intros E Eo. unfold save3DObjPose. rewrite Eo. set (F := fun e : Z * Z => (snd e, map (fun n => pa_pose p (KObjObs n)) (table_of (snd e) (ot_objs (ca_oobs s))))).
  transitivity (map F (map (fun e => (fst e, ob_id (snd e))) (ca_objs s'))); [rewrite map_map; apply map_ext; intros (k, o); reflexivity|].
  rewrite E, map_map. apply map_ext. intros (k, o). reflexivity.
Qed.
(** The poses in the file of object poses are those found by the last pose estimation,
    which looks at one image at a time; no refinement changes them. *)
Theorem C50_saved_object_poses_are_not_refined :
  forall svd lr uq pick g0 solve bpts models thresh it env pose0 calib2 fixi, ceres solve ->
  forall src t0 p0 gp0 r, calibrate svd lr uq pick g0 solve bpts models thresh it env pose0 calib2 fixi src t0 p0 gp0 = Some r ->
  exists p objs ps, estimatePoseAllObjects (env 6) (cam_of models p) objs (pose0 6) thresh it (ot_all (ca_oobs (ru_s r))) = Some ps /\
  forall o poses, In (o, poses) (saved_poses r) -> poses = map (fun n => nth n ps (pa_pose p (KObjObs n))) (table_of o (ot_objs (ca_oobs (ru_s r)))).
Proof.
  intros svd lr uq pick g0 solve bpts models thresh it env pose0 calib2 fixi CE src t0 p0 gp0 r E.
  do 7 (apply bind_Some in E as (? & _ & E)). apply bind_Some in E as (r0 & _ & E).
  apply bind_Some in E as (r1 & E1 & E). apply bind_Some in E as (r2 & E2 & E). apply bind_Some in E as (r3 & E3 & E).
  assert (S3 : forall n, pa_pose (ru_p r) (KObjObs n) = pa_pose (ru_p r3) (KObjObs n)).
  { intros n. destruct (Z.eqb fixi 0); [|injection E as <-; auto]. apply omap_Some in E as (p & E & ->). cbn [ru_p]. eapply refine_all_obs; eauto. }
  assert (O3 : ca_oobs (ru_s r) = ca_oobs (ru_s r3)).
  { destruct (Z.eqb fixi 0); [|injection E as <-; auto]. apply omap_Some in E as (p & E & ->). reflexivity. }
  apply omap_Some in E3 as (p3 & E3 & ->). apply omap_Some in E2 as (p2 & E2 & ->). apply omap_Some in E1 as (ps & E1 & ->).
  cbn [ru_p ru_s with_ps] in *. exists (ru_p r0), (ca_objs (ru_s r0)), ps.
  assert (O : ca_oobs (ru_s r) = ca_oobs (ru_s r0)) by (rewrite O3; reflexivity). rewrite O. split; [exact E1|].
  intros o poses H. unfold saved_poses, save3DObjPose in H. apply in_map_iff in H as ((k, ob) & Eq & _). injection Eq as <- <-. rewrite O.
  apply map_ext. intros n. rewrite S3, (refine_both_obs _ _ _ _ _ _ n CE E3), (put_group_obs _ n _ _ E2). reflexivity.
Qed.
Print Assumptions C50_saved_object_poses_are_not_refined.

(** ** C51 *)
(** A run that completes ends in a state the stages can produce (so everything proved of
    reached states holds of its results: C24, C26-C28, C30, C31, C36, C37, C42, C44): the
    optimiser's parameters hold the poses of boards and cameras, and these are rigid. *)
Theorem C51_completed_runs_are_consistent :
  forall svd lr uq pick g0 solve bpts models thresh it env pose0 calib2 fixi, ceres solve -> good_heap pick -> log_ok lr -> (forall n, fair_shuffles (env 0 n)) ->
  (forall l l' X, calib2 l l' = Some X -> rigid X) ->
  forall nc nb (ins : list (insertion pt2)) t0, Forall (known nc nb) ins -> Forall (detected_well bpts) ins -> insert_all (init_tables nc nb) ins = Some t0 ->
  forall src p0 gp0 r, calibrate svd lr uq pick g0 solve bpts models thresh it env pose0 calib2 fixi src t0 p0 gp0 = Some r ->
  after_detection nc nb ins (ru_t r) /\ (forall o, In o (mvals (t_obs (ru_t r))) -> trimmed bpts o) /\
  reached svd lr uq pick g0 bpts (ru_t r) (ru_s r) /\ represents (ru_p r) (ca_objs (ru_s r)) (ca_groups (ru_s r)) /\
  (forall k o b P, In (k, o) (ca_objs (ru_s r)) -> mfind b (ob_poses o) = Some P -> rigid P) /\
  (forall k G c P, In (k, G) (ca_groups (ru_s r)) -> mfind c (cg_poses G) = Some P -> rigid P).
Proof.
  intros svd lr uq pick g0 solve bpts models thresh it env pose0 calib2 fixi CE Hh LO Fair Rc nc nb ins t0 Kn Dw Ei src p0 gp0 r E.
  destruct (calibrate_good svd lr uq pick g0 solve bpts models thresh it env pose0 calib2 fixi CE Hh LO Fair Rc nc nb ins t0 Kn Dw Ei src p0 gp0 r E) as (A & B & C).
  split; [exact A|]. split; [exact B|]. destruct C as [_ Rd RP RO RG]. split; [exact Rd|]. split; [exact RP|]. split.
  - intros k o b P H Hm. exact (RO k o H b P (mfind_In _ _ _ Hm)).
  - intros k G c P H Hm. exact (RG k G H c P (mfind_In _ _ _ Hm)).
Qed.
Print Assumptions C51_completed_runs_are_consistent.
