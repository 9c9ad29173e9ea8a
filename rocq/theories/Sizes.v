(** The calibration does not look at the recorded image sizes except where it estimates
    the intrinsics from images: two tables with the same observations and cameras that
    differ only in the sizes give the same run, up to those sizes. *)
From Coq Require Import List ZArith Lia Reals.
From Verif Require Import SMap DataModel DetectModel GeomModel RansacModel ChainModel ObjectsModel GroupModel StageModel
  PipelineModel HandEyeModel CameraModel ResidualModel GraphModel FileModel WorkflowModel WorkflowProofs DataSave.
Import ListNotations.
Open Scope nat_scope.

Definition with_cams (cs : smap Z (@cam_t)) (t : tables pt2) : tables pt2 := mkT (t_obs t) cs (t_boards t) (t_frames t) (t_camobs t).

(** same cameras with the same observations *)
Definition alike (cs cs' : smap Z (@cam_t)) : Prop :=
  map (fun e => (fst e, c_obs (snd e))) cs = map (fun e => (fst e, c_obs (snd e))) cs'.

Definition run_cams (cs : smap Z (@cam_t)) (r : run) : run := mkRun (with_cams cs (ru_t r)) (ru_p r) (ru_gp r) (ru_prs r) (ru_s r).

Lemma with_cams_self t : with_cams (t_cams t) t = t.
Proof. destruct t; reflexivity. Qed.
Lemma with_cams_with a b t : with_cams a (with_cams b t) = with_cams a t.
Proof. reflexivity. Qed.

Lemma alike_keys cs cs' : alike cs cs' -> mkeys cs = mkeys cs'.
Proof.
  intros A. apply (f_equal (map fst)) in A. rewrite !map_map in A. unfold mkeys. exact A.
Qed.
Lemma alike_observed cs t : alike (t_cams t) cs -> observed_cams (with_cams cs t) = observed_cams t.
Proof.
  unfold alike, observed_cams. cbn [with_cams t_cams]. intros A. symmetry.
  revert A. generalize (t_cams t) as cs'. intros cs'. revert cs. induction cs' as [|[k c] r IH]; intros [|[k' c'] r']; intros A; try discriminate A; auto.
  injection A as <- B C. cbn [filter snd]. rewrite <- ?B.
  destruct (0 <? length (c_obs c)); cbn [map fst]; [f_equal|]; exact (IH _ C).
Qed.
Lemma alike_find cs cs' c : alike cs cs' -> option_map c_obs (mfind c cs) = option_map c_obs (mfind c cs').
Proof.
  unfold alike. revert cs'. induction cs as [|[k x] r IH]; intros [|[k' x'] r'] A; try discriminate A; auto.
  injection A as <- B C. cbn [mfind]. destruct (kcmp c k); [cbn; congruence| |]; exact (IH _ C).
Qed.

Lemma gather_boards_cams cs t o ns : forall oo, gather_boards (with_cams cs t) o ns oo = gather_boards t o ns oo.
Proof.
  induction ns as [|n ns IH]; intros oo; [reflexivity|]. cbn [gather_boards]. change (t_obs (with_cams cs t)) with (t_obs t).
  destruct (nth_error (mvals (t_obs t)) n); [|auto].
  repeat match goal with |- context [match ?x with _ => _ end] => destruct x; try reflexivity end; auto.
Qed.
Lemma init3DObjectObs_cams cs t i o cos : forall ot, init3DObjectObs (with_cams cs t) i o cos ot = init3DObjectObs t i o cos ot.
Proof.
  induction cos as [|[k co] r IH]; intros ot; [reflexivity|]. cbn [init3DObjectObs]. rewrite gather_boards_cams.
  destruct (gather_boards t o (mvals (co_obs co)) (new_objobs i)); auto.
Qed.
Lemma initAll_cams cs t objs : forall ot, initAll3DObjectObs (with_cams cs t) objs ot = initAll3DObjectObs t objs ot.
Proof.
  induction objs as [|[i o] r IH]; intros ot; [reflexivity|]. cbn [initAll3DObjectObs]. change (t_camobs (with_cams cs t)) with (t_camobs t).
  rewrite init3DObjectObs_cams. destruct (init3DObjectObs t i o (t_camobs t) ot); auto.
Qed.
Lemma mergeAll_cams cs t objs : mergeAllObjectObs (with_cams cs t) objs = mergeAllObjectObs t objs.
Proof.
  unfold mergeAllObjectObs. generalize (Some (@empty_otables pt2)) as acc. 
  assert (H : forall (l : smap Z obj3d) acc,
    fold_left (fun (acc : option (otables pt2)) (_ : Z * obj3d) => match acc with Some ot => initAll3DObjectObs (with_cams cs t) objs ot | None => None end) l acc =
    fold_left (fun (acc : option (otables pt2)) (_ : Z * obj3d) => match acc with Some ot => initAll3DObjectObs t objs ot | None => None end) l acc).
  { induction l as [|x l IH]; intros acc; [reflexivity|]. cbn [fold_left]. rewrite IH. destruct acc; auto. rewrite initAll_cams; auto. }
  apply H.
Qed.

Section Same.
Variables (svd : (nat -> nat -> R) -> quat) (lr : mat3 -> vec3) (uq : bool) (pick : dstate -> nat) (g0 : graph).
Variables (solve : list block -> params -> params) (bpts : Z -> list vec3) (models : Z -> Z) (thresh : R) (it : Z).
Variables (env : nat -> nat -> rs_env par6 vec3) (pose0 : nat -> nat -> par6).
Variable calib2 : list pose -> list pose -> option pose.
Variable fixi : Z.
Variable cs : smap Z (@cam_t).

Lemma bind_cams {A} (x y : option A) (f g : A -> option A) (h : A -> A) :
  y = option_map h x -> (forall a, x = Some a -> g (h a) = option_map h (f a)) -> bind y g = option_map h (bind x f).
Proof. intros -> H. destruct x as [a|]; cbn; auto. Qed.

Lemma estimate_objects_cams c r :
  estimate_objects_step models thresh it env pose0 c (run_cams cs r) =
  option_map (run_cams cs) (estimate_objects_step models thresh it env pose0 c r).
Proof. unfold estimate_objects_step. cbn [run_cams ru_p ru_s]. destruct (estimatePoseAllObjects _ _ _ _ _ _ _); reflexivity. Qed.
Lemma group_poses_cams r : group_poses_step svd lr uq (run_cams cs r) = option_map (run_cams cs) (group_poses_step svd lr uq r).
Proof. unfold group_poses_step. cbn [run_cams ru_p ru_s ru_gp]. destruct (put_group_poses _ _); reflexivity. Qed.
Lemma refine_cams r : refine_step solve bpts models (run_cams cs r) = option_map (run_cams cs) (refine_step solve bpts models r).
Proof. unfold refine_step. cbn [run_cams ru_p ru_s]. destruct (refineAllCameraGroupAndObjects _ _ _ _ _); reflexivity. Qed.
Lemma refine_intrinsic_cams r : refine_intrinsic_step solve bpts models (run_cams cs r) = option_map (run_cams cs) (refine_intrinsic_step solve bpts models r).
Proof. unfold refine_intrinsic_step. cbn [run_cams ru_p ru_s]. destruct (refineAllCameraGroupAndObjectsAndIntrinsic _ _ _ _ _); reflexivity. Qed.
Lemma refineAllObject3D_cams t s p : refineAllObject3D solve bpts (with_cams cs t) models s p = refineAllObject3D solve bpts t models s p.
Proof. reflexivity. Qed.
Lemma refine_objects_cams r : refine_objects_step solve bpts models (run_cams cs r) = option_map (run_cams cs) (refine_objects_step solve bpts models r).
Proof.
  unfold refine_objects_step. cbn [run_cams ru_p ru_s ru_t]. rewrite refineAllObject3D_cams.
  destruct (refineAllObject3D _ _ _ _ _ _); reflexivity.
Qed.
Lemma objects_stage_cams t f : objects_stage svd lr uq pick g0 bpts (with_cams cs t) f = objects_stage svd lr uq pick g0 bpts t f.
Proof. reflexivity. Qed.
Lemma new_objects_cams r : new_objects svd lr uq pick g0 bpts (run_cams cs r) = option_map (run_cams cs) (new_objects svd lr uq pick g0 bpts r).
Proof.
  unfold new_objects. cbn [run_cams ru_p ru_s ru_t]. rewrite objects_stage_cams.
  destruct (objects_stage _ _ _ _ _ _ _ _) as [objs|]; [|reflexivity]. cbn [bind]. rewrite initAll_cams.
  destruct (initAll3DObjectObs _ _ _) as [ot|]; reflexivity.
Qed.
Lemma calibrate3DObjects_cams r :
  run_calibrate3DObjects svd lr uq pick g0 solve bpts models thresh it env pose0 (run_cams cs r) =
  option_map (run_cams cs) (run_calibrate3DObjects svd lr uq pick g0 solve bpts models thresh it env pose0 r).
Proof.
  unfold run_calibrate3DObjects. apply bind_cams; [apply new_objects_cams|]. intros a _.
  apply bind_cams; [apply estimate_objects_cams|]. intros b _. apply refine_objects_cams.
Qed.
Lemma new_groups_cams r : alike (t_cams (ru_t r)) cs -> new_groups svd lr uq pick g0 (run_cams cs r) = option_map (run_cams cs) (new_groups svd lr uq pick g0 r).
Proof.
  intros A. unfold new_groups, cameras_stage. cbn [run_cams ru_p ru_s ru_t]. rewrite (alike_observed cs (ru_t r) A).
  change (cam_frames (with_cams cs (ru_t r))) with (cam_frames (ru_t r)).
  change (t_frames (with_cams cs (ru_t r))) with (t_frames (ru_t r)).
  match goal with |- bind ?x _ = _ => destruct x end; reflexivity.
Qed.
Lemma calibrateCameraGroup_cams r : alike (t_cams (ru_t r)) cs ->
  run_calibrateCameraGroup svd lr uq pick g0 solve bpts models (run_cams cs r) =
  option_map (run_cams cs) (run_calibrateCameraGroup svd lr uq pick g0 solve bpts models r).
Proof.
  intros A. unfold run_calibrateCameraGroup. apply bind_cams; [apply new_groups_cams; auto|]. intros a _.
  apply bind_cams; [apply group_poses_cams|]. intros b _. apply refine_cams.
Qed.
Lemma merged_objects_cams r : merged_objects svd lr uq pick g0 bpts (run_cams cs r) = option_map (run_cams cs) (merged_objects svd lr uq pick g0 bpts r).
Proof.
  unfold merged_objects. cbn [run_cams ru_p ru_s ru_t].
  destruct (merge_stage _ _ _ _ _ _ _ _ _ _) as [objs|]; [|reflexivity]. cbn [bind]. rewrite mergeAll_cams.
  destruct (mergeAllObjectObs _ _) as [ot|]; reflexivity.
Qed.
Lemma merge3DObjects_cams c r :
  run_merge3DObjects svd lr uq pick g0 solve bpts models thresh it env pose0 c (run_cams cs r) =
  option_map (run_cams cs) (run_merge3DObjects svd lr uq pick g0 solve bpts models thresh it env pose0 c r).
Proof.
  unfold run_merge3DObjects. apply bind_cams; [apply estimate_objects_cams|]. intros a _.
  apply bind_cams; [apply group_poses_cams|]. intros b _.
  apply bind_cams; [apply merged_objects_cams|]. intros d _.
  apply bind_cams; [apply estimate_objects_cams|]. intros e _.
  apply bind_cams; [apply group_poses_cams|]. intros f _. apply refine_cams.
Qed.
Lemma pairs_cams r : run_pairs calib2 (run_cams cs r) = option_map (run_cams cs) (run_pairs calib2 r).
Proof. unfold run_pairs. cbn [run_cams ru_p ru_s]. destruct (findPoseNoOverlapAllCamGroup _ _ _ _); reflexivity. Qed.
Lemma mergeGroups_cams r : run_mergeGroups lr pick g0 (run_cams cs r) = option_map (run_cams cs) (run_mergeGroups lr pick g0 r).
Proof.
  unfold run_mergeGroups. cbn [run_cams ru_p ru_s ru_prs ru_t].
  change (mergeGroups pick g0 (with_cams cs (ru_t r)) (ru_prs r) (ru_s r)) with (mergeGroups pick g0 (ru_t r) (ru_prs r) (ru_s r)).
  destruct (mergeGroups _ _ _ _ _); reflexivity.
Qed.
Lemma final_cams r : run_final svd lr uq solve bpts models thresh it env pose0 fixi (run_cams cs r) =
  option_map (run_cams cs) (run_final svd lr uq solve bpts models thresh it env pose0 fixi r).
Proof.
  unfold run_final. apply bind_cams; [apply estimate_objects_cams|]. intros a _.
  apply bind_cams; [apply group_poses_cams|]. intros b _.
  apply bind_cams; [apply refine_cams|]. intros d _. destruct (Z.eqb fixi 0); [apply refine_intrinsic_cams|reflexivity].
Qed.

Lemma intr_solve_ext (t : tables pt2) (f g : Z -> list nat) ks p : (forall k, f k = g k) ->
  refineIntrinsicAndPoseAllCam solve bpts t models f ks p = refineIntrinsicAndPoseAllCam solve bpts t models g ks p.
Proof.
  intros H. unfold refineIntrinsicAndPoseAllCam, solve_each. generalize (Some p) as acc.
  induction ks as [|k ks IH]; intros acc; [reflexivity|].
  cbn [fold_left]. rewrite IH. f_equal. destruct acc; auto. rewrite H. reflexivity.
Qed.

Lemma initIntrinsic_cams src t0 p0 gp0 : alike (t_cams t0) cs ->
  initializeCalibrationAllCam bpts models src (with_cams cs t0) (pa_intr p0) = initializeCalibrationAllCam bpts models src t0 (pa_intr p0) ->
  initIntrinsic solve bpts models thresh it env pose0 fixi src (with_cams cs t0) p0 gp0 =
  option_map (run_cams cs) (initIntrinsic solve bpts models thresh it env pose0 fixi src t0 p0 gp0).
Proof.
  intros A E. unfold initIntrinsic. rewrite E. destruct (initializeCalibrationAllCam bpts models src t0 (pa_intr p0)) as [i|]; [|reflexivity].
  unfold estimatePoseAllBoards. change (t_obs (with_cams cs t0)) with (t_obs t0).
  destruct (collect _) as [rs|]; [|reflexivity]. cbn [t_cams with_cams].
  destruct (Z.eqb fixi 0); [|reflexivity].
  rewrite <- (alike_keys _ _ A).
  rewrite (intr_solve_ext _ _ (obs_of_cam (mkT (combine (mkeys (t_obs t0)) (map fst rs)) (t_cams t0) (t_boards t0) (t_frames t0) (t_camobs t0)))).
  - match goal with |- option_map _ ?x = _ => change x with
      (refineIntrinsicAndPoseAllCam solve bpts (mkT (combine (mkeys (t_obs t0)) (map fst rs)) (t_cams t0) (t_boards t0) (t_frames t0) (t_camobs t0)) models
        (obs_of_cam (mkT (combine (mkeys (t_obs t0)) (map fst rs)) (t_cams t0) (t_boards t0) (t_frames t0) (t_camobs t0)))
        (mkeys (t_cams t0)) (put_board_obs (map snd rs) (mkPar (pa_pose p0) i))) end.
    destruct (refineIntrinsicAndPoseAllCam _ _ _ _ _ _ _); reflexivity.
  - intros k. unfold obs_of_cam. cbn [t_cams]. pose proof (alike_find _ _ k A) as F.
    destruct (mfind k (t_cams t0)), (mfind k cs); cbn in F; try discriminate F; auto. congruence.
Qed.

Theorem calibrate_cams src t0 p0 gp0 : alike (t_cams t0) cs ->
  initializeCalibrationAllCam bpts models src (with_cams cs t0) (pa_intr p0) = initializeCalibrationAllCam bpts models src t0 (pa_intr p0) ->
  calibrate svd lr uq pick g0 solve bpts models thresh it env pose0 calib2 fixi src (with_cams cs t0) p0 gp0 =
  option_map (run_cams cs) (calibrate svd lr uq pick g0 solve bpts models thresh it env pose0 calib2 fixi src t0 p0 gp0).
Proof.
  intros A E. unfold calibrate. apply bind_cams; [apply initIntrinsic_cams; auto|]. intros a Ea.
  assert (Ta : t_cams (ru_t a) = t_cams t0).
  { unfold initIntrinsic in Ea. destruct (initializeCalibrationAllCam bpts models src t0 (pa_intr p0)) as [i|]; [|discriminate Ea].
    unfold estimatePoseAllBoards in Ea.
    match type of Ea with match match ?c with _ => _ end with _ => _ end = _ => destruct c as [rs|] end; [|discriminate Ea].
    match type of Ea with option_map _ ?x = _ => destruct x as [q|] end; [|discriminate Ea]. injection Ea as <-. reflexivity. }
  apply bind_cams; [apply calibrate3DObjects_cams|]. intros b Eb.
  assert (Tb : ru_t b = ru_t a).
  { unfold run_calibrate3DObjects in Eb. apply bind_Some in Eb. destruct Eb as (x & X & Eb). apply bind_Some in Eb. destruct Eb as (y & Y & Eb).
    unfold refine_objects_step in Eb. destruct (refineAllObject3D _ _ _ _ _ _); [|discriminate Eb]. injection Eb as <-. cbn [with_ps ru_t].
    unfold estimate_objects_step in Y. destruct (estimatePoseAllObjects _ _ _ _ _ _ _); [|discriminate Y]. injection Y as <-. cbn [with_ps ru_t].
    unfold new_objects in X. apply bind_Some in X. destruct X as (o & _ & X). apply bind_Some in X. destruct X as (o' & _ & X). injection X as <-. reflexivity. }
  apply bind_cams; [apply calibrateCameraGroup_cams; rewrite Tb, Ta; auto|]. intros c _.
  apply bind_cams; [apply merge3DObjects_cams|]. intros d _.
  apply bind_cams; [apply pairs_cams|]. intros e _.
  apply bind_cams; [apply mergeGroups_cams|]. intros f _.
  apply bind_cams; [apply merge3DObjects_cams|]. intros g _.
  apply bind_cams; [apply mergeGroups_cams|]. intros h _. apply final_cams.
Qed.

Lemma init_from_file_cams file t0 i0 : alike (t_cams t0) cs ->
  initializeCalibrationAllCam bpts models (FromFile file) (with_cams cs t0) i0 = initializeCalibrationAllCam bpts models (FromFile file) t0 i0.
Proof. intros A. unfold initializeCalibrationAllCam. cbn [with_cams t_cams]. rewrite <- (alike_keys _ _ A). reflexivity. Qed.
Lemma init_no_file_cams t0 i0 : alike (t_cams t0) cs ->
  initializeCalibrationAllCam bpts models NoFile (with_cams cs t0) i0 = initializeCalibrationAllCam bpts models NoFile t0 i0.
Proof. intros A. unfold initializeCalibrationAllCam. cbn [with_cams t_cams]. rewrite <- (alike_keys _ _ A). reflexivity. Qed.
End Same.
