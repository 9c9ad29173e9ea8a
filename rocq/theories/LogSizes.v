(** The logged workflow does not look at the sizes of the images (see Sizes.v) *)
From Coq Require Import List ZArith Lia Reals.
From Verif Require Import SMap GraphModel DataModel DetectModel RansacModel GeomModel ChainModel ObjectsModel GroupModel StageModel PipelineModel HandEyeModel EstimateAll
  CameraModel ResidualModel FileModel IntrinsicModel WorkflowModel WorkflowProofs Sizes LogModel LogProofs.
Import ListNotations.
Open Scope nat_scope.

Section Same.
Variable accepts : Z -> bool.
Variables (svd : (nat -> nat -> R) -> quat) (lr : mat3 -> vec3) (uq : bool) (pick : dstate -> nat) (g0 : graph).
Variables (solve : list block -> params -> params) (bpts : Z -> list vec3) (models : Z -> Z) (thresh : R) (it : Z).
Variables (env : nat -> nat -> rs_env par6 vec3) (pose0 : nat -> nat -> par6).
Variable calib2 : list pose -> list pose -> option pose.
Variable fixi : Z.
Variable cs : smap Z (@cam_t).

Lemma logged_cams ok x y : y = option_map (run_cams cs) x -> (forall a, ok (run_cams cs a) = ok a) -> logged ok y = option_map (run_cams cs) (logged ok x).
Proof. intros -> H. destruct x as [a|]; [|reflexivity]. unfold logged. cbn [option_map bind]. rewrite H. destruct (ok a); reflexivity. Qed.
Lemma objects_logged_cams r : calibrate3DObjects_logged accepts bpts models svd lr uq pick g0 solve thresh it env pose0 (run_cams cs r) =
  option_map (run_cams cs) (calibrate3DObjects_logged accepts bpts models svd lr uq pick g0 solve thresh it env pose0 r).
Proof.
  unfold calibrate3DObjects_logged. apply bind_cams; [apply new_objects_cams|]. intros a _.
  apply bind_cams; [apply logged_cams; [apply estimate_objects_cams|reflexivity]|]. intros b _. apply logged_cams; [apply refine_objects_cams|reflexivity].
Qed.
Lemma merge_logged_cams c r : merge3DObjects_logged accepts bpts models svd lr uq pick g0 solve thresh it env pose0 c (run_cams cs r) =
  option_map (run_cams cs) (merge3DObjects_logged accepts bpts models svd lr uq pick g0 solve thresh it env pose0 c r).
Proof.
  unfold merge3DObjects_logged. apply bind_cams; [apply estimate_objects_cams|]. intros a1 _. apply bind_cams; [apply logged_cams; [apply group_poses_cams|reflexivity]|]. intros a2 _.
  apply bind_cams; [apply merged_objects_cams|]. intros a3 _. apply bind_cams; [apply estimate_objects_cams|]. intros a4 _. apply bind_cams; [apply group_poses_cams|]. intros a5 _.
  apply logged_cams; [apply refine_cams|reflexivity].
Qed.
Theorem calibrate_logged_cams src t0 p0 gp0 : alike (t_cams t0) cs ->
  initializeCalibrationAllCam bpts models src (with_cams cs t0) (pa_intr p0) = initializeCalibrationAllCam bpts models src t0 (pa_intr p0) ->
  calibrate_logged accepts bpts models svd lr uq pick g0 solve thresh it env pose0 calib2 fixi src (with_cams cs t0) p0 gp0 =
  option_map (run_cams cs) (calibrate_logged accepts bpts models svd lr uq pick g0 solve thresh it env pose0 calib2 fixi src t0 p0 gp0).
Proof.
  intros A E. unfold calibrate_logged. apply bind_cams; [apply logged_cams; [apply initIntrinsic_cams; auto|reflexivity]|]. intros a Ea. apply logged_Some in Ea as (Ea & _).
  assert (Ta : t_cams (ru_t a) = t_cams t0).
  { unfold initIntrinsic in Ea. destruct (initializeCalibrationAllCam bpts models src t0 (pa_intr p0)) as [i|]; [|discriminate Ea].
    unfold estimatePoseAllBoards in Ea.
    match type of Ea with match match ?c with _ => _ end with _ => _ end = _ => destruct c as [rs|] end; [|discriminate Ea].
    match type of Ea with option_map _ ?x = _ => destruct x as [q|] end; [|discriminate Ea]. injection Ea as <-. reflexivity. }
  apply bind_cams; [apply objects_logged_cams|]. intros b Eb. apply objects_logged_run in Eb.
  assert (Tb : ru_t b = ru_t a).
  { unfold run_calibrate3DObjects in Eb. apply bind_Some in Eb. destruct Eb as (x & X & Eb). apply bind_Some in Eb. destruct Eb as (y & Y & Eb).
    unfold refine_objects_step in Eb. destruct (refineAllObject3D _ _ _ _ _ _); [|discriminate Eb]. injection Eb as <-. cbn [with_ps ru_t].
    unfold estimate_objects_step in Y. destruct (estimatePoseAllObjects _ _ _ _ _ _ _); [|discriminate Y]. injection Y as <-. cbn [with_ps ru_t].
    unfold new_objects in X. apply bind_Some in X. destruct X as (o & _ & X). apply bind_Some in X. destruct X as (o' & _ & X). injection X as <-. reflexivity. }
  apply bind_cams; [apply calibrateCameraGroup_cams; rewrite Tb, Ta; auto|]. intros c _.
  apply bind_cams; [apply merge_logged_cams|]. intros d _.
  apply bind_cams; [apply pairs_cams|]. intros e _.
  apply bind_cams; [apply mergeGroups_cams|]. intros f _.
  apply bind_cams; [apply merge_logged_cams|]. intros g _.
  apply bind_cams; [apply mergeGroups_cams|]. intros h _. apply logged_cams; [apply final_cams|reflexivity].
Qed.
End Same.
