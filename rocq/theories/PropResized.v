(** C71: without an estimation of the intrinsics from the images, the sizes of the images have no influence. *)
From Coq Require Import List ZArith Lia Reals String.
From Verif Require Import SMap GraphModel DataModel DataSpec DataProofs DetectModel RansacModel GeomModel ObjectsModel GroupModel
  PipelineModel HandEyeModel CameraModel ResidualModel FileModel IntrinsicModel WorkflowModel LogModel Sizes LogSizes PropResidual RigSpec RigExample PropGeom PropRig PropWhole ResizedSpec.
From Verif Require Import UnseenProofs PropUnseen.
Import ListNotations.
Close Scope R_scope.
Open Scope nat_scope.

Lemma resized_alike t t' : resized t t' -> alike (t_cams t) (t_cams t') /\ t' = with_cams (t_cams t') t.
Proof.
  intros [Ro Rb Rf Rm Rc]. split.
  - apply (f_equal (map (fun e : Z * (smap Z nat * list Z * smap Z Z) => (fst e, fst (fst (snd e)))))) in Rc. rewrite !map_map in Rc. exact Rc.
  - destruct t, t'. cbn in *. subst. reflexivity.
Qed.
Lemma init_same bpts models src t cs i0 : alike (t_cams t) cs -> (forall sh cv, src <> FromImages sh cv) ->
  initializeCalibrationAllCam bpts models src (with_cams cs t) i0 = initializeCalibrationAllCam bpts models src t i0.
Proof.
  intros A N. unfold initializeCalibrationAllCam. cbn [with_cams t_cams]. rewrite <- (alike_keys _ _ A). apply fold_left_ext. intros acc c _. destruct acc as [i|]; [|reflexivity]. f_equal.
  destruct src as [f|sh cv|]; [reflexivity|destruct (N sh cv eq_refl)|reflexivity].
Qed.
Lemma record_map l l' : Forall2 same_record l l' -> map camera_but_size l = map camera_but_size l'.
Proof. induction 1 as [|a b l l' (A & B & C & D & E & F) _ IH]; cbn [map]; [reflexivity|]. rewrite IH. f_equal. unfold camera_but_size. rewrite A, B, C, D, E, F. reflexivity. Qed.
Lemma keypoints_sizes cs (t : tables pt2) : alike (t_cams t) cs -> map points_but_size (saveDetectedKeypoints t) = map points_but_size (saveDetectedKeypoints (with_cams cs t)).
Proof.
  intros A. unfold saveDetectedKeypoints. rewrite !map_map. cbn [with_cams t_cams].
  assert (G : forall m, map (fun x : Z * cam_t => points_but_size (let '(cam, c) := x in let es := saved_entries t cam in
     (cam, mkKp (c_cols c) (c_rows c) (map (fun e => fst (fst (fst e))) es) (map (fun e => snd (fst (fst e))) es) (map (fun e => snd (fst e)) es) (map (fun e => o_pts (snd e)) es) (map (fun e => o_ids (snd e)) es)))) m =
     map (fun cam => let es := saved_entries t cam in (cam, (map (fun e => fst (fst (fst e))) es, map (fun e => snd (fst (fst e))) es, map (fun e => snd (fst e)) es, map (fun e => o_pts (snd e)) es, map (fun e => o_ids (snd e)) es))) (mkeys m)).
  { intros m. unfold mkeys. rewrite map_map. apply map_ext. intros (c, x). reflexivity. }
  rewrite G. change (saved_entries (with_cams cs t)) with (saved_entries t). rewrite G. rewrite (alike_keys _ _ A). reflexivity.
Qed.
(** ** C71. The same detections from images of other sizes (the camera parameters are read from a file, or none can be read): one calibration succeeds exactly when
    the other does, and everything that is reported and saved is the same, except for the sizes themselves. *)
Theorem C71_image_sizes_have_no_influence : forall accepts svd lr uq pick g0 solve models thresh it env pose0 calib2 fixi bpts nc nb ins t0 t t' src p0 gp0,
  Forall (known nc nb) ins -> insert_all (init_tables nc nb) ins = Some t0 -> resized t0 t -> resized t0 t' -> (forall sh cv, src <> FromImages sh cv) ->
  match calibrate_logged accepts bpts models svd lr uq pick g0 solve thresh it env pose0 calib2 fixi src t p0 gp0,
        calibrate_logged accepts bpts models svd lr uq pick g0 solve thresh it env pose0 calib2 fixi src t' p0 gp0 with
  | Some r, Some r' => same_but_sizes models bpts r r'
  | None, None => True
  | _, _ => False
  end.
Proof.
  intros accepts svd lr uq pick g0 solve models thresh it env pose0 calib2 fixi bpts nc nb ins t0 t t' src p0 gp0 K E0 Z1 Z2 N.
  destruct (resized_alike t0 t Z1) as (A1 & ->), (resized_alike t0 t' Z2) as (A2 & ->). cbn [with_cams t_cams] in A1, A2.
  rewrite !calibrate_logged_cams by (auto using init_same).
  assert (AD := detected nc nb ins t0 K E0).
  assert (X := calibrate_logged_like2 svd lr uq pick g0 solve models thresh it env pose0 calib2 fixi bpts bpts nc nb nb ins ins t0 t0 AD AD (four_same_bare _ _ (conj eq_refl (conj eq_refl (conj eq_refl eq_refl)))) (fun i _ => eq_refl) accepts src p0 gp0).
  destruct (calibrate_logged accepts bpts models svd lr uq pick g0 solve thresh it env pose0 calib2 fixi src t0 p0 gp0) as [r|]; cbn [option_map]; [|exact I]. cbn [orel] in X. destruct X as (_ & RL & _).
  assert (B1 : alike (t_cams (ru_t r)) (t_cams t)) by (unfold alike in *; rewrite <- A1; exact (StageSpec.rl_cams _ _ RL)).
  assert (B2 : alike (t_cams (ru_t r)) (t_cams t')) by (unfold alike in *; rewrite <- A2; exact (StageSpec.rl_cams _ _ RL)).
  constructor; try reflexivity.
  - rewrite <- (record_map _ _ (saved_sizes models r _ B1)). apply record_map, saved_sizes, B2.
  - cbn [run_cams ru_t]. rewrite <- (keypoints_sizes _ _ B1). apply keypoints_sizes, B2.
Qed.
Print Assumptions C71_image_sizes_have_no_influence.
(** The rig of two cameras without sizes, and with images of 640 x 480 pixels. *)
Example C71_example : exists svd t0 t r r',
  Forall (known 2 1) rig_ins /\ insert_all (init_tables 2 1) rig_ins = Some t0 /\ resized t0 t0 /\ resized t0 t /\ (forall sh cv, FromFile two_file <> FromImages sh cv) /\
  let cal := fun u => calibrate svd log0 true pick_first empty_graph (fun _ p => p) rig_pts (rg_model two_rig) 1 1000 (fun _ _ => ideal_env log0) (fun _ _ => (vzero, vzero)) (fun _ _ => None) 0 (FromFile two_file) u
      (mkPar (fun _ => (vzero, vzero)) (fun _ => I9 0 0 0 0 0 0 0 0 0)%R) (fun _ => (vzero, vzero)) in
  cal t0 = Some r /\ cal t = Some r' /\ map (fun e => (k_width (snd e), k_height (snd e))) (saveDetectedKeypoints (ru_t r')) = [(640, 480); (640, 480)]%Z.
Proof.
  destruct C20_svd_exists as (svd & SO). destruct (two_run svd true (fun _ p => p) (fun _ _ => (vzero, vzero)) (fun _ _ => None) 0%Z (mkPar (fun _ => (vzero, vzero)) (fun _ => I9 0 0 0 0 0 0 0 0 0)%R) (fun _ => (vzero, vzero)) SO ceres_idle)
    as (t0 & r & Et & Er & R0 & _). set (t := set_image_size (set_image_size t0 0 640 480) 1 640 480). 
  assert (Z0 : resized t0 t0) by (constructor; reflexivity).
  assert (Z1 : resized t0 t) by (cbn in Et; injection Et as <-; constructor; reflexivity).
  destruct (resized_alike t0 t Z1) as (A & Q). assert (C := fun i => calibrate_cams svd log0 true pick_first empty_graph (fun _ p => p) rig_pts (rg_model two_rig) 1%R 1000%Z (fun _ _ => ideal_env log0) (fun _ _ => (vzero, vzero)) (fun _ _ => None) 0%Z
    (t_cams t) (FromFile two_file) t0 (mkPar (fun _ => (vzero, vzero)) (fun _ => I9 0 0 0 0 0 0 0 0 0)%R) (fun _ => (vzero, vzero)) A i).
  rewrite <- Q in C. rewrite Er in C. cbn [option_map] in C. exists svd, t0, t, r, (run_cams (t_cams t) r). split; [apply rig_known|]. split; [exact Et|]. split; [exact Z0|]. split; [exact Z1|]. split; [discriminate|].
  cbv zeta. split; [exact Er|]. split; [apply C; rewrite Q at 1; apply init_same; [exact A|discriminate]|].
  unfold saveDetectedKeypoints. rewrite map_map. cbn [run_cams ru_t with_cams t_cams]. cbn in Et. injection Et as <-. reflexivity.
Qed.
Print Assumptions C71_example.
