(** Specification for C71: the sizes of the images. *)
From Coq Require Import List ZArith Reals.
From Verif Require Import SMap DataModel DetectModel GeomModel ObjectsModel PipelineModel CameraModel ResidualModel FileModel WorkflowModel.
Open Scope nat_scope.

(** The same detections from images of other sizes: the tables agree except for the sizes kept with the cameras. *)
Definition but_size (e : Z * cam_t) := (fst e, (c_obs (snd e), c_vis (snd e), c_frames (snd e))).
Record resized (t t' : tables pt2) : Prop := {
  rz_obs : t_obs t = t_obs t'; rz_boards : t_boards t = t_boards t'; rz_frames : t_frames t = t_frames t'; rz_camobs : t_camobs t = t_camobs t';
  rz_cams : map but_size (t_cams t) = map but_size (t_cams t') }.
(** what the file of the cameras, and that of the keypoints, say besides the sizes of the images *)
Definition camera_but_size (e : Z * cam_rec) : Z * (mat3 * list R * Z * Z * pose) :=
  (fst e, (r_K (snd e), r_dist (snd e), r_type (snd e), r_group (snd e), r_pose (snd e))).
Definition points_but_size {A} (e : Z * kpnode A) := (fst e, (k_frames (snd e), k_paths (snd e), k_boards (snd e), k_pts (snd e), k_ids (snd e))).
Record same_but_sizes (models : Z -> Z) (bpts : Z -> list vec3) (r r' : run) : Prop := {
  sz_cameras : map camera_but_size (saved_cameras models r) = map camera_but_size (saved_cameras models r');
  sz_objects : map (fun e => (ob_id (snd e), save3DObj bpts (snd e))) (ca_objs (ru_s r)) =
               map (fun e => (ob_id (snd e), save3DObj bpts (snd e))) (ca_objs (ru_s r'));
  sz_poses : saved_poses r = saved_poses r';
  sz_errors : saveReprojectionErrorToFile models (ru_p r) (ru_s r) = saveReprojectionErrorToFile models (ru_p r') (ru_s r');
  sz_keypoints : map points_but_size (saveDetectedKeypoints (ru_t r)) = map points_but_size (saveDetectedKeypoints (ru_t r'));
  sz_reported : reported_error models r = reported_error models r' }.
