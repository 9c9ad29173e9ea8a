(** Specification for C70: where the images are stored. *)
From Coq Require Import List ZArith Reals String.
From Verif Require Import SMap DataModel DetectModel GeomModel ObjectsModel PipelineModel CameraModel ResidualModel FileModel WorkflowModel.
Open Scope nat_scope.

(** The same board seen by the same camera in the same frame, at the same corners; the image may lie elsewhere. *)
Definition moved_image (i j : insertion pt2) : Prop :=
  i_cam i = i_cam j /\ i_frame i = i_frame j /\ i_board i = i_board j /\ i_pts i = i_pts j /\ i_ids i = i_ids j.
(** what a node of the keypoints file says besides the paths of the images *)
Definition but_paths (e : Z * kpnode pt2) : Z * (Z * Z * list Z * list Z * list (list pt2) * list (list Z)) :=
  (fst e, (k_width (snd e), k_height (snd e), k_frames (snd e), k_boards (snd e), k_pts (snd e), k_ids (snd e))).
(** Two runs save and report the same, except for the paths of the images in the keypoints file. *)
Record same_but_paths (models : Z -> Z) (bpts : Z -> list vec3) (r r' : run) : Prop := {
  sp_cameras : saved_cameras models r = saved_cameras models r';
  sp_objects : map (fun e => (ob_id (snd e), save3DObj bpts (snd e))) (ca_objs (ru_s r)) =
               map (fun e => (ob_id (snd e), save3DObj bpts (snd e))) (ca_objs (ru_s r'));
  sp_poses : saved_poses r = saved_poses r';
  sp_errors : saveReprojectionErrorToFile models (ru_p r) (ru_s r) = saveReprojectionErrorToFile models (ru_p r') (ru_s r');
  sp_keypoints : map but_paths (saveDetectedKeypoints (ru_t r)) = map but_paths (saveDetectedKeypoints (ru_t r'));
  sp_reported : reported_error models r = reported_error models r' }.
