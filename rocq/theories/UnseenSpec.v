(** Specification for C69: boards that no image shows. *)
From Coq Require Import List ZArith Reals String.
From Verif Require Import SMap DataModel DetectModel GeomModel ObjectsModel PipelineModel CameraModel ResidualModel FileModel WorkflowModel InputModel BoardModel AppModel.
Open Scope nat_scope.

(** Everything that two runs report and save is the same: the file of the cameras, the file of the objects (the corners of
    the boards are [bpts] in one run and [bpts'] in the other), the file of the object poses, the file of the reprojection
    errors, the file of the keypoints, and the mean error that is printed. *)
Record same_results (models : Z -> Z) (bpts bpts' : Z -> list vec3) (r r' : run) : Prop := {
  sr_cameras : saved_cameras models r = saved_cameras models r';
  sr_objects : map (fun e => (ob_id (snd e), save3DObj bpts (snd e))) (ca_objs (ru_s r)) =
               map (fun e => (ob_id (snd e), save3DObj bpts' (snd e))) (ca_objs (ru_s r'));
  sr_poses : saved_poses r = saved_poses r';
  sr_errors : saveReprojectionErrorToFile models (ru_p r) (ru_s r) = saveReprojectionErrorToFile models (ru_p r') (ru_s r');
  sr_keypoints : saveDetectedKeypoints (ru_t r) = saveDetectedKeypoints (ru_t r');
  sr_reported : reported_error models r = reported_error models r' }.

(** Two sets of settings that differ at most in the boards: how many there are, which of them are used, and their sizes. *)
Definition same_but_boards (c d : config) : Prop :=
  cf_nb_camera c = cf_nb_camera d /\ cf_refine_corner c = cf_refine_corner d /\ cf_min_perc c = cf_min_perc d /\ cf_root c = cf_root d /\ cf_prefix c = cf_prefix d /\
  cf_quaternion c = cf_quaternion d /\ cf_ransac c = cf_ransac d /\ cf_iterations c = cf_iterations d /\ cf_models c = cf_models d /\
  cf_save c = cf_save d /\ cf_params_name c = cf_params_name d /\ cf_cam_params c = cf_cam_params d /\ cf_keypoints c = cf_keypoints d /\
  cf_save_repro c = cf_save_repro d /\ cf_save_detect c = cf_save_detect d /\ cf_he c = cf_he d /\ cf_fix_intrinsic c = cf_fix_intrinsic d.
(** Board [b] is in the keypoints file. *)
Definition in_keypoints (file : smap Z (kpnode pt2)) (b : Z) : Prop := exists c k, mfind c file = Some k /\ In b (k_boards k).
(** Setups [s] and [s'] have board [b] with the same corners. *)
Definition same_board (s s' : setup) (b : Z) : Prop :=
  exists B B', (0 <= b)%Z /\ nth_error (su_boards s) (Z.to_nat b) = Some B /\ nth_error (su_boards s') (Z.to_nat b) = Some B' /\ bd_pts B = bd_pts B'.
(** The same world with other contents of the configuration files. *)
Definition with_configs (f : string -> cfile) (w : world) : world :=
  mkWorld (w_exists w) (w_open w) (w_mkdir w) f (w_keypoints w) (w_params w) (w_ls w) (w_image w).
