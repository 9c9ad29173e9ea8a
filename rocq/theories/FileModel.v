(** Model of the result files: saveReprojectionErrorToFile (McCalib.cpp 2251-2341) and
    save3DObjPose (McCalib.cpp 455-483).  The other files: saveCamerasParams in
    CameraModel, save3DObj in ObjectsModel, saveDetectedKeypoints in DataModel.

    A file is the list of its entries in the order written; YAML itself is not modelled. *)
From Coq Require Import List ZArith Reals.
From Verif Require Import SMap DataModel DetectModel RansacModel GeomModel ChainModel ObjectsModel GroupModel StageModel PipelineModel CameraModel ResidualModel.
Import ListNotations.
Open Scope R_scope.

(** "camera_c": nb_pts and error_list, McCalib.cpp 2297-2330 *)
Record cam_errors := mkCE { ce_cam : Z; ce_nb : nat; ce_errors : list R }.
(** "frame_f": the entries "camera_c" and camera_list, McCalib.cpp 2268-2335 *)
Record frame_errors := mkFE { fe_frame : Z; fe_cams : list cam_errors; fe_list : list Z }.
(** "camera_group_g": the entries "frame_f" and frame_list, McCalib.cpp 2259-2338 *)
Record group_errors := mkGE { ge_group : Z; ge_frames : list frame_errors; ge_list : list Z }.

Section Errors.
Variables (cams : Z -> Z) (p : params) (s : calib pt2).
(** McCalib.cpp 2283-2331 for object observation n of group observation k.  An expired
    pointer is skipped (view_data); None: undefined behaviour, see [reprojected]. *)
Definition view_errors (G : cgroup) (kn : (Z * Z) * nat) : option (list cam_errors) :=
  match view_data s (snd kn) with
  | Some (oo, o) =>
      match reprojected cams p G (fst kn) oo o with
      | Some rp => option_map (fun es => [mkCE (oo_cam oo) (length (oo_ids oo)) es]) (computeDistanceBetweenPoints (oo_pts oo) rp)
      | None => None
      end
  | None => Some []
  end.
(** McCalib.cpp 2274-2284: the object observations of the observations of group G in
    frame f *)
Definition frame_views (G : cgroup) (f : Z) : list ((Z * Z) * nat) :=
  flat_map (fun k => match mfind k (gt_obs (ca_gobs s)) with
                     | Some go => if Z.eqb (cg_id G) (go_group go) then map (fun n => (k, n)) (go_nums go) else []
                     | None => []
                     end) (ptable f (gt_frames (ca_gobs s))).
(** McCalib.cpp 2264-2335 for one frame; a frame is never destroyed *)
Definition write_frame (G : cgroup) (f : Z) : option frame_errors :=
  option_map (fun es => mkFE f es (map ce_cam es)) (gather (view_errors G) (frame_views G f)).
(** McCalib.cpp 2258-2338 for one group; [frame_list] is declared before the loop over the
    groups (2255) and never cleared *)
Definition write_group (st : option (list group_errors * list Z)) (e : Z * cgroup) : option (list group_errors * list Z) :=
  match st with
  | Some (out, frame_list) =>
      match collect (map (write_frame (snd e)) (group_frames (ca_gobs s) (cg_id (snd e)))) with
      | Some fs => let frame_list := frame_list ++ map fe_frame fs in
                   Some (out ++ [mkGE (cg_id (snd e)) fs frame_list], frame_list)
      | None => None
      end
  | None => None
  end.
(** McCalib.cpp 2251-2341: nb_camera_group and the groups *)
Definition saveReprojectionErrorToFile : option (nat * list group_errors) :=
  option_map (fun st => (length (ca_groups s), fst st)) (fold_left write_group (ca_groups s) (Some ([], []))).
End Errors.

(** McCalib.cpp 455-483: for every object the columns of the matrix "poses".  pose_mat has
    one column per element of object_observations_; columns of expired pointers would stay
    unset (there are none, C44).  getPoseVec reads pose_ (Object3DObs.cpp 92-103). *)
Definition save3DObjPose {pt} (p : params) (s : calib pt) : list (Z * list par6) :=
  map (fun '(_, o) => (ob_id o, map (fun n => pa_pose p (KObjObs n)) (table_of (ob_id o) (ot_objs (ca_oobs s))))) (ca_objs s).
