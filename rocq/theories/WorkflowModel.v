(** Model of a whole run of the calibration application from the observation tables to
    the results: calibrate.cpp 30-62 with McCalib.cpp 662-716 (initializeCalibrationAllCam,
    estimatePoseAllBoards, refineIntrinsicAndPoseAllCam), 991-994, 1635-1641
    (computeAllObjPoseInCameraGroup), 2085-2143 (initIntrinsic, calibrate3DObjects,
    calibrateCameraGroup, merge3DObjects).

    The stages of PipelineModel are given the poses that pose estimation and refinement
    leave in memory.  Steps that only compute error statistics for the log are left out
    (computeReproErrAllBoard, computeReproErrAllObject, reproErrorAllCamGroup). *)
From Coq Require Import List ZArith QArith Reals Bool.
From Verif Require Import SMap GraphModel DataModel DetectModel RansacModel GeomModel ChainModel ObjectsModel GroupModel StageModel
  PipelineModel HandEyeModel CameraModel ResidualModel FileModel IntrinsicModel GroupAll.
Import ListNotations.
Close Scope Q_scope.
Close Scope R_scope.
Open Scope nat_scope.

(** equality of memory locations *)
Definition pkey_dec (a b : pkey) : {a = b} + {a <> b}.
Proof. repeat decide equality. Defined.
(** assignment to a pose *)
Definition put_pose (k : pkey) (P : par6) (p : params) : params :=
  mkPar (fun k' => if pkey_dec k' k then P else pa_pose p k') (pa_intr p).
(** BoardObs.cpp 155-157 and Object3DObs.cpp 246 for the observations 0, 1, 2, ... *)
Definition put_board_obs (ps : list par6) (p : params) : params :=
  mkPar (fun k => match k with KBoardObs n => nth n ps (pa_pose p k) | _ => pa_pose p k end) (pa_intr p).
Definition put_obj_obs (ps : list par6) (p : params) : params :=
  mkPar (fun k => match k with KObjObs n => nth n ps (pa_pose p k) | _ => pa_pose p k end) (pa_intr p).
(** getPoseMat and its kind *)
Definition as_matrix (P : par6) : pose := RVecT2Proj (fst P) (snd P).
(** getCameraMat, getDistortionVectorVector and distortion_model_ of camera c *)
Definition cam_of (models : Z -> Z) (p : params) (c : Z) : cam_par :=
  mkCP (mkK (a0 (pa_intr p c)) (a1 (pa_intr p c)) (a2 (pa_intr p c)) (a3 (pa_intr p c)))
       (getDistortionVector (models c) (pa_intr p c)) (models c).

(** where the intrinsic parameters come from, McCalib.cpp 663-671, 688-694: the file
    cam_params_path; images; or a file that is missing, which is only logged *)
Inductive init_source :=
| FromFile (file : list (Z * cam_rec))
| FromImages (shuffle : Z -> list nat -> list nat) (cvcal : Z -> list (list vec3 * list pt2) -> Z -> Z -> option (mat3 * list R))
| NoFile.

Section Workflow.
(** [svd] ... [g0]: see PipelineModel; [solve]: ceres::Solve; [models c]:
    distortion_model_; [thresh], [it]: ransac_thresh_, nb_iterations_; [calib2]: hand-eye
    calibration; [env c n], [pose0 c n]: OpenCV, random numbers and uninitialised memory for
    observation n in the c-th call of pose estimation; [fix_intrinsic]: fix_intrinsic_ *)
Variables (svd : (nat -> nat -> R) -> quat) (lr : mat3 -> vec3) (uq : bool) (pick : dstate -> nat) (g0 : graph).
Variables (solve : list block -> params -> params) (bpts : Z -> list vec3) (models : Z -> Z) (thresh : R) (it : Z).
Variables (env : nat -> nat -> rs_env par6 vec3) (pose0 : nat -> nat -> par6).
Variable calib2 : list pose -> list pose -> option pose.
Variable fix_intrinsic : Z.

(** Object3D.cpp 101-110 (setBoardPoseMat) for all boards of all objects; obj_id_ is the key
    (C24) *)
Definition put_boards (objs : smap Z obj3d) (p : params) : params :=
  mkPar (fun k => match k with
                  | KBoard o b => match mfind o objs with
                                  | Some ob => match mfind b (ob_poses ob) with Some P => Proj2RT lr P | None => pa_pose p k end
                                  | None => pa_pose p k
                                  end
                  | _ => pa_pose p k
                  end) (pa_intr p).
(** CameraGroup.cpp 100-106 (setCameraPoseMat) for all cameras of all groups *)
Definition put_cams (groups : smap Z cgroup) (p : params) : params :=
  mkPar (fun k => match k with
                  | KCam g c => match mfind g groups with
                                | Some G => match mfind c (cg_poses G) with Some P => Proj2RT lr P | None => pa_pose p k end
                                | None => pa_pose p k
                                end
                  | _ => pa_pose p k
                  end) (pa_intr p).

(** observation tables, parameters, group_pose_ of the object observations,
    no_overlap_camgroup_pair_pose_ with the counts, objects and groups *)
Record run := mkRun { ru_t : tables pt2; ru_p : params; ru_gp : nat -> par6; ru_prs : smap (Z * Z) (pose * nat); ru_s : calib pt2 }.
(** assignment of the parameters and the calibration *)
Definition with_ps (p : params) (s : calib pt2) (r : run) : run := mkRun (ru_t r) p (ru_gp r) (ru_prs r) s.
Definition empty_calib : calib pt2 := mkCal [] empty_otables [] empty_gtables.

(** ** Intrinsic parameters *)
(** board_observations_ of camera c *)
Definition obs_of_cam (t : tables pt2) (c : Z) : list nat :=
  match mfind c (t_cams t) with Some r => mvals (c_obs r) | None => [] end.
(** McCalib.cpp 678-687 or 693 for one camera *)
Definition init_camera (src : init_source) (t : tables pt2) (c : Z) (i : intr) : option intr :=
  match src with
  | FromFile file => match entry file c with
                     | Some r => setIntrinsics (models c) (r_K r) (r_dist r) i
                     | None => None
                     end
  | FromImages shuffle cvcal =>
      match mfind c (t_cams t) with
      | Some r => initializeCalibration (models c) (c_cols r) (c_rows r) bpts
                    (flat_map (fun n => match nth_error (mvals (t_obs t)) n with Some o => [o] | None => [] end) (mvals (c_obs r)))
                    (shuffle c) cvcal i
      | None => None
      end
  | NoFile => Some i
  end.
(** McCalib.cpp 662-695; [i0]: intrinsics_ before, uninitialised *)
Definition initializeCalibrationAllCam (src : init_source) (t : tables pt2) (i0 : Z -> intr) : option (Z -> intr) :=
  fold_left (fun acc c => match acc with
                          | Some i => option_map (fun x c' => if Z.eqb c' c then x else i c') (init_camera src t c (i c))
                          | None => None
                          end) (mkeys (t_cams t)) (Some i0).
(** McCalib.cpp 2085-2092; [p0]: memory before *)
Definition initIntrinsic (src : init_source) (t0 : tables pt2) (p0 : params) (gp0 : nat -> par6) : option run :=
  match initializeCalibrationAllCam src t0 (pa_intr p0) with
  | None => None
  | Some i =>
      let p := mkPar (pa_pose p0) i in
      match estimatePoseAllBoards (env 0) (cam_of models p) bpts (pose0 0) thresh it t0 with
      | None => None
      | Some (t, ps) =>
          let p := put_board_obs ps p in
          option_map (fun p => mkRun t p gp0 [] empty_calib)
            (if Z.eqb fix_intrinsic 0 then refineIntrinsicAndPoseAllCam solve bpts t models (obs_of_cam t) (mkeys (t_cams t)) p
             else Some p)
      end
  end.

(** ** Poses *)
(** McCalib.cpp 991-994; [c]: number of the call *)
Definition estimate_objects_step (c : nat) (r : run) : option run :=
  option_map (fun ps => with_ps (put_obj_obs ps (ru_p r)) (ru_s r) r)
    (estimatePoseAllObjects (env c) (cam_of models (ru_p r)) (ca_objs (ru_s r)) (pose0 c) thresh it (ot_all (ca_oobs (ru_s r)))).
(** object_pose_ of the group observations after computeObjectsPose.  None: NaN (impossible,
    C32). *)
Definition put_group_poses (m : smap (Z * Z) (smap Z (option par6))) (p : params) : option params :=
  fold_left (fun acc '(k, om) =>
    fold_left (fun acc '(o, v) => match acc, v with
                                  | Some p, Some P => Some (put_pose (KGroup k o) P p)
                                  | _, _ => None
                                  end) om acc) m (Some p).
(** McCalib.cpp 1635-1641 *)
Definition group_poses_step (r : run) : option run :=
  let s := ru_s r in
  let res := computeAllObjPoseInCameraGroup svd lr uq (ot_all (ca_oobs s)) (ca_groups s) (ca_gobs s)
               (fun n => as_matrix (pa_pose (ru_p r) (KObjObs n))) (ru_gp r) in
  option_map (fun p => mkRun (ru_t r) p (snd res) (ru_prs r) s) (put_group_poses (fst res) (ru_p r)).
(** CameraGroupObs.cpp 208-217 for all group observations *)
Definition updateObjObsPose (s : calib pt2) (p : params) (gp : nat -> par6) : nat -> par6 :=
  fold_left (fun gp '(k, go) =>
    fold_left (fun gp n => match nth_error (ot_all (ca_oobs s)) n with
                           | Some oo => gput n (pa_pose p (KGroup k (oo_obj oo))) gp
                           | None => gp
                           end) (go_nums go) gp) (gt_obs (ca_gobs s)) gp.

(** ** Refinement *)
(** McCalib.cpp 1876-1888 *)
Definition refine_step (r : run) : option run :=
  option_map (fun p => mkRun (ru_t r) p (updateObjObsPose (ru_s r) p (ru_gp r)) (ru_prs r) (refine_calib bpts (boards_of p) (cams_of p) (ru_s r)))
    (refineAllCameraGroupAndObjects solve bpts models (ru_s r) (ru_p r)).
(** McCalib.cpp 2348-2361 *)
Definition refine_intrinsic_step (r : run) : option run :=
  option_map (fun p => mkRun (ru_t r) p (updateObjObsPose (ru_s r) p (ru_gp r)) (ru_prs r) (refine_calib bpts (boards_of p) (cams_of p) (ru_s r)))
    (refineAllCameraGroupAndObjectsAndIntrinsic solve bpts models (ru_s r) (ru_p r)).
(** McCalib.cpp 1014-1017 *)
Definition refine_objects_step (r : run) : option run :=
  option_map (fun p => with_ps p (refine_calib bpts (boards_of p) cg_poses (ru_s r)) r)
    (refineAllObject3D solve bpts (ru_t r) models (ru_s r) (ru_p r)).

Definition bind {A B} (x : option A) (f : A -> option B) : option B := match x with Some a => f a | None => None end.

(** ** Stages *)
(** McCalib.cpp 2099-2103: new objects and their observations *)
Definition new_objects (r : run) : option run :=
  bind (objects_stage svd lr uq pick g0 bpts (ru_t r) (fun n => as_matrix (pa_pose (ru_p r) (KBoardObs n)))) (fun objs =>
  bind (initAll3DObjectObs (ru_t r) objs empty_otables) (fun ot =>
  Some (with_ps (put_boards objs (ru_p r)) (mkCal objs ot [] empty_gtables) r))).
(** McCalib.cpp 2098-2108 *)
Definition run_calibrate3DObjects (r : run) : option run :=
  bind (new_objects r) (fun r => bind (estimate_objects_step 1 r) refine_objects_step).
(** McCalib.cpp 2115-2119: new groups and their observations *)
Definition new_groups (r : run) : option run :=
  let s := ru_s r in
  bind (cameras_stage svd lr uq pick g0 (ru_t r) (ca_oobs s) (fun n => as_matrix (pa_pose (ru_p r) (KObjObs n)))) (fun gs =>
  Some (with_ps (put_cams gs (ru_p r))
          (mkCal (ca_objs s) (ca_oobs s) gs (initAllCameraGroupObs (ca_oobs s) (mkeys (t_frames (ru_t r))) gs (ca_gobs s))) r)).
(** McCalib.cpp 2114-2122 *)
Definition run_calibrateCameraGroup (r : run) : option run :=
  bind (new_groups r) (fun r => bind (group_poses_step r) refine_step).
(** McCalib.cpp 2132-2138: merged objects and their observations *)
Definition merged_objects (r : run) : option run :=
  let s := ru_s r in
  bind (merge_stage svd lr uq pick g0 bpts (ca_objs s) (ca_oobs s) (ca_gobs s) (fun k o => as_matrix (pa_pose (ru_p r) (KGroup k o)))) (fun objs =>
  bind (mergeAllObjectObs (ru_t r) objs) (fun ot =>
  Some (with_ps (put_boards objs (ru_p r))
          (mkCal objs ot (ca_groups s) (mergeAllCameraGroupObs ot (mkeys (t_frames (ru_t r))) (ca_groups s) (ca_gobs s))) r))).
(** McCalib.cpp 2128-2143; [c], [c + 1]: numbers of the calls of pose estimation *)
Definition run_merge3DObjects (c : nat) (r : run) : option run :=
  bind (estimate_objects_step c r) (fun r =>
  bind (group_poses_step r) (fun r =>
  bind (merged_objects r) (fun r =>
  bind (estimate_objects_step (S c) r) (fun r =>
  bind (group_poses_step r) refine_step)))).
(** calibrate.cpp 41-42 *)
Definition run_pairs (r : run) : option run :=
  option_map (fun prs => mkRun (ru_t r) (ru_p r) (ru_gp r) prs (ru_s r))
    (findPoseNoOverlapAllCamGroup calib2 (fun k o => as_matrix (pa_pose (ru_p r) (KGroup k o))) (findPairObjectForNonOverlap (ru_s r)) (ru_s r)).
(** calibrate.cpp 46-48, 52-54 *)
Definition run_mergeGroups (r : run) : option run :=
  option_map (fun s => with_ps (put_cams (ca_groups s) (ru_p r)) s r) (mergeGroups pick g0 (ru_t r) (ru_prs r) (ru_s r)).
(** calibrate.cpp 55-72: final pose estimation and refinement *)
Definition run_final (r : run) : option run :=
  bind (estimate_objects_step 6 r) (fun r =>
  bind (group_poses_step r) (fun r =>
  bind (refine_step r) (fun r => if Z.eqb fix_intrinsic 0 then refine_intrinsic_step r else Some r))).

(** calibrate.cpp 15-72 after boardExtraction, which leaves the tables [t0] *)
Definition calibrate (src : init_source) (t0 : tables pt2) (p0 : params) (gp0 : nat -> par6) : option run :=
  bind (initIntrinsic src t0 p0 gp0) (fun r =>
  bind (run_calibrate3DObjects r) (fun r =>
  bind (run_calibrateCameraGroup r) (fun r =>
  bind (run_merge3DObjects 2 r) (fun r =>
  bind (run_pairs r) (fun r =>
  bind (run_mergeGroups r) (fun r =>
  bind (run_merge3DObjects 4 r) (fun r =>
  bind (run_mergeGroups r) run_final))))))).
End Workflow.

(** ** Saving *)
(** cams_ as saveCamerasParams reads it, McCalib.cpp 374-405: intrinsics_, distortion_model_
    and the image size *)
Definition cameras_of (models : Z -> Z) (r : run) : smap Z camera_t :=
  map (fun '(c, e) => (c, mkCamera (pa_intr (ru_p r) c) (models c) (c_cols e) (c_rows e))) (t_cams (ru_t r)).
(** calibrate.cpp 75-77 *)
Definition saved_cameras (models : Z -> Z) (r : run) : list (Z * cam_rec) := saveCamerasParams (cameras_of models r) (ca_groups (ru_s r)).
Definition saved_poses (r : run) : list (Z * list par6) := save3DObjPose (ru_p r) (ru_s r).
Definition reported_error (models : Z -> Z) (r : run) : option R := computeAvgReprojectionError models (ru_p r) (ru_s r).
