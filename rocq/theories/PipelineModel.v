(** The calibration workflow between board detection and saving: McCalib.cpp 2098-2143
    (calibrate3DObjects, calibrateCameraGroup, merge3DObjects), calibrate.cpp 30-46.

    Steps that only compute error statistics are left out.  Pose estimation
    (estimatePoseAllObjects, computeAllObjPoseInCameraGroup) is represented by the poses
    it leaves behind: [bp] of the board observations, [op] of the object observations,
    [gp] of the objects in the camera group observations.  Refinement by Ceres replaces
    the poses of boards in objects ([rf]) and of cameras in groups ([rg]). *)
From Coq Require Import List ZArith QArith Lia Reals.
From Verif Require Import SMap GraphModel DataModel DetectModel RansacModel GeomModel ChainModel ObjectsModel GroupModel StageModel.
Import ListNotations.
Close Scope Q_scope.
Close Scope R_scope.
Open Scope nat_scope.

Section Pipeline.
Context {pt : Type}.
Variables (svd : (nat -> nat -> R) -> quat) (lr : mat3 -> vec3) (uq : bool) (pick : dstate -> nat) (g0 : graph).
Variables (bpts : Z -> list vec3) (t : tables pt).

(** object_3d_, object_observations_ with the tables of numbers, cam_group_,
    cams_group_obs_ with its tables *)
Record calib := mkCal {
  ca_objs : smap Z obj3d; ca_oobs : otables pt; ca_groups : smap Z cgroup; ca_gobs : gtables }.

(** Object3D.cpp 160-245 for all objects (McCalib.cpp refineAllObject3D), CameraGroup.cpp
    366-474 followed by updateObjectPts (McCalib.cpp 1876-1895): new board poses and the
    points recomputed *)
Definition refine_objects (rf : obj3d -> smap Z pose) (objs : smap Z obj3d) : smap Z obj3d :=
  map (fun '(k, o) => (k, updateObjectPts bpts o (rf o))) objs.
(** CameraGroup.cpp 366-474: new camera poses *)
Definition refine_groups (rg : cgroup -> smap Z pose) (groups : smap Z cgroup) : smap Z cgroup :=
  map (fun '(k, G) => (k, mkGrp (cg_id G) (cg_ref G) (cg_cams G) (cg_map G) (rg G))) groups.

(** McCalib.cpp 1876-1888 and 2348-2361 (calibrate.cpp 58-62): new poses of boards and
    cameras; observations stay *)
Definition refine_calib (rf : obj3d -> smap Z pose) (rg : cgroup -> smap Z pose) (s : calib) : calib :=
  mkCal (refine_objects rf (ca_objs s)) (ca_oobs s) (refine_groups rg (ca_groups s)) (ca_gobs s).
(** McCalib.cpp 2098-2108; nothing is stored before (called once, calibrate.cpp 34) *)
Definition calibrate3DObjects (bp : nat -> pose) (rf : obj3d -> smap Z pose) : option calib :=
  match objects_stage svd lr uq pick g0 bpts t bp with
  | Some objs => match initAll3DObjectObs t objs empty_otables with
                 | Some ot => Some (mkCal (refine_objects rf objs) ot [] empty_gtables)
                 | None => None
                 end
  | None => None
  end.
(** McCalib.cpp 2114-2122 *)
Definition calibrateCameraGroup (op : nat -> pose) (rf : obj3d -> smap Z pose) (rg : cgroup -> smap Z pose) (s : calib) : option calib :=
  match cameras_stage svd lr uq pick g0 t (ca_oobs s) op with
  | Some gs => Some (mkCal (refine_objects rf (ca_objs s)) (ca_oobs s) (refine_groups rg gs)
                           (initAllCameraGroupObs (ca_oobs s) (mkeys (t_frames t)) gs (ca_gobs s)))
  | None => None
  end.
(** McCalib.cpp 2128-2143 *)
Definition merge3DObjects (gp : Z * Z -> Z -> pose) (rf : obj3d -> smap Z pose) (rg : cgroup -> smap Z pose) (s : calib) : option calib :=
  match merge_stage svd lr uq pick g0 bpts (ca_objs s) (ca_oobs s) (ca_gobs s) gp with
  | Some objs =>
      match mergeAllObjectObs t objs with
      | Some ot => Some (mkCal (refine_objects rf objs) ot (refine_groups rg (ca_groups s))
                               (mergeAllCameraGroupObs ot (mkeys (t_frames t)) (ca_groups s) (ca_gobs s)))
      | None => None
      end
  | None => None
  end.

(** McCalib.cpp 1507-1512: groups with object_observations_.size() > 0 *)
Definition observed_groups (groups : smap Z cgroup) (gt : gtables) : list Z :=
  map (fun e => cg_id (snd e)) (filter (fun e => Nat.ltb 0 (length (ptable (cg_id (snd e)) (gt_nums gt)))) groups).
(** McCalib.cpp 1505-1523, 1529-1610, 1616-1629 as called one after the other in
    calibrate.cpp 46-48 and 52-54.  [prs]: no_overlap_camgroup_pair_pose_ and
    no_overlap__camgroup_pair_common_cnt_.  The merged groups are new CameraGroup objects,
    so their tables of object observations and frames start empty. *)
Definition mergeGroups (prs : smap (Z * Z) (pose * nat)) (s : calib) : option calib :=
  match mergeCameraGroup pick
          (covis_graph g0 (observed_groups (ca_groups s) (ca_gobs s)) (map (fun '(k, (_, n)) => (k, n)) prs))
          (map (fun '(k, (P, _)) => (k, P)) prs) (ca_groups s) with
  | Some gs => Some (mkCal (ca_objs s) (ca_oobs s) gs
                       (mergeAllCameraGroupObs (ca_oobs s) (mkeys (t_frames t)) gs (mkGT (gt_obs (ca_gobs s)) (gt_frames (ca_gobs s)) [] [])))
  | None => None
  end.
End Pipeline.
Arguments calib : clear implicits.

(** a loop over a list in which the n-th step may use different random numbers *)
Fixpoint mapi {A B} (f : nat -> A -> B) (n : nat) (l : list A) : list B :=
  match l with [] => [] | x :: l => f n x :: mapi f (S n) l end.

(** McCalib.cpp 704-707: the observations (key order) with outliers removed, and their
    poses.  [cam c]: parameters of camera c after initializeCalibrationAllCam.  [env n],
    [pose0 n]: random numbers and uninitialised memory met by the n-th observation. *)
Definition estimatePoseAllBoards {rpose} (env : nat -> rs_env rpose vec3) (cam : Z -> cam_par) (bpts : Z -> list vec3)
           (pose0 : nat -> rpose) (thresh : R) (it : Z) (t : tables pt2) : option (tables pt2 * list rpose) :=
  match collect (mapi (fun n o => boardobs_estimatePose (env n) (cam (o_cam o)) (bpts (o_board o)) (pose0 n) thresh it o) 0 (mvals (t_obs t))) with
  | Some rs => Some (mkT (combine (mkeys (t_obs t)) (map fst rs)) (t_cams t) (t_boards t) (t_frames t) (t_camobs t), map snd rs)
  | None => None
  end.

(** McCalib.cpp 991-994: the poses of all object observations.  None: an access outside
    a vector in some call, or (impossible) an expired object. *)
Definition estimatePoseAllObjects {rpose} (env : nat -> rs_env rpose vec3) (cam : Z -> cam_par) (objs : smap Z obj3d)
           (pose0 : nat -> rpose) (thresh : R) (it : Z) (all : list (objobs pt2)) : option (list rpose) :=
  collect (mapi (fun n oo => match mfind (oo_obj oo) objs with
                          | Some o => objectobs_estimatePose (env n) (cam (oo_cam oo)) (ob_pts o) (pose0 n) thresh it (oo_ids oo) (oo_pts oo)
                          | None => None
                          end) 0 all).
