(** The steps of the workflow that only compute reprojection errors for the log.  They store
    nothing, but they call OpenCV on the corners left by the removal of outliers, and
    cv::projectPoints refuses an empty list of points (it throws cv::Exception, which nobody
    catches, so that the program ends). *)
From Coq Require Import List ZArith Reals.
From Verif Require Import SMap GraphModel DataModel DetectModel RansacModel GeomModel ChainModel ObjectsModel GroupModel StageModel PipelineModel HandEyeModel EstimateAll
  CameraModel ResidualModel FileModel IntrinsicModel WorkflowModel.
Import ListNotations.
Open Scope nat_scope.

Section Logs.
(** whether the projection of OpenCV for the model (0: cv::projectPoints, 1:
    cv::fisheye::projectPoints) accepts an empty list of points; in OpenCV 4 the first one
    does not *)
Variable accepts : Z -> bool.
Variables (bpts : Z -> list vec3) (models : Z -> Z).

(** a vector read at each of the given indices *)
Definition in_range {A} (l : list A) (ids : list Z) : bool :=
  forallb (fun i => andb (Z.leb 0 i) (Z.ltb i (Z.of_nat (length l)))) ids.
(** geometrytools.cpp 755-772 on n points: does it return?  For another model than 0 and 1
    nothing is called. *)
Definition projects (m : Z) (n : nat) : bool :=
  if orb (Z.eqb m 0) (Z.eqb m 1) then orb (Nat.ltb 0 n) (accepts m) else true.
(** geometrytools.cpp 755-772: the number of points it yields *)
Definition projected (m : Z) (n : nat) : nat := if orb (Z.eqb m 0) (Z.eqb m 1) then n else 0.

(** BoardObs.cpp 165-203; the errors themselves are only logged, and a board with a point at
    depth zero is not an error here (OpenCV takes 1 for 1/0) *)
Definition board_repro (o : bobs pt2) : bool :=
  andb (in_range (bpts (o_board o)) (o_ids o))
    (andb (projects (models (o_cam o)) (length (o_ids o)))
          (Nat.leb (projected (models (o_cam o)) (length (o_ids o))) (length (o_pts o)))).
(** McCalib.cpp 722-726 *)
Definition computeReproErrAllBoard (t : tables pt2) : bool := forallb board_repro (mvals (t_obs t)).

(** Object3DObs.cpp 255-291; an observation whose object is gone has no points (257-263) *)
Definition object_repro (objs : smap Z obj3d) (oo : objobs pt2) : bool :=
  match mfind (oo_obj oo) objs with
  | Some o => andb (in_range (ob_pts o) (oo_ids oo))
                (andb (projects (models (oo_cam oo)) (length (oo_ids oo)))
                      (Nat.leb (projected (models (oo_cam oo)) (length (oo_ids oo))) (length (oo_pts oo))))
  | None => projects (models (oo_cam oo)) 0
  end.
(** McCalib.cpp 999-1008; the mean that it logs may be 0/0, which is not an error *)
Definition computeReproErrAllObject (s : calib pt2) : bool := forallb (object_repro (ca_objs s)) (ot_all (ca_oobs s)).

(** CameraGroup.cpp 285-358; an expired observation or object is skipped (304-308) *)
Definition reproErrorCameraGroup (s : calib pt2) (G : cgroup) : bool :=
  forallb (fun kn => match view_data s (snd kn) with Some (oo, _) => object_repro (ca_objs s) oo | None => true end) (group_views_of s G).
(** McCalib.cpp 1866-1869 *)
Definition reproErrorAllCamGroup (s : calib pt2) : bool := forallb (reproErrorCameraGroup s) (mvals (ca_groups s)).

(** a step followed by one of these *)
Definition logged (ok : run -> bool) (x : option run) : option run := bind x (fun r => if ok r then Some r else None).

(** ** The workflow with these steps *)
Variables (svd : (nat -> nat -> R) -> quat) (lr : mat3 -> vec3) (uq : bool) (pick : dstate -> nat) (g0 : graph).
Variables (solve : list block -> params -> params) (thresh : R) (it : Z).
Variables (env : nat -> nat -> rs_env par6 vec3) (pose0 : nat -> nat -> par6).
Variable calib2 : list pose -> list pose -> option pose.
Variable fix_intrinsic : Z.

(** McCalib.cpp 2085-2092 *)
Definition initIntrinsic_logged (src : init_source) (t0 : tables pt2) (p0 : params) (gp0 : nat -> par6) : option run :=
  logged (fun r => computeReproErrAllBoard (ru_t r)) (initIntrinsic solve bpts models thresh it env pose0 fix_intrinsic src t0 p0 gp0).
(** McCalib.cpp 2098-2108 *)
Definition calibrate3DObjects_logged (r : run) : option run :=
  bind (new_objects svd lr uq pick g0 bpts r) (fun r =>
  bind (logged (fun r => computeReproErrAllObject (ru_s r)) (estimate_objects_step models thresh it env pose0 1 r)) (fun r =>
  logged (fun r => computeReproErrAllObject (ru_s r)) (refine_objects_step solve bpts models r))).
(** McCalib.cpp 2128-2143: line 2135 is reached before the objects are merged.  The poses
    between objects and their graph (2132-2134) are part of [merged_objects] and do not touch
    what line 2135 reads. *)
Definition merge3DObjects_logged (c : nat) (r : run) : option run :=
  bind (estimate_objects_step models thresh it env pose0 c r) (fun r =>
  bind (logged (fun r => reproErrorAllCamGroup (ru_s r)) (group_poses_step svd lr uq r)) (fun r =>
  bind (merged_objects svd lr uq pick g0 bpts r) (fun r =>
  bind (estimate_objects_step models thresh it env pose0 (S c) r) (fun r =>
  bind (group_poses_step svd lr uq r) (fun r =>
  logged (fun r => reproErrorAllCamGroup (ru_s r)) (refine_step solve bpts models r)))))).
(** calibrate.cpp 51-66 *)
Definition final_logged (r : run) : option run :=
  logged (fun r => reproErrorAllCamGroup (ru_s r)) (run_final svd lr uq solve bpts models thresh it env pose0 fix_intrinsic r).
(** calibrate.cpp 15-66 *)
Definition calibrate_logged (src : init_source) (t0 : tables pt2) (p0 : params) (gp0 : nat -> par6) : option run :=
  bind (initIntrinsic_logged src t0 p0 gp0) (fun r =>
  bind (calibrate3DObjects_logged r) (fun r =>
  bind (run_calibrateCameraGroup svd lr uq pick g0 solve bpts models r) (fun r =>
  bind (merge3DObjects_logged 2 r) (fun r =>
  bind (run_pairs calib2 r) (fun r =>
  bind (run_mergeGroups lr pick g0 r) (fun r =>
  bind (merge3DObjects_logged 4 r) (fun r =>
  bind (run_mergeGroups lr pick g0 r) final_logged))))))).
End Logs.
