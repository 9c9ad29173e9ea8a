(** The calibration stages that turn the observation tables into 3D objects and camera
    groups: McCalib.cpp 2098-2101 (calibrate3DObjects), 2114-2117
    (calibrateCameraGroup), 2128-2136 (merge3DObjects). *)
From Coq Require Import List ZArith QArith Lia Reals.
From Verif Require Import SMap GraphModel DataModel DetectModel GeomModel ChainModel ObjectsModel GroupModel.
Import ListNotations.
Close Scope Q_scope.
Close Scope R_scope.
Open Scope nat_scope.

Section Stages.
Context {pt : Type}.

(** McCalib.cpp 741-764: board_id_ and getPoseMat() ([bp n]) of the board observations
    of every CameraObs *)
Definition view_of (t : tables pt) (bp : nat -> pose) (co : camobs_t) : list (Z * pose) :=
  flat_map (fun n => match nth_error (mvals (t_obs t)) n with Some b => [(o_board b, bp n)] | None => [] end)
           (mvals (co_obs co)).
Definition board_views (t : tables pt) (bp : nat -> pose) : list (list (Z * pose)) :=
  map (fun e => view_of t bp (snd e)) (t_camobs t).

(** McCalib.cpp 831-836: boards with board_observations_.size() > 0 in map order *)
Definition observed_boards (t : tables pt) : list Z :=
  map fst (filter (fun e => Nat.ltb 0 (length (b_obs (snd e)))) (t_boards t)).
(** McCalib.cpp 1073-1077 *)
Definition observed_cams (t : tables pt) : list Z :=
  map fst (filter (fun e => Nat.ltb 0 (length (c_obs (snd e)))) (t_cams t)).
(** McCalib.cpp 1694-1698 *)
Definition observed_objects (ot : otables pt) (objs : smap Z obj3d) : list Z :=
  map (fun e => ob_id (snd e)) (filter (fun e => Nat.ltb 0 (length (table_of (fst e) (ot_objs ot)))) objs).

(** McCalib.cpp 1028-1048: for every frame, board_observations_.size() and camera_id_,
    object_3d_id_ and getPoseMat() ([op n]) of its object observations *)
Definition cam_frames (t : tables pt) (ot : otables pt) (op : nat -> pose) : list (nat * list (Z * Z * pose)) :=
  map (fun e => (length (f_obs (snd e)),
         flat_map (fun n => match nth_error (ot_all ot) n with Some oo => [((oo_cam oo, oo_obj oo), op n)] | None => [] end)
                  (table_of (fst e) (ot_frames ot)))) (t_frames t).

(** McCalib.cpp 1653-1665: object_idx_.size(), the object ids of object_observations_
    and getObjectPoseMat ([gp]) of every CameraGroupObs *)
Definition group_views (ot : otables pt) (gt : gtables) (gp : Z * Z -> Z -> pose) : list (nat * list Z * (Z -> pose)) :=
  map (fun e => (length (go_ids (snd e)),
         flat_map (fun n => match nth_error (ot_all ot) n with Some oo => [oo_obj oo] | None => [] end) (go_nums (snd e)),
         gp (fst e))) (gt_obs gt).

Variables (svd : (nat -> nat -> R) -> quat) (lr : mat3 -> vec3) (uq : bool) (pick : dstate -> nat) (g0 : graph).

(** McCalib.cpp 2099-2102 *)
Definition objects_stage (bpts : Z -> list vec3) (t : tables pt) (bp : nat -> pose) : option (smap Z obj3d) :=
  let pairs := computeBoardsPairPose (board_views t bp) in
  match initInterTransform svd lr uq pairs with
  | Some tr => init3DObjects bpts pick (covis_graph g0 (observed_boards t) (counts pairs)) tr
  | None => None
  end.
(** McCalib.cpp 2115-2118 *)
Definition cameras_stage (t : tables pt) (ot : otables pt) (op : nat -> pose) : option (smap Z cgroup) :=
  let pairs := computeCamerasPairPose (cam_frames t ot op) in
  match initInterTransform svd lr uq pairs with
  | Some tr => initCameraGroup pick (covis_graph g0 (observed_cams t) (counts pairs)) tr
  | None => None
  end.
(** McCalib.cpp 2132-2136 *)
Definition merge_stage (bpts : Z -> list vec3) (objs : smap Z obj3d) (ot : otables pt) (gt : gtables)
           (gp : Z * Z -> Z -> pose) : option (smap Z obj3d) :=
  let pairs := computeObjectsPairPose (group_views ot gt gp) in
  match initInterTransform svd lr uq pairs with
  | Some tr => mergeObjects bpts pick (covis_graph g0 (observed_objects ot objs) (counts pairs)) tr objs
  | None => None
  end.
End Stages.
