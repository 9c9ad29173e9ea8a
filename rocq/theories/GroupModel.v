(** Model of camera groups and their observations: McCalib.cpp 1091-1142
    (initCameraGroup), 1149-1203 (initCameraGroupObs, initAllCameraGroupObs), 1529-1610
    (mergeCameraGroup), 1616-1629 (mergeAllCameraGroupObs), 1635-1641; CameraGroup.cpp
    22-53, 66-108, 153-183; CameraGroupObs.cpp 18-108, 208-217.

    Poses are (rotation, translation), see ChainModel.  An Object3DObs is its number in
    object_observations_ of Calibration. *)
From Coq Require Import List ZArith QArith Lia Reals.
From Verif Require Import SMap GraphModel DataModel DetectModel GeomModel ChainModel ObjectsModel.
Import ListNotations.
Close Scope Q_scope.
Close Scope R_scope.
Open Scope nat_scope.

(** CameraGroup.hpp: cam_group_idx_, id_ref_cam_, cam_idx, cameras_, relative_camera_pose_ *)
Record cgroup := mkGrp {
  cg_id : Z; cg_ref : Z; cg_cams : list Z; cg_map : smap Z Z; cg_poses : smap Z pose }.
(** CameraGroup.cpp 22-23 *)
Definition new_group (ref id : Z) : cgroup := mkGrp id ref [] [] [].
(** CameraGroup.cpp 30-33 and 100-106: insertCamera, setCameraPoseMat *)
Definition place_camera (G : cgroup) (cp : Z * pose) : cgroup :=
  mkGrp (cg_id G) (cg_ref G) (cg_cams G ++ [fst cp]) (mset (fst cp) (fst cp) (cg_map G))
        (mset (fst cp) (snd cp) (cg_poses G)).

(** McCalib.cpp 1100-1141 for component number i *)
Definition init_group (pick : dstate -> nat) (g : graph) (tr : smap (Z * Z) pose) (i : nat) (comp : list Z)
  : option cgroup :=
  option_map (fun ps => fold_left place_camera ps (new_group (min_of comp) (Z.of_nat i)))
             (component_poses step_fwd pick g tr comp).
(** McCalib.cpp 1091-1142; cam_group_ is empty before (called once).  None: see path_pose. *)
Definition initCameraGroup (pick : dstate -> nat) (g : graph) (tr : smap (Z * Z) pose) : option (smap Z cgroup) :=
  let cs := connectedComponents g in
  option_map dense (collect (map (fun '(i, c) => init_group pick g tr i c) (combine (seq 0 (length cs)) cs))).

(** McCalib.cpp 1588-1599: cameras of a group in index order with their poses in the
    merged group.  None: a camera without pose (impossible, C24). *)
Definition moved_cameras (T : pose) (G : cgroup) : option (list (Z * pose)) :=
  collect (map (fun c => option_map (fun P => (c, pmul P T)) (mfind c (cg_poses G))) (mkeys (cg_map G))).
(** McCalib.cpp 1535-1605 for component number i.  None also when the reference group
    is not in cam_group_ (line 1540 then dereferences a null pointer). *)
Definition merge_group (pick : dstate -> nat) (g : graph) (tr : smap (Z * Z) pose) (groups : smap Z cgroup)
           (i : nat) (comp : list Z) : option cgroup :=
  match component_poses step_fwd pick g tr comp, mfind (min_of comp) groups with
  | Some ps, Some r =>
      option_map (fun ll => fold_left place_camera (concat ll) (new_group (cg_ref r) (Z.of_nat i)))
        (collect (map (fun '(_, G) =>
                         match find (fun p => Z.eqb (fst p) (cg_id G)) ps with
                         | Some p => moved_cameras (snd p) G
                         | None => Some []
                         end) groups))
  | _, _ => None
  end.
(** McCalib.cpp 1529-1610 *)
Definition mergeCameraGroup (pick : dstate -> nat) (g : graph) (tr : smap (Z * Z) pose) (groups : smap Z cgroup)
  : option (smap Z cgroup) :=
  let cs := connectedComponents g in
  option_map dense (collect (map (fun '(i, c) => merge_group pick g tr groups i c) (combine (seq 0 (length cs)) cs))).

(** ** Observations of groups *)
Section Obs.
Context {pt : Type}.

(** CameraGroupObs.hpp: cam_group_idx_, object_idx_, object_observations_ (numbers) *)
Record gobs_t := mkGO { go_group : Z; go_ids : list Z; go_nums : list nat }.
(** CameraGroupObs.cpp 29-33 *)
Definition insertObjectObservation (obj : Z) (n : nat) (go : gobs_t) : gobs_t :=
  mkGO (go_group go) (go_ids go ++ [obj]) (go_nums go ++ [n]).

(** cams_group_obs_; cam_group_observations_ of the frames (keys of cams_group_obs_);
    object_observations_ and frames_ of the groups.  A missing key is an empty table. *)
Record gtables := mkGT {
  gt_obs : smap (Z * Z) gobs_t;
  gt_frames : smap Z (list (Z * Z));
  gt_nums : smap Z (list nat);
  gt_gframes : smap Z (list Z) }.
Definition empty_gtables : gtables := mkGT [] [] [] [].
Definition ptable {K V} `{KeyOrd K} (k : K) (m : smap K (list V)) : list V :=
  match mfind k m with Some l => l | None => [] end.

(** McCalib.cpp 1163-1178: the loop over the object observations of one frame *)
Definition collect_obs (all : list (objobs pt)) (cams : list Z) (ns : list nat) (go : gobs_t) : gobs_t :=
  fold_left (fun go n => match nth_error all n with
                         | Some oo => if existsb (Z.eqb (oo_cam oo)) cams
                                      then insertObjectObservation (oo_obj oo) n go else go
                         | None => go (* expired pointer *)
                         end) ns go.
(** McCalib.cpp 1154-1191 for one frame; frame_idx_ is its key (C08) *)
Definition initFrameGroupObs (ot : otables pt) (gi : Z) (G : cgroup) (t : gtables) (f : Z) : gtables :=
  let go := collect_obs (ot_all ot) (cg_cams G) (table_of f (ot_frames ot)) (mkGO gi [] []) in
  let nums := mset gi (ptable gi (gt_nums t) ++ go_nums go) (gt_nums t) in
  if Nat.ltb 0 (length (go_nums go)) then
    mkGT (mset (gi, f) go (gt_obs t)) (mset f (ptable f (gt_frames t) ++ [(gi, f)]) (gt_frames t)) nums
         (mset gi (ptable gi (gt_gframes t) ++ [f]) (gt_gframes t))
  else mkGT (gt_obs t) (gt_frames t) nums (gt_gframes t).
(** McCalib.cpp 1149-1193; [frames]: keys of frames_ *)
Definition initCameraGroupObs (ot : otables pt) (frames : list Z) (gi : Z) (G : cgroup) (t : gtables) : gtables :=
  fold_left (initFrameGroupObs ot gi G) frames t.
(** McCalib.cpp 1199-1204; cam_group_idx_ is the key of the group (groups_ok) *)
Definition initAllCameraGroupObs (ot : otables pt) (frames : list Z) (groups : smap Z cgroup) (t : gtables) : gtables :=
  fold_left (fun t '(_, G) => initCameraGroupObs ot frames (cg_id G) G t) groups t.
(** McCalib.cpp 1616-1629: cams_group_obs_ and the frame tables are cleared, the tables of
    the groups are not *)
Definition mergeAllCameraGroupObs (ot : otables pt) (frames : list Z) (groups : smap Z cgroup) (t : gtables) : gtables :=
  initAllCameraGroupObs ot frames groups (mkGT [] [] (gt_nums t) (gt_gframes t)).

(** ** Poses *)
(** CameraGroup.cpp 166-176: pose in group of one object observation; [campose] is
    getPoseMat().  Missing camera pose: impossible (C31). *)
Definition pose_in_group (G : cgroup) (cam : Z) (campose : pose) : option pose :=
  option_map (fun C => pmul (pinv C) campose) (mfind cam (cg_poses G)).

(** std::unique followed by erase: drops repetitions of neighbours *)
Fixpoint unique (l : list Z) : list Z :=
  match l with
  | a :: r => match r with
              | b :: _ => if Z.eqb a b then unique r else a :: unique r
              | [] => [a]
              end
  | [] => []
  end.
(** CameraGroupObs.cpp 49-59: object index -> positions in object_observations_ *)
Definition obs_positions (ids : list Z) : smap Z (list nat) :=
  fold_left (fun m u => fold_left (fun m jo => if Z.eqb (snd jo) u then mset u (ptable u m ++ [fst jo]) m else m)
                                  (combine (seq 0 (length ids)) ids) m)
            (unique ids) [].
(** CameraGroupObs.cpp 62-99 for one object.  [view j] is (camera, pose in group) of
    object_observations_[j]; None = NaN pose (see average_pose) or no view. *)
Definition group_pose svd lr uq (ref : Z) (view : nat -> Z * (vec3 * vec3)) (js : list nat) : option (vec3 * vec3) :=
  match fold_left (fun acc j => if Z.eqb ref (fst (view j)) then Some (snd (view j)) else acc) js None with
  | Some p => Some p
  | None =>
      let n := INR (length js) in
      let s := fold_left (fun acc j => vadd acc (snd (snd (view j)))) js vzero in
      option_map (fun r => (r, V3 (vx s / n) (vy s / n) (vz s / n))%R)
                 (getAverageRotation svd lr uq (map (fun j => fst (snd (view j))) js))
  end.
(** CameraGroupObs.cpp 42-108: object_pose_, and the pose in group of each observation
    afterwards *)
Definition computeObjectsPose svd lr uq (ref : Z) (ids : list Z) (view : nat -> Z * (vec3 * vec3))
  : smap Z (option (vec3 * vec3)) * (nat -> option (vec3 * vec3)) :=
  fold_left (fun st '(o, js) =>
     let p := group_pose svd lr uq ref view js in
     (mset o p (fst st), fun j => if existsb (Nat.eqb j) js then p else snd st j))
    (obs_positions ids) ([], fun j => Some (snd (view j))).
End Obs.
