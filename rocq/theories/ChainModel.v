(** Model of the covisibility stage shared by boards, cameras, camera groups and objects:
    McCalib.cpp 735-768 (computeBoardsPairPose), 781-822 (initInterTransform), 828-845,
    1070-1085, 1505-1523, 1690-1707 (the four graphs), 1024-1064
    (computeCamerasPairPose), 1650-1684 (computeObjectsPairPose), and the path loops of
    854-926 (init3DObjects), 1091-1142 (initCameraGroup), 1529-1568 (mergeCameraGroup),
    1713-1756 (mergeObjects).

    Poses are pairs (rotation matrix, translation).  In the code they are stored as
    rotation vectors; storing and reading back is the identity on rigid poses
    (C21_invert_rotation_vector, log_ok).  Weak pointers are alive: everything is owned
    by Calibration. *)
From Coq Require Import List ZArith QArith Lia Reals.
From Verif Require Import SMap GraphModel DetectModel GeomModel.
Import ListNotations.
Close Scope Q_scope.
Close Scope R_scope.
Open Scope nat_scope.

(** std::map<pair<int,int>, vector<Mat>>: board_pose_pairs_, camera_pose_pairs_, object_pose_pairs_ *)
Definition pair_table : Type := smap (Z * Z) (list pose).

(** m[key].push_back(pose) (McCalib.cpp 759, 1056, 1676) *)
Definition push_pair (m : pair_table) (e : (Z * Z) * pose) : pair_table :=
  mset (fst e) (match mfind (fst e) m with Some l => l ++ [snd e] | None => [snd e] end) m.
(** clear() followed by push_backs *)
Definition build_pairs (es : list ((Z * Z) * pose)) : pair_table := fold_left push_pair es [].

(** McCalib.cpp 741-764 for one CameraObs; [seen] lists board_id_ and getPoseMat() of
    its board_observations_ (board_idx_ has as many entries, C08). *)
Definition board_pairs_of (seen : list (Z * pose)) : list ((Z * Z) * pose) :=
  if Nat.ltb 1 (length seen) then
    flat_map (fun '(b1, p1) =>
      flat_map (fun '(b2, p2) =>
        if Z.eqb b1 b2 then [] else [((b1, b2), pmul (pinv p2) p1)]) seen) seen
  else [].
(** McCalib.cpp 735-768; [views]: the entries of cams_obs_ *)
Definition computeBoardsPairPose (views : list (list (Z * pose))) : pair_table :=
  build_pairs (flat_map board_pairs_of views).

(** McCalib.cpp 1029-1060 for one frame: number of its board observations and its object
    observations (camera, object, pose). *)
Definition camera_pairs_of (fr : nat * list (Z * Z * pose)) : list ((Z * Z) * pose) :=
  if Nat.ltb 1 (fst fr) then
    flat_map (fun '(c1, o1, p1) =>
      flat_map (fun '(c2, o2, p2) =>
        if Z.eqb c1 c2 then [] else
        if Z.eqb o1 o2 then [((c1, c2), pmul p2 (pinv p1))] else []) (snd fr)) (snd fr)
  else [].
(** McCalib.cpp 1024-1064 *)
Definition computeCamerasPairPose (frames : list (nat * list (Z * Z * pose))) : pair_table :=
  build_pairs (flat_map camera_pairs_of frames).

(** McCalib.cpp 1653-1680 for one CameraGroupObs: object_idx_.size(), the object ids of
    its object_observations_ and getObjectPoseMat. *)
Definition object_pairs_of (go : nat * list Z * (Z -> pose)) : list ((Z * Z) * pose) :=
  let '(n, ids, P) := go in
  if Nat.ltb 1 n then
    flat_map (fun o1 =>
      flat_map (fun o2 =>
        if Z.eqb o1 o2 then [] else [((o1, o2), pmul (pinv (P o2)) (P o1))]) ids) ids
  else [].
(** McCalib.cpp 1650-1684 *)
Definition computeObjectsPairPose (gobs : list (nat * list Z * (Z -> pose))) : pair_table :=
  build_pairs (flat_map object_pairs_of gobs).

(** McCalib.cpp 781-822.  None = a NaN pose (see average_pose). *)
Definition initInterTransform svd log_rot (use_quat : bool) (t : pair_table) : option (smap (Z * Z) pose) :=
  collect (map (fun '(k, ps) => option_map (pair k) (average_pose svd log_rot use_quat ps)) t).

(** McCalib.cpp 828-845, 1070-1085, 1505-1523, 1690-1707 : clear, one vertex per observed
    index, one edge of weight 1/count per entry of the table (counts are never 0: a
    vector is created by its first push_back; common frame counts exceed 3). *)
Definition covis_ops (observed : list Z) (es : smap (Z * Z) nat) : list gop :=
  Clear :: map AddV observed ++
  map (fun '(k, n) => AddE (fst k) (snd k) (1 # Pos.of_nat n)%Q) es.
Definition covis_graph (g0 : graph) (observed : list Z) (es : smap (Z * Z) nat) : graph :=
  fold_left gstep (covis_ops observed es) g0.
(** size() of each vector *)
Definition counts (t : pair_table) : smap (Z * Z) nat := map (fun '(k, ps) => (k, length ps)) t.

(** consecutive pairs of a path *)
Fixpoint edges_of (l : list Z) : list (Z * Z) :=
  match l with
  | a :: r => match r with b :: _ => (a, b) :: edges_of r | [] => [] end
  | [] => []
  end.

(** McCalib.cpp 880-890, 1115-1125, 1550-1563, 1739-1752: walk the path.  None = the
    table has no entry for a step (operator[] then gives an empty matrix and the product
    throws). *)
Definition chain_transform (step : pose -> pose -> pose) (tr : smap (Z * Z) pose) (l : list Z) : option pose :=
  fold_left (fun acc e => match acc, mfind e tr with
                          | Some t, Some c => Some (step t c)
                          | _, _ => None
                          end) (edges_of l) (Some pid).
(** line 888, 1750: transform * current_trans.inv() *)
Definition step_inv (t c : pose) : pose := pmul t (pinv c).
(** line 1123, 1562: transform * current_trans *)
Definition step_fwd (t c : pose) : pose := pmul t c.

(** *min_element(begin, end) of a non-empty vector *)
Definition min_of (c : list Z) : Z := fold_left Z.min (tl c) (hd 0%Z c).

(** pose of [m] relative to [ref]; None also when shortestPathBetween does not return *)
Definition path_pose (step : pose -> pose -> pose) (pick : dstate -> nat) (g : graph)
           (tr : smap (Z * Z) pose) (ref m : Z) : option pose :=
  match shortestPathBetween pick (length (vnames g)) g ref m with
  | Path l => chain_transform step tr l
  | _ => None
  end.

(** members of a component with their poses relative to its smallest member *)
Definition component_poses (step : pose -> pose -> pose) (pick : dstate -> nat) (g : graph)
           (tr : smap (Z * Z) pose) (comp : list Z) : option (list (Z * pose)) :=
  collect (map (fun m => option_map (pair m) (path_pose step pick g tr (min_of comp) m)) comp).
