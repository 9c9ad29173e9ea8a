(** Hand-eye calibration of camera groups that never see the same object:
    geometrytools.cpp 362-686 (handeyeCalibration, getTranslationsForClustering,
    clusterTranslations, selectClusters, selectPoses, preparePosesForHandEyeCalibration,
    getPosesForHandeyeCalibration, checkSetConsistency,
    handeyeBootstraptTranslationCalibration), McCalib.cpp 1229-1499
    (findPairObjectForNonOverlap, initNonOverlapPair, findPoseNoOverlapAllCamGroup).

    Poses are (rotation, translation), see ChainModel; real arithmetic.  Library calls are
    parameters: cv::calibrateHandEye ([he] with method TSAI, [heh] with HORAUD),
    cv::kmeans ([km], the labels), std::shuffle ([shuffle], by call),
    uniform_int_distribution ([rnd], by call and number of choices), SVD and the logarithm
    as in GeomModel. *)
From Coq Require Import List ZArith QArith Lia Reals.
From Verif Require Import SMap GraphModel DataModel DetectModel GeomModel ChainModel ObjectsModel GroupModel StageModel PipelineModel.
Import ListNotations.
Close Scope Q_scope.
Close Scope R_scope.
Open Scope nat_scope.

Section HandEye.
Variable lr : mat3 -> vec3.
Variables he heh : list (pose * pose) -> pose.

(** geometrytools.cpp 376-385, 526-537: Proj2RT, then Rodrigues *)
Definition through_rodrigues (P : pose) : pose := (exp_rot (fst (Proj2RT lr P)), snd (Proj2RT lr P)).
(** geometrytools.cpp 362-395.  None: the second vector is shorter, pose_abs_2[i] is read
    outside. *)
Definition handeyeCalibration (p1 p2 : list pose) : option pose :=
  if Nat.leb (length p1) (length p2)
  then Some (heh (map (fun '(a, b) => (through_rodrigues (pinv a), through_rodrigues b)) (combine p1 p2)))
  else None.

(** geometrytools.cpp 404-418: one row of 6 numbers per pose (float conversion left out) *)
Definition getTranslationsForClustering (p1 p2 : list pose) : list (vec3 * vec3) :=
  map (fun '(a, b) => (snd a, snd b)) (combine p1 p2).

(** geometrytools.cpp 448-466: [sh] is the shuffled vector of num_clusters indices.
    None: shuffled_ind[k] is read outside. *)
Definition selectClusters (sh : list nat) (nb_clust_pick : nat) : option (list nat) :=
  if Nat.leb nb_clust_pick (length sh) then Some (firstn nb_clust_pick sh) else None.
(** geometrytools.cpp 482-487: the poses of one cluster *)
Definition poses_of_cluster (labels : list nat) (c : nat) : list nat :=
  filter (fun i => Nat.eqb (nth i labels 0) c) (seq 0 (length labels)).
(** geometrytools.cpp 475-498; [rn c n] is the number drawn from 0 .. n-1.  None: no pose
    has the label, the distribution is given the bounds 0, -1 *)
Definition selectPoses (labels : list nat) (rn : nat -> nat -> nat) (clusters : list nat) : option (list nat) :=
  collect (map (fun c => let l := poses_of_cluster labels c in nth_error l (rn c (length l))) clusters).
(** geometrytools.cpp 509-538.  None: an index outside of the vectors *)
Definition preparePoses (p1 p2 : list pose) (sel : list nat) : option (list (pose * pose)) :=
  collect (map (fun i => match nth_error p1 i, nth_error p2 i with
                         | Some a, Some b => Some (through_rodrigues (pinv a), through_rodrigues b)
                         | _, _ => None
                         end) sel).

(** geometrytools.cpp 590-599: the angle in degrees, None = NaN.  2^-52 is
    numeric_limits<double>::epsilon(). *)
Definition trace (A : mat3) : R := (m00 A + m11 A + m22 A)%R.
Definition err_degree (E : pose) : option R :=
  let x := (1 / 2 * (trace (fst (through_rodrigues E)) - / 2 ^ 52 - 1))%R in
  if Rle_dec (-1) x then if Rle_dec x 1 then Some (acos x * 180 / PI)%R else None else None.
(** std::max(a, b) is (a < b) ? b : a, so that NaN as b is ignored *)
Definition std_max (a : R) (b : option R) : R := match b with Some b => if Rlt_dec a b then b else a | None => a end.
(** geometrytools.cpp 576-603.  Note that both poses of a camera are those of number i. *)
Definition checkSetConsistency (p1 p2 : list pose) (sel : list nat) (X : pose) : option R :=
  fold_left (fun acc i =>
    fold_left (fun acc j =>
      match acc with
      | None => None
      | Some mx =>
          if Nat.eqb i j then Some mx else
          match nth_error sel i with
          | None => None
          | Some n =>
              match nth_error p1 n, nth_error p2 n with
              | Some p11, Some p21 =>
                  let p12 := p11 in let p22 := p21 in
                  let PP1 := pmul (pinv p12) p11 in
                  let PP2 := pmul (pinv p21) p22 in
                  Some (std_max mx (err_degree (pmul (pmul (pmul (pinv PP2) X) PP1) X)))
              | _, _ => None
              end
          end
      end) (seq 0 (length sel)) acc) (seq 0 (length sel)) (Some 0%R).

Variables (svd : (nat -> nat -> R) -> quat) (km : list (vec3 * vec3) -> nat -> list nat).
Variables (shuffle : nat -> list nat -> list nat) (rnd : nat -> nat -> nat -> nat).

(** geometrytools.cpp 643-669: one iteration; the candidate and whether it is accepted *)
Definition one_candidate (p1 p2 : list pose) (labels : list nat) (num_clusters it : nat) : option (pose * bool) :=
  match selectClusters (shuffle it (seq 0 num_clusters)) 6 with
  | None => None
  | Some cl =>
      match selectPoses labels (rnd it) cl with
      | None => None
      | Some sel =>
          match preparePoses p1 p2 sel with
          | None => None
          | Some data =>
              let X := he data in
              match checkSetConsistency p1 p2 sel X with
              | None => None
              | Some e => Some (X, if Rlt_dec e 15 then true else false)
              end
          end
      end
  end.
(** geometrytools.cpp 620-686.  None: an access outside a vector. *)
Definition handeyeBootstraptTranslationCalibration (nb_cluster nb_it : nat) (p1 p2 : list pose) : option pose :=
  let position := getTranslationsForClustering p1 p2 in
  let num_clusters := Nat.min nb_cluster (length position) in
  let labels := km position num_clusters in
  match collect (map (one_candidate p1 p2 labels num_clusters) (seq 0 nb_it)) with
  | None => None
  | Some cs =>
      let ok := map fst (filter snd cs) in
      if Nat.ltb 3 (length ok) then
        match getAverageRotation svd lr true (map (fun X => fst (Proj2RT lr X)) ok) with
        | Some r => Some (RVecT2Proj r (V3 (median (map (fun X => vx (snd X)) ok)) (median (map (fun X => vy (snd X)) ok))
                                           (median (map (fun X => vz (snd X)) ok))))
        | None => None (* NaN *)
        end
      else handeyeCalibration p1 p1
  end.
End HandEye.

Section NonOverlap.
Context {pt : Type}.

(** frames_ of a group: a map, so each frame once and in order; insertNewFrame
    (CameraGroup.cpp 54-56) *)
Definition group_frames (gt : gtables) (g : Z) : list Z :=
  mkeys (fold_left (fun m f => mset f tt m) (ptable g (gt_gframes gt)) []).
(** McCalib.cpp 1264-1272, 1378-1386: set_intersection of two sorted ranges; the frame
    pointers of equal keys are equal *)
Definition common_frames (gt : gtables) (g1 g2 : Z) : list Z :=
  filter (fun f => existsb (Z.eqb f) (group_frames gt g2)) (group_frames gt g1).
(** McCalib.cpp 1279-1296, 1393-1413: the observation of group g in frame f, through
    cam_group_idx_ and cam_group_observations_ of the frame; None = null pointer *)
Definition group_obs_of (gt : gtables) (g f : Z) : option gobs_t :=
  match find (fun k => Z.eqb (fst k) g) (ptable f (gt_frames gt)) with
  | Some k => mfind k (gt_obs gt)
  | None => None
  end.
(** count_pair_obs[k]++ *)
Definition bump (k : Z * Z) (m : smap (Z * Z) nat) : smap (Z * Z) nat :=
  mset k (S (match mfind k m with Some n => n | None => 0 end)) m.
(** McCalib.cpp 1240-1248; obj_id_ is the key of the object (C24) *)
Definition no_counts (objs : smap Z obj3d) : smap (Z * Z) nat :=
  fold_left (fun m o1 => fold_left (fun m o2 => if Z.eqb o1 o2 then m else mset (o1, o2) 0 m) (mkeys objs) m) (mkeys objs) [].
(** McCalib.cpp 1297-1314 *)
Definition count_frame (all : list (objobs pt)) (a b : gobs_t) (m : smap (Z * Z) nat) : smap (Z * Z) nat :=
  fold_left (fun m n1 => match nth_error all n1 with
    | Some o1 => fold_left (fun m n2 => match nth_error all n2 with
                                        | Some o2 => bump (oo_obj o1, oo_obj o2) m
                                        | None => m end) (go_nums b) m
    | None => m end) (go_nums a) m.
(** McCalib.cpp 1276-1316 *)
Definition count_pairs (all : list (objobs pt)) (gt : gtables) (objs : smap Z obj3d) (g1 g2 : Z) : smap (Z * Z) nat :=
  fold_left (fun m f => match group_obs_of gt g1 f, group_obs_of gt g2 f with
                        | Some a, Some b => count_frame all a b m
                        | _, _ => m end) (common_frames gt g1 g2) (no_counts objs).
(** McCalib.cpp 1319-1326 *)
Definition arg_max (m : smap (Z * Z) nat) : (Z * Z) * nat :=
  fold_left (fun best kn => if Nat.ltb (snd best) (snd kn) then kn else best) m ((0, 0)%Z, 0).
(** McCalib.cpp 1229-1334: no_overlap_object_pair_ *)
Definition distinct_pairs (groups : smap Z cgroup) : list (Z * Z) :=
  flat_map (fun g1 => flat_map (fun g2 => if Z.eqb g1 g2 then [] else [(g1, g2)]) (mkeys groups)) (mkeys groups).
Definition findPairObjectForNonOverlap (s : calib pt) : smap (Z * Z) (Z * Z) :=
  fold_left (fun m k => mset k (fst (arg_max (count_pairs (ot_all (ca_oobs s)) (ca_gobs s) (ca_objs s) (fst k) (snd k)))) m)
            (distinct_pairs (ca_groups s)) [].

(** McCalib.cpp 1388-1448: the poses of the two objects in the common frames; [gp] is
    getObjectPoseMat.  The object of the observation at the position found is the object
    looked for (C31). *)
Definition common_poses (gt : gtables) (gp : Z * Z -> Z -> pose) (g1 g2 o1 o2 : Z) : list (pose * pose) :=
  flat_map (fun f => match group_obs_of gt g1 f, group_obs_of gt g2 f with
                     | Some a, Some b => if existsb (Z.eqb o1) (go_ids a) && existsb (Z.eqb o2) (go_ids b)
                                         then [(gp (g1, f) o1, gp (g2, f) o2)] else []
                     | _, _ => [] end) (common_frames gt g1 g2).
(** McCalib.cpp 1341-1479.  [calib2] is the hand-eye calibration selected by he_approach_
    (lines 1458-1468); outer None: it accesses a vector outside its bounds; inner None: no
    pose is stored. *)
Definition initNonOverlapPair (calib2 : list pose -> list pose -> option pose) (gt : gtables) (gp : Z * Z -> Z -> pose)
           (objpair : smap (Z * Z) (Z * Z)) (g1 g2 : Z) : option (option (pose * nat)) :=
  let '(o1, o2) := match mfind (g1, g2) objpair with Some p => p | None => (0, 0)%Z end in
  let ps := common_poses gt gp g1 g2 o1 o2 in
  if Nat.leb (length ps) 3 then Some None
  else match calib2 (map fst ps) (map snd ps) with
       | Some X => Some (Some (pinv X, length ps))
       | None => None
       end.
(** McCalib.cpp 1484-1499.  The table of counts is not cleared, but this is called once
    and later entries overwrite; only counts of present pairs are read (1517-1521). *)
Definition findPoseNoOverlapAllCamGroup (calib2 : list pose -> list pose -> option pose) (gp : Z * Z -> Z -> pose)
           (objpair : smap (Z * Z) (Z * Z)) (s : calib pt) : option (smap (Z * Z) (pose * nat)) :=
  fold_left (fun acc k =>
    match acc with
    | None => None
    | Some m => match initNonOverlapPair calib2 (ca_gobs s) gp objpair (fst k) (snd k) with
                | None => None
                | Some None => Some m
                | Some (Some v) => Some (mset k v m)
                end
    end) (distinct_pairs (ca_groups s)) (Some []).
End NonOverlap.

(** McCalib.cpp 1458-1468: he_approach_ = 0 selects the bootstrap with 20 clusters and 200
    iterations *)
Definition handeye lr he heh svd km shuffle rnd (he_approach : Z) (p1 p2 : list pose) : option pose :=
  if Z.eqb he_approach 0 then handeyeBootstraptTranslationCalibration lr he heh svd km shuffle rnd 20 200 p1 p2
  else handeyeCalibration lr heh p1 p2.
