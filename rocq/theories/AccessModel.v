(** The accessors of poses: a pose is kept as six doubles (rotation vector, translation).
    McCalib/src/BoardObs.cpp 40-111 (pose_), Object3DObs.cpp 60-213 (pose_, group_pose_),
    Object3D.cpp 66-148 (relative_board_pose_), CameraGroup.cpp 66-146 (relative_camera_pose_),
    CameraGroupObs.cpp 117-201 (object_pose_), geometrytools.cpp 51-80 (vectorProj, ProjToVec). *)
From Coq Require Import List ZArith Reals.
From Flocq Require Import Core.
From Verif Require Import SMap DetectModel GeomModel.
Import ListNotations.
Close Scope R_scope.
Open Scope nat_scope.

(** std::array<double, 6> (BoardObs.hpp 33, Object3DObs.hpp 40, 43, Object3D.hpp 48, CameraGroup.hpp 40, CameraGroupObs.hpp 29) *)
Record arr6 := A6 { a_0 : R; a_1 : R; a_2 : R; a_3 : R; a_4 : R; a_5 : R }.
(** the braced list of setPoseVec, e.g. BoardObs.cpp 108-111 *)
Definition array_of (r t : vec3) : arr6 := A6 (vx r) (vy r) (vz r) (vx t) (vy t) (vz t).
(** setPoseMat, e.g. BoardObs.cpp 93-98; [lr] = cv::Rodrigues, matrix to vector *)
Definition array_of_mat (lr : mat3 -> vec3) (P : pose) : arr6 := let (r, t) := Proj2RT lr P in array_of r t.
(** getPoseVec, e.g. BoardObs.cpp 40-52 *)
Definition pose_vec (a : arr6) : vec3 * vec3 := (V3 (a_0 a) (a_1 a) (a_2 a), V3 (a_3 a) (a_4 a) (a_5 a)).
(** getPoseMat, e.g. BoardObs.cpp 59-65 *)
Definition pose_mat (a : arr6) : pose := let (r, t) := pose_vec a in RVecT2Proj r t.

(** The calls; [K] is what names a pose: nothing (BoardObs), the camera or the group (Object3DObs), a
    board (Object3D), a camera (CameraGroup), an object (CameraGroupObs). *)
Inductive call (K : Type) :=
| SetVec (k : K) (r t : vec3) | SetMat (k : K) (P : pose)
| GetVec (k : K) | GetMat (k : K) | GetRot (k : K) | GetTrans (k : K).
Arguments SetVec {K} k r t. Arguments SetMat {K} k P. Arguments GetVec {K} k. Arguments GetMat {K} k.
Arguments GetRot {K} k. Arguments GetTrans {K} k.
Inductive answer := ANone | AVec (r t : vec3) | AMat (P : pose) | AOne (v : vec3).
(** what a getter returns from the six doubles: getPoseVec, getPoseMat, getRotVec, getTransVec (BoardObs.cpp 40-89) *)
Definition reply {K} (c : call K) (a : arr6) : answer :=
  match c with
  | GetVec _ => AVec (fst (pose_vec a)) (snd (pose_vec a))
  | GetMat _ => AMat (pose_mat a)
  | GetRot _ => AOne (fst (pose_vec a))
  | GetTrans _ => AOne (snd (pose_vec a))
  | SetVec _ _ _ | SetMat _ _ => ANone
  end.

Section Access.
Variable lr : mat3 -> vec3.
(** A pose that is a member (BoardObs::pose_): the array is not initialised, so that a getter before
    the first setter returns indeterminate values: [None].  BoardObs.cpp 40-111, Object3DObs.cpp 60-123
    (pose_), 130-213 (group_pose_). *)
Definition slot_step {K} (c : call K) (s : option arr6) : option arr6 * option answer :=
  match c with
  | SetVec _ r t => (Some (array_of r t), Some ANone)
  | SetMat _ P => (Some (array_of_mat lr P), Some ANone)
  | _ => (s, option_map (reply c) s)
  end.
(** BoardObs.cpp 40-111 *)
Definition board_step (c : call unit) (s : option arr6) : option arr6 * option answer := slot_step c s.
(** Object3DObs.cpp 60-213: the pose in the camera ([false]) and the pose in the group ([true]) *)
Definition obs_step (c : call bool) (s : option arr6 * option arr6) : (option arr6 * option arr6) * option answer :=
  let in_group := match c with SetVec k _ _ | SetMat k _ | GetVec k | GetMat k | GetRot k | GetTrans k => k end in
  if in_group then let (g, a) := slot_step c (snd s) in ((fst s, g), a)
  else let (p, a) := slot_step c (fst s) in ((p, snd s), a).
(** std::map::operator[] : a missing entry is inserted, with zeros *)
Definition at_key (k : Z) (m : smap Z arr6) : smap Z arr6 * arr6 :=
  match mfind k m with Some a => (m, a) | None => let z := A6 0 0 0 0 0 0 in (mset k z m, z) end.
(** A table of poses: Object3D.cpp 66-148, CameraGroup.cpp 66-146, CameraGroupObs.cpp 117-201 *)
Definition table_step (c : call Z) (m : smap Z arr6) : smap Z arr6 * answer :=
  match c with
  | SetVec k r t => (mset k (array_of r t) m, ANone)
  | SetMat k P => (mset k (array_of_mat lr P) m, ANone)
  | GetVec k | GetMat k | GetRot k | GetTrans k => let (m', a) := at_key k m in (m', reply c a)
  end.

(** a history of calls, and the answer to one more *)
Definition board_after (h : list (call unit)) (c : call unit) : option answer :=
  snd (board_step c (fold_left (fun s d => fst (board_step d s)) h None)).
Definition obs_after (h : list (call bool)) (c : call bool) : option answer :=
  snd (obs_step c (fold_left (fun s d => fst (obs_step d s)) h (None, None))).
Definition table_of (h : list (call Z)) : smap Z arr6 := fold_left (fun s d => fst (table_step d s)) h [].
Definition table_after (h : list (call Z)) (c : call Z) : answer := snd (table_step c (table_of h)).

(** ** Poses as floats *)
(** the conversion of a double to float (numbers beyond the largest float are not modelled) *)
Definition to_float (x : R) : R := round radix2 (FLT_exp (-149) 24) ZnearestE x.
(** vectorProj, geometrytools.cpp 51-68: [None] when the vector has fewer than six elements (undefined) *)
Definition vectorProj (v : list R) : option pose :=
  match v with
  | a :: b :: c :: d :: e :: f :: _ => Some (exp_rot (V3 a b c), V3 d e f)
  | _ => None
  end.
(** ProjToVec, geometrytools.cpp 71-80 *)
Definition ProjToVec (P : pose) : list R :=
  let (r, t) := Proj2RT lr P in map to_float [vx r; vy r; vz r; vx t; vy t; vz t].
End Access.
