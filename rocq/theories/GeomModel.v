(** Model of the geometry used everywhere: geometrytools.cpp 14-20 (RT2Proj), 22-30
    (RVecT2Proj), 44-49 (Proj2RT), 83-94 (invertRvecT), 328-355 (transform3DPts),
    696-703 (median), 773-808 and 810-833 (quaternion conversions), 835-892
    (getAverageRotation), McCalib.cpp 781-822 (initInterTransform).

    Real arithmetic replaces double.  A 4x4 pose matrix [R t; 0 0 0 1] is the pair
    (R, t).  cv::Rodrigues from vector to matrix is modelled by its formula; from
    matrix to vector it is an oracle [log_rot], any right inverse of the former. *)
From Coq Require Import List ZArith Lia Reals Mergesort Orders Sorted Permutation.
From Verif Require Import DetectModel.
Import ListNotations.
Open Scope R_scope.

Record vec3 := V3 { vx : R; vy : R; vz : R }.
Record mat3 := M3 { m00 : R; m01 : R; m02 : R; m10 : R; m11 : R; m12 : R; m20 : R; m21 : R; m22 : R }.

Definition vzero : vec3 := V3 0 0 0.
Definition vadd (a b : vec3) : vec3 := V3 (vx a + vx b) (vy a + vy b) (vz a + vz b).
Definition vsub (a b : vec3) : vec3 := V3 (vx a - vx b) (vy a - vy b) (vz a - vz b).
Definition vscale (k : R) (a : vec3) : vec3 := V3 (k * vx a) (k * vy a) (k * vz a).
Definition vdot (a b : vec3) : R := vx a * vx b + vy a * vy b + vz a * vz b.
Definition vcross (a b : vec3) : vec3 :=
  V3 (vy a * vz b - vz a * vy b) (vz a * vx b - vx a * vz b) (vx a * vy b - vy a * vx b).
Definition vnorm (a : vec3) : R := sqrt (vdot a a).

Definition mid : mat3 := M3 1 0 0 0 1 0 0 0 1.
Definition mv (A : mat3) (p : vec3) : vec3 :=
  V3 (m00 A * vx p + m01 A * vy p + m02 A * vz p)
     (m10 A * vx p + m11 A * vy p + m12 A * vz p)
     (m20 A * vx p + m21 A * vy p + m22 A * vz p).
Definition mm (A B : mat3) : mat3 :=
  M3 (m00 A * m00 B + m01 A * m10 B + m02 A * m20 B) (m00 A * m01 B + m01 A * m11 B + m02 A * m21 B) (m00 A * m02 B + m01 A * m12 B + m02 A * m22 B)
     (m10 A * m00 B + m11 A * m10 B + m12 A * m20 B) (m10 A * m01 B + m11 A * m11 B + m12 A * m21 B) (m10 A * m02 B + m11 A * m12 B + m12 A * m22 B)
     (m20 A * m00 B + m21 A * m10 B + m22 A * m20 B) (m20 A * m01 B + m21 A * m11 B + m22 A * m21 B) (m20 A * m02 B + m21 A * m12 B + m22 A * m22 B).
Definition mtr (A : mat3) : mat3 :=
  M3 (m00 A) (m10 A) (m20 A) (m01 A) (m11 A) (m21 A) (m02 A) (m12 A) (m22 A).
Definition det (A : mat3) : R :=
  m00 A * (m11 A * m22 A - m12 A * m21 A) - m01 A * (m10 A * m22 A - m12 A * m20 A)
  + m02 A * (m10 A * m21 A - m11 A * m20 A).
(** adjugate: A * adj A = det A * I *)
Definition adj (A : mat3) : mat3 :=
  M3 (m11 A * m22 A - m12 A * m21 A) (m02 A * m21 A - m01 A * m22 A) (m01 A * m12 A - m02 A * m11 A)
     (m12 A * m20 A - m10 A * m22 A) (m00 A * m22 A - m02 A * m20 A) (m02 A * m10 A - m00 A * m12 A)
     (m10 A * m21 A - m11 A * m20 A) (m01 A * m20 A - m00 A * m21 A) (m00 A * m11 A - m01 A * m10 A).
Definition mscale (k : R) (A : mat3) : mat3 :=
  M3 (k * m00 A) (k * m01 A) (k * m02 A) (k * m10 A) (k * m11 A) (k * m12 A) (k * m20 A) (k * m21 A) (k * m22 A).
(** cv::Mat::inv of a 3x3 block *)
Definition minv (A : mat3) : mat3 := mscale (/ det A) (adj A).

(** ** Poses: the 4x4 matrix with rotation part R and translation t *)
Definition pose : Type := mat3 * vec3.
Definition pid : pose := (mid, vzero).
(** product of the 4x4 matrices *)
Definition pmul (P Q : pose) : pose :=
  (mm (fst P) (fst Q), vadd (mv (fst P) (snd Q)) (snd P)).
(** cv::Mat::inv of the 4x4 matrix [A t; 0 1] = [A^-1, -A^-1 t; 0 1] *)
Definition pinv (P : pose) : pose :=
  (minv (fst P), vscale (-1) (mv (minv (fst P)) (snd P))).
(** transform3DPts, geometrytools.cpp 346-352, for one point *)
Definition pact (P : pose) (p : vec3) : vec3 :=
  let '(A, t) := P in
  V3 (vx t + m00 A * vx p + m01 A * vy p + m02 A * vz p)
     (vy t + m10 A * vx p + m11 A * vy p + m12 A * vz p)
     (vz t + m20 A * vx p + m21 A * vy p + m22 A * vz p).
(** geometrytools.cpp 328-355 *)
Definition transform3DPts (pts : list vec3) (P : pose) : list vec3 := map (pact P) pts.

(** ** Rodrigues *)
(** cv::Rodrigues, vector to matrix: cos(th) I + (1 - cos th) u u^T + sin(th) [u]x ;
    the identity when th < DBL_EPSILON (modelled as th = 0). *)
Definition exp_rot (r : vec3) : mat3 :=
  let th := vnorm r in
  if Req_EM_T th 0 then mid else
  let u := vscale (/ th) r in
  let c := cos th in let s := sin th in let d := 1 - c in
  M3 (c + d * (vx u * vx u)) (d * (vx u * vy u) - s * vz u) (d * (vx u * vz u) + s * vy u)
     (d * (vy u * vx u) + s * vz u) (c + d * (vy u * vy u)) (d * (vy u * vz u) - s * vx u)
     (d * (vz u * vx u) - s * vy u) (d * (vz u * vy u) + s * vx u) (c + d * (vz u * vz u)).

(** RVecT2Proj, geometrytools.cpp 22-30 *)
Definition RVecT2Proj (r t : vec3) : pose := (exp_rot r, t).
(** Proj2RT, geometrytools.cpp 44-49; [log_rot] = cv::Rodrigues, matrix to vector *)
Definition Proj2RT (log_rot : mat3 -> vec3) (P : pose) : vec3 * vec3 := (log_rot (fst P), snd P).
(** invertRvecT, geometrytools.cpp 83-94 *)
Definition invertRvecT (log_rot : mat3 -> vec3) (r t : vec3) : vec3 * vec3 :=
  Proj2RT log_rot (pinv (RVecT2Proj r t)).

(** ** median, geometrytools.cpp 696-703 *)
(** insertion sort stands for std::sort *)
Fixpoint insert (x : R) (l : list R) : list R :=
  match l with
  | [] => [x]
  | y :: r => if Rltb y x then y :: insert x r else x :: l
  end.
Definition sort (l : list R) : list R := fold_right insert [] l.
Definition median (v : list R) : R :=
  let n := length v in
  if Nat.eqb n 0 then 0
  else
    let s := sort v in
    let mid := Nat.div n 2 in
    if Nat.eqb (Nat.modulo n 2) 0 then (nth mid s 0 + nth (mid - 1) s 0) / 2 else nth mid s 0.

(** ** Quaternions (x, y, z, w) *)
Record quat := Q4 { qx : R; qy : R; qz : R; qw : R }.

(** square root of [rad] and the factor 0.5/s; None = square root of a negative number
    or division by zero (a NaN or infinite quaternion) *)
Definition quat_branch (rad : R) (f : R -> R -> quat) : option quat :=
  if Rltb rad 0 then None
  else let s := sqrt rad in if Req_EM_T s 0 then None else Some (f s (/ 2 / s)).

(** geometrytools.cpp 773-808; the three cases of the else branch are the values of i *)
Definition quat_of_rot (A : mat3) : option quat :=
  let tr := m00 A + m11 A + m22 A in
  if Rltb 0 tr then
    quat_branch (tr + 1) (fun s s' =>
      Q4 ((m21 A - m12 A) * s') ((m02 A - m20 A) * s') ((m10 A - m01 A) * s') (s * / 2))
  else
    let i := if Rltb (m00 A) (m11 A) then (if Rltb (m11 A) (m22 A) then 2%nat else 1%nat)
             else (if Rltb (m00 A) (m22 A) then 2%nat else 0%nat) in
    match i with
    | 0%nat => (* i,j,k = 0,1,2 *)
      quat_branch (m00 A - m11 A - m22 A + 1) (fun s s' =>
      Q4 (s * / 2) ((m10 A + m01 A) * s') ((m20 A + m02 A) * s') ((m21 A - m12 A) * s'))
    | 1%nat => (* i,j,k = 1,2,0 *)
      quat_branch (m11 A - m22 A - m00 A + 1) (fun s s' =>
      Q4 ((m01 A + m10 A) * s') (s * / 2) ((m21 A + m12 A) * s') ((m02 A - m20 A) * s'))
    | _ => (* i,j,k = 2,0,1 *)
      quat_branch (m22 A - m00 A - m11 A + 1) (fun s s' =>
      Q4 ((m02 A + m20 A) * s') ((m12 A + m21 A) * s') (s * / 2) ((m10 A - m01 A) * s'))
    end.

(** geometrytools.cpp 810-833 *)
Definition rot_of_quat (q : quat) : mat3 :=
  let q0 := qw q in let q1 := qx q in let q2 := qy q in let q3 := qz q in
  M3 (2 * (q0 * q0 + q1 * q1) - 1) (2 * (q1 * q2 - q0 * q3)) (2 * (q1 * q3 + q0 * q2))
     (2 * (q1 * q2 + q0 * q3)) (2 * (q0 * q0 + q2 * q2) - 1) (2 * (q2 * q3 - q0 * q1))
     (2 * (q1 * q3 - q0 * q2)) (2 * (q2 * q3 + q0 * q1)) (2 * (q0 * q0 + q3 * q3) - 1).

Definition qneg (q : quat) : quat := Q4 (- qx q) (- qy q) (- qz q) (- qw q).
(** component (0..3 = x y z w) *)
Definition qget (q : quat) (i : nat) : R :=
  match i with 0 => qx q | 1 => qy q | 2 => qz q | _ => qw q end%nat.

(** geometrytools.cpp 862-865 *)
Definition antipodal (q : quat) : quat := if Rltb (qw q) 0 then qneg q else q.

(** geometrytools.cpp 860-868: entry (i,j) of A = (sum q^T q) / n *)
Definition avg_matrix (qs : list quat) (i j : nat) : R :=
  fold_left Rplus (map (fun q => qget (antipodal q) i * qget (antipodal q) j) qs) 0 / INR (length qs).

(** getAverageRotation, geometrytools.cpp 835-892.  [svd] = first column of U of
    cv::SVD of the 4x4 matrix; [log_rot] = cv::Rodrigues matrix to vector.  None = NaN
    (a quaternion is undefined, or 0/0 for an empty list, line 868). *)
Definition getAverageRotation (svd : (nat -> nat -> R) -> quat) (log_rot : mat3 -> vec3)
           (use_quat : bool) (rs : list vec3) : option vec3 :=
  if use_quat then
    match collect (map (fun r => quat_of_rot (exp_rot r)) rs) with
    | Some (q :: qs) => Some (log_rot (rot_of_quat (svd (avg_matrix (q :: qs)))))
    | _ => None
    end
  else Some (V3 (median (map vx rs)) (median (map vy rs)) (median (map vz rs))).

(** one entry of initInterTransform, McCalib.cpp 781-822 *)
Definition average_pose svd log_rot (use_quat : bool) (ps : list pose) : option pose :=
  let rts := map (Proj2RT log_rot) ps in
  match getAverageRotation svd log_rot use_quat (map fst rts) with
  | Some r =>
    Some (RVecT2Proj r
             (V3 (median (map (fun rt => vx (snd rt)) rts)) (median (map (fun rt => vy (snd rt)) rts))
                 (median (map (fun rt => vz (snd rt)) rts))))
  | None => None
  end.
