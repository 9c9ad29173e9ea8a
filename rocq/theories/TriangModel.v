(** Triangulation of one point from several views (public functions of geometrytools.hpp).
    Models McCalib/src/geometrytools.cpp 32-42 (RVecT2ProjInt), 99-124
    (triangulateNViewLinearEigen) and 150-228 (ransacTriangulation).
    Simplified: reals instead of float and double.  cv::SVDecomp and std::shuffle are
    arguments ([last_row], [shuffle]).  [None] = an access outside a vector, or an
    exception of OpenCV. *)
From Coq Require Import List ZArith Lia Reals.
From Verif Require Import SMap DataModel DetectModel GeomModel RansacModel CameraModel ResidualModel.
Import ListNotations.
Open Scope R_scope.

(** a row of four numbers *)
Record vec4 := H4 { h0 : R; h1 : R; h2 : R; h3 : R }.
Definition dot4 (a b : vec4) : R := h0 a * h0 b + h1 a * h1 b + h2 a * h2 b + h3 a * h3 b.

(** RVecT2ProjInt, geometrytools.cpp 32-42: the upper three rows, KR and KT (the fourth
    row is never read by the callers) *)
Definition RVecT2ProjInt (r t : vec3) (K : mat3) : mat3 * vec3 := (mm K (exp_rot r), mv K t).

(** geometrytools.cpp 109-113: M1, M2, M3, the two rows pushed for one view *)
Definition view_rows (P : mat3 * vec3) (p : pt2) : list vec4 :=
  let '(A, b) := P in
  let M1 := H4 (m00 A) (m01 A) (m02 A) (vx b) in
  let M2 := H4 (m10 A) (m11 A) (m12 A) (vy b) in
  let M3 := H4 (m20 A) (m21 A) (m22 A) (vz b) in
  let minus u M := H4 (u * h0 M3 - h0 M) (u * h1 M3 - h1 M) (u * h2 M3 - h2 M) (u * h3 M3 - h3 M) in
  [minus (fst p) M1; minus (snd p) M2].

(** geometrytools.cpp 104-114: the loop over RotationVec; Pts2D[i], TranslationVec[i] *)
Fixpoint system_rows (pts : list pt2) (rs ts : list vec3) (K : mat3) {struct rs} : option (list vec4) :=
  match rs, ts, pts with
  | [], _, _ => Some []
  | r :: rs', t :: ts', p :: pts' =>
      option_map (app (view_rows (RVecT2ProjInt r t K) p)) (system_rows pts' rs' ts' K)
  | _, _, _ => None
  end.

(** the point returned; the division by a zero last coordinate gives no finite point *)
Inductive point_t := Finite (q : vec3) | NotFinite.
(** geometrytools.cpp 118-123 *)
Definition dehomogenize (v : vec4) : point_t :=
  if Req_EM_T (h3 v) 0 then NotFinite else Finite (V3 (h0 v / h3 v) (h1 v / h3 v) (h2 v / h3 v)).

Section Triang.
(** cv::SVDecomp(A, S, U, VT): the fourth row of VT, for A with at least four rows *)
Variable last_row : list vec4 -> vec4.
(** std::shuffle in round n *)
Variable shuffle : nat -> list nat -> list nat.

(** triangulateNViewLinearEigen, geometrytools.cpp 99-124.  With fewer than two views VT
    has fewer than four rows and VT.row(3) throws. *)
Definition triangulateNView (pts : list pt2) (rs ts : list vec3) (K : mat3) : option point_t :=
  match system_rows pts rs ts K with
  | None => None
  | Some A => if Nat.ltb (length A) 4 then None else Some (dehomogenize (last_row A))
  end.

(** the distortion vectors of cv::projectPoints that are modelled: none, four or five
    coefficients *)
Definition cv_coefficients (d : list R) : option (list R) :=
  match d with
  | [] => Some [0; 0; 0; 0; 0]
  | [k1; k2; p1; p2] => Some [k1; k2; p1; p2; 0]
  | [k1; k2; p1; p2; k3] => Some d
  | _ => None
  end.
(** cv::projectPoints of one point (OpenCV calib3d); a depth of 0 is replaced by 1 *)
Definition cv_projectPoint (r t : vec3) (K : mat3) (d : list R) (q : vec3) : option pt2 :=
  match cv_coefficients d with
  | None => None
  | Some d5 =>
    let c := pact (exp_rot r, t) q in
    let z := if Req_EM_T (vz c) 0 then 1 else vz c in
    option_map (fun p => (m00 K * fst p + m02 K, m11 K * snd p + m12 K)) (cv_brown d5 (vx c / z) (vy c / z))
  end.

(** geometrytools.cpp 191-205: number of views in which the point falls within thresh of
    point2d[k].  The image of a point that is not finite is not a number, and compares as
    not smaller. *)
Fixpoint count_inliers (pts : list pt2) (rs ts : list vec3) (K : mat3) (d : list R) (thresh : R) (q : point_t)
  {struct rs} : option nat :=
  match rs, ts, pts with
  | [], _, _ => Some 0%nat
  | r :: rs', t :: ts', p :: pts' =>
      match count_inliers pts' rs' ts' K d thresh q with
      | None => None
      | Some n =>
        match q with
        | NotFinite => Some n
        | Finite x =>
          match cv_projectPoint r t K d x with
          | None => None
          | Some m => Some (if Rltb (repro_error p m) thresh then S n else n)
          end
        end
      end
  | _, _, _ => None
  end.

(** the variables of the loop: myvector, BestInNb, best_points3d, N, trialcount, countit *)
Record tri_state := mkTS { ts_vec : list nat; ts_best : nat; ts_point : point_t; ts_N : Z; ts_trial : Z; ts_iter : nat }.

(** geometrytools.cpp 174-225, one round.  Four entries of the shuffled vector are read,
    two of them are used. *)
Definition tri_step (pts : list pt2) (rs ts : list vec3) (K : mat3) (d : list R) (thresh prob : R) (st : tri_state)
  : option tri_state :=
  let v := shuffle (ts_iter st) (ts_vec st) in
  match v with
  | i0 :: i1 :: _ :: _ :: _ =>
    match pick pts [i0; i1], pick rs [i0; i1], pick ts [i0; i1] with
    | Some pts2, Some rs2, Some ts2 =>
      match triangulateNView pts2 rs2 ts2 K with
      | None => None
      | Some q =>
        match count_inliers pts rs ts K d thresh q with
        | None => None
        | Some n =>
          if Nat.ltb (ts_best st) n
          then Some (mkTS v n q (wanted_trials prob n (length pts)) 0 (S (ts_iter st)))
          else Some (mkTS v (ts_best st) (ts_point st) (ts_N st) (ts_trial st + 1) (S (ts_iter st)))
        end
      end
    | _, _, _ => None
    end
  | _ => None
  end.

(** geometrytools.cpp 173: while (N > trialcount && countit < it) *)
Fixpoint tri_loop pts rs ts K d thresh prob (left : nat) (st : tri_state) : option tri_state :=
  match left with
  | O => Some st
  | S n => if Z.ltb (ts_trial st) (ts_N st)
           then match tri_step pts rs ts K d thresh prob st with
                | Some st' => tri_loop pts rs ts K d thresh prob n st'
                | None => None
                end
           else Some st
  end.

(** ransacTriangulation, geometrytools.cpp 150-228: the value of best_points3d at the end,
    and the number of rounds *)
Definition ransacTriangulation (pts : list pt2) (rs ts : list vec3) (K : mat3) (d : list R) (thresh prob : R)
           (it : Z) (best0 : point_t) : option (point_t * nat) :=
  option_map (fun st => (ts_point st, ts_iter st))
    (tri_loop pts rs ts K d thresh prob (Z.to_nat it) (mkTS (seq 0 (length pts)) 0 best0 it 0 0)).
End Triang.
