(** Specification for C57: triangulation of a point. *)
From Coq Require Import List ZArith Reals Permutation.
From Verif Require Import SMap DataModel DetectModel DetectSpec GeomModel RansacModel CameraModel TriangModel.
Import ListNotations.
Open Scope R_scope.

(** a calibration matrix: focal lengths, principal point, no skew *)
Definition calibration_matrix (K : mat3) : Prop :=
  exists fx fy u0 v0, fx <> 0 /\ fy <> 0 /\ K = M3 fx 0 u0 0 fy v0 0 0 1.
(** the pinhole camera with rotation vector r and translation t has the image p of X *)
Definition pinhole_image (K : mat3) (r t X : vec3) (p : pt2) : Prop :=
  let c := vadd (mv (exp_rot r) X) t in
  vz c <> 0 /\ p = (m00 K * (vx c / vz c) + m02 K, m11 K * (vy c / vz c) + m12 K).
(** c is the centre of the camera *)
Definition camera_centre (r t c : vec3) : Prop := vadd (mv (exp_rot r) c) t = vzero.
(** the two cameras look at X along different lines *)
Definition different_rays (r1 t1 r2 t2 X : vec3) : Prop :=
  forall c1 c2, camera_centre r1 t1 c1 -> camera_centre r2 t2 c2 -> vcross (vsub X c1) (vsub X c2) <> vzero.

(** |A v|^2 *)
Definition energy (A : list vec4) (v : vec4) : R := fold_right (fun r s => dot4 r v * dot4 r v + s) 0 A.
(** v is a right singular vector for the least singular value *)
Definition least (A : list vec4) (v : vec4) : Prop :=
  dot4 v v = 1 /\ forall w, dot4 w w = 1 -> energy A v <= energy A w.
(** the last row of VT is such a vector *)
Definition svd_last_ok (last_row : list vec4 -> vec4) : Prop := forall A, (exists v, least A v) -> least A (last_row A).

Section Views.
Variables (pts : list pt2) (rs ts : list vec3) (K : mat3) (d : list R).
(** the point falls closer than thresh to what was seen in view k *)
Definition agrees (thresh : R) (q : point_t) (k : nat) : Prop :=
  exists x r t p m, q = Finite x /\ nth_error rs k = Some r /\ nth_error ts k = Some t /\ nth_error pts k = Some p /\
    cv_projectPoint r t K d x = Some m /\ dist2 p m < thresh.
(** exactly n views agree with the point *)
Definition votes (thresh : R) (q : point_t) (n : nat) : Prop :=
  exists l, NoDup l /\ length l = n /\ forall k, In k l <-> agrees thresh q k.
(** q is triangulated from two different views *)
Definition from_two_views (last_row : list vec4 -> vec4) (q : point_t) : Prop :=
  exists i j p1 p2 r1 r2 t1 t2, i <> j /\
    nth_error pts i = Some p1 /\ nth_error pts j = Some p2 /\ nth_error rs i = Some r1 /\ nth_error rs j = Some r2 /\
    nth_error ts i = Some t1 /\ nth_error ts j = Some t2 /\
    triangulateNView last_row [p1; p2] [r1; r2] [t1; t2] K = Some q.
(** every view is the exact image of X by a camera without distortion *)
Definition exact_views (X : vec3) : Prop :=
  forall k r t p, nth_error rs k = Some r -> nth_error ts k = Some t -> nth_error pts k = Some p -> pinhole_image K r t X p.
(** every view is the exact image of X by a camera with the distortion d *)
Definition exact_distorted_views (X : vec3) : Prop :=
  forall k r t p, nth_error rs k = Some r -> nth_error ts k = Some t -> nth_error pts k = Some p ->
    vz (vadd (mv (exp_rot r) X) t) <> 0 /\ cv_projectPoint r t K d X = Some p.
(** every two views look at X along different lines *)
Definition all_rays_different (X : vec3) : Prop :=
  forall i j r1 r2 t1 t2, i <> j -> nth_error rs i = Some r1 -> nth_error rs j = Some r2 ->
    nth_error ts i = Some t1 -> nth_error ts j = Some t2 -> different_rays r1 t1 r2 t2 X.
End Views.
