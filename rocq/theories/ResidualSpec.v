(** Specification for refinement: the textbook projection of a point into an image, what
    is assumed of ceres::Solve, and when poses in the optimiser's parameters are those of
    the calibration. *)
From Coq Require Import List ZArith Reals.
From Verif Require Import SMap DataModel DetectModel GeomModel ObjectsModel GroupModel PipelineModel CameraModel ResidualModel.
Import ListNotations.
Open Scope R_scope.

(** Lens distortion at the point (x, y) of the plane z = 1.  Perspective (0): radial k1 k2
    k3 = entries 4, 5, 8, tangential p1 p2 = entries 6, 7 of the intrinsics.  Fisheye (1):
    k1 .. k4 = entries 4 .. 7; nothing is bent closer than 1e-8 to the axis. *)
Definition lens (model : Z) (i : intr) (x y : R) : option pt2 :=
  let r := sqrt (x ^ 2 + y ^ 2) in
  match model with
  | 0%Z =>
      let radial := 1 + a4 i * r ^ 2 + a5 i * r ^ 4 + a8 i * r ^ 6 in
      Some (x * radial + 2 * a6 i * x * y + a7 i * (r ^ 2 + 2 * x ^ 2),
            y * radial + a6 i * (r ^ 2 + 2 * y ^ 2) + 2 * a7 i * x * y)
  | 1%Z =>
      let th := atan r in
      let th_d := th * (1 + a4 i * th ^ 2 + a5 i * th ^ 4 + a6 i * th ^ 6 + a7 i * th ^ 8) in
      let s := if Rle_dec r (/ 10 ^ 8) then 1 else th_d / r in
      Some (s * x, s * y)
  | _ => None
  end.
(** Image of q for a camera that sees q's frame at pose P *)
Definition image (model : Z) (i : intr) (P : pose) (q : vec3) : option pt2 :=
  let c := pact P q in
  if Req_EM_T (vz c) 0 then None
  else option_map (fun d => (a0 i * fst d + a2 i, a1 i * snd d + a3 i)) (lens model i (vx c / vz c) (vy c / vz c)).
Definition minus (m r : pt2) : pt2 := (fst r - fst m, snd r - snd m).
(** residuals of an observation with detections [pts] whose points are reprojected to [rp] *)
Definition errors_of (pts rp : list pt2) : list pt2 := map (fun mr => minus (fst mr) (snd mr)) (combine pts rp).

(** 4x4 matrix of six parameters *)
Definition matrix (P : par6) : pose := RVecT2Proj (fst P) (snd P).
(** a rotation vector that is 0 or not tiny: squared angle above 2.2e-16 *)
Definition plain (P : par6) : Prop := vdot (fst P) (fst P) = 0 \/ dbl_eps < vdot (fst P) (fst P).

(** ** ceres::Solve *)
Definition agree_but (k : pkey) (p1 p2 : params) : Prop :=
  pa_intr p1 = pa_intr p2 /\ forall k', k' <> k -> pa_pose p1 k' = pa_pose p2 k'.
(** It does not move a parameter block on which no residual depends (the gradient is 0
    there), so in particular none outside the problem; it does not touch the intrinsics
    if they are not parameters; it does not increase the cost, and stops at once if the
    cost is 0 (the gradient is 0). *)
Record ceres (solve : list block -> params -> params) : Prop := {
  ce_flat : forall bs p k, (forall b, In b bs -> forall p1 p2, agree_but k p1 p2 -> eval p1 b = eval p2 b) ->
    pa_pose (solve bs p) k = pa_pose p k;
  ce_intr : forall bs p c, (forall b, In b bs -> ~ In c (intr_keys b)) -> pa_intr (solve bs p) c = pa_intr p c;
  ce_cost : forall bs p c, cost p bs = Some c -> exists c', cost (solve bs p) bs = Some c' /\ c' <= c;
  ce_exact : forall bs p, cost p bs = Some 0 -> solve bs p = p
}.

(** the parameters hold the poses of the calibration *)
Record represents (p : params) (objs : smap Z obj3d) (groups : smap Z cgroup) : Prop := {
  rp_boards : forall k o b P, In (k, o) objs -> mfind b (ob_poses o) = Some P ->
    matrix (pa_pose p (KBoard (ob_id o) b)) = P;
  rp_cams : forall k G c P, In (k, G) groups -> mfind c (cg_poses G) = Some P ->
    matrix (pa_pose p (KCam (cg_id G) c)) = P
}.

(** ** Correspondences *)
(** board observation bo has a corner at m, and that corner is at q on its board *)
Definition own_corner (bpts : Z -> list vec3) (bo : bobs pt2) (m : pt2) (q : vec3) : Prop :=
  exists i k, nth_error (o_pts bo) i = Some m /\ nth_error (o_ids bo) i = Some (Z.of_nat k) /\ nth_error (bpts (o_board bo)) k = Some q.

(** ** Reported errors *)
(** where the optimised poses put point i of object observation oo of object o, for a
    camera of group G *)
Definition reprojects (cams : Z -> Z) (p : params) (G : cgroup) (oo : objobs pt2) (o : obj3d) (i : nat) (r : pt2) : Prop :=
  exists k x, nth_error (oo_ids oo) i = Some (Z.of_nat k) /\ nth_error (ob_pts o) k = Some x /\
    image (cams (oo_cam oo)) (pa_intr p (oo_cam oo))
          (pmul (matrix (pa_pose p (KCam (cg_id G) (oo_cam oo)))) (matrix (pa_pose p (KGroup (cg_id G, oo_frame oo) (oo_obj oo))))) x = Some r.
Definition distance (m r : pt2) : R := sqrt ((fst r - fst m) ^ 2 + (snd r - snd m) ^ 2).
Definition mean (l : list R) : R := fold_right Rplus 0 l / INR (length l).
(** e is the mean distance between the detections of oo and their reprojections rs *)
Definition observation_mean (cams : Z -> Z) (p : params) (G : cgroup) (oo : objobs pt2) (o : obj3d) (rs : list pt2) (e : R) : Prop :=
  length rs = length (oo_pts oo) /\ (forall i r, nth_error rs i = Some r -> reprojects cams p G oo o i r) /\
  e = mean (map (fun mr => distance (fst mr) (snd mr)) (combine (oo_pts oo) rs)).
