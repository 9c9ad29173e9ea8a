(** Specification for C61-C63: what the scripts of python_utils should report about a calibration. *)
From Coq Require Import List ZArith Reals.
From Verif Require Import GeomModel GeomSpec CameraModel FileModel RigSpec AnalysisModel.
Import ListNotations.
Open Scope R_scope.

(** Two descriptions of a camera (matrix K, pose) agree: same focal lengths, same principal point, same pose. *)
Definition agrees (e g : mat3 * pose) : Prop :=
  m00 (fst e) = m00 (fst g) /\ m11 (fst e) = m11 (fst g) /\ m02 (fst e) = m02 (fst g) /\ m12 (fst e) = m12 (fst g) /\ snd e = snd g.

(** Every number of the report is zero. *)
Definition no_error (r : report) : Prop :=
  rp_translation r = Some 0 /\ rp_rotation r = Some 0 /\ rp_fx r = Some 0 /\ rp_fy r = Some 0 /\ rp_u0 r = Some 0 /\ rp_v0 r = Some 0 /\
  rp_pp r = Some 0.

(** Every number of the report is a number, none is negative, and the rotation is at most 180 degrees. *)
Definition sane (r : report) : Prop :=
  (exists x, rp_rotation r = Some x /\ 0 <= x <= 180) /\
  forall f, In f [rp_translation; rp_fx; rp_fy; rp_u0; rp_v0; rp_pp] -> exists x, f r = Some x /\ 0 <= x.

(** The axes of the ground truth: y and z point the other way. *)
Definition other_axes (P : pose) : pose :=
  (M3 (m00 (fst P)) (- m01 (fst P)) (- m02 (fst P)) (- m10 (fst P)) (m11 (fst P)) (m12 (fst P)) (- m20 (fst P)) (m21 (fst P)) (m22 (fst P)),
   V3 (vx (snd P)) (- vy (snd P)) (- vz (snd P))).

(** The ground truth [g] describes the rig [w] in the coordinates in which camera [ref] has the pose [T]: camera [c] is
    entry c + 1, its matrix is that of its intrinsic parameters, and its pose (from the world to the camera) is given in
    the other axes. *)
Definition describes (w : rig) (ref : Z) (T : pose) (g : truth_file) : Prop :=
  forall i, (i < tf_nb g)%nat ->
    tf_cam g (S i) = Some (getCameraMat (rg_intr w (Z.of_nat i)), other_axes (pmul (pmul (rg_cam w (Z.of_nat i)) (pinv (rg_cam w ref))) T)).

(** The average of a list of numbers. *)
Definition average (l : list R) (m : R) : Prop := l <> [] /\ m * INR (length l) = fold_right Rplus 0 l.

(** [d e g x]: how far apart the two descriptions e and g of one camera are, in a single number. *)
Definition apart (k : mat3 -> R) (e g : mat3 * pose) (x : R) : Prop := x = Rabs (k (fst e) - k (fst g)).
Definition moved (e g : mat3 * pose) (x : R) : Prop := x = distance (snd (snd e)) (snd (snd g)).
(** The orientation of g is that of e turned about some axis by x degrees, at most half a turn. *)
Definition turned (e g : mat3 * pose) (x : R) : Prop :=
  exists v, vnorm v <= PI /\ fst (snd g) = mm (fst (snd e)) (exp_rot v) /\ x * PI = vnorm v * 180.
(** [m] is the average, over the cameras, of the differences [d]. *)
Definition averages (est gt : list (mat3 * pose)) (d : mat3 * pose -> mat3 * pose -> R -> Prop) (m : option R) : Prop :=
  exists xs v, length xs = length est /\
    (forall i e g x, nth_error est i = Some e -> nth_error gt i = Some g -> nth_error xs i = Some x -> d e g x) /\ average xs v /\ m = Some v.

(** Where the point [x] of camera [c] (in its own axes) is, in the axes of camera [ref]. *)
Definition seen_from (w : rig) (ref c : Z) (x : vec3) : vec3 := pact (rg_cam w ref) (pact (pinv (rg_cam w c)) x).

(** The wire frame of a camera of size [r]: a box around the optical centre, twice as long as wide, and a lens in front of
    it; [edge]: the twelve edges of the box, the four of the lens, and the four between box and lens. *)
Definition sign (s : R) : Prop := s = 1 \/ s = -1.
Definition box (r sx sy sz : R) : vec3 := V3 (sx * r) (sy * r) (sz * (2 * r)).
Definition lens (r sx sy : R) : vec3 := V3 (sx * (3 / 2 * r)) (sy * (3 / 2 * r)) (3 * r).
Inductive edge (r : R) : vec3 -> vec3 -> Prop :=
  | edge_x sy sz : sign sy -> sign sz -> edge r (box r 1 sy sz) (box r (-1) sy sz)
  | edge_y sx sz : sign sx -> sign sz -> edge r (box r sx 1 sz) (box r sx (-1) sz)
  | edge_z sx sy : sign sx -> sign sy -> edge r (box r sx sy 1) (box r sx sy (-1))
  | edge_lens_x sy : sign sy -> edge r (lens r 1 sy) (lens r (-1) sy)
  | edge_lens_y sx : sign sx -> edge r (lens r sx 1) (lens r sx (-1))
  | edge_cone sx sy : sign sx -> sign sy -> edge r (box r sx sy 1) (lens r sx sy).
(** The axes, from the optical centre. *)
Inductive axis (r : R) : vec3 -> vec3 -> Prop :=
  | axis_x : axis r (V3 0 0 0) (V3 (2 * r) 0 0)
  | axis_y : axis r (V3 0 0 0) (V3 0 (2 * r) 0)
  | axis_z : axis r (V3 0 0 0) (V3 0 0 (2 * r)).
(** A segment of the drawing from x to y, in whichever direction. *)
Definition drawn (d : list (vec3 * vec3)) (x y : vec3) : Prop := In (x, y) d \/ In (y, x) d.
(** The two edges that are not drawn right. *)
Definition spoiled (r : R) (x y : vec3) : Prop :=
  (x = box r (-1) 1 (-1) /\ y = box r (-1) (-1) (-1)) \/ (x = box r (-1) 1 1 /\ y = lens r (-1) 1).
(** [d] is the wire frame of camera [c], of size [r], in the axes of camera [ref] - but for the segments 2 and 19. *)
Record drawing_of (r : R) (w : rig) (ref c : Z) (d : list (vec3 * vec3)) : Prop := {
  dr_edges : forall x y, edge r x y -> ~ spoiled r x y -> drawn d (seen_from w ref c x) (seen_from w ref c y);
  dr_axes : forall x y, axis r x y -> In (seen_from w ref c x, seen_from w ref c y) d;
  dr_size : length d = 23%nat;
  dr_only : forall j s, nth_error d j = Some s -> j <> 2%nat -> j <> 19%nat ->
    exists x y, (edge r x y \/ axis r x y) /\ (s = (seen_from w ref c x, seen_from w ref c y) \/ s = (seen_from w ref c y, seen_from w ref c x)) }.
(** The columns of the objects file are the corners of boards, in the axes of board [b0]. *)
Definition corners_of (pts : Z -> list vec3) (w : rig) (b0 : Z) (cols : list (vec3 * Z * Z)) : Prop :=
  forall x b k, In (x, b, k) cols -> exists q, corner pts b k q /\ pact (rg_board w b0) x = pact (rg_board w b) q.
