(** Specification for C12-C14. *)
From Coq Require Import List ZArith Reals.
From Verif Require Import DetectModel.
Import ListNotations.
Open Scope R_scope.

Definition dist2 (p q : pt2) : R := sqrt ((fst p - fst q) * (fst p - fst q) + (snd p - snd q) * (snd p - snd q)).

(** d is the distance from p to the line through (x0,y0) with direction (vx,vy) *)
Definition distance_to_line (line : R * R * R * R) (p : pt2) (d : R) : Prop :=
  let '(vx, vy, x0, y0) := line in
  (forall t, d <= dist2 p (x0 + t * vx, y0 + t * vy)) /\
  (exists t, d = dist2 p (x0 + t * vx, y0 + t * vy)).

Definition unit_direction (line : R * R * R * R) : Prop :=
  let '(vx, vy, _, _) := line in vx * vx + vy * vy = 1.

Definition mean (l : list R) : R := fold_right Rplus 0 l / INR (length l).

(** T is x rounded to the nearest integer, halves up *)
Definition nearest (x : R) (T : Z) : Prop := IZR T - / 2 <= x < IZR T + / 2.

(** the window around (x,y) is well inside the image *)
Definition guard (x y : R) (h : Z) (im : image) : Prop :=
  IZR (h + 1) < x < IZR (im_cols im - (h + 2)) /\ IZR (h + 1) < y < IZR (im_rows im - (h + 2)).

(** the four pixels around (x,y) shifted by the cell *)
Definition four_pixels (im : image) (x0 y0 : Z) (c : Z * Z) : list R :=
  [ im_pix im (x0 + fst c) (y0 + snd c); im_pix im (x0 + fst c + 1) (y0 + snd c);
    im_pix im (x0 + fst c) (y0 + snd c + 1); im_pix im (x0 + fst c + 1) (y0 + snd c + 1) ].

(** every identifier is that of a corner of the board *)
Definition valid_ids (b : det_board) (ids : list Z) : Prop :=
  Forall (fun i => (0 <= i < Z.of_nat (List.length (db_pts b)))%Z) ids.

(** the corners that would be stored *)
Definition final_corners (cfg : det_cfg) (gray : image) (corners : list pt2) : list pt2 :=
  if dc_refine cfg
  then apply_refined corners (saddle_refine gray (dc_window cfg) (dc_fit cfg) (dc_max_iter cfg) corners)
  else corners.


(** The acceptance rule: enough corners, not collinear, more than four. *)
Definition acceptable (cfg : det_cfg) (b : det_board) (ncorners : nat) (on_board : list pt2) : Prop :=
  (exists T, nearest (dc_min_perc cfg * IZR (db_nb_pts b)) T /\ (T < Z.of_nat ncorners)%Z) /\
  (exists ds, Forall2 (distance_to_line (dc_fit_line cfg on_board)) on_board ds /\
              mean ds > db_square b / 10) /\
  (4 < ncorners)%nat.
