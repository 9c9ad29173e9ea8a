(** Model of board detection in one image (McCalib/src/McCalib.cpp 270-365), of the
    line fit used for the collinearity test (McCalib/src/geometrytools.cpp 127-146)
    and of the sub-pixel refinement (McCalib/include/point_refinement.h).

    Simplifications: float/double arithmetic is real arithmetic, a non-finite double
    is an explicit outcome; the OpenCV detector, cv::fitLine, cv::filter2D and the
    least-squares solution are oracles (arguments). *)
From Coq Require Import List ZArith Lia Reals String.
From Verif Require Import SMap DataModel.
Import ListNotations.
Close Scope string_scope.
Open Scope R_scope.

Definition pt2 : Type := R * R.

Definition Rltb (a b : R) : bool := if Rlt_dec a b then true else false.

(** ** point_refinement.h 31-80: cone kernel, mask and number of equations *)

(** the window, row by row (lines 40-41, 60-61, 105-108) *)
Definition zrange (h : Z) : list Z := map (fun k => (Z.of_nat k - h)%Z) (seq 0 (Z.to_nat (2 * h + 1))).
Definition window (h : Z) : list (Z * Z) := flat_map (fun y => map (fun x => (x, y)) (zrange h)) (zrange h).
(** lines 42-46: the weight before scaling is positive *)
Definition cone_positive (h : Z) (c : Z * Z) : bool :=
  Rltb 0 (IZR (h + 1) - sqrt (IZR (fst c * fst c + snd c * snd c))).
(** lines 62-75: mask cells (scaling by the positive sum does not change the sign) *)
Definition mask_cells (h : Z) : list (Z * Z) := filter (cone_positive h) (window h).
(** lines 31-33, 43-44: [nnz0] is the value of the caller's variable, which the
    caller (line 208) does not initialise. *)
Definition cone_nnz (nnz0 h : Z) : Z := (nnz0 + Z.of_nat (List.length (mask_cells h)))%Z.
(** lines 56-57 and 67-72: rows of A, and rows that are written *)
Definition lsq_rows (nnz0 h : Z) : Z := cone_nnz nnz0 h.
Definition rows_written (h : Z) : Z := Z.of_nat (List.length (mask_cells h)).

(** ** point_refinement.h 82-124: interpolatePatch *)
Record image := mkImg { im_cols : Z; im_rows : Z; im_pix : Z -> Z -> R (* column, row *) }.

Definition inside (im : image) (c r : Z) : bool :=
  ((0 <=? c) && (c <? im_cols im) && (0 <=? r) && (r <? im_rows im))%Z%bool.

(** reading a pixel; None = out of bounds *)
Definition read (im : image) (c r : Z) : option R :=
  if inside im c r then Some (im_pix im c r) else None.

Inductive patch_result :=
| Refused
| PatchUB            (* a pixel outside the image is read *)
| Patch (vals : list R).

Definition dbl_max : R := (2 - / 2 ^ 52) * 2 ^ 1023. (* DBL_MAX *)
Definition dbl_min : R := / 2 ^ 1022. (* DBL_MIN *)

(** lines 109-121: one masked cell *)
Definition interp (im : image) (x0 y0 : Z) (xw yw : R) (c : Z * Z) : option R :=
  let col0 := (x0 + fst c)%Z in
  let row0 := (y0 + snd c)%Z in
  match read im col0 row0, read im (col0 + 1) row0, read im col0 (row0 + 1), read im (col0 + 1) (row0 + 1) with
  | Some a, Some b, Some c, Some d =>
      Some (a * ((1 - xw) * (1 - yw)) + b * (xw * (1 - yw)) + c * ((1 - xw) * yw) + d * (xw * yw))
  | _, _, _, _ => None
  end.

Fixpoint collect {A} (l : list (option A)) : option (list A) :=
  match l with
  | [] => Some []
  | Some x :: r => option_map (cons x) (collect r)
  | None :: _ => None
  end.

(** lines 86-123; int(x) is truncation, x > 0 here *)
Definition interpolatePatch (x y : R) (h : Z) (im : image) : patch_result :=
  if Rltb (IZR (h + 1)) x && Rltb x (IZR (im_cols im - (h + 2)))
     && Rltb (IZR (h + 1)) y && Rltb y (IZR (im_rows im - (h + 2)))
  then
    let x0 := Int_part x in
    let y0 := Int_part y in
    match collect (map (interp im x0 y0 (x - IZR x0) (y - IZR y0)) (mask_cells h)) with
    | None => PatchUB
    | Some vals =>
        let mn := fold_left Rmin vals dbl_max in
        let mx := fold_left Rmax vals dbl_min in
        if Rltb (1 / 255) (mx - mn) then Patch vals else Refused
    end
  else Refused.

(** ** point_refinement.h 126-197 *)
Definition convergence_region : R := 1.      (* tight_convergence = true, lines 139-141 *)
Definition convergence_threshold : R := 1 / 1000.

Inductive refine_result :=
| Converged (p : pt2)
| Diverged          (* the point is set to infinity, line 192-194 *)
| RefineUB.

(** One point, lines 147-191; [fuel] = remaining iterations; [fit] = multiplication by
    invAtAAt (k5..k0).  When det = 0 the step is not finite, the point never passes
    the convergence test and the next call of interpolatePatch refuses it. *)
Fixpoint refine_loop (im : image) (h : Z) (fit : list R -> R * R * R * R * R * R)
         (init p : pt2) (fuel : nat) : refine_result :=
  match fuel with
  | O => Diverged
  | S n =>
    match interpolatePatch (fst p) (snd p) h im with
    | Refused => Diverged
    | PatchUB => RefineUB
    | Patch b =>
      let '(r0, r1, r2, r3, r4, r5) := fit b in
      let det := 4 * r0 * r1 - r2 * r2 in
      if Rltb 0 det then Diverged
      else if Req_EM_T det 0 then Diverged
      else
        let dx := (-2 * r1 * r4 + r2 * r3) / det in
        let dy := (r2 * r4 - 2 * r0 * r3) / det in
        let p' := (fst p + dx, snd p + dy) in
        if Rltb (Rabs dx) convergence_threshold && Rltb (Rabs dy) convergence_threshold
        then Converged p'
        else if Rltb convergence_region (Rabs (fst p' - fst init))
                || Rltb convergence_region (Rabs (snd p' - snd init))
        then Diverged
        else refine_loop im h fit init p' n
    end
  end.

Definition saddle_refine (im : image) (h : Z) fit (max_iterations : Z) (initial : list pt2)
  : list refine_result :=
  map (fun p => refine_loop im h fit p p (Z.to_nat max_iterations)) initial.

Definition is_refine_ub (r : refine_result) : bool := match r with RefineUB => true | _ => false end.

(** McCalib.cpp 329-335: stops at the first infinite refined corner. *)
Fixpoint apply_refined (corners : list pt2) (refined : list refine_result) : list pt2 :=
  match corners, refined with
  | c :: cs, Converged p :: rs => p :: apply_refined cs rs
  | _, _ => corners
  end.

(** ** geometrytools.cpp 127-146 *)
(** [line] = (vx, vy, x0, y0) returned by cv::fitLine *)
Definition line_residual (line : R * R * R * R) (pts : list pt2) : R :=
  let '(vx, vy, x0, y0) := line in
  let a := vy in
  let b := - vx in
  let c := vx * y0 - vy * x0 in
  fold_left Rplus (map (fun p => Rabs (fst p * a + snd p * b + c)) pts) 0 / INR (List.length pts).

(** ** McCalib.cpp 270-365 *)
Record det_board := mkDB { db_pts : list pt2 (* x,y of pts_3d_ *); db_nb_pts : Z; db_square : R }.

Record det_cfg := mkDC {
  dc_boards : list det_board;   (* boards_3d_[0..nb_board_-1] *)
  dc_refine : bool;             (* refine_corner_ *)
  dc_min_perc : R;              (* min_perc_pts_ *)
  dc_window : Z; dc_max_iter : Z;   (* corner_ref_window_, corner_ref_max_iter_ *)
  dc_fit : list R -> R * R * R * R * R * R;
  dc_fit_line : list pt2 -> R * R * R * R }.

(** std::round of a non-negative value (line 321) *)
Definition round_half_up (x : R) : Z := Int_part (x + / 2).

(** lines 339-346: pts_3d_ of the detected corners; None = index out of bounds *)
Definition board_points (b : det_board) (ids : list Z) : option (list pt2) :=
  collect (map (fun i => if (i <? 0)%Z then None else nth_error (db_pts b) (Z.to_nat i)) ids).

Inductive det_result :=
| DetUB
| NotStored
| Stored (corners : list pt2) (ids : list Z).

(** lines 297-362 for one board; [corners],[ids] = result of interpolateCornersCharuco
    (both empty when no marker was found). *)
Definition detect_board (cfg : det_cfg) (gray : image) (b : det_board) (corners : list pt2) (ids : list Z)
  : det_result :=
  if Z.ltb (round_half_up (dc_min_perc cfg * IZR (db_nb_pts b))) (Z.of_nat (List.length corners)) then
    let refined := saddle_refine gray (dc_window cfg) (dc_fit cfg) (dc_max_iter cfg) corners in
    let corners' := if dc_refine cfg then apply_refined corners refined else corners in
    if dc_refine cfg && existsb is_refine_ub refined then DetUB else
    match board_points b ids with
    | None => DetUB
    | Some on_board =>
        if Rltb (db_square b * (1 / 10)) (line_residual (dc_fit_line cfg on_board) on_board)
           && Nat.ltb 4 (List.length corners')
        then Stored corners' ids else NotStored
    end
  else NotStored.

(** lines 297-364: the boards one after the other; the insertions made, in order.
    [image_ok] = the image could be read (lines 274-278).  None = undefined behaviour. *)
Fixpoint detect_boards (cfg : det_cfg) (gray : image) (cam frame : Z) (path : string)
         (det : nat -> list pt2 * list Z) (i : nat) (bs : list det_board) : option (list (insertion pt2)) :=
  match bs with
  | [] => Some []
  | b :: r =>
    match detect_board cfg gray b (fst (det i)) (snd (det i)),
          detect_boards cfg gray cam frame path det (S i) r with
    | DetUB, _ => None
    | _, None => None
    | NotStored, Some l => Some l
    | Stored c d, Some l => Some (mkIns cam frame (Z.of_nat i) c d path :: l)
    end
  end.

Definition detect_image (cfg : det_cfg) (image_ok : bool) (gray : image) (cam frame : Z) (path : string)
           (det : nat -> list pt2 * list Z) : option (list (insertion pt2)) :=
  if image_ok then detect_boards cfg gray cam frame path det 0 (dc_boards cfg) else Some [].

(** McCalib.cpp 234-261: the tasks posted for one camera, one per image, frame index =
    position in the list of files. *)
Record file_t := mkFile { fl_ok : bool; fl_gray : image; fl_path : string; fl_det : nat -> list pt2 * list Z }.
Fixpoint camera_tasks (cfg : det_cfg) (cam : Z) (frame : nat) (files : list file_t)
  : option (list (list (insertion pt2))) :=
  match files with
  | [] => Some []
  | f :: r =>
    match detect_image cfg (fl_ok f) (fl_gray f) cam (Z.of_nat frame) (fl_path f) (fl_det f),
          camera_tasks cfg cam (S frame) r with
    | Some t, Some ts => Some (t :: ts)
    | _, _ => None
    end
  end.
