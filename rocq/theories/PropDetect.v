(** C12-C14: detection of boards in one image. Specification: DetectSpec.v. *)
From Coq Require Import List ZArith Lia Reals Lra String.
From Verif Require Import SMap DataModel DataSpec DetectModel DetectSpec DetectProofs.
Import ListNotations.
Close Scope string_scope.
Open Scope R_scope.

(** C12: with a line fitter returning unit directions and a detector returning
    identifiers of the board, a board is stored iff it is acceptable, with its own
    identifiers and as many corners as detected. *)
Theorem C12_stored_iff_acceptable : forall cfg gray b corners ids,
  (0 <= dc_window cfg)%Z -> valid_ids b ids -> (forall l, unit_direction (dc_fit_line cfg l)) ->
  exists on_board,
    Forall2 (fun i p => nth_error (db_pts b) (Z.to_nat i) = Some p) ids on_board /\
    ((acceptable cfg b (List.length corners) on_board /\
      detect_board cfg gray b corners ids = Stored (final_corners cfg gray corners) ids) \/
     (~ acceptable cfg b (List.length corners) on_board /\
      detect_board cfg gray b corners ids = NotStored)).
Proof. exact detect_board_main. Qed.
Print Assumptions C12_stored_iff_acceptable.

Theorem C12_one_identifier_per_corner : forall cfg gray b corners ids c d,
  detect_board cfg gray b corners ids = Stored c d -> List.length corners = List.length ids ->
  d = ids /\ List.length c = List.length d.
Proof. exact stored_lengths. Qed.
Print Assumptions C12_one_identifier_per_corner.

Theorem C12_collinear_is_rejected : forall cfg gray b corners ids on_board,
  (0 <= dc_window cfg)%Z -> valid_ids b ids -> (forall l, unit_direction (dc_fit_line cfg l)) ->
  0 <= db_square b ->
  Forall2 (fun i p => nth_error (db_pts b) (Z.to_nat i) = Some p) ids on_board ->
  Forall (fun p => distance_to_line (dc_fit_line cfg on_board) p 0) on_board ->
  detect_board cfg gray b corners ids = NotStored.
Proof. exact collinear_rejected. Qed.
Print Assumptions C12_collinear_is_rejected.

(** A whole image: only configured boards are stored, each at most once, under the
    image's camera, frame and path, and exactly when its detection is accepted. *)
Theorem C12_image : forall cfg gray cam frame path det l,
  detect_image cfg true gray cam frame path det = Some l ->
  NoDup (map (@i_board pt2) l) /\
  (forall x, In x l -> i_cam x = cam /\ i_frame x = frame /\ i_path x = path /\
     (0 <= i_board x < Z.of_nat (List.length (dc_boards cfg)))%Z) /\
  (forall k b c d, nth_error (dc_boards cfg) k = Some b ->
     (In (mkIns cam frame (Z.of_nat k) c d path) l <->
      detect_board cfg gray b (fst (det k)) (snd (det k)) = Stored c d)).
Proof. exact detect_image_main. Qed.
Print Assumptions C12_image.

Theorem C12_image_never_undefined : forall cfg ok gray cam frame path det, (0 <= dc_window cfg)%Z ->
  (forall l, unit_direction (dc_fit_line cfg l)) ->
  (forall k b, nth_error (dc_boards cfg) k = Some b -> valid_ids b (snd (det k))) ->
  exists l, detect_image cfg ok gray cam frame path det = Some l.
Proof.
  intros cfg ok gray cam frame path det Hw Hu Hv. unfold detect_image. destruct ok; [|eauto].
  apply detect_boards_total; auto.
Qed.
Print Assumptions C12_image_never_undefined.

Theorem C12_unreadable_image_stores_nothing : forall cfg gray cam frame path det,
  detect_image cfg false gray cam frame path det = Some [].
Proof. reflexivity. Qed.
Print Assumptions C12_unreadable_image_stores_nothing.

(** The detection tasks of a camera are of the shape C09 assumes. *)
Theorem C09_detection_tasks_are_well_formed : forall cfg c files ts nc,
  camera_tasks cfg c 0 files = Some ts -> (0 <= c < Z.of_nat nc)%Z ->
  tasks_of_camera c ts /\ Forall (known nc (List.length (dc_boards cfg))) (concat ts).
Proof.
  intros cfg c files ts nc H Hc. pose proof (camera_tasks_main cfg c files 0 ts H) as M. split.
  - intros k task i Hk Hi. destruct (M k task i Hk Hi) as (A & B & _). auto.
  - apply Forall_forall. intros i Hi. apply in_concat in Hi. destruct Hi as (task & Ht & Hi).
    apply In_nth_error in Ht. destruct Ht as [k Hk]. destruct (M k task i Hk Hi) as (A & _ & B).
    split; [rewrite A; auto|auto].
Qed.
Print Assumptions C09_detection_tasks_are_well_formed.

(** C13: for every image, window, number of iterations and least-squares outcome. *)
Theorem C13_refined_corner_is_near : forall im h fit iterations corners k c q,
  nth_error corners k = Some c ->
  nth_error (saddle_refine im h fit iterations corners) k = Some (Converged q) ->
  Rabs (fst q - fst c) < 1 + 1 / 1000 /\ Rabs (snd q - snd c) < 1 + 1 / 1000.
Proof. exact saddle_near. Qed.
Print Assumptions C13_refined_corner_is_near.

(** the stored corner k is the refined one if it and all earlier ones converged,
    otherwise the detector's; so every stored corner is finite and within 1.001 pixel
    of the detector's *)
Theorem C13_stored_corners : forall cfg gray corners k c,
  nth_error corners k = Some c ->
  List.length (final_corners cfg gray corners) = List.length corners /\
  exists q, nth_error (final_corners cfg gray corners) k = Some q /\
    Rabs (fst q - fst c) < 1 + 1 / 1000 /\ Rabs (snd q - snd c) < 1 + 1 / 1000 /\
    (let refined := saddle_refine gray (dc_window cfg) (dc_fit cfg) (dc_max_iter cfg) corners in
     dc_refine cfg = true ->
     (nth_error refined k = Some (Converged q) /\
      forall j, (j <= k)%nat -> exists q', nth_error refined j = Some (Converged q')) \/
     (q = c /\ exists j, (j <= k)%nat /\ forall q', nth_error refined j <> Some (Converged q'))).
Proof. exact final_corners_main. Qed.
Print Assumptions C13_stored_corners.

(** C14: no out-of-bounds read for any image size, half window and centre *)
Theorem C14_patch_stays_inside : forall x y h im, (0 <= h)%Z -> interpolatePatch x y h im <> PatchUB.
Proof. exact patch_no_ub. Qed.
Print Assumptions C14_patch_stays_inside.

Theorem C14_patch_values : forall x y h im vals, (0 <= h)%Z -> interpolatePatch x y h im = Patch vals ->
  guard x y h im /\
  Z.of_nat (List.length vals) = rows_written h /\
  Forall2 (fun c v => forall lo hi,
             Forall (fun q => lo <= q <= hi) (four_pixels im (Int_part x) (Int_part y) c) -> lo <= v <= hi)
          (mask_cells h) vals.
Proof.
  intros x y h im vals Hh H. destruct (patch_values x y h im vals Hh H) as (A & B & C).
  split; [auto|]. split; auto. unfold rows_written. rewrite B. auto.
Qed.
Print Assumptions C14_patch_values.

Theorem C14_outside_is_refused : forall x y h im, ~ guard x y h im -> interpolatePatch x y h im = Refused.
Proof. exact patch_refuses_outside. Qed.
Print Assumptions C14_outside_is_refused.

(** a patch with enough contrast inside the image is accepted *)
Theorem C14_contrast_is_accepted : forall x y h im c1 c2 v1 v2, (0 <= h)%Z -> guard x y h im ->
  In c1 (mask_cells h) -> In c2 (mask_cells h) ->
  interp im (Int_part x) (Int_part y) (x - IZR (Int_part x)) (y - IZR (Int_part y)) c1 = Some v1 ->
  interp im (Int_part x) (Int_part y) (x - IZR (Int_part x)) (y - IZR (Int_part y)) c2 = Some v2 ->
  v2 - v1 > 1 / 255 -> exists vals, interpolatePatch x y h im = Patch vals.
Proof. exact patch_accepts. Qed.
Print Assumptions C14_contrast_is_accepted.

(** the mask is the open disc of radius h+1 inside the window *)
Theorem C14_mask : forall h x y, (0 <= h)%Z -> In (x, y) (mask_cells h) <->
  (- h <= x <= h /\ - h <= y <= h /\ x * x + y * y < (h + 1) * (h + 1))%Z.
Proof. exact mask_cells_in. Qed.
Print Assumptions C14_mask.

(** The number of rows of the least-squares system is the number of values written
    only if the caller's uninitialised counter happens to be 0: *)
Theorem C14_rows_match_only_if_counter_was_zero : forall nnz0 h,
  lsq_rows nnz0 h = rows_written h <-> nnz0 = 0%Z.
Proof. intros. unfold lsq_rows, cone_nnz, rows_written. lia. Qed.
Print Assumptions C14_rows_match_only_if_counter_was_zero.
Theorem C14_rows_match_refuted : exists nnz0 h, (0 <= h)%Z /\ lsq_rows nnz0 h <> rows_written h.
Proof. exists 7%Z, 2%Z. split; [lia|]. unfold lsq_rows, cone_nnz, rows_written. lia. Qed.
Print Assumptions C14_rows_match_refuted.

(** ** Concrete cases *)
Definition ex_board : det_board :=
  mkDB [(0, 0); (1, 0); (0, 1); (1, 1); (0, 2); (1, 2)] 6 1.
Definition ex_dcfg : det_cfg :=
  mkDC [ex_board] true (1 / 4) 1 20 (fun _ => (1, -1, 0, 0, 0, 0)) (fun _ => (1, 0, 0, 0)).
Example ex_unit : forall l, unit_direction (dc_fit_line ex_dcfg l).
Proof. intros l. cbn. lra. Qed.
Example ex_valid : valid_ids ex_board [0; 1; 2; 3; 4]%Z.
Proof. repeat constructor; cbn; lia. Qed.
Example ex_acceptable : acceptable ex_dcfg ex_board 5 [(0, 0); (1, 0); (0, 1); (1, 1); (0, 2)].
Proof.
  split.
  - exists 2%Z. split; [unfold nearest; cbn; lra|reflexivity].
  - split; [|lia].
    assert (D : forall x y, 0 <= y -> distance_to_line (1, 0, 0, 0) (x, y) y).
    { intros x y Hy. pose proof (line_dist (1, 0, 0, 0) (x, y)) as L. cbn -[Rabs distance_to_line] in L.
      replace (Rabs _) with y in L; [apply L; lra|].
      replace (x * 0 + y * - (1) + (1 * 0 - 0 * 0)) with (- y) by ring. rewrite Rabs_Ropp, Rabs_pos_eq; auto. }
    exists [0; 0; 1; 1; 2]. split; [repeat (apply Forall2_cons; [apply D; lra|]); apply Forall2_nil|]. unfold mean. cbn. lra.
Qed.
(** an image in which a corner converges (at once) *)
Definition ex_img : image := mkImg 20 20 (fun c _ => IZR c).
Lemma Int_part_10 : Int_part 10 = 10%Z.
Proof.
  assert (B := Int_part_bounds 10).
  assert (9 < Int_part 10)%Z by (apply lt_IZR; lra).
  assert (Int_part 10 < 11)%Z by (apply lt_IZR; lra). lia.
Qed.
Example ex_guard : guard 10 10 1 ex_img.
Proof. unfold guard. cbn. lra. Qed.
Example ex_patch : exists vals, interpolatePatch 10 10 1 ex_img = Patch vals.
Proof.
  eapply (patch_accepts 10 10 1 ex_img (0, 0)%Z (1, 0)%Z 10 11); [lia|apply ex_guard| | | | |lra].
  - apply mask_cells_in; lia.
  - apply mask_cells_in; lia.
  - rewrite Int_part_10. cbn. f_equal. lra.
  - rewrite Int_part_10. cbn. f_equal. lra.
Qed.
Example ex_converged : saddle_refine ex_img 1 (dc_fit ex_dcfg) 20 [(10, 10)] = [Converged (10, 10)].
Proof.
  assert (H1 : forall n, refine_loop ex_img 1 (dc_fit ex_dcfg) (10, 10) (10, 10) (S n) = Converged (10, 10)).
  2: { unfold saddle_refine. cbn [map]. f_equal. apply (H1 19%nat). }
  intros n. cbn [refine_loop fst snd]. generalize (refine_loop ex_img 1 (dc_fit ex_dcfg) (10, 10)). intros rest.
  destruct ex_patch as [vals ->]. cbn [dc_fit ex_dcfg].
  destruct (Rltb 0 _) eqn:E; [apply Rltb_true in E; lra|].
  destruct (Req_EM_T _ 0) as [E2|E2]; [lra|].
  replace ((-2 * -1 * 0 + 0 * 0) / (4 * 1 * -1 - 0 * 0)) with 0 by field.
  replace ((0 * 0 - 2 * 1 * 0) / (4 * 1 * -1 - 0 * 0)) with 0 by field.
  rewrite Rabs_R0. replace (Rltb 0 convergence_threshold) with true.
  - cbn. f_equal. f_equal; ring.
  - symmetry. apply Rltb_true. unfold convergence_threshold. lra.
Qed.
Example ex_detect_image_nonvacuous : exists l,
  detect_image ex_dcfg true ex_img 0 3 EmptyString (fun _ => ([(5, 5); (6, 6); (7, 7); (8, 8); (9, 9)], [0; 1; 2; 3; 4]%Z)) = Some l
  /\ map (@i_board pt2) l = [0%Z].
Proof.
  destruct (detect_board_main ex_dcfg ex_img ex_board [(5, 5); (6, 6); (7, 7); (8, 8); (9, 9)] [0; 1; 2; 3; 4]%Z)
    as (ob & F & H); [cbn; lia|apply ex_valid|apply ex_unit|].
  assert (ob = [(0, 0); (1, 0); (0, 1); (1, 1); (0, 2)]).
  { repeat match goal with H : Forall2 _ (_ :: _) _ |- _ => inversion H; subst; clear H end.
    match goal with H : Forall2 _ [] _ |- _ => inversion H; subst; clear H end.
    repeat match goal with H : nth_error _ _ = Some _ |- _ => cbn in H; injection H as <- end. reflexivity. }
  subst ob. destruct H as [[_ H]|[H _]]; [|exfalso; apply H; apply ex_acceptable].
  unfold detect_image, detect_boards. cbn [dc_boards ex_dcfg fst snd]. fold ex_dcfg. rewrite H. eexists. split; reflexivity.
Qed.
