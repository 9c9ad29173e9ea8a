(** Proofs for C12-C14. *)
From Coq Require Import List ZArith Lia Reals Lra String.
From Verif Require Import SMap DataModel DataSpec DetectModel DetectSpec.
Import ListNotations.
Close Scope string_scope.
Open Scope R_scope.

Lemma Rltb_true a b : Rltb a b = true <-> a < b.
Proof. unfold Rltb. destruct (Rlt_dec a b); split; congruence. Qed.
Lemma Rltb_false a b : Rltb a b = false <-> b <= a.
Proof. unfold Rltb. destruct (Rlt_dec a b); split; try congruence; lra. Qed.

Lemma Int_part_bounds x : IZR (Int_part x) <= x < IZR (Int_part x) + 1.
Proof. pose proof (base_Int_part x). lra. Qed.

(** ** Window and mask *)
Lemma zrange_in h x : In x (zrange h) <-> (- h <= x <= h)%Z.
Proof.
  unfold zrange. rewrite in_map_iff. split.
  - intros (k & <- & Hk). apply in_seq in Hk. lia.
  - intros H. exists (Z.to_nat (x + h)). rewrite in_seq. lia.
Qed.

Lemma cone_positive_iff h x y : (0 <= h)%Z ->
  cone_positive h (x, y) = true <-> (x * x + y * y < (h + 1) * (h + 1))%Z.
Proof.
  intros Hh. unfold cone_positive. cbn [fst snd]. rewrite Rltb_true.
  assert (0 <= IZR (x * x + y * y)) by (apply IZR_le; nia).
  assert (0 <= IZR (h + 1)) by (apply IZR_le; lia).
  split.
  - intros Hs. apply lt_IZR. rewrite mult_IZR.
    rewrite <- (sqrt_sqrt (IZR (x * x + y * y))) by auto.
    pose proof (sqrt_pos (IZR (x * x + y * y))). nra.
  - intros Hz. apply IZR_lt in Hz. rewrite mult_IZR in Hz.
    rewrite <- (sqrt_sqrt (IZR (x * x + y * y))) in Hz by auto.
    pose proof (sqrt_pos (IZR (x * x + y * y))). nra.
Qed.

Lemma mask_cells_in h x y : (0 <= h)%Z -> In (x, y) (mask_cells h) <->
  (- h <= x <= h /\ - h <= y <= h /\ x * x + y * y < (h + 1) * (h + 1))%Z.
Proof.
  intros Hh. unfold mask_cells. rewrite filter_In, cone_positive_iff by auto. unfold window. rewrite in_flat_map.
  split.
  - intros [(y0 & Hy & H) Hc]. apply in_map_iff in H. destruct H as (x0 & [= <- <-] & Hx).
    apply zrange_in in Hx, Hy. lia.
  - intros (Hx & Hy & Hc). split; auto. exists y. split; [apply zrange_in; auto|].
    apply in_map_iff. exists x. split; auto. apply zrange_in; auto.
Qed.

(** ** collect *)
Lemma collect_Some {A} (l : list (option A)) r : collect l = Some r <-> l = map Some r.
Proof.
  revert r. induction l as [|[x|] l IH]; intros r; cbn.
  - split; [intros [= <-]; auto|destruct r; [auto|discriminate]].
  - destruct (collect l) as [r0|]; cbn.
    + split.
      * intros [= <-]. cbn. f_equal. apply IH. auto.
      * destruct r as [|y r]; [discriminate|]. cbn. intros [= -> H]. apply IH in H. injection H as ->. auto.
    + split; [discriminate|]. destruct r as [|y r]; [discriminate|]. intros [= -> H]. apply IH in H. discriminate.
  - split; [discriminate|]. destruct r; discriminate.
Qed.

Lemma collect_None {A} (l : list (option A)) : collect l = None <-> In None l.
Proof.
  induction l as [|[x|] l IH]; cbn.
  - split; [discriminate|tauto].
  - destruct (collect l); cbn; split; try discriminate; intros H.
    + destruct H as [H|H]; [discriminate|]. apply IH in H. discriminate.
    + right. apply IH. auto.
    + auto.
  - tauto.
Qed.

(** ** interpolatePatch *)
Lemma guard_inside x y h im dx dy : (0 <= h)%Z -> guard x y h im ->
  (- h <= dx <= h + 1)%Z -> (- h <= dy <= h + 1)%Z ->
  inside im (Int_part x + dx) (Int_part y + dy) = true.
Proof.
  intros Hh [[X1 X2] [Y1 Y2]] Hx Hy.
  assert (Fx := Int_part_bounds x). assert (Fy := Int_part_bounds y).
  assert (Ax : (h + 1 <= Int_part x)%Z).
  { apply Z.lt_succ_r. apply lt_IZR. unfold Z.succ. rewrite (plus_IZR (Int_part x)). lra. }
  assert (Ay : (h + 1 <= Int_part y)%Z).
  { apply Z.lt_succ_r. apply lt_IZR. unfold Z.succ. rewrite (plus_IZR (Int_part y)). lra. }
  assert (Bx : (Int_part x < im_cols im - (h + 2))%Z) by (apply lt_IZR; lra).
  assert (By : (Int_part y < im_rows im - (h + 2))%Z) by (apply lt_IZR; lra).
  unfold inside. rewrite !andb_true_iff, !Z.leb_le, !Z.ltb_lt. lia.
Qed.

Lemma bilinear_between xw yw a b c d lo hi : 0 <= xw <= 1 -> 0 <= yw <= 1 ->
  lo <= a <= hi -> lo <= b <= hi -> lo <= c <= hi -> lo <= d <= hi ->
  lo <= a * ((1 - xw) * (1 - yw)) + b * (xw * (1 - yw)) + c * ((1 - xw) * yw) + d * (xw * yw) <= hi.
Proof.
  intros Hx Hy Ha Hb Hc Hd.
  assert (W1 : 0 <= (1 - xw) * (1 - yw)) by nra. assert (W2 : 0 <= xw * (1 - yw)) by nra.
  assert (W3 : 0 <= (1 - xw) * yw) by nra. assert (W4 : 0 <= xw * yw) by nra.
  assert (W : (1 - xw) * (1 - yw) + xw * (1 - yw) + (1 - xw) * yw + xw * yw = 1) by ring.
  set (w1 := (1 - xw) * (1 - yw)) in *. set (w2 := xw * (1 - yw)) in *. set (w3 := (1 - xw) * yw) in *. set (w4 := xw * yw) in *.
  split; nra.
Qed.

Lemma interp_ok x y h im c : (0 <= h)%Z -> guard x y h im -> In c (mask_cells h) ->
  exists v, interp im (Int_part x) (Int_part y) (x - IZR (Int_part x)) (y - IZR (Int_part y)) c = Some v /\
    forall lo hi, Forall (fun q => lo <= q <= hi) (four_pixels im (Int_part x) (Int_part y) c) -> lo <= v <= hi.
Proof.
  intros Hh Hg Hc. destruct c as [cx cy]. apply mask_cells_in in Hc; auto. destruct Hc as (Cx & Cy & _).
  unfold interp, read. cbn [fst snd].
  assert (I : forall dx dy, (dx = 0 \/ dx = 1)%Z -> (dy = 0 \/ dy = 1)%Z ->
     inside im (Int_part x + cx + dx) (Int_part y + cy + dy) = true).
  { intros dx dy Hx Hy.
    replace (Int_part x + cx + dx)%Z with (Int_part x + (cx + dx))%Z by lia.
    replace (Int_part y + cy + dy)%Z with (Int_part y + (cy + dy))%Z by lia.
    apply (guard_inside x y h); auto; lia. }
  pose proof (I 0 0 ltac:(auto) ltac:(auto))%Z as I00. pose proof (I 1 0 ltac:(auto) ltac:(auto))%Z as I10.
  pose proof (I 0 1 ltac:(auto) ltac:(auto))%Z as I01. pose proof (I 1 1 ltac:(auto) ltac:(auto))%Z as I11.
  rewrite ?Z.add_0_r in *. rewrite I00, I10, I01, I11. eexists. split; [reflexivity|].
  intros lo hi HF. unfold four_pixels in HF. cbn [fst snd] in HF.
  inversion HF as [|? ? P1 HF1]; subst. inversion HF1 as [|? ? P2 HF2]; subst.
  inversion HF2 as [|? ? P3 HF3]; subst. inversion HF3 as [|? ? P4 _]; subst.
  pose proof (Int_part_bounds x). pose proof (Int_part_bounds y).
  apply bilinear_between; auto; lra.
Qed.

Lemma patch_no_ub x y h im : (0 <= h)%Z -> interpolatePatch x y h im <> PatchUB.
Proof.
  intros Hh. unfold interpolatePatch.
  destruct (Rltb (IZR (h + 1)) x && _ && _ && _)%bool eqn:G; [|discriminate].
  rewrite !andb_true_iff, !Rltb_true in G.
  assert (Hg : guard x y h im) by (unfold guard; tauto).
  destruct (collect _) as [vals|] eqn:E.
  - destruct (Rltb _ _); discriminate.
  - apply collect_None in E. apply in_map_iff in E. destruct E as (c & Hc & Hin).
    destruct (interp_ok x y h im c Hh Hg Hin) as (v & Hv & _). congruence.
Qed.

Lemma patch_values x y h im vals : (0 <= h)%Z -> interpolatePatch x y h im = Patch vals ->
  guard x y h im /\ List.length vals = List.length (mask_cells h) /\
  Forall2 (fun c v => forall lo hi, Forall (fun q => lo <= q <= hi) (four_pixels im (Int_part x) (Int_part y) c) -> lo <= v <= hi)
          (mask_cells h) vals.
Proof.
  intros Hh. unfold interpolatePatch.
  destruct (Rltb (IZR (h + 1)) x && _ && _ && _)%bool eqn:G; [|discriminate].
  rewrite !andb_true_iff, !Rltb_true in G.
  assert (Hg : guard x y h im) by (unfold guard; tauto).
  destruct (collect _) as [vs|] eqn:E; [|discriminate].
  destruct (Rltb _ _); [|discriminate]. intros [= <-]. apply collect_Some in E.
  split; [auto|]. split.
  - rewrite <- (map_length (@Some R)), <- E, map_length. auto.
  - assert (Hin : forall c, In c (mask_cells h) -> In c (mask_cells h)) by auto. revert vs E Hin.
    generalize (mask_cells h) at 1 2 4. intros cells.
    induction cells as [|c cells IH]; intros [|v vs] E Hin; try discriminate; constructor.
    + cbn in E. injection E as E _.
      destruct (interp_ok x y h im c Hh Hg) as (v' & Hv & Hb); [apply Hin; cbn; auto|].
      rewrite E in Hv. injection Hv as ->. auto.
    + apply IH; [|intros; apply Hin; cbn; auto]. cbn in E. congruence.
Qed.

(** ** refinement *)
Lemma refine_loop_no_ub im h fit init : (0 <= h)%Z -> forall fuel p, refine_loop im h fit init p fuel <> RefineUB.
Proof.
  intros Hh. induction fuel as [|n IH]; intros p; cbn [refine_loop]; [discriminate|].
  destruct (interpolatePatch (fst p) (snd p) h im) as [| |b] eqn:E.
  - discriminate.
  - exfalso. eapply patch_no_ub; eauto.
  - destruct (fit b) as [[[[[r0 r1] r2] r3] r4] r5]. cbv zeta.
    destruct (Rltb 0 _); [discriminate|]. destruct (Req_EM_T _ 0); [discriminate|].
    destruct (_ && _)%bool; [discriminate|]. destruct (_ || _)%bool; [discriminate|]. apply IH.
Qed.

Lemma refine_loop_near im h fit init : forall fuel p q,
  Rabs (fst p - fst init) <= 1 -> Rabs (snd p - snd init) <= 1 ->
  refine_loop im h fit init p fuel = Converged q ->
  Rabs (fst q - fst init) < 1 + 1 / 1000 /\ Rabs (snd q - snd init) < 1 + 1 / 1000.
Proof.
  induction fuel as [|n IH]; intros p q Hx Hy; cbn [refine_loop]; [discriminate|].
  destruct (interpolatePatch (fst p) (snd p) h im) as [| |b]; [discriminate|discriminate|].
  destruct (fit b) as [[[[[r0 r1] r2] r3] r4] r5]. cbv zeta.
  destruct (Rltb 0 _); [discriminate|]. destruct (Req_EM_T _ 0); [discriminate|].
  set (dx := (_ / _)). set (dy := (_ / _)).
  destruct (Rltb (Rabs dx) convergence_threshold && Rltb (Rabs dy) convergence_threshold)%bool eqn:C.
  - intros [= <-]. apply andb_true_iff in C. rewrite !Rltb_true in C. unfold convergence_threshold in C. cbn [fst snd].
    split.
    + replace (fst p + dx - fst init) with ((fst p - fst init) + dx) by ring.
      eapply Rle_lt_trans; [apply Rabs_triang|]. lra.
    + replace (snd p + dy - snd init) with ((snd p - snd init) + dy) by ring.
      eapply Rle_lt_trans; [apply Rabs_triang|]. lra.
  - destruct (_ || _)%bool eqn:D; [discriminate|]. apply orb_false_iff in D. rewrite !Rltb_false in D.
    unfold convergence_region in D. apply IH; tauto.
Qed.

Lemma saddle_near im h fit it corners k c q :
  nth_error corners k = Some c -> nth_error (saddle_refine im h fit it corners) k = Some (Converged q) ->
  Rabs (fst q - fst c) < 1 + 1 / 1000 /\ Rabs (snd q - snd c) < 1 + 1 / 1000.
Proof.
  intros Hc Hq. unfold saddle_refine in Hq. rewrite nth_error_map, Hc in Hq. cbn in Hq. injection Hq as Hq.
  eapply refine_loop_near; [| |eauto]; replace (_ - _) with 0 by ring; rewrite Rabs_R0; lra.
Qed.

Lemma apply_refined_length : forall cs rs, List.length (apply_refined cs rs) = List.length cs.
Proof. induction cs as [|c cs IH]; intros [|[p| |] rs]; cbn; auto. Qed.

(** corner k gets its refined position iff it and all earlier ones converged *)
Lemma apply_refined_nth : forall cs rs k c, nth_error cs k = Some c -> List.length rs = List.length cs ->
  (exists q, (forall j, (j <= k)%nat -> exists q', nth_error rs j = Some (Converged q')) /\
     nth_error rs k = Some (Converged q) /\ nth_error (apply_refined cs rs) k = Some q) \/
  ((exists j r, (j <= k)%nat /\ nth_error rs j = Some r /\ forall q, r <> Converged q) /\
     nth_error (apply_refined cs rs) k = Some c).
Proof.
  induction cs as [|c0 cs IH]; intros rs k c Hk L; [destruct k; discriminate|].
  destruct rs as [|r rs]; [discriminate|]. cbn in L.
  destruct r as [p| |].
  - destruct k as [|k]; cbn in Hk.
    + left. exists p. split; [|cbn; auto]. intros j Hj. assert (j = 0)%nat as -> by lia. cbn. eauto.
    + cbn [apply_refined nth_error]. destruct (IH rs k c Hk ltac:(lia)) as [(q & A & B & C)|((j & r & A & B & C) & D)].
      * left. exists q. split; auto. intros [|j] Hj; cbn; eauto. apply A. lia.
      * right. split; auto. exists (S j), r. cbn. repeat split; auto. lia.
  - right. split; [|auto]. exists 0%nat, Diverged. cbn. repeat split; try lia. discriminate.
  - right. split; [|auto]. exists 0%nat, RefineUB. cbn. repeat split; try lia. discriminate.
Qed.

(** ** line residual *)
Lemma line_dist line p : unit_direction line ->
  let '(vx, vy, x0, y0) := line in
  distance_to_line line p (Rabs (fst p * vy + snd p * - vx + (vx * y0 - vy * x0))).
Proof.
  destruct line as [[[vx vy] x0] y0]. unfold unit_direction, distance_to_line, dist2. cbn [fst snd]. intros Hu.
  destruct p as [x y]. cbn [fst snd].
  replace (x * vy + y * - vx + (vx * y0 - vy * x0)) with ((x - x0) * vy - (y - y0) * vx) by ring.
  set (a := x - x0). set (b := y - y0).
  assert (Hgen : forall t, (x - (x0 + t * vx)) * (x - (x0 + t * vx)) + (y - (y0 + t * vy)) * (y - (y0 + t * vy)) =
     (a * vy - b * vx) * (a * vy - b * vx) + (a * vx + b * vy - t) * (a * vx + b * vy - t)).
  { intros t. replace (x - (x0 + t * vx)) with (a - t * vx) by (unfold a; ring).
    replace (y - (y0 + t * vy)) with (b - t * vy) by (unfold b; ring).
    replace ((a - t * vx) * (a - t * vx) + (b - t * vy) * (b - t * vy))
      with ((a * a + b * b) - 2 * t * (a * vx + b * vy) + t * t * (vx * vx + vy * vy)) by ring.
    replace ((a * vy - b * vx) * (a * vy - b * vx) + (a * vx + b * vy - t) * (a * vx + b * vy - t))
      with ((a * a + b * b) * (vx * vx + vy * vy) - 2 * t * (a * vx + b * vy) + t * t) by ring.
    rewrite Hu. ring. }
  split.
  - intros t. rewrite Hgen. rewrite <- sqrt_Rsqr_abs. unfold Rsqr. clear Hgen.
    generalize (a * vy - b * vx) (a * vx + b * vy - t). intros u w. apply sqrt_le_1; nra.
  - exists (a * vx + b * vy). rewrite Hgen. rewrite <- sqrt_Rsqr_abs. unfold Rsqr. f_equal. ring.
Qed.

Lemma distance_to_line_unique line p d d' : distance_to_line line p d -> distance_to_line line p d' -> d = d'.
Proof.
  destruct line as [[[vx vy] x0] y0]. intros [A [t ->]] [B [s ->]].
  apply Rle_antisym; auto.
Qed.

Lemma fold_left_Rplus l : forall a, fold_left Rplus l a = a + fold_right Rplus 0 l.
Proof. induction l as [|x l IH]; intros a; cbn; [lra|]. rewrite IH. lra. Qed.

Lemma residual_mean line pts : unit_direction line ->
  exists ds, Forall2 (distance_to_line line) pts ds /\ line_residual line pts = mean ds.
Proof.
  intros Hu. destruct line as [[[vx vy] x0] y0].
  exists (map (fun p => Rabs (fst p * vy + snd p * - vx + (vx * y0 - vy * x0))) pts). split.
  - induction pts as [|p pts IH]; cbn [map]; constructor; auto.
    apply (line_dist (vx, vy, x0, y0) p Hu).
  - unfold line_residual, mean. rewrite fold_left_Rplus, Rplus_0_l, map_length. reflexivity.
Qed.

Lemma Forall2_dist_unique line : forall pts ds ds', Forall2 (distance_to_line line) pts ds ->
  Forall2 (distance_to_line line) pts ds' -> ds = ds'.
Proof.
  induction pts as [|p pts IH]; intros ds ds' H1 H2; inversion H1; inversion H2; subst; auto.
  f_equal; auto. eapply distance_to_line_unique; eauto.
Qed.

(** ** acceptance *)
Lemma nearest_round x : nearest x (round_half_up x).
Proof. unfold nearest, round_half_up. pose proof (Int_part_bounds (x + / 2)). lra. Qed.
Lemma nearest_unique x S T : nearest x S -> nearest x T -> S = T.
Proof.
  unfold nearest. intros H1 H2.
  assert (S < T + 1)%Z by (apply lt_IZR; rewrite plus_IZR; lra).
  assert (T < S + 1)%Z by (apply lt_IZR; rewrite plus_IZR; lra). lia.
Qed.

Lemma board_points_ok b ids : valid_ids b ids ->
  exists l, board_points b ids = Some l /\
    Forall2 (fun i p => nth_error (db_pts b) (Z.to_nat i) = Some p) ids l.
Proof.
  unfold board_points. induction 1 as [|i ids Hi H IH]; cbn; [eauto|].
  destruct IH as (l & El & Fl). destruct (Z.ltb_spec i 0); [lia|].
  destruct (nth_error (db_pts b) (Z.to_nat i)) as [p|] eqn:E; [|apply nth_error_None in E; lia].
  rewrite El. cbn. exists (p :: l). split; auto.
Qed.

Lemma board_points_bad b ids : ~ valid_ids b ids -> board_points b ids = None.
Proof.
  intros H. unfold board_points. apply collect_None. apply in_map_iff.
  unfold valid_ids in H. apply Exists_Forall_neg in H.
  - apply Exists_exists in H. destruct H as (i & Hin & Hi). exists i. split; auto.
    destruct (Z.ltb_spec i 0); auto. apply nth_error_None. lia.
  - intros x. lia.
Qed.

Lemma no_refine_ub cfg gray corners : (0 <= dc_window cfg)%Z ->
  existsb is_refine_ub (saddle_refine gray (dc_window cfg) (dc_fit cfg) (dc_max_iter cfg) corners) = false.
Proof.
  intros Hh. apply Bool.not_true_iff_false. intros H. apply existsb_exists in H. destruct H as (r & Hin & Hr).
  unfold saddle_refine in Hin. apply in_map_iff in Hin. destruct Hin as (p & <- & _).
  pose proof (refine_loop_no_ub gray (dc_window cfg) (dc_fit cfg) p Hh (Z.to_nat (dc_max_iter cfg)) p) as Hn.
  destruct (refine_loop _ _ _ _ _ _); try discriminate. congruence.
Qed.

Lemma detect_board_main cfg gray b corners ids :
  (0 <= dc_window cfg)%Z -> valid_ids b ids -> (forall l, unit_direction (dc_fit_line cfg l)) ->
  exists on_board,
    Forall2 (fun i p => nth_error (db_pts b) (Z.to_nat i) = Some p) ids on_board /\
    ((acceptable cfg b (List.length corners) on_board /\
      detect_board cfg gray b corners ids = Stored (final_corners cfg gray corners) ids) \/
     (~ acceptable cfg b (List.length corners) on_board /\
      detect_board cfg gray b corners ids = NotStored)).
Proof.
  intros Hw Hv Hu. destruct (board_points_ok b ids Hv) as (ob & Eob & Fob).
  exists ob. split; auto. unfold detect_board. rewrite Eob, no_refine_ub, Bool.andb_false_r by auto.
  fold (final_corners cfg gray corners).
  assert (Lf : List.length (final_corners cfg gray corners) = List.length corners).
  { unfold final_corners. destruct (dc_refine cfg); auto. apply apply_refined_length. }
  rewrite Lf. destruct (residual_mean (dc_fit_line cfg ob) ob (Hu ob)) as (ds & Fds & Eds). rewrite Eds.
  pose proof (nearest_round (dc_min_perc cfg * IZR (db_nb_pts b))) as HT.
  destruct (Z.ltb_spec (round_half_up (dc_min_perc cfg * IZR (db_nb_pts b))) (Z.of_nat (List.length corners))) as [H1|H1].
  - destruct (Rltb (db_square b * (1 / 10)) (mean ds) && (4 <? List.length corners)%nat)%bool eqn:G.
    + apply andb_true_iff in G. destruct G as [G1 G2]. apply Rltb_true in G1. apply Nat.ltb_lt in G2.
      left. split; auto. split; [eauto|]. split; auto. exists ds. split; auto. lra.
    + right. split; auto. intros (_ & (ds' & F' & M') & N4). apply andb_false_iff in G. destruct G as [G|G].
      * apply Rltb_false in G. rewrite (Forall2_dist_unique _ _ _ _ Fds F') in G. lra.
      * apply Nat.ltb_ge in G. lia.
  - right. split; auto. intros ((T & HT' & HTl) & _). rewrite (nearest_unique _ _ _ HT' HT) in HTl. lia.
Qed.

(** exactly collinear corners are rejected, provided the fitted line contains them *)
Lemma collinear_rejected cfg gray b corners ids on_board :
  (0 <= dc_window cfg)%Z -> valid_ids b ids -> (forall l, unit_direction (dc_fit_line cfg l)) ->
  0 <= db_square b ->
  Forall2 (fun i p => nth_error (db_pts b) (Z.to_nat i) = Some p) ids on_board ->
  Forall (fun p => distance_to_line (dc_fit_line cfg on_board) p 0) on_board ->
  detect_board cfg gray b corners ids = NotStored.
Proof.
  intros Hw Hv Hu Hs Hob Hz.
  destruct (detect_board_main cfg gray b corners ids Hw Hv Hu) as (ob & F & [[A E]|[A E]]); auto.
  exfalso. assert (ob = on_board).
  { clear -F Hob. revert on_board Hob. induction F as [|i p l l' H F IH]; intros o Ho; inversion Ho; subst; auto.
    f_equal; [congruence|auto]. }
  subst ob. destruct A as (_ & (ds & Fd & M) & _).
  assert (Hds : mean ds = 0).
  { assert (Hall : Forall (fun d => d = 0) ds).
    { clear M. revert Fd Hz. generalize (dc_fit_line cfg on_board). intros line Fd Hz.
      clear -Fd Hz. induction Fd as [|p d l l' H F IH]; constructor.
      - inversion Hz; subst. eapply distance_to_line_unique; eauto.
      - inversion Hz; subst. auto. }
    unfold mean. replace (fold_right Rplus 0 ds) with 0; [unfold Rdiv; ring|].
    clear -Hall. induction Hall as [|d l -> H IH]; cbn; [auto|]. rewrite <- IH. ring. }
  lra.
Qed.

(** ** a whole image *)
Lemma detect_boards_main cfg gray cam frame path det : forall bs i l,
  detect_boards cfg gray cam frame path det i bs = Some l ->
  forall k b, nth_error bs k = Some b ->
    (forall ins, In ins l -> i_board ins = Z.of_nat (i + k) ->
       detect_board cfg gray b (fst (det (i + k)%nat)) (snd (det (i + k)%nat)) = Stored (i_pts ins) (i_ids ins) /\
       i_cam ins = cam /\ i_frame ins = frame /\ i_path ins = path) /\
    (forall c d, detect_board cfg gray b (fst (det (i + k)%nat)) (snd (det (i + k)%nat)) = Stored c d ->
       In (mkIns cam frame (Z.of_nat (i + k)) c d path) l).
Proof.
  induction bs as [|b0 bs IH]; intros i l H k b Hk; [destruct k; discriminate|].
  cbn in H. destruct (detect_board cfg gray b0 (fst (det i)) (snd (det i))) as [| |c0 d0] eqn:E0; [discriminate| |].
  - destruct (detect_boards cfg gray cam frame path det (S i) bs) as [l'|] eqn:E; [|discriminate].
    injection H as <-. destruct k as [|k]; cbn in Hk.
    + injection Hk as <-. rewrite Nat.add_0_r. split.
      * intros ins Hin Hb. exfalso. clear -E Hin Hb. revert l' E Hin.
        assert (Hge : forall bs j l', detect_boards cfg gray cam frame path det j bs = Some l' ->
                  forall x, In x l' -> (Z.of_nat j <= i_board x)%Z).
        { clear. induction bs as [|b bs IH]; intros j l' H x Hx; cbn in H.
          - injection H as <-. destruct Hx.
          - destruct (detect_board _ _ _ _ _); [discriminate| |];
              (destruct (detect_boards cfg gray cam frame path det (S j) bs) eqn:E; [|discriminate]); injection H as <-.
            + specialize (IH _ _ E x Hx). lia.
            + destruct Hx as [<-|Hx]; [cbn; lia|]. specialize (IH _ _ E x Hx). lia. }
        intros l' E Hin. specialize (Hge _ _ _ E _ Hin). lia.
      * intros c d Hd. congruence.
    + replace (i + S k)%nat with (S i + k)%nat by lia. apply (IH _ _ E k b Hk).
  - destruct (detect_boards cfg gray cam frame path det (S i) bs) as [l'|] eqn:E; [|discriminate].
    injection H as <-.
    assert (Hge : forall bs j l', detect_boards cfg gray cam frame path det j bs = Some l' ->
                  forall x, In x l' -> (Z.of_nat j <= i_board x)%Z).
    { clear. induction bs as [|b bs IH]; intros j l' H x Hx; cbn in H.
      - injection H as <-. destruct Hx.
      - destruct (detect_board _ _ _ _ _); [discriminate| |];
          (destruct (detect_boards cfg gray cam frame path det (S j) bs) eqn:E; [|discriminate]); injection H as <-.
        + specialize (IH _ _ E x Hx). lia.
        + destruct Hx as [<-|Hx]; [cbn; lia|]. specialize (IH _ _ E x Hx). lia. }
    destruct k as [|k]; cbn in Hk.
    + injection Hk as <-. rewrite Nat.add_0_r. split.
      * intros ins [<-|Hin] Hb; [cbn; auto|]. specialize (Hge _ _ _ E _ Hin). lia.
      * intros c d Hd. rewrite E0 in Hd. injection Hd as <- <-. cbn; auto.
    + replace (i + S k)%nat with (S i + k)%nat by lia. destruct (IH _ _ E k b Hk) as [A B]. split.
      * intros ins [<-|Hin] Hb; [cbn in Hb; lia|]. auto.
      * intros c d Hd. cbn. right. auto.
Qed.

Lemma detect_boards_meta cfg gray cam frame path det : forall bs i l,
  detect_boards cfg gray cam frame path det i bs = Some l ->
  forall x, In x l -> i_cam x = cam /\ i_frame x = frame /\ i_path x = path /\
    (Z.of_nat i <= i_board x < Z.of_nat (i + List.length bs))%Z.
Proof.
  induction bs as [|b bs IH]; intros i l H x Hx; cbn in H.
  - injection H as <-. destruct Hx.
  - destruct (detect_board _ _ _ _ _); [discriminate| |];
      (destruct (detect_boards cfg gray cam frame path det (S i) bs) eqn:E; [|discriminate]); injection H as <-.
    + destruct (IH _ _ E x Hx) as (A & B & C & D). cbn [List.length]. repeat split; auto; lia.
    + cbn [List.length]. destruct Hx as [<-|Hx]; [cbn; repeat split; lia|].
      destruct (IH _ _ E x Hx) as (A & B & C & D). repeat split; auto; lia.
Qed.

Lemma detect_boards_order cfg gray cam frame path det : forall bs i l,
  detect_boards cfg gray cam frame path det i bs = Some l -> NoDup (map (@i_board pt2) l).
Proof.
  induction bs as [|b bs IH]; intros i l H; cbn in H.
  - injection H as <-. constructor.
  - destruct (detect_board _ _ _ _ _); [discriminate| |];
      (destruct (detect_boards cfg gray cam frame path det (S i) bs) eqn:E; [|discriminate]); injection H as <-; eauto.
    cbn. constructor; eauto. intros Hin. apply in_map_iff in Hin. destruct Hin as (x & Hx & Hin).
    destruct (detect_boards_meta _ _ _ _ _ _ _ _ _ E x Hin) as (_ & _ & _ & D). lia.
Qed.

Lemma detect_boards_total cfg gray cam frame path det : (0 <= dc_window cfg)%Z ->
  (forall l, unit_direction (dc_fit_line cfg l)) -> forall bs i,
  (forall k b, nth_error bs k = Some b -> valid_ids b (snd (det (i + k)%nat))) ->
  exists l, detect_boards cfg gray cam frame path det i bs = Some l.
Proof.
  intros Hw Hu. induction bs as [|b bs IH]; intros i Hv; cbn; eauto.
  destruct (IH (S i)) as [l ->].
  { intros k b' Hk. replace (S i + k)%nat with (i + S k)%nat by lia. apply Hv. auto. }
  assert (V0 := Hv 0%nat b eq_refl). rewrite Nat.add_0_r in V0.
  destruct (detect_board_main cfg gray b (fst (det i)) (snd (det i)) Hw V0 Hu) as (ob & _ & [[_ ->]|[_ ->]]); eauto.
Qed.

(** ** the contrast test *)
Lemma fold_Rmax_ge l : forall a, a <= fold_left Rmax l a /\ (forall x, In x l -> x <= fold_left Rmax l a).
Proof.
  induction l as [|y l IH]; intros a; cbn; [split; [lra|tauto]|].
  destruct (IH (Rmax a y)) as [A B]. split.
  - eapply Rle_trans; [apply Rmax_l|eauto].
  - intros x [->|H]; auto. eapply Rle_trans; [apply Rmax_r|eauto].
Qed.
Lemma fold_Rmin_le l : forall a, fold_left Rmin l a <= a /\ (forall x, In x l -> fold_left Rmin l a <= x).
Proof.
  induction l as [|y l IH]; intros a; cbn; [split; [lra|tauto]|].
  destruct (IH (Rmin a y)) as [A B]. split.
  - eapply Rle_trans; [eauto|apply Rmin_l].
  - intros x [->|H]; auto. eapply Rle_trans; [eauto|apply Rmin_r].
Qed.

Lemma patch_accepts x y h im c1 c2 v1 v2 : (0 <= h)%Z -> guard x y h im ->
  In c1 (mask_cells h) -> In c2 (mask_cells h) ->
  interp im (Int_part x) (Int_part y) (x - IZR (Int_part x)) (y - IZR (Int_part y)) c1 = Some v1 ->
  interp im (Int_part x) (Int_part y) (x - IZR (Int_part x)) (y - IZR (Int_part y)) c2 = Some v2 ->
  v2 - v1 > 1 / 255 -> exists vals, interpolatePatch x y h im = Patch vals.
Proof.
  intros Hh Hg H1 H2 E1 E2 Hd. pose proof (patch_no_ub x y h im Hh) as Hub. revert Hub.
  unfold interpolatePatch. destruct Hg as [[X1 X2] [Y1 Y2]].
  apply Rltb_true in X1, X2, Y1, Y2. rewrite X1, X2, Y1, Y2. cbn [andb].
  destruct (collect _) as [vals|] eqn:E; [|congruence]. intros _.
  apply collect_Some in E.
  assert (I : forall c v, In c (mask_cells h) ->
     interp im (Int_part x) (Int_part y) (x - IZR (Int_part x)) (y - IZR (Int_part y)) c = Some v -> In v vals).
  { intros c v Hc Hv. assert (Hin : In (Some v) (map Some vals)).
    { rewrite <- E. apply in_map_iff. eauto. }
    apply in_map_iff in Hin. destruct Hin as (v' & [= ->] & Hin). auto. }
  pose proof (proj2 (fold_Rmax_ge vals dbl_min) v2 (I _ _ H2 E2)).
  pose proof (proj2 (fold_Rmin_le vals dbl_max) v1 (I _ _ H1 E1)).
  replace (Rltb (1 / 255) _) with true; eauto. symmetry. apply Rltb_true. lra.
Qed.

Lemma patch_refuses_outside x y h im : ~ guard x y h im -> interpolatePatch x y h im = Refused.
Proof.
  intros Hn. unfold interpolatePatch. destruct (_ && _ && _ && _)%bool eqn:G; auto.
  rewrite !andb_true_iff, !Rltb_true in G. exfalso. apply Hn. unfold guard. tauto.
Qed.

Lemma stored_lengths cfg gray b corners ids c d :
  detect_board cfg gray b corners ids = Stored c d -> List.length corners = List.length ids ->
  d = ids /\ List.length c = List.length d.
Proof.
  unfold detect_board. destruct (_ <? _)%Z; [|discriminate]. destruct (_ && existsb _ _)%bool; [discriminate|].
  destruct (board_points b ids) as [ob|]; [|discriminate]. destruct (_ && _)%bool; [|discriminate].
  intros [= <- <-] L. split; auto. destruct (dc_refine cfg); auto. rewrite apply_refined_length. auto.
Qed.

Lemma detect_image_main cfg gray cam frame path det l :
  detect_image cfg true gray cam frame path det = Some l ->
  NoDup (map (@i_board pt2) l) /\
  (forall x, In x l -> i_cam x = cam /\ i_frame x = frame /\ i_path x = path /\
     (0 <= i_board x < Z.of_nat (List.length (dc_boards cfg)))%Z) /\
  (forall k b c d, nth_error (dc_boards cfg) k = Some b ->
     (In (mkIns cam frame (Z.of_nat k) c d path) l <->
      detect_board cfg gray b (fst (det k)) (snd (det k)) = Stored c d)).
Proof.
  unfold detect_image. intros H. split; [|split].
  - eapply detect_boards_order; eauto.
  - intros x Hx. apply (detect_boards_meta _ _ _ _ _ _ _ _ _ H x Hx).
  - intros k b c d Hk. destruct (detect_boards_main _ _ _ _ _ _ _ _ _ H k b Hk) as [A B]. cbn [Nat.add] in *. split.
    + intros Hin. destruct (A _ Hin eq_refl) as (E & _). exact E.
    + apply B.
Qed.

Lemma final_corners_main cfg gray corners k c :
  nth_error corners k = Some c ->
  List.length (final_corners cfg gray corners) = List.length corners /\
  exists q, nth_error (final_corners cfg gray corners) k = Some q /\
    Rabs (fst q - fst c) < 1 + 1 / 1000 /\ Rabs (snd q - snd c) < 1 + 1 / 1000 /\
    (let refined := saddle_refine gray (dc_window cfg) (dc_fit cfg) (dc_max_iter cfg) corners in
     dc_refine cfg = true ->
     (nth_error refined k = Some (Converged q) /\
      forall j, (j <= k)%nat -> exists q', nth_error refined j = Some (Converged q')) \/
     (q = c /\ exists j, (j <= k)%nat /\ forall q', nth_error refined j <> Some (Converged q'))).
Proof.
  intros Hk. unfold final_corners. destruct (dc_refine cfg) eqn:Er.
  - set (rf := saddle_refine gray (dc_window cfg) (dc_fit cfg) (dc_max_iter cfg) corners).
    split; [apply apply_refined_length|].
    assert (L : List.length rf = List.length corners) by (unfold rf, saddle_refine; apply map_length).
    destruct (apply_refined_nth corners rf k c Hk L) as [(q & A & B & C)|((j & r & A & B & C) & D)].
    + exists q. split; auto. destruct (saddle_near _ _ _ _ _ _ _ _ Hk B) as [N1 N2].
      split; [auto|]. split; [auto|]. cbv zeta. intros _. left. auto.
    + exists c. split; auto. replace (fst c - fst c) with 0 by ring. replace (snd c - snd c) with 0 by ring.
      rewrite Rabs_R0. split; [lra|]. split; [lra|]. cbv zeta. intros _. right. split; auto.
      exists j. split; auto. intros q'. fold rf. rewrite B. intros [= E]. apply (C q'); auto.
  - split; auto. exists c. split; auto. replace (fst c - fst c) with 0 by ring. replace (snd c - snd c) with 0 by ring.
    rewrite Rabs_R0. split; [lra|]. split; [lra|]. discriminate.
Qed.

Lemma camera_tasks_main cfg cam : forall files frame ts, camera_tasks cfg cam frame files = Some ts ->
  forall k task i, nth_error ts k = Some task -> In i task ->
    i_cam i = cam /\ i_frame i = Z.of_nat (frame + k) /\
    (0 <= i_board i < Z.of_nat (List.length (dc_boards cfg)))%Z.
Proof.
  induction files as [|f files IH]; intros frame ts H k task i Hk Hi; cbn in H.
  - injection H as <-. destruct k; discriminate.
  - destruct (detect_image _ _ _ _ _ _ _) as [t|] eqn:E; [|discriminate].
    destruct (camera_tasks cfg cam (S frame) files) as [ts'|] eqn:E2; [|discriminate]. injection H as <-.
    destruct k as [|k]; cbn in Hk.
    + injection Hk as <-. rewrite Nat.add_0_r. unfold detect_image in E. destruct (fl_ok f); [|injection E as <-; destruct Hi].
      destruct (detect_boards_meta _ _ _ _ _ _ _ _ _ E i Hi) as (A & B & C & D). auto.
    + replace (frame + S k)%nat with (S frame + k)%nat by lia. eapply IH; eauto.
Qed.
