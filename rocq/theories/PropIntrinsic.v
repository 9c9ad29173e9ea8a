(** C41: which board observations the initial intrinsic calibration uses. *)
From Coq Require Import List ZArith Lia Reals Lra Permutation Bool.
From Verif Require Import SMap DataModel DetectModel DetectProofs RansacModel GeomModel GeomMedian CameraModel ResidualModel IntrinsicModel PropFile.
Import ListNotations.
Open Scope R_scope.

(** every corner is strictly inside the border of 5 % of the image size on each side *)
Definition inside_border (cols rows : Z) (b : bobs pt2) : Prop :=
  forall x y, In (x, y) (o_pts b) ->
    5 / 100 * IZR cols < x < 95 / 100 * IZR cols /\ 5 / 100 * IZR rows < y < 95 / 100 * IZR rows.
(** documented number of boards: at most 50, 500 for fisheye (model 1) *)
Definition documented_limit (model : Z) (k : nat) : Prop := (model = 1%Z /\ k = 500%nat) \/ (model <> 1%Z /\ k = 50%nat).
(** the correspondences of an observation: its corners and their positions on the board *)
Definition correspondences (bpts : Z -> list vec3) (b : bobs pt2) (v : list vec3 * list pt2) : Prop :=
  snd v = o_pts b /\ Forall2 (fun k q => exists n, k = Z.of_nat n /\ nth_error (bpts (o_board b)) n = Some q) (o_ids b) (fst v).
(** l is l0 without the elements that are not in P *)
Inductive selection {A B} (P : A -> Prop) (Rel : A -> B -> Prop) : list A -> list B -> Prop :=
| sel_nil : selection P Rel [] []
| sel_take a l b m : P a -> Rel a b -> selection P Rel l m -> selection P Rel (a :: l) (b :: m)
| sel_skip a l m : ~ P a -> selection P Rel l m -> selection P Rel (a :: l) m.

Theorem C41_border_rule : forall cols rows b, checkBorderToleranceFisheye cols rows b = true <-> inside_border cols rows b.
Proof.
  intros cols rows b. unfold checkBorderToleranceFisheye, inside_border. rewrite forallb_forall. split; intros H.
  - intros x y I. specialize (H _ I). cbn [fst snd] in H. rewrite negb_true_iff, !orb_false_iff in H. destruct H as [[[A B] C] D].
    destruct (Rle_dec x _); [discriminate A|]. destruct (Rge_dec x _); [discriminate B|].
    destruct (Rle_dec y _); [discriminate C|]. destruct (Rge_dec y _); [discriminate D|]. lra.
  - intros [x y] I. specialize (H _ _ I). cbn [fst snd]. rewrite negb_true_iff, !orb_false_iff.
    destruct (Rle_dec x _); [lra|]. destruct (Rge_dec x _); [lra|]. destruct (Rle_dec y _); [lra|]. destruct (Rge_dec y _); [lra|]. tauto.
Qed.
Print Assumptions C41_border_rule.

Section C41.
Variables (model cols rows : Z) (bpts : Z -> list vec3) (obs : list (bobs pt2)).
(** the observation may be used: fisheye boards must keep off the border *)
Definition usable (b : bobs pt2) : Prop := model = 1%Z -> inside_border cols rows b.

Lemma usable_dec : forall b, negb (Z.eqb model 1) || checkBorderToleranceFisheye cols rows b = true <-> usable b.
Proof.
  intros b. unfold usable. rewrite orb_true_iff, negb_true_iff, Z.eqb_neq, C41_border_rule.
  destruct (Z.eq_dec model 1); tauto.
Qed.
Lemma corr_collect : forall bp ids q, collect (map (zget bp) ids) = Some q <->
  Forall2 (fun (k : Z) (q : vec3) => exists n, k = Z.of_nat n /\ nth_error bp n = Some q) ids q.
Proof.
  intros bp. induction ids as [|k ids IH]; intros q; cbn.
  - split; [intros [= <-]; constructor|]. inversion 1. reflexivity.
  - split.
    + intros E. destruct (zget bp k) as [x|] eqn:Z; [|discriminate E]. destruct (collect _) as [r|] eqn:C; [|discriminate E].
      injection E as <-. constructor; [|apply IH; reflexivity]. unfold zget in Z. destruct (Z.ltb_spec k 0); [discriminate Z|].
      exists (Z.to_nat k). split; [lia|exact Z].
    + inversion 1 as [|? x ? r (n & -> & N) F]; subst. rewrite (proj2 (IH r) F). unfold zget.
      destruct (Z.ltb_spec (Z.of_nat n) 0); [lia|]. rewrite Nat2Z.id, N. reflexivity.
Qed.

(** For every shuffle: a set of distinct observations of the documented size (all, if there
    are not more) is drawn, and the calibration gets the correspondences of exactly those
    of them that are usable. *)
Theorem C41_initial_subset : forall shuffle vs, Permutation (seq 0 (length obs)) (shuffle (seq 0 (length obs))) ->
  init_views model cols rows bpts obs shuffle = Some vs ->
  exists (drawn : list nat) bs k, documented_limit model k /\ length drawn = Nat.min (length obs) k /\ NoDup drawn /\
    Forall2 (fun n b => nth_error obs n = Some b) drawn bs /\ selection usable (correspondences bpts) bs vs.
Proof.
  intros shuffle vs Pm E. unfold init_views in E. set (sh := shuffle (seq 0 (length obs))) in *.
  assert (L : length sh = length obs) by (rewrite <- (Permutation_length Pm); apply seq_length).
  exists (firstn (nb_board_est model obs) sh).
  assert (I : forall n, In n (firstn (nb_board_est model obs) sh) -> (n < length obs)%nat).
  { intros n Hn. assert (H : In n sh) by (rewrite <- (firstn_skipn (nb_board_est model obs) sh); apply in_or_app; left; exact Hn).
    apply (Permutation_in _ (Permutation_sym Pm)) in H. apply in_seq in H. lia. }
  assert (X : exists bs, Forall2 (fun n b => nth_error obs n = Some b) (firstn (nb_board_est model obs) sh) bs /\ selection usable (correspondences bpts) bs vs).
  { clear L Pm. revert vs E I. generalize (firstn (nb_board_est model obs) sh). clear sh. induction l as [|n l IH]; intros vs E I.
    - unfold gather in E. cbn in E. injection E as <-. exists []. split; constructor.
    - unfold gather in E. cbn in E. destruct (init_view model cols rows bpts obs n) as [v|] eqn:V; [|discriminate E].
      destruct (collect (map _ l)) as [rest|] eqn:C; [|discriminate E]. injection E as <-.
      destruct (IH (concat rest)) as (bs & F & S); [unfold gather; rewrite C; reflexivity|intros m Hm; apply I; right; exact Hm|].
      unfold init_view in V. destruct (nth_error obs n) as [b|] eqn:N.
      2: { apply nth_error_None in N. specialize (I n (or_introl eq_refl)). lia. }
      exists (b :: bs). split; [constructor; assumption|].
      destruct (negb (Z.eqb model 1) || checkBorderToleranceFisheye cols rows b) eqn:U.
      + destruct (collect (map (zget (bpts (o_board b))) (o_ids b))) as [q|] eqn:Q; [|discriminate V]. injection V as <-. cbn.
        apply sel_take; [apply usable_dec, U| |exact S]. split; [reflexivity|]. apply corr_collect, Q.
      + injection V as <-. cbn. apply sel_skip; [|exact S]. rewrite <- usable_dec. congruence. }
  destruct X as (bs & F & S). exists bs, (if Z.eqb model 1 then 500 else 50)%nat. split; [|split; [|split; [|split; assumption]]].
  - unfold documented_limit. destruct (Z.eqb_spec model 1); tauto.
  - rewrite firstn_length, L. unfold nb_board_est. lia.
  - assert (ND : NoDup sh) by exact (Permutation_NoDup Pm (seq_NoDup _ _)).
    rewrite <- (firstn_skipn (nb_board_est model obs) sh) in ND.
    revert ND. generalize (firstn (nb_board_est model obs) sh) (skipn (nb_board_est model obs) sh).
    induction l as [|x l IH]; intros r ND; [constructor|]. cbn in ND. inversion ND; subst. constructor; [|eapply IH; eassumption].
    intros Hx. match goal with H : ~ In x _ |- _ => apply H end. apply in_or_app. left. exact Hx.
Qed.

(** Perspective cameras: nothing is rejected, so min(n, 50) boards are used. *)
Theorem C41_perspective_uses_all_drawn : forall shuffle vs, model <> 1%Z -> Permutation (seq 0 (length obs)) (shuffle (seq 0 (length obs))) ->
  init_views model cols rows bpts obs shuffle = Some vs -> length vs = Nat.min (length obs) 50.
Proof.
  intros shuffle vs M Pm E. destruct (C41_initial_subset shuffle vs Pm E) as (d & bs & k & [[K _]|[_ ->]] & L & _ & F & S); [contradiction|].
  rewrite <- L. clear L E Pm. assert (Lb : length d = length bs) by (clear S; induction F; cbn; congruence). rewrite Lb. clear Lb F d.
  induction S as [|a l b m Ha Hb S IH|a l m Ha S IH]; cbn; [reflexivity|congruence|]. exfalso. apply Ha. intros W. contradiction.
Qed.

(** Building the correspondences never goes wrong when identifiers are those of corners. *)
Theorem C41_never_undefined : forall shuffle,
  (forall b, In b obs -> Forall (fun k => (0 <= k < Z.of_nat (length (bpts (o_board b))))%Z) (o_ids b)) ->
  init_views model cols rows bpts obs shuffle <> None.
Proof.
  intros shuffle V. unfold init_views, gather.
  assert (H : forall l, exists r, collect (map (init_view model cols rows bpts obs) l) = Some r).
  { induction l as [|n l [r IH]]; [exists []; reflexivity|]. cbn. rewrite IH. unfold init_view.
    destruct (nth_error obs n) as [b|] eqn:N; [|exists ([] :: r); reflexivity].
    destruct (negb (Z.eqb model 1) || checkBorderToleranceFisheye cols rows b); [|exists ([] :: r); reflexivity].
    apply nth_error_In, V in N. assert (Q : exists q, collect (map (zget (bpts (o_board b))) (o_ids b)) = Some q).
    { induction N as [|k ids Hk N IHn]; [exists []; reflexivity|]. destruct IHn as [q IHn]. cbn. unfold zget at 1.
      destruct (Z.ltb_spec k 0); [lia|]. destruct (nth_error (bpts (o_board b)) (Z.to_nat k)) as [x|] eqn:E.
      - rewrite IHn. exists (x :: q). reflexivity.
      - apply nth_error_None in E. lia. }
    destruct Q as [q ->]. exists ([(q, o_pts b)] :: r). reflexivity. }
  destruct (H (firstn (nb_board_est model obs) (shuffle (seq 0 (length obs))))) as [r ->]. discriminate.
Qed.
End C41.
Print Assumptions C41_initial_subset.
Print Assumptions C41_perspective_uses_all_drawn.
Print Assumptions C41_never_undefined.

(** A camera without any board observation (or without usable drawn ones) makes OpenCV
    throw: the calibration functions insist on at least one view. *)
Theorem C41_camera_without_boards_aborts : forall model cols rows bpts shuffle cvcal i,
  (forall m c r, cvcal m [] c r = None) -> initializeCalibration model cols rows bpts [] shuffle cvcal i = None.
Proof.
  intros model cols rows bpts shuffle cvcal i H. unfold initializeCalibration, init_views. cbn [length seq].
  replace (nb_board_est model []) with 0%nat by reflexivity. cbn. rewrite H. destruct (Z.eqb model 0 || Z.eqb model 1); reflexivity.
Qed.
Print Assumptions C41_camera_without_boards_aborts.
(** The model is a supported one and OpenCV gives a matrix and 5 (fisheye: 4)
    coefficients: then the intrinsics are set to these. *)
Theorem C41_intrinsics_are_set : forall model cols rows bpts obs shuffle cvcal i vs K d,
  (model = 0%Z /\ length d = 5%nat) \/ (model = 1%Z /\ length d = 4%nat) ->
  init_views model cols rows bpts obs shuffle = Some vs -> cvcal model vs cols rows = Some (K, d) ->
  m01 K = 0 -> m10 K = 0 -> m20 K = 0 -> m21 K = 0 -> m22 K = 1 ->
  exists i', initializeCalibration model cols rows bpts obs shuffle cvcal i = Some i' /\ getIntrinsics model i' = (K, d).
Proof.
  intros model cols rows bpts obs shuffle cvcal i vs K d M V C K01 K10 K20 K21 K22. unfold initializeCalibration. rewrite V, C.
  destruct K as [k00 k01 k02 k10 k11 k12 k20 k21 k22]. cbn in K01, K10, K20, K21, K22. subst.
  destruct M as [[-> L]|[-> L]]; cbn [Z.eqb orb].
  - destruct d as [|d0 [|d1 [|d2 [|d3 [|d4 [|]]]]]]; try discriminate L. eexists. split; [reflexivity|]. reflexivity.
  - destruct d as [|d0 [|d1 [|d2 [|d3 [|]]]]]; try discriminate L. eexists. split; [reflexivity|]. reflexivity.
Qed.
Print Assumptions C41_intrinsics_are_set.

(** Rejected fisheye boards are not replaced: all 500 drawn ones may be too close to the
    border while another would do, and the calibration fails. *)
Definition at_border : bobs pt2 := mkObs 0 0 0 [(1, 50)] [0%Z] true.
Definition in_middle : bobs pt2 := mkObs 0 0 0 [(50, 50)] [0%Z] true.
Lemma at_border_not : checkBorderToleranceFisheye 100 100 at_border = false.
Proof. apply not_true_iff_false. rewrite C41_border_rule. intros H. specialize (H 1 50 (or_introl eq_refl)). lra. Qed.
Theorem C41_rejected_boards_not_replaced_refuted : forall cvcal, (forall m c r, cvcal m [] c r = None) ->
  exists model cols rows bpts obs shuffle i b, Permutation (seq 0 (length obs)) (shuffle (seq 0 (length obs))) /\
    In b obs /\ usable model cols rows b /\ o_pts b <> [] /\ initializeCalibration model cols rows bpts obs shuffle cvcal i = None.
Proof.
  intros cvcal H.
  exists 1%Z, 100%Z, 100%Z, (fun _ => [vzero]), (repeat at_border 500 ++ [in_middle]), (fun l => l), (I9 0 0 0 0 0 0 0 0 0), in_middle.
  split; [apply Permutation_refl|]. split; [apply in_or_app; right; left; reflexivity|]. split; [|split; [discriminate|]].
  - intros _ x y [[= <- <-]|[]]. lra.
  - unfold initializeCalibration.
    replace (init_views 1 100 100 (fun _ => [vzero]) (repeat at_border 500 ++ [in_middle]) (fun l => l))
      with (Some (@nil (list vec3 * list pt2))); [cbn; rewrite H; reflexivity|].
    unfold init_views, gather.
    assert (N : nb_board_est 1 (repeat at_border 500 ++ [in_middle]) = 500%nat)
      by (unfold nb_board_est; rewrite app_length, repeat_length; reflexivity).
    rewrite N, app_length, repeat_length.
    replace (map (init_view 1 100 100 (fun _ => [vzero]) (repeat at_border 500 ++ [in_middle])) (firstn 500 (seq 0 (500 + length [in_middle]))))
      with (repeat (Some (@nil (list vec3 * list pt2))) 500).
    + vm_compute. reflexivity.
    + apply (nth_ext _ _ None None).
      * rewrite map_length, firstn_length, seq_length, repeat_length. reflexivity.
      * intros n Hn. rewrite (nth_indep (repeat _ _) None (Some [])) by exact Hn. rewrite repeat_length in Hn. rewrite nth_repeat.
        rewrite (nth_indep _ None (init_view 1 100 100 (fun _ => [vzero]) (repeat at_border 500 ++ [in_middle]) 0))
          by (rewrite map_length, firstn_length, seq_length; cbn [length]; lia).
        rewrite map_nth. assert (E : nth n (firstn 500 (seq 0 (500 + length [in_middle]))) 0%nat = n).
        { assert (Q : nth n (seq 0 (500 + length [in_middle])) 0%nat = n) by (rewrite seq_nth; [reflexivity|cbn [length]; lia]).
          rewrite <- Q at 2. clear Q. transitivity (nth n (firstn 500 (seq 0 (500 + length [in_middle])) ++ skipn 500 (seq 0 (500 + length [in_middle]))) 0%nat).
          - rewrite app_nth1 by (rewrite firstn_length, seq_length; cbn [length]; lia). reflexivity.
          - rewrite firstn_skipn. reflexivity. }
        rewrite E. unfold init_view. rewrite nth_error_app1 by (rewrite repeat_length; exact Hn). rewrite nth_error_repeat by exact Hn.
        rewrite at_border_not. reflexivity.
Qed.
Print Assumptions C41_rejected_boards_not_replaced_refuted.
Example C41_example : exists vs, init_views 1 100 100 (fun _ => [vzero]) [at_border; in_middle] (fun l => rev l) = Some vs /\
  vs = [([vzero], [(50, 50)])].
Proof.
  eexists. split; [|reflexivity]. unfold init_views. replace (nb_board_est 1 [at_border; in_middle]) with 2%nat by reflexivity.
  unfold gather. cbn [length seq rev app firstn map]. unfold init_view. cbn [nth_error]. rewrite at_border_not.
  replace (checkBorderToleranceFisheye 100 100 in_middle) with true; [reflexivity|]. symmetry. apply C41_border_rule.
  intros x y [[= <- <-]|[]]. lra.
Qed.
