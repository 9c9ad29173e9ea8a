(** What the bootstrap computes when the solvers are exact (geometrytools.cpp 576-686). *)
From Coq Require Import List ZArith QArith Lia Reals Lra Permutation.
From Verif Require Import SMap DataModel DetectModel DetectProofs GeomModel GeomSpec GeomProofs GeomQuat GeomMedian StageMain ChainModel ObjectsModel GroupModel HandEyeModel HandEyeSpec HandEyeProofs.
Import ListNotations.
Close Scope Q_scope.
Close Scope R_scope.
Open Scope nat_scope.

Lemma determines_ext l l' X : (forall d, In d l <-> In d l') -> determines l X -> determines l' X.
Proof.
  intros E ((Y & S) & U). split.
  - exists Y. intros A B H. apply S. apply E. auto.
  - intros X' Y' R S'. apply (U X' Y' R). intros A B H. apply S'. apply E. auto.
Qed.
Lemma he_some_In p1 p2 sel A B : In (A, B) (he_some p1 p2 sel) <-> exists i a, In i sel /\ nth_error p1 i = Some a /\ nth_error p2 i = Some B /\ A = pinv a.
Proof.
  unfold he_some. rewrite in_flat_map. split.
  - intros (i & Hi & H). destruct (nth_error p1 i) as [a|] eqn:E1; [|destruct H]. destruct (nth_error p2 i) as [b|] eqn:E2; [|destruct H].
    destruct H as [H|[]]. injection H as <- <-. exists i, a. auto.
  - intros (i & a & Hi & E1 & E2 & ->). exists i. split; auto. rewrite E1, E2. left. auto.
Qed.
Lemma combine_nth {A B} (l : list A) (l' : list B) x y : In (x, y) (combine l l') <-> exists i, nth_error l i = Some x /\ nth_error l' i = Some y.
Proof.
  revert l'. induction l as [|a l IH]; intros l'; cbn; [split; [tauto|intros ([|i] & H & _); discriminate]|].
  destruct l' as [|b l']; cbn; [split; [tauto|intros ([|i] & _ & H); discriminate]|]. rewrite IH. split.
  - intros [H|(i & H)]; [injection H as -> ->; exists 0; auto|exists (S i); auto].
  - intros ([|i] & H1 & H2); cbn in *; [left; congruence|right; eauto].
Qed.
Lemma he_data_In p1 p2 A B : In (A, B) (he_data p1 p2) <-> exists i a, nth_error p1 i = Some a /\ nth_error p2 i = Some B /\ A = pinv a.
Proof.
  unfold he_data. rewrite in_map_iff. split.
  - intros ((a & b) & E & H). injection E as <- <-. apply combine_nth in H as (i & H1 & H2). eauto.
  - intros (i & a & H1 & H2 & ->). exists (a, B). split; auto. apply combine_nth. eauto.
Qed.

Section M.
Variables (lr : mat3 -> vec3) (he heh : list (pose * pose) -> pose) (svd : (nat -> nat -> R) -> quat).
Variables (km : list (vec3 * vec3) -> nat -> list nat) (shuffle : nat -> list nat -> list nat) (rnd : nat -> nat -> nat -> nat).
Hypothesis Hl : log_ok lr.
Hypothesis Hv : svd_ok svd.
Hypothesis Hk : kmeans_ok km.
Hypothesis Hs : shuffle_ok shuffle.
Hypothesis Hr : rnd_ok rnd.

Lemma prepared p1 p2 sel data : Forall rigid p1 -> Forall rigid p2 -> (forall i, In i sel -> i < length p1 /\ i < length p2) ->
  preparePoses lr p1 p2 sel = Some data -> data = he_some p1 p2 sel.
Proof.
  intros R1 R2 I E. destruct (preparePoses_ok lr p1 p2 sel I) as (data' & E' & F). assert (data' = data) by congruence. subst data'. clear E E' I.
  unfold he_some. induction F as [|i d sel data (a & b & Ea & Eb & ->) F IH]; cbn; auto. rewrite Ea, Eb. cbn. rewrite IH.
  rewrite !through_rigid; auto.
  - rewrite Forall_forall in R2. apply R2. eapply nth_error_In; eauto.
  - apply rigid_inv. rewrite Forall_forall in R1. apply R1. eapply nth_error_In; eauto.
Qed.
Lemma some_rigid p1 p2 sel A B : Forall rigid p1 -> Forall rigid p2 -> In (A, B) (he_some p1 p2 sel) -> rigid A /\ rigid B.
Proof.
  intros R1 R2 H. apply he_some_In in H as (i & a & _ & Ea & Eb & ->). rewrite Forall_forall in R1, R2. split; [apply rigid_inv|]; eauto using nth_error_In.
Qed.
(** one iteration with an exact solver *)
Lemma candidate_exact X p1 p2 m it : exact_solver he -> rigid X -> Forall rigid p1 -> Forall rigid p2 -> length p1 = length p2 -> 6 <= m -> m <= length p1 ->
  (forall sel, NoDup sel -> length sel = 6 -> (forall i, In i sel -> i < length p1) -> determines (he_some p1 p2 sel) X) ->
  one_candidate lr he shuffle rnd p1 p2 (km (getTranslationsForClustering p1 p2) m) m it = Some (X, if Rlt_dec (verdict lr X) 15 then true else false).
Proof.
  intros He RX R1 R2 EL M6 Mn D. destruct (candidate_ok lr he km shuffle rnd Hk Hs Hr p1 p2 m it EL M6 Mn) as (sel & data & e & L6 & ND & I & Ed & Ee & ->).
  apply prepared in Ed; auto. subst data. assert (EX : he (he_some p1 p2 sel) = X).
  { apply He; auto; [intros A B; apply some_rigid; auto|apply D; auto; intros i Hi; apply I; auto]. }
  rewrite EX in *.
  rewrite check_value in Ee; auto; [|rewrite L6; lia]. injection Ee as <-. auto.
Qed.
Lemma bootstrap_exact X p1 p2 nb_cluster nb_it : exact_solver he -> rigid X -> Forall rigid p1 -> Forall rigid p2 -> length p1 = length p2 -> 6 <= nb_cluster -> 6 <= length p1 ->
  (forall sel, NoDup sel -> length sel = 6 -> (forall i, In i sel -> i < length p1) -> determines (he_some p1 p2 sel) X) ->
  3 < nb_it ->
  handeyeBootstraptTranslationCalibration lr he heh svd km shuffle rnd nb_cluster nb_it p1 p2 =
    if Rlt_dec (verdict lr X) 15 then Some X else Some (heh (he_data p1 p1)).
Proof.
  intros He RX R1 R2 EL N6 L6 D Ni. destruct (bootstrap_cases lr he heh svd km shuffle rnd Hk Hs Hr nb_cluster nb_it p1 p2 EL N6 L6) as (cs & Ec & Lc & ->). cbv zeta.
  assert (Ecs : cs = repeat (X, if Rlt_dec (verdict lr X) 15 then true else false) nb_it).
  { apply collect_Some in Ec. clear Lc. 
    assert (Q : forall s n, map (one_candidate lr he shuffle rnd p1 p2 (km (getTranslationsForClustering p1 p2) (Nat.min nb_cluster (length p1))) (Nat.min nb_cluster (length p1))) (seq s n) =
       map Some (repeat (X, if Rlt_dec (verdict lr X) 15 then true else false) n)).
    { intros s n. revert s. induction n as [|n IH]; intros s; cbn; auto. rewrite IH. f_equal. apply candidate_exact; auto; lia. }
    rewrite Q in Ec. clear - Ec. revert Ec. generalize (repeat (X, if Rlt_dec (verdict lr X) 15 then true else false) nb_it) as l. intros l. revert cs.
    induction l as [|x l IH]; intros [|c cs] E; cbn in E; try discriminate; auto. injection E as -> E. f_equal. auto. }
  subst cs. clear Ec Lc. destruct (Rlt_dec (verdict lr X) 15) as [V|V].
  - assert (F : map fst (filter snd (repeat (X, true) nb_it)) = repeat X nb_it) by (clear; induction nb_it as [|n IH]; cbn; congruence).
    rewrite F. rewrite repeat_length. replace (Nat.ltb 3 nb_it) with true by (symmetry; apply Nat.ltb_lt; auto).
    assert (Nn : repeat X nb_it <> []) by (destruct nb_it; [lia|discriminate]).
    assert (Al : forall p, In p (repeat X nb_it) -> p = X) by (intros p Hp; apply repeat_spec in Hp; auto).
    destruct (quat_average_same svd lr (map (fun Y : pose => fst (Proj2RT lr Y)) (repeat X nb_it)) (fst X) Hv Hl) as (r & -> & E).
    { intros H. apply Nn. destruct nb_it; [auto|discriminate]. }
    { intros r Hr'. apply in_map_iff in Hr' as (p & <- & Hp). rewrite (Al p Hp). cbn. apply Hl. apply RX. }
    unfold RVecT2Proj. rewrite E.
    repeat match goal with |- context [median (map ?g (repeat X nb_it))] => rewrite (median_const g (repeat X nb_it) (g X)) by (auto; intros x Hx; rewrite (Al x Hx); auto) end.
    f_equal. destruct X as [A [x y z]]; auto.
  - assert (F : filter snd (repeat (X, false) nb_it) = []) by (clear; induction nb_it as [|n IH]; cbn; auto). rewrite F. cbn [map length Nat.ltb Nat.leb].
    rewrite handeye_self. f_equal. f_equal. unfold he_data. apply map_ext_in. intros [a b] H. apply combine_nth in H as (i & H1 & H2).
    rewrite Forall_forall in R1. assert (rigid a) by (apply R1; eauto using nth_error_In). assert (rigid b) by (apply R1; eauto using nth_error_In).
    rewrite !through_rigid; auto. apply rigid_inv. auto.
Qed.

(** ** Angles *)
Lemma verdict_rotation X : rigid X -> verdict lr X =
  std_max 0 (let x := (1 / 2 * (trace (mm (fst X) (fst X)) - / 2 ^ 52 - 1))%R in
             if Rle_dec (-1) x then if Rle_dec x 1 then Some (acos x * 180 / PI)%R else None else None).
Proof. intros R. unfold verdict, err_degree. rewrite through_rigid; auto. apply rigid_mul; auto. Qed.
Lemma eps_small : (0 < / 2 ^ 52 < / 1000)%R.
Proof. 
  split; [apply Rinv_0_lt_compat, pow_lt; lra|]. apply Rinv_lt_contravar; [|replace 1000%R with (INR 1000) by (rewrite INR_IZR_INZ; reflexivity)].
  - apply Rmult_lt_0_compat; [lra|apply pow_lt; lra].
  - apply Rlt_le_trans with (2 ^ 10)%R; [rewrite INR_IZR_INZ; cbn [Z.of_nat]; simpl; lra|]. apply Rle_pow; [lra|lia].
Qed.
Lemma cos_pi_12 : (cos (PI / 12) < 98 / 100)%R.
Proof.
  assert (P := PI_RGT_0). assert (C : (0 <= cos (PI / 12))%R) by (apply cos_ge_0; lra).
  assert (E : (cos (2 * (PI / 12)) = 2 * cos (PI / 12) * cos (PI / 12) - 1)%R) by (apply cos_2a_cos).
  replace (2 * (PI / 12))%R with (PI / 6)%R in E by field. rewrite cos_PI6 in E.
  assert (S3 : (sqrt 3 < 174 / 100)%R).
  { rewrite <- (sqrt_square (174 / 100)%R) by lra. apply sqrt_lt_1; lra. }
  nra.
Qed.
Lemma verdict_id : (verdict lr pid < 15)%R.
Proof.
  rewrite verdict_rotation by apply rigid_id. assert (E := eps_small). assert (P := PI_RGT_0).
  replace (trace (mm (fst pid) (fst pid))) with 3%R by (unfold trace, pid, mid, mm; cbn; ring). cbv zeta.
  set (x := (1 / 2 * (3 - / 2 ^ 52 - 1))%R). assert (Hx : (1 - / 1000 < x < 1)%R) by (unfold x; lra). clearbody x.
  destruct (Rle_dec (-1) x); [|lra]. destruct (Rle_dec x 1); [|lra]. 
  assert (A : (acos x < PI / 12)%R).
  { assert (Bd := acos_bound x). apply cos_decreasing_0; try lra. rewrite cos_acos by lra. assert (Q := cos_pi_12). lra. }
  unfold std_max. destruct (Rlt_dec 0 (acos x * 180 / PI)); [|lra]. apply Rmult_lt_reg_r with PI; auto. unfold Rdiv. rewrite Rmult_assoc, Rinv_l, Rmult_1_r by lra. lra.
Qed.
(** a third of a turn about (1, 1, 1) *)
Definition cyc : mat3 := (M3 0 0 1 1 0 0 0 1 0)%R.
Lemma cyc_rotation : rotation cyc.
Proof. unfold rotation, cyc, mm, mtr, det, mid. cbn. split; [f_equal; ring|ring]. Qed.
Lemma verdict_cyc : (90 <= verdict lr (cyc, vzero))%R.
Proof.
  rewrite verdict_rotation by apply cyc_rotation. assert (E := eps_small). assert (P := PI_RGT_0).
  replace (trace (mm (fst (cyc, vzero)) (fst (cyc, vzero)))) with 0%R by (unfold trace, cyc, mm; cbn; ring). cbv zeta.
  set (x := (1 / 2 * (0 - / 2 ^ 52 - 1))%R). assert (Hx : (-1 < x <= 0)%R) by (unfold x; lra). clearbody x.
  destruct (Rle_dec (-1) x); [|lra]. destruct (Rle_dec x 1); [|lra].
  assert (A : (PI / 2 <= acos x)%R).
  { assert (Bd := acos_bound x). apply cos_decr_0; try lra. rewrite cos_acos, cos_PI2 by lra. lra. }
  assert (B : (90 <= acos x * 180 / PI)%R).
  { apply Rmult_le_reg_r with PI; auto. unfold Rdiv. rewrite Rmult_assoc, Rinv_l, Rmult_1_r by lra. lra. }
  unfold std_max. destruct (Rlt_dec 0 (acos x * 180 / PI)); lra.
Qed.

(** ** Quarter turns determine a pose *)
Definition qx_ : mat3 := (M3 1 0 0 0 0 (-1) 0 1 0)%R.
Definition qy_ : mat3 := (M3 0 0 1 0 1 0 (-1) 0 0)%R.
Lemma qx_rotation : rotation qx_.
Proof. unfold rotation, qx_, mm, mtr, det, mid. cbn. split; [f_equal; ring|ring]. Qed.
Lemma qy_rotation : rotation qy_.
Proof. unfold rotation, qy_, mm, mtr, det, mid. cbn. split; [f_equal; ring|ring]. Qed.
Lemma commute_id D : rigid D -> pmul (qx_, vzero) D = pmul D (qx_, vzero) -> pmul (qy_, vzero) D = pmul D (qy_, vzero) -> D = pid.
Proof.
  destruct D as [[a b c d e f g h i] [x y z]]. intros (RR & RD) E1 E2. unfold pmul, mm, mv, vadd, vzero, qx_, qy_ in *. cbn in *.
  injection E1 as E11 E12 E13 E14 E15 E16 E17 E18 E19 E1x E1y E1z. injection E2 as E21 E22 E23 E24 E25 E26 E27 E28 E29 E2x E2y E2z.
  unfold det, mtr, mm, mid in *. cbn in *. injection RR as R1 _ _ _ R5 _ _ _ R9.
  assert (b = 0 /\ c = 0 /\ d = 0 /\ f = 0 /\ g = 0 /\ h = 0)%R as (-> & -> & -> & -> & -> & ->) by (repeat split; lra).
  assert (e = i)%R by lra. assert (a = i)%R by lra. subst a e. assert (i = 1)%R by nra. subst i.
  assert (x = 0 /\ y = 0 /\ z = 0)%R as (-> & -> & ->) by (repeat split; lra). reflexivity.
Qed.
Definition poses6 : list pose := [pid; (qx_, vzero); (qy_, vzero); pid; (qx_, vzero); (qy_, vzero)].
Lemma poses6_rigid : Forall rigid poses6.
Proof. repeat constructor; try apply rigid_id; try apply qx_rotation; apply qy_rotation. Qed.
(** six poses of a camera and of a second one at X *)
Lemma six_determine X sel : rigid X -> (forall i, i < 3 -> In i sel) ->
  determines (he_some poses6 (map (pmul (pinv X)) poses6) sel) X.
Proof.
  intros RX I.
  assert (Hi : forall i a, nth_error poses6 i = Some a -> nth_error (map (pmul (pinv X)) poses6) i = Some (pmul (pinv X) a)) by (intros i a E; apply map_nth_error; auto).
  assert (Rg := poses6_rigid). rewrite Forall_forall in Rg. split.
  - exists pid. intros A B H. apply he_some_In in H as (i & a & _ & Ea & Eb & ->). rewrite (Hi i a Ea) in Eb. injection Eb as <-.
    assert (Ra : rigid a) by (apply Rg; eauto using nth_error_In).
    rewrite <- pmul_assoc, (pmul_assoc X), pinv_r, pmul_id_l, pinv_l; auto.
  - intros X' Y' RX' S'.
    assert (Q : forall i a, i < 3 -> nth_error poses6 i = Some a -> rigid a -> pmul (pmul (pinv a) (pmul X' (pinv X))) a = Y').
    { intros i a Li Ea _. rewrite <- (S' (pinv a) (pmul (pinv X) a)); [rewrite !pmul_assoc; auto|]. apply he_some_In. exists i, a. auto. }
    set (D := pmul X' (pinv X)) in *. assert (RD : rigid D) by (apply rigid_mul; auto; apply rigid_inv; auto).
    assert (Q0 := Q 0 pid ltac:(lia) eq_refl rigid_id). assert (Q1 := Q 1 (qx_, vzero) ltac:(lia) eq_refl qx_rotation). assert (Q2 := Q 2 (qy_, vzero) ltac:(lia) eq_refl qy_rotation).
    rewrite pmul_id_r in Q0. replace (pinv pid) with pid in Q0 by (symmetry; rewrite <- (pmul_id_l (pinv pid)); apply pinv_r, rigid_id). rewrite pmul_id_l in Q0. subst Y'.
    assert (Cm : forall a, rigid a -> pmul (pmul (pinv a) D) a = D -> pmul a D = pmul D a).
    { intros a Ra E. rewrite <- E at 1. rewrite !pmul_assoc, pinv_r, pmul_id_l; auto. }
    assert (ED : D = pid) by (apply commute_id; auto; apply Cm; auto; [apply qx_rotation|apply qy_rotation]).
    unfold D in ED. rewrite <- (pmul_id_r X'), <- (pinv_l X RX), pmul_assoc, ED, pmul_id_l. auto.
Qed.
Lemma six_all (sel : list nat) : NoDup sel -> length sel = 6 -> (forall i, In i sel -> i < 6) -> forall i, i < 6 -> In i sel.
Proof.
  intros ND L I i Hi. apply (NoDup_length_incl ND (l' := seq 0 6)); [rewrite seq_length; lia|intros j Hj; apply in_seq; apply I in Hj; lia|apply in_seq; lia].
Qed.
End M.
