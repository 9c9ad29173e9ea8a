(** C64: noise-free detections of cameras without a common view. *)
From Coq Require Import List ZArith QArith Lia Reals Lra Permutation Sorted Relations ClassicalEpsilon.
From Verif Require Import SMap GraphModel GraphSpec GraphPath DataModel DataSpec DataProofs DetectModel RansacModel RansacSpec GeomModel GeomSpec GeomProofs ChainModel ObjectsModel GroupModel
  HandEyeModel HandEyeSpec HandEyeProofs HandEyePairs HandEyeMain PropHandEye
  StageProofs PipelineModel CameraModel ResidualModel ResidualSpec PropGeom PropResidual PropFile WorkflowModel WorkflowReach PropWorkflow RigSpec RigExample ApartSpec ApartExample RigSteps PropRig.
Import ListNotations.
Close Scope Q_scope.
Close Scope R_scope.
Open Scope nat_scope.

(** ** The hand-eye calibration on noise-free poses *)
Section True.
Variables (w : rig) (ins : list (insertion pt2)).
Hypothesis RG : rigid_rig w.
Notation C := (rg_cam w).
Notation F := (rg_frame w).
Notation W := (rg_board w).
Lemma RC c : rigid (C c). Proof. apply RG. Qed.
Lemma RF f : rigid (F f). Proof. apply RG. Qed.
Lemma RW b : rigid (W b). Proof. apply RG. Qed.
Lemma RB c f b : rigid (board_at w c f b). Proof. unfold board_at, world_at. auto using rigid_mul, RC, RF, RW. Qed.
Lemma frames_determine c d a b fs k data : turns_enough k w ins -> NoDup fs -> k <= length fs -> 0 < k -> (forall f, In f fs -> apart_in ins f) ->
  (forall A B, In (A, B) data <-> exists f, In f fs /\ A = pinv (board_at w c f a) /\ B = board_at w d f b) -> determines data (pmul (C c) (pinv (C d))).
Proof.
  intros TE ND L K AP Id.
  assert (RD : forall X f, rigid X -> pmul (pmul (pinv (board_at w c f a)) X) (board_at w d f b) = pmul (pmul (pinv (W a)) (pmul (pmul (pinv (F f)) (pmul (pmul (pinv (C c)) X) (C d))) (F f))) (W b)).
  { intros X f RX. unfold board_at, world_at. rewrite !pinv_pmul by auto using RC, RF, RW, rigid_mul. rewrite !pmul_assoc. auto. }
  assert (E : forall f g, In f fs -> In g fs -> rigid (C c)) by (intros; apply RC). split.
  - exists (pmul (pinv (W a)) (W b)). intros A B H. apply Id in H as (f & Hf & -> & ->). rewrite RD by auto using rigid_mul, rigid_inv, RC.
    rewrite (pmul_assoc (pinv (C c))), pinv_l, pmul_id_l, pinv_l, pmul_id_r, pinv_l, pmul_id_r by auto using RC, RF. auto.
  - intros X Y RX S. set (D := pmul (pmul (pinv (C c)) X) (C d)).
    assert (RDD : rigid D) by (unfold D; auto using rigid_mul, rigid_inv, RC).
    assert (ED : D = pid).
    { apply (TE (firstn k fs)); auto.
      - rewrite <- (firstn_skipn k fs) in ND. clear - ND. revert ND. generalize (skipn k fs) as m. generalize (firstn k fs) as l. induction l as [|x l IH]; intros m N; [constructor|].
        cbn in N. inversion N as [|? ? N1 N2]; subst. constructor; [intros H; apply N1, in_app_iff; auto|eauto].
      - apply firstn_length_le. auto.
      - intros f Hf. apply AP. rewrite <- (firstn_skipn k fs). apply in_app_iff. auto.
      - intros f g Hf Hg. assert (Hf' : In f fs) by (rewrite <- (firstn_skipn k fs); apply in_app_iff; auto). assert (Hg' : In g fs) by (rewrite <- (firstn_skipn k fs); apply in_app_iff; auto).
        assert (Q1 := S _ _ (proj2 (Id _ _) (ex_intro _ f (conj Hf' (conj eq_refl eq_refl))))). assert (Q2 := S _ _ (proj2 (Id _ _) (ex_intro _ g (conj Hg' (conj eq_refl eq_refl))))).
        rewrite RD in Q1, Q2 by auto. fold D in Q1, Q2. rewrite <- Q2 in Q1. apply (f_equal (fun Z => pmul (pmul (W a) Z) (pinv (W b)))) in Q1.
        rewrite !pmul_assoc, !pinv_r, !pmul_id_l in Q1 by apply RW. rewrite <- !(pmul_assoc _ (W b) (pinv (W b))), !pinv_r, !pmul_id_r in Q1 by apply RW. exact Q1. }
    assert (Q : X = pmul (pmul (C c) D) (pinv (C d))).
    { unfold D. rewrite !pmul_assoc, pinv_r, pmul_id_l by apply RC. rewrite <- pmul_assoc, pinv_r, pmul_id_r by apply RC. auto. }
    rewrite Q, ED, pmul_id_r. auto.
Qed.
Lemma sorted_NoDup (l : list Z) : StronglySorted Z.lt l -> NoDup l.
Proof.
  intros S. induction S as [|x l S IH Fl]; constructor; auto. intros H. rewrite Forall_forall in Fl. specialize (Fl x H). lia.
Qed.
Lemma rigid_rel c d : rigid (pmul (C c) (pinv (C d))).
Proof. auto using rigid_mul, rigid_inv, RC. Qed.
Lemma plain_true lr he heh svd km shuffle rnd approach : log_ok lr -> exact_solver heh -> approach <> 0%Z -> turns_enough 4 w ins ->
  true_handeye 4 (handeye lr he heh svd km shuffle rnd approach) w ins.
Proof.
  intros Hl Hs Na TE c d a b fs Sc Sd NS SF L AP. unfold handeye. apply Z.eqb_neq in Na. rewrite Na. unfold handeyeCalibration. rewrite !map_length, Nat.leb_refl. f_equal.
  apply Hs; [apply rigid_rel| |].
  - intros A B H. apply in_map_iff in H as ((x, y) & E & H). injection E as <- <-. assert (Hx := in_combine_l _ _ _ _ H). assert (Hy := in_combine_r _ _ _ _ H).
    apply in_map_iff in Hx as (f & <- & _). apply in_map_iff in Hy as (g & <- & _). rewrite !through_rigid by auto using RB, rigid_inv. auto using RB, rigid_inv.
  - apply (frames_determine c d a b fs 4); auto using sorted_NoDup. intros A B.
    assert (Ec : combine (map (fun f => board_at w c f a) fs) (map (fun f => board_at w d f b) fs) = map (fun f => (board_at w c f a, board_at w d f b)) fs) by (clear; induction fs as [|f l IH]; cbn; [|rewrite IH]; auto).
    rewrite Ec, map_map, in_map_iff. split.
    + intros (f & E & Hf). injection E as <- <-. exists f. rewrite !through_rigid by auto using RB, rigid_inv. auto.
    + intros (f & Hf & -> & ->). exists f. rewrite !through_rigid by auto using RB, rigid_inv. auto.
Qed.
Lemma bootstrap_true lr he heh svd km shuffle rnd : log_ok lr -> svd_ok svd -> kmeans_ok km -> shuffle_ok shuffle -> rnd_ok rnd -> exact_solver he -> turns_enough 6 w ins -> alike_enough w ins ->
  true_handeye 6 (handeye lr he heh svd km shuffle rnd 0) w ins.
Proof.
  intros Hl Hv Hk Hs Hr He TE AE c d a b fs Sc Sd NS SF L AP. destruct (AE c d Sc Sd NS) as (B1 & B2).
  apply C34_small_rotation_partial; auto; rewrite ?map_length; auto.
  - apply Forall_forall. intros P H. apply in_map_iff in H as (f & <- & _). apply RB.
  - apply Forall_forall. intros P H. apply in_map_iff in H as (f & <- & _). apply RB.
  - apply rigid_rel.
  - intros sel NDs Ls Bs. set (gs := map (fun i => nth i fs 0%Z) sel).
    apply (frames_determine c d a b gs 6); auto with arith.
    + unfold gs. assert (ND := sorted_NoDup fs SF). clear - NDs Bs ND. induction NDs as [|i l Hi N IH]; cbn [map]; constructor.
      * intros H. apply in_map_iff in H as (j & E & Hj). apply (proj1 (NoDup_nth fs 0%Z) ND) in E; [subst j; auto|apply Bs; right; auto|apply Bs; left; auto].
      * apply IH. intros j Hj. apply Bs. right. auto.
    + unfold gs. rewrite map_length, Ls. auto.
    + intros f Hf. unfold gs in Hf. apply in_map_iff in Hf as (i & <- & Hi). apply AP. apply nth_In. auto.
    + intros A B. rewrite he_some_In. unfold gs. split.
      * intros (i & x & Hi & H1 & H2 & ->). rewrite nth_error_map in H1, H2. destruct (nth_error fs i) as [f|] eqn:Ef; [|discriminate H1]. injection H1 as <-. injection H2 as <-.
        exists f. split; [|auto]. apply in_map_iff. exists i. split; [apply nth_error_nth; auto|auto].
      * intros (f & Hf & -> & ->). apply in_map_iff in Hf as (i & <- & Hi). exists i, (board_at w c (nth i fs 0%Z) a). split; [auto|]. rewrite !nth_error_map, (nth_error_nth' fs 0%Z (Bs i Hi)). auto.
Qed.
End True.

(** ** C64 *)
Lemma rt_sym (Q : Z -> Z -> Prop) : (forall x y, Q x y -> Q y x) -> forall x y, clos_refl_trans Z Q x y -> clos_refl_trans Z Q y x.
Proof. intros S x y H. induction H; [apply rt_step; auto|apply rt_refl|eapply rt_trans; eauto]. Qed.
Lemma view_sym ins c d : same_view ins c d -> same_view ins d c.
Proof.
  apply rt_sym. intros x y (i & j & Hi & Hj & E1 & E2 & E3 & B). exists j, i. do 4 (split; [auto|]). split; [auto|]. revert B. apply rt_sym.
  intros a b (u & v & Hu & Hv & A1 & A2 & A3 & A4). exists v, u. auto 10.
Qed.
(** Sets of cameras, each connected by common views, any two of which often see boards at once
    while the objects turn: the configured hand-eye calibration relates them. *)
Theorem C64_motion_relates_cameras :
  forall lr he heh svd km shuffle rnd approach, log_ok lr -> svd_ok svd -> kmeans_ok km -> shuffle_ok shuffle -> rnd_ok rnd -> exact_solver he -> exact_solver heh ->
  forall w ins, rigid_rig w -> parts_at_once (frames_needed approach) ins -> enough_motion approach w ins ->
  related_cameras (handeye lr he heh svd km shuffle rnd approach) w ins.
Proof.
  intros lr he heh svd km shuffle rnd approach Hl Hv Hk Hs Hr He Hh w ins RG PA EM. right. exists (frames_needed approach). unfold frames_needed, enough_motion in *.
  destruct (Z.eqb_spec approach 0) as [->|N]; (split; [lia|]); (split; [auto|]).
  - destruct EM as (TE & AE). apply bootstrap_true; auto.
  - apply plain_true; auto.
Qed.
Print Assumptions C64_motion_relates_cameras.
(** Then all results are exact, as in C52. *)
Theorem C64_exact_without_common_views :
  forall svd lr uq pick g0 solve bpts w thresh it env pose0 he heh km shuffle rnd approach fixi,
  ceres solve -> good_heap pick -> svd_ok svd -> log_ok lr -> (0 < thresh)%R -> (0 < it)%Z -> (forall c n, exact_pnp lr (env c n)) ->
  kmeans_ok km -> shuffle_ok shuffle -> rnd_ok rnd -> exact_solver he -> exact_solver heh ->
  forall nc nb ins t, Forall (known nc nb) ins -> insert_all (init_tables nc nb) ins = Some t ->
  rigid_rig w -> exact_detections bpts w ins -> general_position bpts w ins -> no_tiny_angles lr w ->
  parts_at_once (frames_needed approach) ins -> enough_motion approach w ins ->
  (nc <= 2 \/ (forall a b, fst (rg_cam w a) = fst (rg_cam w b)) \/ shares_with_first ins) -> (forall c n, exact_undistort bpts w ins (env c n)) ->
  forall src p0 gp0 i, initializeCalibrationAllCam bpts (rg_model w) src t (pa_intr p0) = Some i ->
  (forall c, (0 <= c < Z.of_nat nc)%Z -> getIntrinsics (rg_model w c) (i c) = getIntrinsics (rg_model w c) (rg_intr w c)) ->
  exists r, calibrate svd lr uq pick g0 solve bpts (rg_model w) thresh it env pose0 (handeye lr he heh svd km shuffle rnd approach) fixi src t p0 gp0 = Some r /\
    reported_error (rg_model w) r = Some 0%R /\
    true_cameras w ins (saved_cameras (rg_model w) r) /\
    (forall i, In i ins -> exists k o, In (k, o) (ca_objs (ru_s r)) /\ In (i_board i) (mkeys (ob_boards o))) /\
    (forall k o, In (k, o) (ca_objs (ru_s r)) -> true_points bpts w o) /\
    Forall2 (fun e f => fst f = fst e /\ true_poses lr w ins (snd e) (snd f)) (ca_objs (ru_s r)) (saved_poses r).
Proof.
  intros svd lr uq pick g0 solve bpts w thresh it env pose0 he heh km shuffle rnd approach fixi CE Hh SO LO Tp Hit PN Km Sh Rn He Hs nc nb ins t Kn Et RG ED GP NT PA EM Few UN src p0 gp0 i Ei Eq.
  assert (CN := C64_motion_relates_cameras lr he heh svd km shuffle rnd approach LO SO Km Sh Rn He Hs w ins RG PA EM).
  destruct (same_rig bpts w nc nb ins i env Kn RG ED GP UN Eq) as (ED' & GP' & UN').
  assert (Cf := comes_from_itself lr bpts (with_intr i w) thresh it env pose0 LO nc nb ins t Kn Et RG ED' GP' PN UN' Tp Hit p0 i (fun c => eq_refl)).
  destruct (rig_results svd lr uq pick g0 solve bpts w thresh it env pose0 _ fixi CE Hh SO LO Tp Hit PN nc nb ins t Kn Et RG ED GP NT CN Few UN t src p0 gp0 i Ei Eq Cf) as (r & E & _ & H).
  exists r. auto.
Qed.
Print Assumptions C64_exact_without_common_views.
(** In particular: two cameras that see two boards, one each, in four frames (six for the
    bootstrapped method). *)
Theorem C64_two_cameras :
  forall svd lr uq pick g0 solve bpts w thresh it env pose0 he heh km shuffle rnd approach fixi,
  ceres solve -> good_heap pick -> svd_ok svd -> log_ok lr -> (0 < thresh)%R -> (0 < it)%Z -> (forall c n, exact_pnp lr (env c n)) ->
  kmeans_ok km -> shuffle_ok shuffle -> rnd_ok rnd -> exact_solver he -> exact_solver heh ->
  forall nb ins t, Forall (known 2 nb) ins -> insert_all (init_tables 2 nb) ins = Some t ->
  rigid_rig w -> exact_detections bpts w ins -> general_position bpts w ins -> no_tiny_angles lr w ->
  (exists a b fs, NoDup fs /\ frames_needed approach <= length fs /\ forall f, In f fs -> both_see ins 0 a 1 b f) -> enough_motion approach w ins ->
  (forall c n, exact_undistort bpts w ins (env c n)) ->
  forall src p0 gp0 i, initializeCalibrationAllCam bpts (rg_model w) src t (pa_intr p0) = Some i ->
  (forall c, (0 <= c < 2)%Z -> getIntrinsics (rg_model w c) (i c) = getIntrinsics (rg_model w c) (rg_intr w c)) ->
  exists r, calibrate svd lr uq pick g0 solve bpts (rg_model w) thresh it env pose0 (handeye lr he heh svd km shuffle rnd approach) fixi src t p0 gp0 = Some r /\
    reported_error (rg_model w) r = Some 0%R /\
    true_cameras w ins (saved_cameras (rg_model w) r) /\
    exists k, In (1%Z, k) (saved_cameras (rg_model w) r) /\ r_pose k = pmul (rg_cam w 0) (pinv (rg_cam w 1)).
Proof.
  intros svd lr uq pick g0 solve bpts w thresh it env pose0 he heh km shuffle rnd approach fixi CE Hh SO LO Tp Hit PN Km Sh Rn He Hs nb ins t Kn Et RG ED GP NT (a & b & fs & Nf & Lf & BS) EM UN src p0 gp0 i Ei Eq.
  assert (Rng : forall c, saw ins c -> c = 0%Z \/ c = 1%Z) by (intros c (x & Hx & <-); assert (Q := proj1 (proj1 (Forall_forall _ _) Kn x Hx)); lia).
  assert (F1 : 0 < frames_needed approach) by (unfold frames_needed; destruct (Z.eqb approach 0); lia).
  assert (S01 : saw ins 0 /\ saw ins 1).
  { destruct fs as [|f fs]; [cbn in Lf; lia|]. destruct (BS f (or_introl eq_refl)) as (x & y & Hx & Hy & E1 & _ & E2 & _). split; [exists x|exists y]; auto. }
  assert (One : (forall x y, same_view ins x y -> x = y) \/ same_view ins 0 1).
  { destruct (classic (same_view ins 0 1)) as [Q|Q]; [right; auto|left]. intros x y H. destruct (Z.eq_dec x y) as [E|E]; [auto|exfalso].
    assert (Sx : saw ins x /\ saw ins y).
    { clear - H E. induction H as [x y (u & v & Hu & Hv & <- & <- & _)|x|x y z H1 IH1 H2 IH2]; [split; [exists u|exists v]; auto|congruence|].
      destruct (Z.eq_dec x y) as [->|N1]; [apply IH2; auto|]. destruct (Z.eq_dec y z) as [->|N2]; [apply IH1; auto|]. split; [apply IH1; auto|apply IH2; auto]. }
    destruct (Rng x (proj1 Sx)) as [-> | ->], (Rng y (proj2 Sx)) as [-> | ->]; try congruence; apply Q; first [exact H|apply view_sym; exact H]. }
  assert (Sym : forall c d, same_view ins 0 1 -> saw ins c -> saw ins d -> same_view ins c d).
  { intros c d Q Sc Sd. destruct (Rng c Sc) as [-> | ->], (Rng d Sd) as [-> | ->]; first [apply rt_refl|exact Q|apply view_sym; exact Q]. }
  assert (OA : (forall x y, same_view ins x y -> x = y) -> forall a b c d, (forall f, In f fs -> both_see ins c a d b f) -> often_at_once (frames_needed approach) ins c d).
  { intros U a' b' c d H. exists a', b', fs. split; [auto|]. split; [auto|]. intros l l' N1 N2 H1 H2.
    assert (L1 : forall (c : Z) l, NoDup l -> (forall x, In x l -> saw ins x /\ same_view ins c x) -> length l <= 1).
    { intros e k Nk Hk. destruct k as [|x [|y k]]; [cbn; lia|cbn; lia|exfalso]. assert (x = y) by (transitivity e; [symmetry|]; apply U, Hk; cbn; auto). subst. inversion Nk as [|? ? Q _]. apply Q. left; auto. }
    assert (A := L1 c l N1 H1). assert (B := L1 d l' N2 H2). assert (length l * length l' <= 1) by nia. nia. }
  destruct (C64_exact_without_common_views svd lr uq pick g0 solve bpts w thresh it env pose0 he heh km shuffle rnd approach fixi CE Hh SO LO Tp Hit PN Km Sh Rn He Hs 2 nb ins t Kn Et RG ED GP NT) with (src := src) (p0 := p0) (gp0 := gp0) (i := i)
    as (r & E & R0 & TC & _); auto.
  - split; [intros ->; destruct S01 as ((x & [] & _) & _)|]. intros c d Sc Sd NS. exists c, d. split; [apply rt_refl|]. split; [apply rt_refl|].
    destruct One as [U|Q]; [|exfalso; apply NS; auto]. destruct (Rng c Sc) as [-> | ->], (Rng d Sd) as [-> | ->]; try (exfalso; apply NS, rt_refl).
    + apply (OA U a b). auto.
    + apply (OA U b a). intros f Hf. destruct (BS f Hf) as (u & v & H1 & H2 & H3 & H4 & H5 & H6 & H7 & H8). exists v, u. auto 10.
  - exists r. split; [auto|]. split; [auto|]. split; [auto|]. destruct TC as (_ & KS & ref & Sr & Mr & V). destruct S01 as (S0 & S1). apply KS in S1. apply in_map_iff in S1 as ((c & k) & Ec & Hk). cbn [fst] in Ec. subst c.
    exists k. split; [auto|]. destruct (V _ _ Hk) as (_ & _ & ->). assert (ref = 0%Z) by (assert (Q := Mr 0%Z S0); destruct (Rng ref Sr); lia). subst ref. auto.
Qed.
Print Assumptions C64_two_cameras.

(** And: any number of cameras that never share a view, each two of which see two boards at
    once in four (six) frames. *)
Theorem C64_separate_cameras :
  forall svd lr uq pick g0 solve bpts w thresh it env pose0 he heh km shuffle rnd approach fixi,
  ceres solve -> good_heap pick -> svd_ok svd -> log_ok lr -> (0 < thresh)%R -> (0 < it)%Z -> (forall c n, exact_pnp lr (env c n)) ->
  kmeans_ok km -> shuffle_ok shuffle -> rnd_ok rnd -> exact_solver he -> exact_solver heh ->
  forall nc nb ins t, Forall (known nc nb) ins -> insert_all (init_tables nc nb) ins = Some t ->
  rigid_rig w -> exact_detections bpts w ins -> general_position bpts w ins -> no_tiny_angles lr w ->
  0 < nc -> (forall c, (0 <= c < Z.of_nat nc)%Z -> saw ins c) -> (forall c d, shares ins c d -> c = d) ->
  (forall c d, (0 <= c < Z.of_nat nc)%Z -> (0 <= d < Z.of_nat nc)%Z -> c <> d ->
   exists a b fs, NoDup fs /\ frames_needed approach <= length fs /\ forall f, In f fs -> both_see ins c a d b f) -> enough_motion approach w ins ->
  (forall c n, exact_undistort bpts w ins (env c n)) ->
  forall src p0 gp0 i, initializeCalibrationAllCam bpts (rg_model w) src t (pa_intr p0) = Some i ->
  (forall c, (0 <= c < Z.of_nat nc)%Z -> getIntrinsics (rg_model w c) (i c) = getIntrinsics (rg_model w c) (rg_intr w c)) ->
  exists r, calibrate svd lr uq pick g0 solve bpts (rg_model w) thresh it env pose0 (handeye lr he heh svd km shuffle rnd approach) fixi src t p0 gp0 = Some r /\
    reported_error (rg_model w) r = Some 0%R /\
    true_cameras w ins (saved_cameras (rg_model w) r) /\
    forall c, (0 <= c < Z.of_nat nc)%Z -> exists k, In (c, k) (saved_cameras (rg_model w) r) /\ r_pose k = pmul (rg_cam w 0) (pinv (rg_cam w c)).
Proof.
  intros svd lr uq pick g0 solve bpts w thresh it env pose0 he heh km shuffle rnd approach fixi CE Hh SO LO Tp Hit PN Km Sh Rn He Hs nc nb ins t Kn Et RG ED GP NT N0 All Un Two EM UN src p0 gp0 i Ei Eq.
  assert (Rng : forall c, saw ins c -> (0 <= c < Z.of_nat nc)%Z) by (intros c (x & Hx & <-); exact (proj1 (proj1 (Forall_forall _ _) Kn x Hx))).
  assert (F1 : 0 < frames_needed approach) by (unfold frames_needed; destruct (Z.eqb approach 0); lia).
  assert (U : forall x y, same_view ins x y -> x = y) by (intros x y H; induction H; [auto|auto|congruence]).
  assert (S0 : saw ins 0) by (apply All; lia).
  destruct (C64_exact_without_common_views svd lr uq pick g0 solve bpts w thresh it env pose0 he heh km shuffle rnd approach fixi CE Hh SO LO Tp Hit PN Km Sh Rn He Hs nc nb ins t Kn Et RG ED GP NT) with (src := src) (p0 := p0) (gp0 := gp0) (i := i)
    as (r & E & R0 & TC & _); auto.
  - split; [intros ->; destruct S0 as (x & [] & _)|]. intros c d Sc Sd NS. exists c, d. split; [apply rt_refl|]. split; [apply rt_refl|].
    destruct (Two c d (Rng c Sc) (Rng d Sd)) as (a & b & fs & Nf & Lf & BS); [intros ->; apply NS, rt_refl|]. exists a, b, fs. split; [auto|]. split; [auto|]. intros l l' N1 N2 H1 H2.
    assert (L1 : forall (c : Z) l, NoDup l -> (forall x, In x l -> saw ins x /\ same_view ins c x) -> length l <= 1).
    { intros e k Nk Hk. destruct k as [|x [|y k]]; [cbn; lia|cbn; lia|exfalso]. assert (x = y) by (transitivity e; [symmetry|]; apply U, Hk; cbn; auto). subst. inversion Nk as [|? ? Q _]. apply Q. left; auto. }
    assert (A := L1 c l N1 H1). assert (B := L1 d l' N2 H2). assert (length l * length l' <= 1) by nia. nia.
  - right. right. intros ref c _ _ _ V N. exfalso. apply N. symmetry. apply U. auto.
  - exists r. split; [auto|]. split; [auto|]. split; [auto|]. intros c Hc. destruct TC as (_ & KS & ref & Sr & Mr & V). assert (Sc := All c Hc). apply KS in Sc. apply in_map_iff in Sc as ((c' & k) & Ec & Hk). cbn [fst] in Ec. subst c'.
    exists k. split; [auto|]. destruct (V _ _ Hk) as (_ & _ & ->). assert (ref = 0%Z) by (assert (Q := Mr 0%Z S0); assert (Q' := Rng ref Sr); lia). subst ref. auto.
Qed.
Print Assumptions C64_separate_cameras.

(** N cameras that never see the same board (ApartExample), with either method: all
    assumptions are met. *)
Definition apart_file : list (Z * cam_rec) := two_file ++ [(2%Z, mkRec (M3 1 0 0 0 1 0 0 0 1)%R [0; 0; 0; 0; 0]%R 0 0 0 0 pid)].
Lemma apart_run : forall N n approach, N = 2 \/ N = 3 -> frames_needed approach = n ->
  exists svd solve t he r, svd_ok svd /\ ceres solve /\ exact_solver he /\ insert_all (init_tables N N) (apart_of N n) = Some t /\
  calibrate svd log0 true pick_first empty_graph solve rig_pts (rg_model apart_rig) 1 1000 (fun _ _ => ideal_env log0) (fun _ _ => (vzero, vzero))
    (handeye log0 he he svd (fun pts k => map (fun i => Nat.modulo i k) (seq 0 (length pts))) (fun _ l => l) (fun _ _ _ => 0) approach) 0 (FromFile apart_file) t
    (mkPar (fun _ => (vzero, vzero)) (fun _ => I9 0 0 0 0 0 0 0 0 0)%R) (fun _ => (vzero, vzero)) = Some r /\
  reported_error (rg_model apart_rig) r = Some 0%R /\ forall c, (0 <= c < Z.of_nat N)%Z -> exists k, In (c, k) (saved_cameras (rg_model apart_rig) r) /\ r_pose k = (mid, V3 (- cx c) 0 0)%R.
Proof.
  intros N n approach N23 En. assert (N0 : 0 < N) by lia. destruct C20_svd_exists as (svd & SO). destruct C34_solver_exists as (he & HE). destruct (insert_all_from_init N N (apart_of N n) (apart_known N n)) as (t & Et & H & _).
  destruct C33_oracles as (Km & Sh & Rn). exists svd, (fun _ p => p), t, he. set (p0 := mkPar (fun _ => (vzero, vzero)) (fun _ => I9 0 0 0 0 0 0 0 0 0)%R).
  assert (N4 : 4 <= n) by (subst n; unfold frames_needed; destruct (Z.eqb approach 0); lia).
  assert (Q : exists i, initializeCalibrationAllCam rig_pts (rg_model apart_rig) (FromFile apart_file) t (pa_intr p0) = Some i /\ forall c, (0 <= c < Z.of_nat N)%Z -> i c = rg_intr apart_rig c).
  { unfold initializeCalibrationAllCam. rewrite (hd_cam_keys _ _ _ _ H). clear - N23. destruct N23 as [-> | ->]; cbn [seq map Z.of_nat Pos.of_succ_nat Pos.succ fold_left]; cbn; (eexists; split; [reflexivity|]); intros c Hc.
    - assert (D : (c = 0 \/ c = 1)%Z) by lia. destruct D as [-> | ->]; reflexivity.
    - assert (D : (c = 0 \/ c = 1 \/ c = 2)%Z) by lia. destruct D as [-> | [-> | ->]]; reflexivity. }
  destruct Q as (i & Ei & Eq).
  destruct (C64_separate_cameras svd log0 true pick_first empty_graph (fun _ p => p) rig_pts apart_rig 1 1000 (fun _ _ => ideal_env log0) (fun _ _ => (vzero, vzero)) he he _ _ _ approach 0%Z
    ceres_idle pick_first_good SO log0_ok ltac:(lra) ltac:(lia) (fun _ _ => ideal_pnp log0) Km Sh Rn HE HE N N (apart_of N n) t (apart_known N n) Et apart_rigid (apart_exact N n) (apart_general N n) apart_angles N0)
    with (src := FromFile apart_file) (p0 := p0) (gp0 := fun _ : nat => (vzero, vzero)) (i := i) as (r & Er & R0 & _ & K); auto.
  - intros c Hc. exists (mkIns c 0 c (shota c 0) rig_ids rig_path)%Z. split; [apply apart_In; lia|auto].
  - intros c d Q. apply (apart_unrelated rig_ids (fun _ => rig_path) N n). apply rt_step. auto.
  - intros c d Hc Hd _. rewrite En. apply apart_both; auto.
  - unfold enough_motion, frames_needed in *. destruct (Z.eqb approach 0); subst n; [split; [apply apart_turns; lia|apply apart_alike]|apply apart_turns; lia].
  - intros a m c f b j q x M. discriminate M.
  - intros c Hc. rewrite Eq; auto.
  - exists r. split; [auto|]. split; [apply ceres_idle|]. split; [auto|]. split; [auto|]. split; [exact Er|]. split; [auto|]. intros c Hc. destruct (K c Hc) as (k & Hk & Pk). exists k. split; [auto|]. rewrite Pk.
    cbn [apart_rig rg_cam]. unfold pmul, pinv. cbn [fst snd]. rewrite rot_minv by apply rot_id. f_equal; [unfold mm, mtr, mid; cbn; f_equal; ring|apply vec3_eq; cbn; ring].
Qed.
Example C64_example :
  (forall N n, Forall (known N N) (apart_of N n) /\ exact_detections rig_pts apart_rig (apart_of N n) /\ general_position rig_pts apart_rig (apart_of N n) /\ forall c d, same_view (apart_of N n) c d -> c = d) /\
  rigid_rig apart_rig /\ no_tiny_angles log0 apart_rig /\ (forall N, enough_motion 1 apart_rig (apart_of N 4) /\ enough_motion 0 apart_rig (apart_of N 6)) /\
  (cx 0 = 0 /\ cx 1 = -1 /\ cx 2 = -2)%R /\
  (forall N n approach, (N, n, approach) = (2, 4, 1%Z) \/ (N, n, approach) = (2, 6, 0%Z) \/ (N, n, approach) = (3, 4, 1%Z) \/ (N, n, approach) = (3, 6, 0%Z) ->
   exists svd solve t he r, svd_ok svd /\ ceres solve /\ exact_solver he /\ insert_all (init_tables N N) (apart_of N n) = Some t /\
   calibrate svd log0 true pick_first empty_graph solve rig_pts (rg_model apart_rig) 1 1000 (fun _ _ => ideal_env log0) (fun _ _ => (vzero, vzero))
     (handeye log0 he he svd (fun pts k => map (fun i => Nat.modulo i k) (seq 0 (length pts))) (fun _ l => l) (fun _ _ _ => 0) approach) 0 (FromFile apart_file) t
     (mkPar (fun _ => (vzero, vzero)) (fun _ => I9 0 0 0 0 0 0 0 0 0)%R) (fun _ => (vzero, vzero)) = Some r /\
   reported_error (rg_model apart_rig) r = Some 0%R /\ forall c, (0 <= c < Z.of_nat N)%Z -> exists k, In (c, k) (saved_cameras (rg_model apart_rig) r) /\ r_pose k = (mid, V3 (- cx c) 0 0)%R).
Proof.
  split; [intros N n; split; [apply apart_known|split; [apply apart_exact|split; [apply apart_general|apply apart_unrelated]]]|]. split; [apply apart_rigid|]. split; [apply apart_angles|].
  split; [intros N; split; [apply apart_turns; lia|split; [apply apart_turns; lia|apply apart_alike]]|]. split; [cbn; auto|].
  intros N n approach [Q|[Q|[Q|Q]]]; injection Q as -> -> ->; apply apart_run; auto; lia.
Qed.
Print Assumptions C64_example.
