(** C33-C35, C45: camera groups without common object (McCalib.cpp 1229-1499,
    geometrytools.cpp 362-686). *)
From Coq Require Import List ZArith QArith Lia Reals Lra Sorted Permutation String.
From Coq Require ClassicalEpsilon.
From Verif Require Import SMap GraphModel GraphSpec GraphPath DataModel DataSpec DataProofs DetectModel DetectProofs RansacModel GeomModel GeomSpec GeomProofs GeomMedian GeomLog ChainModel ChainSpec ChainProofs ObjectsModel ObjectsSpec ObjectsProofs ObjectsBuild ObjectsMerge
  GroupModel GroupSpec GroupProofs StageModel StageSpec StageMain StageCams StageMerge PipelineModel PipelineSpec PipelineProofs GroupAll StalePairs
  PropObjects PropChain PropGroup PropStale HandEyeModel HandEyeSpec HandEyeProofs HandEyePairs HandEyeMain.
Import ListNotations.
Close Scope Q_scope.
Close Scope R_scope.
Open Scope nat_scope.

(** ** C33 *)
(** with six or more common poses nothing is read outside a vector *)
Theorem C33_safe_from_six_poses : forall lr he heh svd km shuffle rnd, kmeans_ok km -> shuffle_ok shuffle -> rnd_ok rnd ->
  forall approach p1 p2, length p1 = length p2 -> 6 <= length p1 ->
  exists X, handeye lr he heh svd km shuffle rnd approach p1 p2 = Some X.
Proof.
  intros lr he heh svd km shuffle rnd Hk Hs Hr a p1 p2 EL L. unfold handeye. destruct (Z.eqb a 0).
  - apply bootstrap_defined; auto. lia.
  - unfold handeyeCalibration. rewrite EL, Nat.leb_refl. eauto.
Qed.
Print Assumptions C33_safe_from_six_poses.
(** the same for any number of poses when the plain method is configured *)
Theorem C33_plain_method_safe : forall lr he heh svd km shuffle rnd approach p1 p2, length p1 = length p2 -> approach <> 0%Z ->
  exists X, handeye lr he heh svd km shuffle rnd approach p1 p2 = Some X.
Proof.
  intros lr he heh svd km shuffle rnd a p1 p2 EL N. unfold handeye. apply Z.eqb_neq in N. rewrite N. unfold handeyeCalibration. rewrite EL, Nat.leb_refl. eauto.
Qed.
Print Assumptions C33_plain_method_safe.
(** with fewer than six, six clusters are picked out of fewer, whatever the library does *)
Theorem C33_four_or_five_poses_refuted : forall lr he heh svd km shuffle rnd, shuffle_ok shuffle ->
  forall p1 p2, length p1 < 6 -> handeye lr he heh svd km shuffle rnd 0 p1 p2 = None.
Proof. intros lr he heh svd km shuffle rnd Hs p1 p2 L. unfold handeye. cbn [Z.eqb]. apply bootstrap_short; auto; lia. Qed.
Print Assumptions C33_four_or_five_poses_refuted.
(** the contracts can be met *)
Example C33_oracles : kmeans_ok (fun pts k => map (fun i => Nat.modulo i k) (seq 0 (length pts))) /\ shuffle_ok (fun _ l => l) /\ rnd_ok (fun _ _ _ => 0).
Proof.
  split; [|split; [intros i l; auto|intros i c n H; auto]]. intros pts k Hk. split; [rewrite map_length, seq_length; auto|].
  intros c Hc. apply in_map_iff. exists c. split; [apply Nat.mod_small; auto|apply in_seq; lia].
Qed.

(** ** C34 *)
(** the consistency check gives the same verdict for all poses and selections *)
Theorem C34_check_ignores_poses_refuted : forall lr p1 p2 sel q1 q2 sel' X,
  Forall rigid p1 -> Forall rigid p2 -> Forall rigid q1 -> Forall rigid q2 ->
  (forall i, In i sel -> i < length p1 /\ i < length p2) -> (forall i, In i sel' -> i < length q1 /\ i < length q2) ->
  2 <= length sel -> 2 <= length sel' ->
  exists e, checkSetConsistency lr p1 p2 sel X = Some e /\ checkSetConsistency lr q1 q2 sel' X = Some e.
Proof. intros. exists (verdict lr X). split; apply check_value; auto. Qed.
Print Assumptions C34_check_ignores_poses_refuted.
(** noise-free poses of two cameras: the true relative pose is rejected and the identity,
    which is wrong, is accepted *)
Theorem C34_check_refuted : forall lr, log_ok lr -> exists p1 p2 sel X e1 e2,
  Forall rigid p1 /\ Forall rigid p2 /\ NoDup sel /\ rigid X /\ determines (he_some p1 p2 sel) X /\ X <> pid /\
  checkSetConsistency lr p1 p2 sel X = Some e1 /\ ~ (e1 < 15)%R /\ checkSetConsistency lr p1 p2 sel pid = Some e2 /\ (e2 < 15)%R.
Proof.
  intros lr Hl. set (X := (cyc, vzero) : pose). assert (RX : rigid X) by apply cyc_rotation.
  assert (R2 : Forall rigid (map (pmul (pinv X)) poses6)).
  { rewrite Forall_forall. intros p Hp. apply in_map_iff in Hp as (q & <- & Hq). apply rigid_mul; [apply rigid_inv; auto|]. assert (R := poses6_rigid). rewrite Forall_forall in R. auto. }
  assert (I : forall i, In i (seq 0 6) -> i < length poses6 /\ i < length (map (pmul (pinv X)) poses6)) by (intros i Hi; apply in_seq in Hi; cbn; lia).
  exists poses6, (map (pmul (pinv X)) poses6), (seq 0 6), X, (verdict lr X), (verdict lr pid).
  split; [apply poses6_rigid|]. split; [auto|]. split; [apply seq_NoDup|]. split; [auto|]. split.
  { apply six_determine; auto. intros i Hi. apply in_seq. lia. }
  split; [intros E; injection E; intros; lra|]. split; [apply check_value; auto using poses6_rigid; cbn; lia|]. split; [assert (V := verdict_cyc lr Hl); fold X in V; lra|].
  split; [apply check_value; auto using poses6_rigid; cbn; lia|apply verdict_id; auto].
Qed.
Print Assumptions C34_check_refuted.
(** With exact solvers on noise-free poses the bootstrap returns the identity instead of
    the relative pose X, which the poses determine: the check rejects X, and the fall-back
    compares the first camera with itself. *)
Theorem C34_fallback_refuted : forall lr he heh svd km shuffle rnd, log_ok lr -> svd_ok svd -> kmeans_ok km -> shuffle_ok shuffle -> rnd_ok rnd ->
  exact_solver he -> exact_solver heh ->
  exists p1 p2 X, Forall rigid p1 /\ Forall rigid p2 /\ length p1 = length p2 /\ rigid X /\ determines (he_data p1 p2) X /\ X <> pid /\
    handeye lr he heh svd km shuffle rnd 0 p1 p2 = Some pid.
Proof.
  intros lr he heh svd km shuffle rnd Hl Hv Hk Hs Hr He Hh. set (X := (cyc, vzero) : pose). assert (RX : rigid X) by apply cyc_rotation.
  set (p2 := map (pmul (pinv X)) poses6).
  assert (R1 := poses6_rigid).
  assert (R2 : Forall rigid p2).
  { rewrite Forall_forall. intros p Hp. apply in_map_iff in Hp as (q & <- & Hq). apply rigid_mul; [apply rigid_inv; auto|]. rewrite Forall_forall in R1. auto. }
  assert (ED : forall p q sel, (forall i, i < length p -> In i sel) -> forall d, In d (he_some p q sel) <-> In d (he_data p q)).
  { intros p q sel Sl [A B]. rewrite he_some_In, he_data_In. split; [intros (i & a & _ & H); eauto|]. intros (i & a & H1 & H2 & H3). exists i, a. split; auto. apply Sl. apply nth_error_Some. congruence. }
  exists poses6, p2, X. split; [auto|]. split; [auto|]. split; [reflexivity|]. split; [auto|]. split; [|split].
  - apply (determines_ext (he_some poses6 p2 (seq 0 6))); [apply ED; intros i Hi; apply in_seq; cbn in Hi; lia|]. apply six_determine; auto. intros i Hi. apply in_seq. lia.
  - intros E. injection E. intros; lra.
  - unfold handeye. cbn [Z.eqb]. rewrite (bootstrap_exact lr he heh svd km shuffle rnd Hl Hv Hk Hs Hr X _ _ 20 200 He RX R1 R2); try lia; [|reflexivity|cbn; lia|].
    + assert (V := verdict_cyc lr Hl). fold X in V. destruct (Rlt_dec (verdict lr X) 15); [lra|]. f_equal. apply Hh; [apply rigid_id| |].
      * intros A B H. apply he_data_In in H as (i & a & E1 & E2 & ->). rewrite Forall_forall in R1. split; [apply rigid_inv|]; eauto using nth_error_In.
      * apply (determines_ext (he_some poses6 poses6 (seq 0 6))); [apply ED; intros i Hi; apply in_seq; cbn in Hi; lia|].
        assert (E : poses6 = map (pmul (pinv pid)) poses6).
        { rewrite <- (map_id poses6) at 1. apply map_ext. intros a. replace (pinv pid) with pid; [rewrite pmul_id_l; auto|]. rewrite <- (pmul_id_l (pinv pid)). symmetry. apply pinv_r, rigid_id. }
        rewrite E at 2. apply six_determine; [apply rigid_id|]. intros i Hi. apply in_seq. lia.
    + intros sel ND L I. apply six_determine; auto. intros i Hi. apply six_all; auto; lia.
Qed.
Print Assumptions C34_fallback_refuted.
(** What does hold: if every six of the (at least six) poses determine X, then X is
    returned provided that the square of its rotation is by less than 15 degrees. *)
Theorem C34_small_rotation_partial : forall lr he heh svd km shuffle rnd, log_ok lr -> svd_ok svd -> kmeans_ok km -> shuffle_ok shuffle -> rnd_ok rnd ->
  exact_solver he -> forall p1 p2 X, Forall rigid p1 -> Forall rigid p2 -> length p1 = length p2 -> 6 <= length p1 -> rigid X ->
  (forall sel, NoDup sel -> length sel = 6 -> (forall i, In i sel -> i < length p1) -> determines (he_some p1 p2 sel) X) ->
  let x := (1 / 2 * (trace (mm (fst X) (fst X)) - / 2 ^ 52 - 1))%R in (-1 <= x <= 1)%R -> (acos x * 180 / PI < 15)%R ->
  handeye lr he heh svd km shuffle rnd 0 p1 p2 = Some X.
Proof.
  intros lr he heh svd km shuffle rnd Hl Hv Hk Hs Hr He p1 p2 X R1 R2 EL L6 RX D x Bx Ax. unfold handeye. cbn [Z.eqb].
  rewrite (bootstrap_exact lr he heh svd km shuffle rnd Hl Hv Hk Hs Hr X); auto; try lia. destruct (Rlt_dec (verdict lr X) 15) as [V|V]; auto. exfalso. apply V.
  rewrite verdict_rotation by auto. cbv zeta. fold x. destruct (Rle_dec (-1) x); [|lra]. destruct (Rle_dec x 1); [|lra]. unfold std_max. destruct (Rlt_dec 0 (acos x * 180 / PI)); lra.
Qed.
Print Assumptions C34_small_rotation_partial.
(** an exact solver exists; six poses and no relative rotation meet the hypotheses *)
Example C34_solver_exists : exists he, exact_solver he.
Proof.
  exists (fun data => ClassicalEpsilon.epsilon (inhabits pid) (fun X => rigid X /\ determines data X)). intros data X RX _ D.
  destruct (ClassicalEpsilon.epsilon_spec (inhabits pid) (fun X => rigid X /\ determines data X) (ex_intro _ X (conj RX D))) as (R' & (Y & S') & _).
  destruct D as (_ & U). apply (U _ Y R' S').
Qed.
Example C34_small_rotation_example : let X := (mid, V3 1 2 3)%R : pose in let p2 := map (pmul (pinv X)) poses6 in
  rigid X /\ 6 <= length poses6 /\ length poses6 = length p2 /\
  (forall sel, NoDup sel -> length sel = 6 -> (forall i, In i sel -> i < length poses6) -> determines (he_some poses6 p2 sel) X) /\
  let x := (1 / 2 * (trace (mm (fst X) (fst X)) - / 2 ^ 52 - 1))%R in (-1 <= x <= 1)%R /\ (acos x * 180 / PI < 15)%R.
Proof.
  intros X p2. assert (RX : rigid X) by apply rot_id. split; [auto|]. split; [cbn; lia|]. split; [reflexivity|]. split.
  - intros sel ND L I. apply six_determine; auto. intros i Hi. apply six_all; auto; lia.
  - intros x. assert (E := eps_small). assert (T : trace (mm (fst X) (fst X)) = 3%R) by (unfold trace, X, mid, mm; cbn; ring).
    assert (Hx : (1 - / 1000 < x < 1)%R) by (unfold x; rewrite T; lra). split; [lra|].
    assert (P := PI_RGT_0). assert (A : (acos x < PI / 12)%R) by (assert (Bd := acos_bound x); apply cos_decreasing_0; try lra; rewrite cos_acos by lra; assert (Q := cos_pi_12); lra).
    apply Rmult_lt_reg_r with PI; auto. unfold Rdiv. rewrite Rmult_assoc, Rinv_l, Rmult_1_r by lra. lra.
Qed.

(** ** C35 *)
Lemma distinct_pairs_In groups a b : In (a, b) (distinct_pairs groups) <-> In a (mkeys groups) /\ In b (mkeys groups) /\ a <> b.
Proof.
  unfold distinct_pairs. rewrite in_flat_map. split.
  - intros (x & Hx & H). apply in_flat_map in H as (y & Hy & H). destruct (Z.eqb_spec x y) as [E|N]; [destruct H|]. destruct H as [H|[]]. injection H as <- <-. auto.
  - intros (A & B & N). exists a. split; auto. apply in_flat_map. exists b. split; auto. apply Z.eqb_neq in N. rewrite N. left. auto.
Qed.
Lemma fold_set {V} (v : Z * Z -> V) l : forall m k, In k l \/ mfind k m = Some (v k) -> mfind k (fold_left (fun m k => mset k (v k) m) l m) = Some (v k).
Proof.
  induction l as [|a l IH]; intros m k H; cbn [fold_left]; [destruct H as [[]|H]; auto|]. apply IH.
  destruct (eqk a k) eqn:E; [apply eqk_eq in E; subst; right; apply mfind_mset_eq|].
  assert (a <> k) by (intros ->; rewrite (proj2 (eqk_eq _ _) eq_refl) in E; discriminate).
  destruct H as [[H|H]|H]; [congruence|auto|]. right. rewrite mfind_mset_neq; auto.
Qed.
Lemma fold_pose (v : Z * Z -> option (option (pose * nat))) l : forall m m',
  fold_left (fun acc k => match acc with None => None | Some m => match v k with None => None | Some None => Some m | Some (Some w) => Some (mset k w m) end end) l (Some m) = Some m' ->
  forall k, mfind k m' = if existsb (eqk k) l then match v k with Some (Some w) => Some w | _ => mfind k m end else mfind k m.
Proof.
  assert (NN : forall l, fold_left (fun acc k => match acc with None => None | Some m => match v k with None => None | Some None => Some m | Some (Some w) => Some (mset k w m) end end) l None = None) by (clear; induction l; auto).
  induction l as [|a l IH]; intros m m' E k; cbn [fold_left] in E; [injection E as <-; auto|]. cbn [existsb].
  destruct (v a) as [[w|]|] eqn:Ea; [| |rewrite NN in E; discriminate].
  - rewrite (IH _ _ E k). destruct (eqk k a) eqn:Ek; cbn [orb].
    + apply eqk_eq in Ek. subst a. rewrite Ea. destruct (existsb (eqk k) l); auto. apply mfind_mset_eq.
    + assert (a <> k) by (intros ->; rewrite (proj2 (eqk_eq _ _) eq_refl) in Ek; discriminate). rewrite mfind_mset_neq; auto.
  - rewrite (IH _ _ E k). destruct (eqk k a) eqn:Ek; cbn [orb]; auto. apply eqk_eq in Ek. subst a. rewrite Ea. destruct (existsb (eqk k) l); auto.
Qed.

Theorem C35_chosen_pair :
  forall (pt : Type) svd lr uq pick g0, good_heap pick ->
  forall (bpts : Z -> list vec3) nc nb (ins : list (insertion pt)) t, after_detection nc nb ins t -> paired t ->
  forall s, reached svd lr uq pick g0 bpts t s ->
  forall k1 k2 G1 G2, k1 <> k2 -> mfind k1 (ca_groups s) = Some G1 -> mfind k2 (ca_groups s) = Some G2 ->
  let views := views_together (ot_all (ca_oobs s)) G1 G2 in
  exists o1 o2, mfind (k1, k2) (findPairObjectForNonOverlap s) = Some (o1, o2) /\
    (forall a b, views a b <= views o1 o2) /\
    (0 < views o1 o2 -> forall a b, views a b = views o1 o2 -> lex_le (o1, o2) (a, b)) /\
    (views o1 o2 = 0 -> o1 = 0%Z /\ o2 = 0%Z).
Proof.
  intros pt svd lr uq pick g0 Hh bpts nc nb ins t AD Hp s Rd k1 k2 G1 G2 N H1 H2 views.
  destruct (reached_ok svd lr uq pick g0 Hh bpts nc nb ins t AD Hp s Rd) as (bss & ol & css & gl & [E1 OK OT Ob Cov E2 GK GT NU CA KE]).
  assert (K1 : In k1 (mkeys (ca_groups s))) by (apply mfind_Some_key; eauto). assert (K2 : In k2 (mkeys (ca_groups s))) by (apply mfind_Some_key; eauto).
  set (m := count_pairs (ot_all (ca_oobs s)) (ca_gobs s) (ca_objs s) k1 k2).
  assert (EF : mfind (k1, k2) (findPairObjectForNonOverlap s) = Some (fst (arg_max m))).
  { unfold findPairObjectForNonOverlap. apply (fold_set (fun k => fst (arg_max (count_pairs (ot_all (ca_oobs s)) (ca_gobs s) (ca_objs s) (fst k) (snd k))))). left. apply distinct_pairs_In. auto. }
  rewrite E2 in H1, H2. apply mfind_In, dense_In in H1 as (i1 & -> & H1). apply mfind_In, dense_In in H2 as (i2 & -> & H2).
  assert (FR := known_frames nc nb ins t AD). 
  assert (Fr : forall oo, In oo (ot_all (ca_oobs s)) -> In (oo_frame oo) (mkeys (t_frames t))) by (eapply FR; eauto).
  assert (CV : forall a b, getn (a, b) m = views a b) by (intros a b; unfold m, views; eapply counts_are_views; eauto).
  assert (Sm : msorted m).
  { destruct (no_counts_zero (ca_objs s)) as (A & B). eapply count_pairs_spec; eauto. }
  destruct (arg_max_spec m Sm) as (M & Cs). destruct (arg_max m) as [[o1 o2] n] eqn:EA. cbn [fst snd] in *. exists o1, o2. split; [auto|].
  destruct Cs as [C0|(Pn & En & Lx)].
  - injection C0 as -> -> ->. assert (Z0 : forall a b, views a b = 0) by (intros a b; rewrite <- CV; specialize (M (a, b)); lia).
    split; [intros a b; rewrite !Z0; auto|]. split; [rewrite Z0; lia|auto].
  - rewrite CV in En. split; [intros a b; rewrite En, <- CV; apply M|]. split; [|lia]. intros _ a b E. apply Lx. rewrite CV. congruence.
Qed.
Print Assumptions C35_chosen_pair.

(** What is stored: a pose for the pairs of different groups for whose object pair there
    are more than three frames in which both objects are seen, each by its group, computed
    from the poses in these frames in order. *)
Theorem C35_poses_stored :
  forall (pt : Type) svd lr uq pick g0, good_heap pick ->
  forall (bpts : Z -> list vec3) nc nb (ins : list (insertion pt)) t, after_detection nc nb ins t -> paired t ->
  forall s, reached svd lr uq pick g0 bpts t s ->
  forall calib2 gp prs, findPoseNoOverlapAllCamGroup calib2 gp (findPairObjectForNonOverlap s) s = Some prs ->
  (forall a b P n, mfind (a, b) prs = Some (P, n) -> a <> b /\ exists A B, mfind a (ca_groups s) = Some A /\ mfind b (ca_groups s) = Some B) /\
  forall k1 k2 G1 G2, k1 <> k2 -> mfind k1 (ca_groups s) = Some G1 -> mfind k2 (ca_groups s) = Some G2 ->
  exists o1 o2 F, mfind (k1, k2) (findPairObjectForNonOverlap s) = Some (o1, o2) /\ StronglySorted Z.lt F /\
    (forall f, In f F <-> sees_in (ot_all (ca_oobs s)) G1 o1 f /\ sees_in (ot_all (ca_oobs s)) G2 o2 f) /\
    (length F <= 3 -> mfind (k1, k2) prs = None) /\
    (3 < length F -> exists X, calib2 (map (fun f => gp (k1, f) o1) F) (map (fun f => gp (k2, f) o2) F) = Some X /\
                               mfind (k1, k2) prs = Some (pinv X, length F)).
Proof.
  intros pt svd lr uq pick g0 Hh bpts nc nb ins t AD Hp s Rd calib2 gp prs EP.
  set (v := fun k : Z * Z => initNonOverlapPair calib2 (ca_gobs s) gp (findPairObjectForNonOverlap s) (fst k) (snd k)).
  assert (PF := fold_pose v (distinct_pairs (ca_groups s)) [] prs EP).
  assert (EX : forall k, existsb (eqk k) (distinct_pairs (ca_groups s)) = true <-> In k (distinct_pairs (ca_groups s))).
  { intros k. rewrite existsb_exists. split; [intros (x & Hx & E); apply eqk_eq in E; subst; auto|intros H; exists k; split; auto; apply eqk_eq; auto]. }
  assert (VN : forall k, In k (distinct_pairs (ca_groups s)) -> v k <> None).
  { clear PF EX. unfold findPoseNoOverlapAllCamGroup in EP. fold v in EP. intros k Hk Vk. 
    assert (NN : forall l, fold_left (fun acc k => match acc with None => None | Some m => match v k with None => None | Some None => Some m | Some (Some w) => Some (mset k w m) end end) l None = None) by (clear; induction l; auto).
    apply in_split in Hk as (l1 & l2 & El).
    change (fold_left (fun acc k => match acc with None => None | Some m => match v k with None => None | Some None => Some m | Some (Some w) => Some (mset k w m) end end) (distinct_pairs (ca_groups s)) (Some []) = Some prs) in EP.
    rewrite El, fold_left_app in EP. cbn [fold_left] in EP. rewrite Vk in EP.
    match type of EP with fold_left _ _ (match ?x with _ => _ end) = _ => destruct x end; rewrite NN in EP; discriminate. }
  split.
  - intros a b P n H. rewrite PF in H. destruct (existsb (eqk (a, b)) (distinct_pairs (ca_groups s))) eqn:E; [|discriminate].
    apply EX, distinct_pairs_In in E as (A & B & N). split; auto. apply mfind_Some_key in A, B. destruct A as (A & HA), B as (B & HB). eauto.
  - intros k1 k2 G1 G2 N H1 H2.
    destruct (C35_chosen_pair pt svd lr uq pick g0 Hh bpts nc nb ins t AD Hp s Rd k1 k2 G1 G2 N H1 H2) as (o1 & o2 & Eo & _).
    assert (Ik : In (k1, k2) (distinct_pairs (ca_groups s))).
    { apply distinct_pairs_In. split; [apply mfind_Some_key; eauto|]. split; [apply mfind_Some_key; eauto|auto]. }
    specialize (PF (k1, k2)). rewrite (proj2 (EX (k1, k2)) Ik) in PF. specialize (VN (k1, k2) Ik). unfold v, initNonOverlapPair in PF, VN. cbn [fst snd] in PF, VN. rewrite Eo in PF, VN.
    rewrite common_poses_map in PF, VN.
    destruct (reached_ok svd lr uq pick g0 Hh bpts nc nb ins t AD Hp s Rd) as (bss & ol & css & gl & [E1 OK OT Ob Cov E2 GK GT NU CA KE]).
    rewrite E2 in H1, H2. apply mfind_In, dense_In in H1 as (i1 & -> & H1). apply mfind_In, dense_In in H2 as (i2 & -> & H2).
    assert (Fr : forall oo, In oo (ot_all (ca_oobs s)) -> In (oo_frame oo) (mkeys (t_frames t))) by (eapply known_frames; eauto).
    destruct (frames_seen (ot_all (ca_oobs s)) (mkeys (t_frames t)) gl (ca_gobs s) GT Fr i1 i2 G1 G2 o1 o2 H1 H2) as (SF & IF).
    set (F := filter (both_seen (ca_gobs s) (Z.of_nat i1) (Z.of_nat i2) o1 o2) (common_frames (ca_gobs s) (Z.of_nat i1) (Z.of_nat i2))) in *. clearbody F.
    exists o1, o2, F. split; [auto|]. split; [auto|]. split; [auto|]. rewrite !map_length, !map_map in *. cbn [fst snd] in *. split.
    + intros L. replace (Nat.leb (length F) 3) with true in PF by (symmetry; apply Nat.leb_le; auto). auto.
    + intros L. replace (Nat.leb (length F) 3) with false in PF, VN by (symmetry; apply Nat.leb_gt; auto).
      destruct (calib2 _ _) as [X|]; [eauto|congruence].
Qed.
Print Assumptions C35_poses_stored.

(** On noise-free poses of objects that move enough the plain method gives the true
    relative pose of the groups. *)
Theorem C35_exact_relative_poses :
  forall (pt : Type) svd lr uq pick g0, good_heap pick ->
  forall (bpts : Z -> list vec3) nc nb (ins : list (insertion pt)) t, after_detection nc nb ins t -> paired t ->
  forall s, reached svd lr uq pick g0 bpts t s ->
  forall he heh svd' km shuffle rnd approach gp prs C Y, log_ok lr -> exact_solver heh -> approach <> 0%Z ->
  findPoseNoOverlapAllCamGroup (handeye lr he heh svd' km shuffle rnd approach) gp (findPairObjectForNonOverlap s) s = Some prs ->
  (forall c, rigid (C c)) -> (forall f o, rigid (Y f o)) ->
  (forall k f G n oo, mfind k (ca_groups s) = Some G -> made_by (ot_all (ca_oobs s)) G f n oo -> gp (k, f) (oo_obj oo) = pmul (C (cg_ref G)) (Y f (oo_obj oo))) ->
  (forall k1 k2 G1 G2 o1 o2 F, mfind k1 (ca_groups s) = Some G1 -> mfind k2 (ca_groups s) = Some G2 ->
     mfind (k1, k2) (findPairObjectForNonOverlap s) = Some (o1, o2) ->
     (forall f, In f F <-> sees_in (ot_all (ca_oobs s)) G1 o1 f /\ sees_in (ot_all (ca_oobs s)) G2 o2 f) -> 3 < length F ->
     fixed_together Y o1 o2 F /\ moves_enough Y o1 F) ->
  true_pairs C (ca_groups s) prs.
Proof.
  intros pt svd lr uq pick g0 Hh bpts nc nb ins t AD Hp s Rd he heh svd' km shuffle rnd approach gp prs C Y Hl Hs Na EP RC RY EG MV a b p n Hab.
  destruct (C35_poses_stored pt svd lr uq pick g0 Hh bpts nc nb ins t AD Hp s Rd _ gp prs EP) as (Ks & St).
  destruct (Ks a b p n Hab) as (N & A & B & HA & HB). exists A, B. split; [auto|]. split; [auto|].
  destruct (St a b A B N HA HB) as (o1 & o2 & F & Eo & SF & IF & L3 & G3). destruct (le_lt_dec (length F) 3) as [L|L]; [rewrite L3 in Hab by auto; discriminate|].
  destruct (G3 L) as (X & EX & Es). assert (p = pinv X) by congruence. subst p. clear G3 L3 Es Hab St Ks.
  destruct (MV a b A B o1 o2 F HA HB Eo IF L) as (FT & ME). clear MV.
  set (C1 := C (cg_ref A)) in *. set (C2 := C (cg_ref B)) in *. assert (R1 : rigid C1) by apply RC. assert (R2 : rigid C2) by apply RC.
  assert (EA : forall f, In f F -> gp (a, f) o1 = pmul C1 (Y f o1)).
  { intros f Hf. apply IF in Hf as ((oo & Ho & Ff & Cc & Oo) & _). apply In_nth_error in Ho as (i & Hi). rewrite <- Oo. apply (EG a f A i oo HA). split; auto. }
  assert (EB : forall f, In f F -> gp (b, f) o2 = pmul C2 (Y f o2)).
  { intros f Hf. apply IF in Hf as (_ & (oo & Ho & Ff & Cc & Oo)). apply In_nth_error in Ho as (i & Hi). rewrite <- Oo. apply (EG b f B i oo HB). split; auto. }
  set (X0 := pmul C1 (pinv C2)). assert (RX0 : rigid X0) by (apply rigid_mul; auto; apply rigid_inv; auto).
  assert (EXX : X = X0).
  { unfold handeye in EX. apply Z.eqb_neq in Na. rewrite Na in EX. unfold handeyeCalibration in EX. rewrite !map_length, Nat.leb_refl in EX. injection EX as <-.
    set (data := map _ (combine _ _)).
    assert (Ed : data = map (fun f => (pinv (pmul C1 (Y f o1)), pmul C2 (Y f o2))) F).
    { unfold data. clear - EA EB Hl RY R1 R2. induction F as [|f F IH]; cbn; auto. rewrite IH by (intros; auto with datatypes).
      rewrite EA, EB by (left; auto). assert (rigid (pmul C1 (Y f o1))) by (apply rigid_mul; auto). assert (rigid (pmul C2 (Y f o2))) by (apply rigid_mul; auto).
      rewrite !through_rigid; auto. apply rigid_inv; auto. }
    assert (Id : forall P Q, In (P, Q) data <-> exists f, In f F /\ P = pinv (pmul C1 (Y f o1)) /\ Q = pmul C2 (Y f o2)).
    { intros P Q. rewrite Ed, in_map_iff. split; [intros (f & E & H); injection E as <- <-; eauto|intros (f & H & -> & ->); eauto]. }
    clearbody data. clear Ed.
    assert (RD : forall X' f, rigid X' -> pmul (pmul (pinv (pmul C1 (Y f o1))) X') (pmul C2 (Y f o2)) =
       pmul (pmul (pmul (pinv (Y f o1)) (pmul (pmul (pinv C1) X') C2)) (Y f o1)) (pmul (pinv (Y f o1)) (Y f o2))).
    { intros X' f RX'. rewrite pinv_pmul by auto. rewrite !pmul_assoc. rewrite <- (pmul_assoc _ (Y f o1) (pinv (Y f o1))), pinv_r, pmul_id_r by auto. auto. }
    apply Hs; auto.
    - intros P Q H. apply Id in H as (f & _ & -> & ->). split; [apply rigid_inv|]; apply rigid_mul; auto.
    - split.
      + destruct F as [|f0 F']; [cbn in L; lia|]. exists (pmul (pinv (Y f0 o1)) (Y f0 o2)). intros P Q H. apply Id in H as (f & Hf & -> & ->).
        rewrite RD by auto. unfold X0. rewrite (pmul_assoc (pinv C1)), pinv_l, pmul_id_l, pinv_l, pmul_id_r, pinv_l, pmul_id_l by auto. apply FT; auto. left. auto.
      + intros X' Y' RX' S'. set (D := pmul (pmul (pinv C1) X') C2).
        assert (ED : D = pid).
        { apply ME; [apply rigid_mul; auto; apply rigid_mul; auto; apply rigid_inv; auto|]. intros f f' Hf Hf'.
          assert (Q1 := S' _ _ (proj2 (Id _ _) (ex_intro _ f (conj Hf (conj eq_refl eq_refl))))). assert (Q2 := S' _ _ (proj2 (Id _ _) (ex_intro _ f' (conj Hf' (conj eq_refl eq_refl))))).
          rewrite RD in Q1, Q2 by auto. fold D in Q1, Q2. rewrite (FT f f' Hf Hf') in Q1. rewrite <- Q2 in Q1.
          set (E := pmul (pinv (Y f' o1)) (Y f' o2)) in *. assert (RE : rigid E) by (apply rigid_mul; auto; apply rigid_inv; auto).
          apply (f_equal (fun Z => pmul Z (pinv E))) in Q1. rewrite <- !(pmul_assoc _ E), !pinv_r, !pmul_id_r in Q1 by auto. auto. }
        unfold D in ED. unfold X0. rewrite <- (pmul_id_l X'), <- (pinv_r C1) by auto. rewrite <- (pmul_id_r (pinv C2)). rewrite <- (pmul_id_r (pmul (pmul C1 (pinv C1)) X')), <- (pinv_r C2) at 1 by auto.
        rewrite !pmul_assoc. rewrite <- (pmul_assoc C1 (pinv C1)), <- (pmul_assoc C1 _ C2), ED, pmul_id_r. rewrite pmul_id_r. auto. }
  rewrite EXX. unfold X0. rewrite pinv_pmul by (auto; apply rigid_inv; auto). rewrite pinv_pinv by auto. auto.
Qed.
Print Assumptions C35_exact_relative_poses.

(** ** C45: the table of relative poses is symmetric *)
Lemma SS_same (l l' : list Z) : StronglySorted Z.lt l -> StronglySorted Z.lt l' -> (forall x, In x l <-> In x l') -> l = l'.
Proof.
  revert l'. induction l as [|a l IH]; intros l' S1 S2 I.
  - destruct l' as [|b l']; auto. destruct (proj2 (I b) (or_introl eq_refl)).
  - destruct l' as [|b l']; [destruct (proj1 (I a) (or_introl eq_refl))|]. apply StronglySorted_inv in S1 as (S1 & F1). apply StronglySorted_inv in S2 as (S2 & F2). rewrite Forall_forall in F1, F2.
    assert (a = b). { destruct (proj1 (I a) (or_introl eq_refl)) as [->|Ha]; auto. destruct (proj2 (I b) (or_introl eq_refl)) as [->|Hb]; auto. apply F2 in Ha. apply F1 in Hb. lia. }
    subst b. f_equal. apply IH; auto. intros x. split; intros H.
    + destruct (proj1 (I x) (or_intror H)) as [<-|Hx]; auto. apply F1 in H. lia.
    + destruct (proj2 (I x) (or_intror H)) as [<-|Hx]; auto. apply F2 in H. lia.
Qed.
Lemma SS_length (l l' : list Z) : StronglySorted Z.lt l -> StronglySorted Z.lt l' -> (forall x, In x l <-> In x l') -> length l = length l'.
Proof. intros A B C. rewrite (SS_same l l' A B C). auto. Qed.
Lemma views_swap {pt} (all : list (objobs pt)) G1 G2 o1 o2 : views_together all G1 G2 o1 o2 = views_together all G2 G1 o2 o1.
Proof.
  unfold views_together.
  set (p := fun xy : objobs pt * objobs pt => let '(x, y) := xy in (Z.eqb (oo_frame x) (oo_frame y) && (existsb (Z.eqb (oo_cam x)) (cg_cams G1) && Z.eqb (oo_obj x) o1) && (existsb (Z.eqb (oo_cam y)) (cg_cams G2) && Z.eqb (oo_obj y) o2))%bool).
  set (q := fun xy : objobs pt * objobs pt => let '(x, y) := xy in (Z.eqb (oo_frame x) (oo_frame y) && (existsb (Z.eqb (oo_cam x)) (cg_cams G2) && Z.eqb (oo_obj x) o2) && (existsb (Z.eqb (oo_cam y)) (cg_cams G1) && Z.eqb (oo_obj y) o1))%bool).
  assert (PQ : forall x y, p (x, y) = q (y, x)).
  { intros x y. unfold p, q. rewrite (Z.eqb_sym (oo_frame y)). destruct (Z.eqb (oo_frame x) (oo_frame y)); cbn; auto. apply Bool.andb_comm. }
  clearbody p q.
  assert (Q : forall l l', length (filter p (list_prod l l')) = length (filter q (list_prod l' l))).
  { assert (Z0 : forall l, filter q (list_prod l []) = []) by (induction l; auto).
    induction l as [|a l IH]; intros l'; [cbn; rewrite Z0; auto|]. cbn [list_prod]. rewrite filter_app, app_length, IH. clear IH.
    induction l' as [|b l' IH]; cbn [list_prod map]; auto. cbn [list_prod map] in *. rewrite filter_app, app_length. 
    cbn [filter map app]. rewrite PQ. cbn [filter]. destruct (q (b, a)); cbn [length]; rewrite filter_app, app_length; lia. }
  apply Q.
Qed.

(** If for each two groups no second pair of objects is seen together as often as the
    chosen one, then poses are stored for both orders or for none, from the same frames,
    and merging the groups succeeds. *)
Theorem C45_symmetric_without_ties_partial :
  forall (pt : Type) svd lr uq pick g0, good_heap pick ->
  forall (bpts : Z -> list vec3) nc nb (ins : list (insertion pt)) t, after_detection nc nb ins t -> paired t ->
  forall s, reached svd lr uq pick g0 bpts t s ->
  (forall k1 k2 G1 G2 a b c d, k1 <> k2 -> mfind k1 (ca_groups s) = Some G1 -> mfind k2 (ca_groups s) = Some G2 ->
     let views := views_together (ot_all (ca_oobs s)) G1 G2 in
     0 < views a b -> (forall x y, views x y <= views a b) -> views c d = views a b -> c = a /\ d = b) ->
  forall calib2 gp prs, findPoseNoOverlapAllCamGroup calib2 gp (findPairObjectForNonOverlap s) s = Some prs ->
  (forall a b P n, mfind (a, b) prs = Some (P, n) -> exists Q, mfind (b, a) prs = Some (Q, n)) /\
  exists s', mergeGroups pick g0 t prs s = Some s'.
Proof.
  intros pt svd lr uq pick g0 Hh bpts nc nb ins t AD Hp s Rd NT calib2 gp prs EP.
  destruct (C35_poses_stored pt svd lr uq pick g0 Hh bpts nc nb ins t AD Hp s Rd calib2 gp prs EP) as (Ks & St).
  assert (Sy : forall a b P n, mfind (a, b) prs = Some (P, n) -> exists A B o1 o2 f Q, a <> b /\ mfind a (ca_groups s) = Some A /\ mfind b (ca_groups s) = Some B /\
     sees_in (ot_all (ca_oobs s)) A o1 f /\ sees_in (ot_all (ca_oobs s)) B o2 f /\ mfind (b, a) prs = Some (Q, n)).
  { intros a b P n Hab. destruct (Ks a b P n Hab) as (N & A & B & HA & HB).
    destruct (St a b A B N HA HB) as (o1 & o2 & F & Eo & SF & IF & L3 & G3). destruct (le_lt_dec (length F) 3) as [L|L]; [rewrite L3 in Hab by auto; discriminate|].
    destruct (G3 L) as (X & _ & Es). assert (n = length F) by congruence. subst n.
    destruct (St b a B A (not_eq_sym N) HB HA) as (p1 & p2 & F' & Eo' & SF' & IF' & L3' & G3').
    destruct (C35_chosen_pair pt svd lr uq pick g0 Hh bpts nc nb ins t AD Hp s Rd a b A B N HA HB) as (q1 & q2 & Eq & Mx & _ & _). rewrite Eo in Eq. injection Eq as <- <-.
    destruct (C35_chosen_pair pt svd lr uq pick g0 Hh bpts nc nb ins t AD Hp s Rd b a B A (not_eq_sym N) HB HA) as (q1 & q2 & Eq & Mx' & _ & _). rewrite Eo' in Eq. injection Eq as <- <-.
    assert (Ef : exists f, In f F) by (destruct F as [|f F]; [cbn in L; lia|exists f; left; auto]). destruct Ef as (f & Hf). assert (Sf := proj1 (IF f) Hf). destruct Sf as (S1 & S2).
    assert (Pos : 0 < views_together (ot_all (ca_oobs s)) A B o1 o2).
    { destruct S1 as (x & Hx & Fx & Cx & Ox), S2 as (y & Hy & Fy & Cy & Oy). unfold views_together.
      match goal with |- 0 < length (filter ?p ?l) => assert (I : In (x, y) (filter p l)) end.
      { apply filter_In. split; [apply in_prod; auto|]. rewrite Fx, Fy, Ox, Oy, !Z.eqb_refl, !Bool.andb_true_r. cbn. apply andb_true_intro. split; apply existsb_exists; [exists (oo_cam x)|exists (oo_cam y)]; rewrite Z.eqb_refl; auto. }
      match goal with |- 0 < length ?l => destruct l; [destruct I|cbn; lia] end. }
    assert (Ev : views_together (ot_all (ca_oobs s)) A B p2 p1 = views_together (ot_all (ca_oobs s)) A B o1 o2).
    { apply Nat.le_antisymm; [apply Mx|]. rewrite (views_swap _ A B o1 o2), (views_swap _ A B p2 p1). apply Mx'. }
    destruct (NT a b A B o1 o2 p2 p1 N HA HB Pos Mx Ev) as (-> & ->).
    assert (EL : length F' = length F). { apply SS_length; auto. intros x. rewrite IF, IF'. tauto. }
    destruct (G3' ltac:(lia)) as (X' & _ & Es'). exists A, B, o1, o2, f, (pinv X'). rewrite EL in Es'. auto 10. }
  split; [intros a b P n H; destruct (Sy a b P n H) as (_ & _ & _ & _ & _ & Q & _ & _ & _ & _ & _ & HQ); eauto|].
  destruct (reached_ok svd lr uq pick g0 Hh bpts nc nb ins t AD Hp s Rd) as (bss & ol & css & gl & CO).
  apply (groups_merge_total pick g0 Hh bpts t prs s bss ol css gl CO); [eapply pairs_proper; eauto|apply pairs_both; intros a b (P & n & H); destruct (Sy a b P n H) as (_ & _ & _ & _ & _ & Q & _ & _ & _ & _ & _ & HQ); exists Q, n; auto].
  intros a b (P & n & H). destruct (Sy a b P n H) as (A & B & o1 & o2 & f & Q & N & HA & HB & S1 & _ & HQ). split; [auto|]. split; [exists Q, n; auto|]. exists A. split; [auto|].
  destruct S1 as (oo & Ho & _ & Co & _). destruct (co_obs _ _ _ _ _ _ _ CO oo Ho) as (i & o & _ & _ & G). destruct (ga_content _ _ _ G) as (bs & F2 & _ & Pts & _).
  assert (Ne := ga_nonempty _ _ _ G). rewrite Pts in Ne.
  assert (E : exists b0, In b0 bs /\ o_pts b0 <> []).
  { clear - Ne. induction bs as [|b0 bs IH]; [cbn in Ne; congruence|]. cbn in Ne. destruct (o_pts b0) eqn:E0.
    - destruct IH as (x & Hx & Px); auto. exists x. split; auto. right. auto.
    - exists b0. split; [left; auto|congruence]. }
  destruct E as (b0 & Hb & Pb).
  assert (E : exists m, In m (oo_bobs oo) /\ nth_error (mvals (t_obs t)) m = Some b0).
  { clear - F2 Hb. induction F2 as [|m x l bs H F2 IH]; [destruct Hb|]. destruct Hb as [<-|Hb]; [exists m; split; [left; auto|auto]|]. destruct (IH Hb) as (k & A & B). exists k. split; [right; auto|auto]. }
  destruct E as (m & Hm & Em). assert (Hm' := proj1 (ga_bobs _ _ _ G m) Hm). destruct Hm' as (b' & Eb & Ec & _). assert (b' = b0) by congruence. subst b'.
  exists m, b0. split; [exact Em|]. split; [auto|]. rewrite Ec. auto.
Qed.
Print Assumptions C45_symmetric_without_ties_partial.

(** Cameras 0, 1 (group 0) and 2, 3 (group 1).  In frames 0-3 camera 0 sees board 1 and
    camera 2 sees board 2; in frame 4 cameras 0, 1 see board 0 and cameras 2, 3 see board
    3.  Both pairs of boards are seen together four times. *)
Definition ins_ (c f b : Z) : insertion pt2 := mkIns c f b five_corners five_ids EmptyString.
Definition asym_ins : list (insertion pt2) :=
  ([ins_ 0 0 1; ins_ 2 0 2; ins_ 0 1 1; ins_ 2 1 2; ins_ 0 2 1; ins_ 2 2 2; ins_ 0 3 1; ins_ 2 3 2;
    ins_ 0 4 0; ins_ 1 4 0; ins_ 2 4 3; ins_ 3 4 3])%Z.
Definition asym_t : tables pt2 := run_of 4 4 asym_ins.
Example asym_after : after_detection 4 4 asym_ins asym_t.
Proof. apply run_after. unfold asym_ins. repeat constructor; cbn; lia. Qed.
Example asym_paired : paired asym_t.
Proof. intros b H. vm_compute in H. repeat (destruct H as [<-|H]; [reflexivity|]). destruct H. Qed.
(** the state when findPairObjectForNonOverlap is called (calibrate.cpp 34-40), with the
    averaging that is always selected (C40) *)
Definition before_pairs svd lr (t : tables pt2) gp : option (calib pt2) :=
  match start_of svd lr false t with
  | Some s => merge3DObjects svd lr false pick_first empty_graph grid t gp ob_poses cg_poses s
  | None => None
  end.
Lemma before_reached svd lr t gp s : before_pairs svd lr t gp = Some s -> reached svd lr false pick_first empty_graph grid t s.
Proof.
  unfold before_pairs. destruct (start_of svd lr false t) as [s0|] eqn:E; [|discriminate]. intros H. apply start_reached in E. eapply rd_merge; eauto using keep_boards, keep_cams.
Qed.
Definition shape (s : calib pt2) := (map (fun e => (fst e, cg_ref (snd e), cg_cams (snd e))) (ca_groups s), findPairObjectForNonOverlap s, mkeys (gt_obs (ca_gobs s))).
Lemma asym_shape svd lr gp : option_map shape (before_pairs svd lr asym_t gp) =
  Some ([(0, 0, [0; 1]); (1, 2, [2; 3])], [((0, 1), (0, 3)); ((1, 0), (2, 1))],
        [(0, 0); (0, 1); (0, 2); (0, 3); (0, 4); (1, 0); (1, 1); (1, 2); (1, 3); (1, 4)])%Z.
Proof. vm_compute. reflexivity. Qed.
Definition merged_shape gp X (s : calib pt2) :=
  match findPoseNoOverlapAllCamGroup (fun _ _ => Some X) gp (findPairObjectForNonOverlap s) s with
  | Some prs => Some (map (fun e => (fst e, snd (snd e))) prs, match mergeGroups pick_first empty_graph asym_t prs s with Some _ => true | None => false end)
  | None => None
  end.
Lemma asym_merge svd lr gp X : match before_pairs svd lr asym_t gp with Some s => merged_shape gp X s | None => None end = Some ([((1, 0)%Z, 4)], false).
Proof. vm_compute. reflexivity. Qed.

(** A pose is stored for (1, 0) only, and merging looks for (0, 1): an empty matrix is
    multiplied, an exception nobody catches, whatever poses were estimated and whatever
    the solver returns. *)
Theorem C45_asymmetric_poses_refuted : forall svd lr gp X, exists (ins : list (insertion pt2)) t s prs P,
  after_detection 4 4 ins t /\ paired t /\ reached svd lr false pick_first empty_graph grid t s /\
  findPoseNoOverlapAllCamGroup (fun _ _ => Some X) gp (findPairObjectForNonOverlap s) s = Some prs /\
  mfind (1, 0)%Z prs = Some (P, 4) /\ mfind (0, 1)%Z prs = None /\ mergeGroups pick_first empty_graph t prs s = None.
Proof.
  intros svd lr gp X. assert (E := asym_merge svd lr gp X). destruct (before_pairs svd lr asym_t gp) as [s|] eqn:Es; [|discriminate].
  assert (Rd := before_reached svd lr asym_t gp s Es). clear Es. unfold merged_shape in E.
  destruct (findPoseNoOverlapAllCamGroup (fun _ _ => Some X) gp (findPairObjectForNonOverlap s) s) as [prs|] eqn:EP; [|discriminate].
  destruct (mergeGroups pick_first empty_graph asym_t prs s) eqn:EM; [discriminate|]. injection E as E.
  destruct prs as [|[k [P n]] [|e prs]]; try discriminate. cbn in E. injection E as -> ->.
  exists asym_ins, asym_t, s, [((1, 0)%Z, (P, 4))], P. split; [apply asym_after|]. split; [apply asym_paired|]. split; [auto|]. split; [auto|]. auto.
Qed.
Print Assumptions C45_asymmetric_poses_refuted.

(** C35 speaks of the number of frames: the chosen pair (0, 3) is seen together in one
    frame, the pair (1, 2) in four *)
Definition frames_of (all : list (objobs pt2)) (cams : list Z) (o f : Z) : bool :=
  existsb (fun oo => Z.eqb (oo_frame oo) f && (existsb (Z.eqb (oo_cam oo)) cams && Z.eqb (oo_obj oo) o))%bool all.
Lemma frames_of_sees all G o f : frames_of all (cg_cams G) o f = true <-> sees_in all G o f.
Proof.
  unfold frames_of, sees_in. rewrite existsb_exists. split.
  - intros (oo & H & P). apply andb_prop in P as (P1 & P2). apply andb_prop in P2 as (P2 & P3). apply Z.eqb_eq in P1, P3. apply existsb_exists in P2 as (c & Hc & E). apply Z.eqb_eq in E. subst c. eauto 6.
  - intros (oo & H & F & Cc & O). exists oo. split; auto. rewrite F, O, !Z.eqb_refl, Bool.andb_true_r. cbn. apply existsb_exists. exists (oo_cam oo). rewrite Z.eqb_refl. auto.
Qed.
Lemma asym_frames svd lr gp : match before_pairs svd lr asym_t gp with
  | Some s => Some (map (fun f => (frames_of (ot_all (ca_oobs s)) [0; 1] 0 f && frames_of (ot_all (ca_oobs s)) [2; 3] 3 f,
                                   frames_of (ot_all (ca_oobs s)) [0; 1] 1 f && frames_of (ot_all (ca_oobs s)) [2; 3] 2 f)%bool) [0; 1; 2; 3; 4]%Z,
                    forallb (fun oo => existsb (Z.eqb (oo_frame oo)) [0; 1; 2; 3; 4]) (ot_all (ca_oobs s)))%Z
  | None => None end = Some ([(false, true); (false, true); (false, true); (false, true); (true, false)], true).
Proof. vm_compute. reflexivity. Qed.
Theorem C35_most_frames_refuted : forall svd lr, exists (ins : list (insertion pt2)) t s k1 k2 G1 G2 o1 o2 a b F F',
  after_detection 4 4 ins t /\ paired t /\ reached svd lr false pick_first empty_graph grid t s /\
  k1 <> k2 /\ mfind k1 (ca_groups s) = Some G1 /\ mfind k2 (ca_groups s) = Some G2 /\
  mfind (k1, k2) (findPairObjectForNonOverlap s) = Some (o1, o2) /\ NoDup F /\ NoDup F' /\
  (forall f, In f F <-> sees_in (ot_all (ca_oobs s)) G1 o1 f /\ sees_in (ot_all (ca_oobs s)) G2 o2 f) /\
  (forall f, In f F' <-> sees_in (ot_all (ca_oobs s)) G1 a f /\ sees_in (ot_all (ca_oobs s)) G2 b f) /\
  length F = 1 /\ length F' = 4.
Proof.
  intros svd lr. set (gp := fun (_ : Z * Z) (_ : Z) => pid). assert (E1 := asym_shape svd lr gp). assert (E2 := asym_frames svd lr gp). destruct (before_pairs svd lr asym_t gp) as [s|] eqn:Es; [|discriminate].
  assert (Rd := before_reached svd lr asym_t gp s Es). clear Es. cbn [option_map] in E1. unfold shape in E1. injection E1 as Eg Ep _. injection E2 as F10 F11 F20 F21 F30 F31 F40 F41 F50 F51 Fall.
  destruct (ca_groups s) as [|[k1 G1] [|[k2 G2] [|e l]]] eqn:EG; try discriminate. cbn [map fst snd] in Eg. injection Eg as -> _ C1 -> _ C2.
  exists asym_ins, asym_t, s, 0%Z, 1%Z, G1, G2, 0%Z, 3%Z, 1%Z, 2%Z, [4]%Z, [0; 1; 2; 3]%Z.
  split; [apply asym_after|]. split; [apply asym_paired|]. split; [auto|]. split; [lia|]. rewrite EG. split; [reflexivity|]. split; [reflexivity|]. rewrite Ep. split; [reflexivity|].
  split; [repeat constructor; cbn; intuition lia|]. split; [repeat constructor; cbn; intuition lia|].
  assert (Fr : forall o f, frames_of (ot_all (ca_oobs s)) [0; 1]%Z o f = true -> (f = 0 \/ f = 1 \/ f = 2 \/ f = 3 \/ f = 4)%Z).
  { intros o f H. unfold frames_of in H. apply existsb_exists in H as (oo & H & P). apply andb_prop in P as (P & _). apply Z.eqb_eq in P. rewrite forallb_forall in Fall. apply Fall in H. cbn in H. rewrite !Bool.orb_true_iff, !Z.eqb_eq in H. intuition (try lia; discriminate). }
  assert (Q : forall a b f, sees_in (ot_all (ca_oobs s)) G1 a f /\ sees_in (ot_all (ca_oobs s)) G2 b f <-> (frames_of (ot_all (ca_oobs s)) [0; 1]%Z a f && frames_of (ot_all (ca_oobs s)) [2; 3]%Z b f)%bool = true).
  { intros a b f. rewrite <- !frames_of_sees, C1, C2, Bool.andb_true_iff. tauto. }
  split; [|split; [|split; reflexivity]]; intros f; rewrite Q; (split; [intros H; cbn in H; repeat (destruct H as [<-|H]; [assumption|]); destruct H|]);
    intros H; assert (H' := H); apply andb_prop in H' as (H' & _); apply Fr in H'; cbn; destruct H' as [->|[->|[->|[->| ->]]]]; try tauto; congruence.
Qed.
Print Assumptions C35_most_frames_refuted.

(** ** Four common frames: the default method reads outside (C33), the plain one is exact *)
(** cameras 0 and 1 see board 0 and 1, in four frames *)
Definition two_ins : list (insertion pt2) := ([ins_ 0 0 0; ins_ 1 0 1; ins_ 0 1 0; ins_ 1 1 1; ins_ 0 2 0; ins_ 1 2 1; ins_ 0 3 0; ins_ 1 3 1])%Z.
Definition two_t : tables pt2 := run_of 2 2 two_ins.
Example two_after : after_detection 2 2 two_ins two_t.
Proof. apply run_after. unfold two_ins. repeat constructor; cbn; lia. Qed.
Example two_paired : paired two_t.
Proof. intros b H. vm_compute in H. repeat (destruct H as [<-|H]; [reflexivity|]). destruct H. Qed.
Lemma two_before svd lr gp : exists s, before_pairs svd lr two_t gp = Some s /\ ca_groups s = [single 0 0; single 1 1] /\
  findPairObjectForNonOverlap s = [((0, 1), (0, 1)); ((1, 0), (1, 0))]%Z /\
  (forall gp', common_poses (ca_gobs s) gp' 0 1 0 1 = map (fun f => (gp' (0, f) 0, gp' (1, f) 1)) [0; 1; 2; 3])%Z /\
  (forall gp', common_poses (ca_gobs s) gp' 1 0 1 0 = map (fun f => (gp' (1, f) 1, gp' (0, f) 0)) [0; 1; 2; 3])%Z /\
  map (fun o => (oo_cam o, oo_frame o, oo_obj o)) (ot_all (ca_oobs s)) =
    ([(0, 0, 0); (0, 1, 0); (0, 2, 0); (0, 3, 0); (1, 0, 1); (1, 1, 1); (1, 2, 1); (1, 3, 1)] ++
     [(0, 0, 0); (0, 1, 0); (0, 2, 0); (0, 3, 0); (1, 0, 1); (1, 1, 1); (1, 2, 1); (1, 3, 1)])%Z.
Proof. eexists. split; [vm_compute; reflexivity|]. split; [reflexivity|]. split; [reflexivity|]. split; [reflexivity|]. split; reflexivity. Qed.
Theorem C33_workflow_refuted : forall lr he heh svd km shuffle rnd, shuffle_ok shuffle -> forall gp,
  exists (ins : list (insertion pt2)) t s, after_detection 2 2 ins t /\ paired t /\ reached svd lr false pick_first empty_graph grid t s /\
    findPoseNoOverlapAllCamGroup (handeye lr he heh svd km shuffle rnd 0) gp (findPairObjectForNonOverlap s) s = None.
Proof.
  intros lr he heh svd km shuffle rnd Hs gp. destruct (two_before svd lr gp) as (s & E & Eg & Ep & E1 & E2 & _). exists two_ins, two_t, s.
  split; [apply two_after|]. split; [apply two_paired|]. split; [eapply before_reached; eauto|]. unfold findPoseNoOverlapAllCamGroup. rewrite Eg, Ep. unfold distinct_pairs.
  assert (V : initNonOverlapPair (handeye lr he heh svd km shuffle rnd 0) (ca_gobs s) gp [((0, 1), (0, 1)); ((1, 0), (1, 0))]%Z 0 1 = None).
  { unfold initNonOverlapPair. change (mfind (0, 1)%Z [((0, 1), (0, 1)); ((1, 0), (1, 0))]%Z) with (Some (0, 1)%Z). cbv iota beta. rewrite E1, !map_map, map_length. cbn [length Nat.leb].
    rewrite C33_four_or_five_poses_refuted; auto. }
  cbn [mkeys map single fst snd flat_map app Z.eqb fold_left]. rewrite V. reflexivity.
Qed.
Print Assumptions C33_workflow_refuted.

(** exactness is not vacuous: these four frames with board 0 turning about two axes and
    board 1 fixed to it *)
Definition two_Y (f o : Z) : pose := pmul (match f with 1 => (qx_, vzero) | 2 => (qy_, vzero) | _ => pid end)%Z (mid, V3 (IZR o) 0 0)%R.
Lemma two_Y_rigid f o : rigid (two_Y f o).
Proof.
  apply rigid_mul; [|apply rot_id]. destruct f as [|[p|[p|p|]|]|]; try apply rigid_id; [apply qy_rotation|apply qx_rotation].
Qed.
Example C35_exact_example : forall lr heh svd, log_ok lr -> exact_solver heh -> forall he svd' km shuffle rnd C, (forall c, rigid (C c)) ->
  let gp := fun (k : Z * Z) (o : Z) => pmul (C (fst k)) (two_Y (snd k) o) in
  exists s prs p n, reached svd lr false pick_first empty_graph grid two_t s /\
    findPoseNoOverlapAllCamGroup (handeye lr he heh svd' km shuffle rnd 1) gp (findPairObjectForNonOverlap s) s = Some prs /\
    true_pairs C (ca_groups s) prs /\ mfind (0, 1)%Z prs = Some (p, n) /\ p = pmul (C 1%Z) (pinv (C 0%Z)).
Proof.
  intros lr heh svd Hl Hs he svd' km shuffle rnd C RC gp. destruct (two_before svd lr gp) as (s & E & Eg & Ep & E1 & E2 & EO). assert (Rd := before_reached svd lr two_t gp s E).
  set (cal := handeye lr he heh svd' km shuffle rnd 1).
  assert (T : forall p1 p2, length p1 = length p2 -> exists X, cal p1 p2 = Some X) by (intros; apply C33_plain_method_safe; auto; lia).
  assert (V1 : exists X, initNonOverlapPair cal (ca_gobs s) gp [((0, 1), (0, 1)); ((1, 0), (1, 0))]%Z 0 1 = Some (Some (pinv X, 4))).
  { unfold initNonOverlapPair. change (mfind (0, 1)%Z [((0, 1), (0, 1)); ((1, 0), (1, 0))]%Z) with (Some (0, 1)%Z). cbv iota beta. rewrite E1, !map_map, map_length. cbn [length Nat.leb].
    match goal with |- context [cal ?a ?b] => destruct (T a b) as (X & ->); [rewrite !map_length; auto|] end. eauto. }
  assert (V2 : exists X, initNonOverlapPair cal (ca_gobs s) gp [((0, 1), (0, 1)); ((1, 0), (1, 0))]%Z 1 0 = Some (Some (pinv X, 4))).
  { unfold initNonOverlapPair. change (mfind (1, 0)%Z [((0, 1), (0, 1)); ((1, 0), (1, 0))]%Z) with (Some (1, 0)%Z). cbv iota beta. rewrite E2, !map_map, map_length. cbn [length Nat.leb].
    match goal with |- context [cal ?a ?b] => destruct (T a b) as (X & ->); [rewrite !map_length; auto|] end. eauto. }
  destruct V1 as (X1 & V1), V2 as (X2 & V2).
  assert (EP : findPoseNoOverlapAllCamGroup cal gp (findPairObjectForNonOverlap s) s = Some [((0, 1)%Z, (pinv X1, 4)); ((1, 0)%Z, (pinv X2, 4))]).
  { unfold findPoseNoOverlapAllCamGroup. rewrite Eg, Ep. unfold distinct_pairs. cbn [mkeys map single fst snd flat_map app Z.eqb fold_left]. rewrite V1. cbn iota. rewrite V2. reflexivity. }
  exists s. eexists. eexists. eexists. split; [exact Rd|]. split; [exact EP|].
  assert (TP : true_pairs C (ca_groups s) [((0, 1)%Z, (pinv X1, 4)); ((1, 0)%Z, (pinv X2, 4))]).
  { eapply (C35_exact_relative_poses pt2 svd lr false pick_first empty_graph pick_first_good grid 2 2 two_ins two_t two_after two_paired s Rd he heh svd' km shuffle rnd 1 gp _ C two_Y Hl Hs); try lia; auto using two_Y_rigid.
    - intros k f G n oo HG M. rewrite Eg in HG. apply mfind_In in HG. destruct HG as [HG|[HG|[]]]; injection HG as <- <-; reflexivity.
    - intros k1 k2 G1 G2 o1 o2 F HG1 HG2 Eo IF L. rewrite Ep in Eo. split.
      + intros f f' _ _. 
        assert (Q : forall A o o', rigid A -> pmul (pinv (pmul A (mid, V3 (IZR o) 0 0)%R)) (pmul A (mid, V3 (IZR o') 0 0)%R) = pmul (pinv (mid, V3 (IZR o) 0 0)%R) (mid, V3 (IZR o') 0 0)%R).
        { intros A o o' RA. rewrite pinv_pmul by (auto; apply rot_id). rewrite <- pmul_assoc, (pmul_assoc (pinv A)), pinv_l, pmul_id_l by auto. auto. }
        assert (RA : forall f, rigid (match f with 1 => (qx_, vzero) | 2 => (qy_, vzero) | _ => pid end)%Z).
        { intros f0. destruct f0 as [|[p|[p|p|]|]|]; try apply rigid_id; [apply qy_rotation|apply qx_rotation]. }
        unfold two_Y. rewrite !Q by auto. auto.
      + intros D RD Cst. set (U := (mid, V3 (IZR o1) 0 0)%R : pose). assert (RU : rigid U) by apply rot_id. set (D' := D).
        assert (IS : forall f, (f = 0 \/ f = 1 \/ f = 2)%Z -> In f F).
        { intros f Hf. apply IF.
          assert (SI : forall c o G, In c (cg_cams G) -> (c = 0 /\ o = 0 \/ c = 1 /\ o = 1)%Z -> sees_in (ot_all (ca_oobs s)) G o f).
          { intros c o G Hc Hco. assert (I : In (c, f, o) (map (fun o => (oo_cam o, oo_frame o, oo_obj o)) (ot_all (ca_oobs s)))).
            { rewrite EO. destruct Hf as [->|[->| ->]], Hco as [(-> & ->)|(-> & ->)]; cbn; tauto. }
            apply in_map_iff in I as (oo & Eoo & Ho). injection Eoo as E0 E0' E0''. exists oo. split; auto. split; auto. split; [rewrite E0; auto|auto]. }
          rewrite Eg in HG1, HG2. apply mfind_In in HG1, HG2, Eo. destruct Eo as [Eo|[Eo|[]]]; injection Eo as <- <- <- <-.
          - destruct HG1 as [HG1|[HG1|[]]]; injection HG1; try (intros; match goal with K : @eq Z _ _ |- _ => discriminate K end); intros <-. destruct HG2 as [HG2|[HG2|[]]]; injection HG2; try (intros; match goal with K : @eq Z _ _ |- _ => discriminate K end); intros <-. split; [apply (SI 0%Z); [left; reflexivity|left; split; reflexivity]|apply (SI 1%Z); [left; reflexivity|right; split; reflexivity]].
          - destruct HG1 as [HG1|[HG1|[]]]; injection HG1; try (intros; match goal with K : @eq Z _ _ |- _ => discriminate K end); intros <-. destruct HG2 as [HG2|[HG2|[]]]; injection HG2; try (intros; match goal with K : @eq Z _ _ |- _ => discriminate K end); intros <-. split; [apply (SI 1%Z); [left; reflexivity|right; split; reflexivity]|apply (SI 0%Z); [left; reflexivity|left; split; reflexivity]]. }
        assert (Cm : forall A f, rigid A -> two_Y f o1 = pmul A U -> In f F -> pmul (pmul (pinv A) D) A = D).
        { intros A f RA EY Hf. assert (Q := Cst f 0%Z Hf (IS 0%Z ltac:(lia))). rewrite EY in Q. change (two_Y 0 o1) with (pmul pid U) in Q. rewrite pmul_id_l, pinv_pmul in Q by auto.
          apply (f_equal (fun Z => pmul (pmul U Z) (pinv U))) in Q. rewrite !pmul_assoc in Q. rewrite pinv_r, !pmul_id_l in Q by auto.
          rewrite <- !(pmul_assoc _ U (pinv U)), pinv_r, !pmul_id_r in Q by auto. auto. }
        assert (Cm' : forall A f, rigid A -> two_Y f o1 = pmul A U -> In f F -> pmul A D = pmul D A).
        { intros A f RA EY Hf. rewrite <- (Cm A f RA EY Hf) at 1. rewrite !pmul_assoc, pinv_r, pmul_id_l; auto. }
        apply commute_id; auto; [apply (Cm' _ 1%Z); [apply qx_rotation|reflexivity|apply IS; lia]|apply (Cm' _ 2%Z); [apply qy_rotation|reflexivity|apply IS; lia]]. }
  split; [exact TP|]. split; [reflexivity|]. destruct (TP 0%Z 1%Z (pinv X1) 4 eq_refl) as (A & B & HA & HB & ->). rewrite Eg in HA, HB. apply mfind_In in HA, HB.
  destruct HA as [HA|[HA|[]]]; injection HA; try (intros; match goal with K : @eq Z _ _ |- _ => discriminate K end); intros <-. destruct HB as [HB|[HB|[]]]; injection HB; try (intros; match goal with K : @eq Z _ _ |- _ => discriminate K end); intros <-. reflexivity.
Qed.
(** and without ties: the hypothesis of C45_symmetric_without_ties_partial *)
Example C45_no_ties_example : forall svd lr gp, exists s, before_pairs svd lr two_t gp = Some s /\
  forall k1 k2 G1 G2 a b c d, k1 <> k2 -> mfind k1 (ca_groups s) = Some G1 -> mfind k2 (ca_groups s) = Some G2 ->
     let views := views_together (ot_all (ca_oobs s)) G1 G2 in
     0 < views a b -> (forall x y, views x y <= views a b) -> views c d = views a b -> c = a /\ d = b.
Proof.
  intros svd lr gp. destruct (two_before svd lr gp) as (s & E & Eg & _ & _ & _ & EO). exists s. split; [auto|].
  intros k1 k2 G1 G2 a b c d N H1 H2 views P M Ec.
  assert (Q : forall x y, 0 < views x y -> x = k1 /\ y = k2).
  { intros x y Px. unfold views, views_together in Px. 
    match type of Px with 0 < length (filter ?p ?l) => destruct (filter p l) as [|[u v] r] eqn:Ef; [cbn in Px; lia|]; assert (I : In (u, v) (filter p l)) by (rewrite Ef; left; auto) end.
    apply filter_In in I as (I & B). apply in_prod_iff in I as (Iu & Iv). apply andb_prop in B as (B & B3). apply andb_prop in B as (_ & B2). apply andb_prop in B2 as (B2 & O1). apply andb_prop in B3 as (B3 & O2).
    apply Z.eqb_eq in O1, O2.
    assert (CO : forall w, In w (ot_all (ca_oobs s)) -> oo_cam w = oo_obj w).
    { intros w Hw. assert (I : In (oo_cam w, oo_frame w, oo_obj w) (map (fun o => (oo_cam o, oo_frame o, oo_obj o)) (ot_all (ca_oobs s)))) by (apply in_map_iff; exists w; auto).
      rewrite EO in I. cbn in I. repeat (destruct I as [I|I]; [injection I; intros; congruence|]). destruct I. }
    rewrite Eg in H1, H2. apply mfind_In in H1, H2.
    destruct H1 as [H1|[H1|[]]]; injection H1 as <- <-; destruct H2 as [H2|[H2|[]]]; injection H2 as <- <-; cbn in B2, B3; rewrite Bool.orb_false_r, (CO u Iu) in B2; rewrite Bool.orb_false_r, (CO v Iv) in B3;
      apply Z.eqb_eq in B2, B3; split; congruence. }
  assert (Qa := Q a b P). assert (Qc := Q c d ltac:(lia)). destruct Qa as (-> & ->), Qc as (-> & ->). auto.
Qed.
