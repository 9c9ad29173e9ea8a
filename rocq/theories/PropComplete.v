(** C55: which calibration runs get through (calibrate.cpp 15-72). *)
From Coq Require Import String List ZArith QArith Lia Reals Lra Permutation Sorted Relations.
From Verif Require Import SMap GraphModel GraphSpec GraphPath DataModel DataSpec DataProofs DetectModel DetectSpec DetectProofs RansacModel RansacSpec RansacProofs
  GeomModel GeomSpec GeomProofs GeomMedian ChainModel ChainSpec ChainProofs ChainCam
  ObjectsModel ObjectsSpec ObjectsProofs ObjectsSave ObjectsBuild ObjectsMerge ObjectsObs
  GroupModel GroupSpec GroupProofs GroupMerge GroupObs GroupPose StageModel StageSpec StageProofs StageMain StageCams StageMerge
  PipelineModel PipelineSpec PipelineProofs StalePairs ObjectsMain EstimateAll HandEyeModel HandEyeSpec HandEyeProofs CameraModel ResidualModel ResidualSpec ResidualProofs ResidualMain ResidualGroup
  ResidualSolve ResidualAvg FileModel IntrinsicModel GroupAll PropChain PropObjects PropGroup PropStale PropResidual WorkflowModel WorkflowRigid WorkflowProofs WorkflowReach WorkflowWhole PropWorkflow RigOwn RigExample SavedSpec PropSaved
  CompleteSpec WorkflowTotal WorkflowTwice CompleteExample LogModel LogProofs.
Import ListNotations.
Close Scope Q_scope.
Close Scope R_scope.
Open Scope nat_scope.

Section Second.
Variables (svd : (nat -> nat -> R) -> quat) (lr : mat3 -> vec3) (uq : bool) (pick : dstate -> nat) (g0 : graph).
Variables (solve : list block -> params -> params) (bpts : Z -> list vec3) (models : Z -> Z) (thresh : R) (it : Z).
Variables (env : nat -> nat -> rs_env par6 vec3) (pose0 : nat -> nat -> par6).
Variable fixi : Z.
Hypothesis CE : ceres solve.
Hypothesis Hh : good_heap pick.
Hypothesis LO : log_ok lr.
Hypothesis Fair : forall c n, fair_shuffles (env c n).
Hypothesis Mo : forall c, models c = 0%Z \/ models c = 1%Z.
Hypothesis Hit : (0 < it)%Z.
Variables (nc nb : nat) (ins : list (insertion pt2)) (t : tables pt2).
Hypothesis AD : after_detection nc nb ins t.
Hypothesis TR : forall o, In o (mvals (t_obs t)) -> trimmed bpts o.
Let Hp : paired t := trimmed_paired bpts t TR.
Notation Good := (good svd lr uq pick g0 bpts t).
Notation sees r := (fun k => exists G, mfind k (ca_groups (ru_s r)) = Some G /\ group_sees t G).

Lemma second_half_total r : Good r -> (forall k P n, In (k, (P, n)) (ru_prs r) -> rigid P) -> pairs_of_groups t (ru_prs r) (ru_s r) -> four_or_none t ->
  (exists reps, representatives (sees r) (linked (ru_prs r)) reps) /\
  forall reps, representatives (sees r) (linked (ru_prs r)) reps ->
    ((exists r', second_half svd lr uq pick g0 solve bpts models thresh it env pose0 fixi r = Some r') <->
     forall a b, has_pair (ru_prs r) a b -> exists c, linked (ru_prs r) a c /\ (c < Z.of_nat (length reps))%Z).
Proof.
  intros G4 Rp PG F4. destruct G4 as [T4 R4 S4 O4 Q4].
  destruct (reached_ok svd lr uq pick g0 Hh bpts nc nb ins t AD Hp _ R4) as (bss4 & ol4 & css4 & gl4 & CO4).
  assert (PP4 := pairs_proper bpts t (ru_prs r) (ru_s r) bss4 ol4 css4 gl4 CO4 PG).
  assert (UP4 : pairs_usable (ru_prs r) (ru_s r)) by (apply proper_usable; auto).
  destruct (groups_merge_total pick g0 Hh bpts t (ru_prs r) (ru_s r) bss4 ol4 css4 gl4 CO4 PP4) as (s5 & E5); [apply pairs_both; intros a b H; apply (PG a b H)|].
  destruct (merged_count svd lr uq pick g0 Hh bpts nc nb ins t AD Hp (ru_prs r) (ru_s r) s5 R4 PG E5) as (reps0 & Re0 & L0).
  split; [eauto|]. intros reps Re.
  assert (Sy : symmetric_pairs (ru_prs r)) by (intros a b H; apply (PG a b H)).
  assert (LR : length reps = length (ca_groups s5)).
  { rewrite L0. apply (representatives_length (sees r) (linked (ru_prs r))); auto; [apply linked_sym; auto|]. intros x y z A B. eapply rt_trans; eauto. }
  rewrite LR. clear Re LR reps.
  set (r5 := with_ps (put_cams lr (ca_groups s5) (ru_p r)) s5 r).
  assert (M5 : run_mergeGroups lr pick g0 r = Some r5) by (unfold run_mergeGroups; rewrite T4, E5; reflexivity).
  destruct (good_merge_groups svd lr uq pick g0 bpts models it env pose0 Hh LO nc nb ins t AD TR r r5 (Build_good _ _ _ _ _ _ _ _ T4 R4 S4 O4 Q4) Rp UP4 M5) as (G5 & P5 & EM5).
  destruct (merged_sees svd lr uq pick g0 bpts Hh nc nb ins t AD Hp (ru_prs r) (ru_s r) (ru_s r5) R4 (groups_within t _ _ PG) EM5) as (_ & Se5).
  destruct (proj2 (merge_total svd lr uq pick g0 solve bpts models thresh it env pose0 Hh LO Fair Mo Hit nc nb ins t AD TR 4 r5 G5) F4) as (r6 & E6).
  destruct (merge_good svd lr uq pick g0 solve bpts models thresh it env pose0 CE Hh LO nc nb ins t AD TR 4 r5 r6 G5 E6) as (G6 & (q & Q6) & P6).
  assert (Se6 : forall k G, mfind k (ca_groups (ru_s r6)) = Some G -> group_sees t G) by (rewrite Q6; apply regroup_sees; auto).
  assert (P64 : ru_prs r6 = ru_prs r) by congruence.
  assert (UP6 : pairs_usable (ru_prs r6) (ru_s r6)).
  { rewrite P64. apply (second_usable svd lr uq pick g0 bpts Hh nc nb ins t AD Hp); auto; [apply G6|].
    intros a b H. destruct (groups_within t _ _ PG a b H) as (N & (A & HA & _) & (B & HB & _)). split; [auto|]. rewrite (co_groups _ _ _ _ _ _ _ CO4) in HA, HB.
    apply mfind_In, dense_In in HA as (i & -> & _). apply mfind_In, dense_In in HB as (j & -> & _). lia. }
  assert (L6 : length (ca_groups s5) = length (ca_groups (ru_s r6))) by (rewrite Q6; unfold refine_groups; rewrite map_length; reflexivity).
  rewrite L6. clear L6 L0 Re0.
  assert (ST := stale_total svd lr uq pick g0 Hh bpts nc nb ins t AD Hp (ru_prs r6) (ru_s r6) (gd_reached _ _ _ _ _ _ _ _ G6) Se6 UP6 ltac:(rewrite P64; exact Sy)). rewrite P64 in ST. rewrite <- ST.
  unfold second_half. rewrite M5. cbn [bind]. rewrite E6. cbn [bind]. split.
  - intros (r' & E). apply bind_Some in E as (r7 & E7 & _). apply omap_Some in E7 as (s7 & E7 & _). rewrite (gd_t _ _ _ _ _ _ _ _ G6), P64 in E7. eauto.
  - intros (s7 & E7). set (r7 := with_ps (put_cams lr (ca_groups s7) (ru_p r6)) s7 r6).
    assert (M7 : run_mergeGroups lr pick g0 r6 = Some r7) by (unfold run_mergeGroups; rewrite (gd_t _ _ _ _ _ _ _ _ G6), P64, E7; reflexivity).
    rewrite M7. cbn [bind].
    destruct (good_merge_groups svd lr uq pick g0 bpts models it env pose0 Hh LO nc nb ins t AD TR r6 r7 G6) as (G7 & _ & _); auto; [rewrite P64; auto|].
    apply (proj2 (final_total svd lr uq pick g0 solve bpts models thresh it env pose0 fixi CE Hh Fair Mo Hit nc nb ins t AD TR r7 G7) F4).
Qed.
End Second.

(** calibrate.cpp 15-42: the run up to the poses between camera groups *)
Definition up_to_pairs svd lr uq pick g0 solve bpts models thresh it env pose0 calib2 fixi src t0 p0 gp0 : option run :=
  bind (initIntrinsic solve bpts models thresh it env pose0 fixi src t0 p0 gp0) (first_half svd lr uq pick g0 solve bpts models thresh it env pose0 calib2).
Lemma bind_assoc {A B C} (a : option A) (f : A -> option B) (g : B -> option C) : bind (bind a f) g = bind a (fun x => bind (f x) g).
Proof. destruct a; reflexivity. Qed.
Lemma calibrate_halves svd lr uq pick g0 solve bpts models thresh it env pose0 calib2 fixi src t0 p0 gp0 :
  calibrate svd lr uq pick g0 solve bpts models thresh it env pose0 calib2 fixi src t0 p0 gp0 =
  bind (up_to_pairs svd lr uq pick g0 solve bpts models thresh it env pose0 calib2 fixi src t0 p0 gp0) (second_half svd lr uq pick g0 solve bpts models thresh it env pose0 fixi).
Proof.
  unfold calibrate, up_to_pairs, first_half, second_half. rewrite bind_assoc. destruct (initIntrinsic _ _ _ _ _ _ _ _ _ _ _ _) as [r|]; [|reflexivity]. cbn [bind].
  rewrite bind_assoc. destruct (run_calibrate3DObjects _ _ _ _ _ _ _ _ _ _ _ _ r) as [r1|]; [|reflexivity]. cbn [bind].
  rewrite bind_assoc. destruct (run_calibrateCameraGroup _ _ _ _ _ _ _ _ r1) as [r2|]; [|reflexivity]. cbn [bind].
  rewrite bind_assoc. reflexivity.
Qed.

Section Complete.
Variables (svd : (nat -> nat -> R) -> quat) (lr : mat3 -> vec3) (uq : bool) (pick : dstate -> nat) (g0 : graph).
Variables (solve : list block -> params -> params) (bpts : Z -> list vec3) (models : Z -> Z) (thresh : R) (it : Z).
Variables (env : nat -> nat -> rs_env par6 vec3) (pose0 : nat -> nat -> par6).
Variable calib2 : list pose -> list pose -> option pose.
Variable fixi : Z.
Hypothesis CE : ceres solve.
Hypothesis Hh : good_heap pick.
Hypothesis LO : log_ok lr.
Hypothesis Fair : forall c n, fair_shuffles (env c n).
Hypothesis Mo : forall c, models c = 0%Z \/ models c = 1%Z.
Hypothesis Hit : (0 < it)%Z.
Hypothesis C2 : forall l l', length l = length l' -> 3 < length l -> exists X, calib2 l l' = Some X.
Hypothesis Rc : forall l l' X, calib2 l l' = Some X -> rigid X.
Variables (nc nb : nat) (ins : list (insertion pt2)) (t0 : tables pt2).
Hypothesis Kn : Forall (known nc nb) ins.
Hypothesis Dw : Forall (detected_well bpts) ins.
Hypothesis Ei : insert_all (init_tables nc nb) ins = Some t0.
Variables (src : init_source) (p0 : params) (gp0 : nat -> par6) (i : Z -> intr).
Hypothesis In0 : initializeCalibrationAllCam bpts models src t0 (pa_intr p0) = Some i.
Notation start := (initIntrinsic solve bpts models thresh it env pose0 fixi src t0 p0 gp0).
Notation first := (up_to_pairs svd lr uq pick g0 solve bpts models thresh it env pose0 calib2 fixi src t0 p0 gp0).
Notation all := (calibrate svd lr uq pick g0 solve bpts models thresh it env pose0 calib2 fixi src t0 p0 gp0).

Lemma start_total : exists t ps r0, estimatePoseAllBoards (env 0) (cam_of models (mkPar (pa_pose p0) i)) bpts (pose0 0) thresh it t0 = Some (t, ps) /\
  after_detection nc nb ins t /\ (forall o, In o (mvals (t_obs t)) -> trimmed bpts o) /\ start = Some r0 /\ ru_t r0 = t.
Proof.
  destruct (estimate_all_boards (env 0) (Fair 0) (cam_of models (mkPar (pa_pose p0) i)) bpts thresh it nc nb ins t0 (pose0 0) Kn Dw Ei) as (t & ps & Ee & AD & _ & _ & TR).
  assert (Q : exists r0, start = Some r0 /\ ru_t r0 = t).
  { unfold initIntrinsic. rewrite In0, Ee. destruct (Z.eqb fixi 0); cbn [option_map]; [|eexists; split; [reflexivity|reflexivity]].
    assert (T : exists p', refineIntrinsicAndPoseAllCam solve bpts t models (obs_of_cam t) (mkeys (t_cams t)) (put_board_obs ps (mkPar (pa_pose p0) i)) = Some p').
    { apply solve_each_total. intros. apply camera_problem_total; auto. }
    destruct T as (p' & ->). cbn [option_map]. eexists. split; reflexivity. }
  destruct Q as (r0 & Es & Et). exists t, ps, r0. split; [exact Ee|]. split; [exact AD|]. split; [exact TR|]. split; [exact Es|exact Et].
Qed.
Lemma complete_first : exists t ps, estimatePoseAllBoards (env 0) (cam_of models (mkPar (pa_pose p0) i)) bpts (pose0 0) thresh it t0 = Some (t, ps) /\
  ((exists r, first = Some r) <-> four_or_none t).
Proof.
  destruct start_total as (t & ps & r0 & Ee & AD & TR & Es & Et). exists t, ps. split; [exact Ee|].
  rewrite <- (first_half_total svd lr uq pick g0 solve bpts models thresh it env pose0 calib2 CE Hh LO Fair Mo Hit C2 nc nb ins t AD TR r0 Et).
  unfold up_to_pairs. rewrite Es. reflexivity.
Qed.
Lemma complete_second r : first = Some r -> symmetric_pairs (ru_prs r) ->
  (exists reps, representatives (fun k => exists G, mfind k (ca_groups (ru_s r)) = Some G /\ group_sees (ru_t r) G) (linked (ru_prs r)) reps) /\
  forall reps, representatives (fun k => exists G, mfind k (ca_groups (ru_s r)) = Some G /\ group_sees (ru_t r) G) (linked (ru_prs r)) reps ->
    ((exists r', all = Some r') <-> forall a b, has_pair (ru_prs r) a b -> exists c, linked (ru_prs r) a c /\ (c < Z.of_nat (length reps))%Z).
Proof.
  intros Ef Sy. destruct start_total as (t & ps & r0 & Ee & AD & TR & Es & Et).
  assert (Eh : first_half svd lr uq pick g0 solve bpts models thresh it env pose0 calib2 r0 = Some r) by (unfold up_to_pairs in Ef; rewrite Es in Ef; exact Ef).
  assert (F4 : four_or_none t) by (apply (first_half_total svd lr uq pick g0 solve bpts models thresh it env pose0 calib2 CE Hh LO Fair Mo Hit C2 nc nb ins t AD TR r0 Et); eauto).
  destruct (first_half_good svd lr uq pick g0 solve bpts models thresh it env pose0 calib2 CE Hh LO Rc nc nb ins t AD TR r0 r Et Eh) as (G4 & Rp & PG).
  rewrite (gd_t _ _ _ _ _ _ _ _ G4).
  destruct (second_half_total svd lr uq pick g0 solve bpts models thresh it env pose0 fixi CE Hh LO Fair Mo Hit nc nb ins t AD TR r G4 Rp (PG Sy) F4) as (A & B).
  split; [exact A|]. intros reps Re. rewrite <- (B reps Re). rewrite calibrate_halves, Ef. reflexivity.
Qed.
End Complete.

(** Up to the poses between camera groups the run gets through exactly when every image keeps
    no corner at all or at least four of them after the removal of outliers. *)
Theorem C55_every_image_needs_four_corners :
  forall svd lr uq pick g0 solve bpts models thresh it env pose0 calib2 fixi, ceres solve -> good_heap pick -> log_ok lr -> (forall c n, fair_shuffles (env c n)) ->
  (forall c, models c = 0%Z \/ models c = 1%Z) -> (0 < it)%Z ->
  (forall l l', length l = length l' -> 3 < length l -> exists X, calib2 l l' = Some X) ->
  forall nc nb (ins : list (insertion pt2)) t0, Forall (known nc nb) ins -> Forall (detected_well bpts) ins -> insert_all (init_tables nc nb) ins = Some t0 ->
  forall src p0 gp0 i, initializeCalibrationAllCam bpts models src t0 (pa_intr p0) = Some i ->
  exists t ps, estimatePoseAllBoards (env 0) (cam_of models (mkPar (pa_pose p0) i)) bpts (pose0 0) thresh it t0 = Some (t, ps) /\
    ((exists r, up_to_pairs svd lr uq pick g0 solve bpts models thresh it env pose0 calib2 fixi src t0 p0 gp0 = Some r) <-> four_or_none t).
Proof.
  intros svd lr uq pick g0 solve bpts models thresh it env pose0 calib2 fixi CE Hh LO Fair Mo Hit C2 nc nb ins t0 Kn Dw Ei src p0 gp0 i In0.
  apply (complete_first svd lr uq pick g0 solve bpts models thresh it env pose0 calib2 fixi CE Hh LO Fair Mo Hit C2 nc nb ins t0 Kn Dw Ei src p0 gp0 i In0).
Qed.
Print Assumptions C55_every_image_needs_four_corners.

(** From there on the run gets through exactly when no hand-eye pair is stale in the second
    merge of the groups: with n sets of connected groups, every pair is connected to a group
    with one of the first n numbers. *)
Theorem C55_the_second_merge_decides :
  forall svd lr uq pick g0 solve bpts models thresh it env pose0 calib2 fixi, ceres solve -> good_heap pick -> log_ok lr -> (forall c n, fair_shuffles (env c n)) ->
  (forall c, models c = 0%Z \/ models c = 1%Z) -> (0 < it)%Z ->
  (forall l l', length l = length l' -> 3 < length l -> exists X, calib2 l l' = Some X) -> (forall l l' X, calib2 l l' = Some X -> rigid X) ->
  forall nc nb (ins : list (insertion pt2)) t0, Forall (known nc nb) ins -> Forall (detected_well bpts) ins -> insert_all (init_tables nc nb) ins = Some t0 ->
  forall src p0 gp0 i, initializeCalibrationAllCam bpts models src t0 (pa_intr p0) = Some i ->
  forall r, up_to_pairs svd lr uq pick g0 solve bpts models thresh it env pose0 calib2 fixi src t0 p0 gp0 = Some r -> symmetric_pairs (ru_prs r) ->
  let seeing k := exists G, mfind k (ca_groups (ru_s r)) = Some G /\ group_sees (ru_t r) G in
  (exists reps, representatives seeing (linked (ru_prs r)) reps) /\
  forall reps, representatives seeing (linked (ru_prs r)) reps ->
    ((exists r', calibrate svd lr uq pick g0 solve bpts models thresh it env pose0 calib2 fixi src t0 p0 gp0 = Some r') <->
     forall a b, has_pair (ru_prs r) a b -> exists c, linked (ru_prs r) a c /\ (c < Z.of_nat (length reps))%Z).
Proof.
  intros svd lr uq pick g0 solve bpts models thresh it env pose0 calib2 fixi CE Hh LO Fair Mo Hit C2 Rc nc nb ins t0 Kn Dw Ei src p0 gp0 i In0 r Er Sy.
  apply (complete_second svd lr uq pick g0 solve bpts models thresh it env pose0 calib2 fixi CE Hh LO Fair Mo Hit C2 Rc nc nb ins t0 Kn Dw Ei src p0 gp0 i In0 r Er Sy).
Qed.
Print Assumptions C55_the_second_merge_decides.

(** Without hand-eye pairs, for instance with a single camera group, the corners decide alone. *)
Theorem C55_without_pairs_the_corners_decide :
  forall svd lr uq pick g0 solve bpts models thresh it env pose0 calib2 fixi, ceres solve -> good_heap pick -> log_ok lr -> (forall c n, fair_shuffles (env c n)) ->
  (forall c, models c = 0%Z \/ models c = 1%Z) -> (0 < it)%Z ->
  (forall l l', length l = length l' -> 3 < length l -> exists X, calib2 l l' = Some X) -> (forall l l' X, calib2 l l' = Some X -> rigid X) ->
  forall nc nb (ins : list (insertion pt2)) t0, Forall (known nc nb) ins -> Forall (detected_well bpts) ins -> insert_all (init_tables nc nb) ins = Some t0 ->
  forall src p0 gp0 i, initializeCalibrationAllCam bpts models src t0 (pa_intr p0) = Some i ->
  (forall r, up_to_pairs svd lr uq pick g0 solve bpts models thresh it env pose0 calib2 fixi src t0 p0 gp0 = Some r -> ru_prs r = []) ->
  exists t ps, estimatePoseAllBoards (env 0) (cam_of models (mkPar (pa_pose p0) i)) bpts (pose0 0) thresh it t0 = Some (t, ps) /\
    ((exists r, calibrate svd lr uq pick g0 solve bpts models thresh it env pose0 calib2 fixi src t0 p0 gp0 = Some r) <-> four_or_none t).
Proof.
  intros svd lr uq pick g0 solve bpts models thresh it env pose0 calib2 fixi CE Hh LO Fair Mo Hit C2 Rc nc nb ins t0 Kn Dw Ei src p0 gp0 i In0 NP.
  destruct (C55_every_image_needs_four_corners svd lr uq pick g0 solve bpts models thresh it env pose0 calib2 fixi CE Hh LO Fair Mo Hit C2 nc nb ins t0 Kn Dw Ei src p0 gp0 i In0) as (t & ps & Ee & H).
  exists t, ps. split; [exact Ee|]. rewrite <- H. split.
  - intros (r & E). rewrite calibrate_halves in E. apply bind_Some in E as (r1 & E1 & _). eauto.
  - intros (r & Er). assert (Np := NP r Er).
    destruct (C55_the_second_merge_decides svd lr uq pick g0 solve bpts models thresh it env pose0 calib2 fixi CE Hh LO Fair Mo Hit C2 Rc nc nb ins t0 Kn Dw Ei src p0 gp0 i In0 r Er) as ((reps & Re) & D).
    { rewrite Np. intros a b (P & n & Q). discriminate Q. }
    apply (D reps Re). rewrite Np. intros a b (P & n & Q). discriminate Q.
Qed.
Print Assumptions C55_without_pairs_the_corners_decide.

Lemma one_camera_no_pairs svd lr uq pick g0 solve bpts models thresh it env pose0 calib2 fixi :
  ceres solve -> good_heap pick -> log_ok lr -> (forall n, fair_shuffles (env 0 n)) -> (forall l l' X, calib2 l l' = Some X -> rigid X) ->
  forall nc nb (ins : list (insertion pt2)) t0, Forall (known nc nb) ins -> Forall (detected_well bpts) ins -> insert_all (init_tables nc nb) ins = Some t0 ->
  forall c0, (forall i, In i ins -> i_cam i = c0) -> forall src p0 gp0 r,
  up_to_pairs svd lr uq pick g0 solve bpts models thresh it env pose0 calib2 fixi src t0 p0 gp0 = Some r -> ru_prs r = [].
Proof.
  intros CE Hh LO Fair Rc nc nb ins t0 Kn Dw Ei c0 One src p0 gp0 r E. unfold up_to_pairs in E. apply bind_Some in E as (r0 & E0 & E).
  unfold initIntrinsic in E0. destruct (initializeCalibrationAllCam bpts models src t0 (pa_intr p0)) as [i|]; [|discriminate E0].
  destruct (estimate_all_boards (env 0) Fair (cam_of models (mkPar (pa_pose p0) i)) bpts thresh it nc nb ins t0 (pose0 0) Kn Dw Ei) as (t & ps & Ee & AD & _ & _ & TR).
  rewrite Ee in E0. apply omap_Some in E0 as (p1 & _ & E0). assert (Et : ru_t r0 = t) by (rewrite E0; reflexivity). clear E0.
  apply bind_Some in E as (r1 & E1 & E). apply bind_Some in E as (r2 & E2 & E). apply bind_Some in E as (r3 & E3 & E4).
  destruct (calibrate3DObjects_good svd lr uq pick g0 solve bpts models thresh it env pose0 CE Hh LO nc nb ins t AD TR r0 r1 Et E1) as (G1 & _).
  destruct (calibrateCameraGroup_good svd lr uq pick g0 solve bpts models CE Hh LO nc nb ins t AD TR r1 r2 G1 E2) as (G2 & _).
  destruct (merge_good svd lr uq pick g0 solve bpts models thresh it env pose0 CE Hh LO nc nb ins t AD TR 2 r2 r3 G2 E3) as (G3 & _ & _).
  apply omap_Some in E4 as (prs & E4 & ->). cbn [ru_prs]. destruct prs as [|((a, b), (P, n)) prs]; [reflexivity|exfalso].
  assert (Rd := gd_reached _ _ _ _ _ _ _ _ G3). assert (Hp := trimmed_paired bpts t TR).
  destruct (PropHandEye.C35_poses_stored pt2 svd lr uq pick g0 Hh bpts nc nb ins t AD Hp (ru_s r3) Rd calib2 _ _ E4) as (Ks & _).
  destruct (Ks a b P n) as (N & A & B & HA & HB). { cbn [mfind]. assert (Q : kcmp (a, b) (a, b) = Eq) by (apply kcmp_eq; reflexivity). rewrite Q. reflexivity. }
  destruct (C30_groups_at_any_time pt2 svd lr uq pick g0 Hh bpts nc nb ins t AD Hp (ru_s r3) Rd) as (F1 & F2 & F3 & _).
  assert (M : forall k G, mfind k (ca_groups (ru_s r3)) = Some G -> member (ca_groups (ru_s r3)) k c0).
  { intros k G HG. destruct (F1 k G HG) as (_ & [O1 _ _] & _). assert (Mk : member (ca_groups (ru_s r3)) k (cg_ref G)) by (exists G; auto).
    destruct (F3 (cg_ref G) k Mk) as (m & o & Ho & Ec). destruct (ad_obs_ins nc nb ins t AD m o Ho) as (x & Hx & Ex & _). rewrite (One x (nth_error_In _ _ Hx)) in Ex.
    rewrite <- Ec, Ex in Mk. exact Mk. }
  apply N. apply (F2 c0); eauto.
Qed.
(** A single camera: the run gets through exactly when every image keeps no corner or at least
    four of them. *)
Theorem C55_one_camera :
  forall svd lr uq pick g0 solve bpts models thresh it env pose0 calib2 fixi, ceres solve -> good_heap pick -> log_ok lr -> (forall c n, fair_shuffles (env c n)) ->
  (forall c, models c = 0%Z \/ models c = 1%Z) -> (0 < it)%Z ->
  (forall l l', length l = length l' -> 3 < length l -> exists X, calib2 l l' = Some X) -> (forall l l' X, calib2 l l' = Some X -> rigid X) ->
  forall nc nb (ins : list (insertion pt2)) t0, Forall (known nc nb) ins -> Forall (detected_well bpts) ins -> insert_all (init_tables nc nb) ins = Some t0 ->
  forall c0, (forall i, In i ins -> i_cam i = c0) ->
  forall src p0 gp0 i, initializeCalibrationAllCam bpts models src t0 (pa_intr p0) = Some i ->
  exists t ps, estimatePoseAllBoards (env 0) (cam_of models (mkPar (pa_pose p0) i)) bpts (pose0 0) thresh it t0 = Some (t, ps) /\
    ((exists r, calibrate svd lr uq pick g0 solve bpts models thresh it env pose0 calib2 fixi src t0 p0 gp0 = Some r) <-> four_or_none t).
Proof.
  intros svd lr uq pick g0 solve bpts models thresh it env pose0 calib2 fixi CE Hh LO Fair Mo Hit C2 Rc nc nb ins t0 Kn Dw Ei c0 One src p0 gp0 i In0.
  apply (C55_without_pairs_the_corners_decide svd lr uq pick g0 solve bpts models thresh it env pose0 calib2 fixi CE Hh LO Fair Mo Hit C2 Rc nc nb ins t0 Kn Dw Ei src p0 gp0 i In0).
  intros r E. exact (one_camera_no_pairs svd lr uq pick g0 solve bpts models thresh it env pose0 calib2 fixi CE Hh LO (Fair 0) Rc nc nb ins t0 Kn Dw Ei c0 One src p0 gp0 r E).
Qed.
Print Assumptions C55_one_camera.

(** The steps that only log reprojection errors change nothing, but they can end the run: it
    gets through exactly when the run without them does and OpenCV's projection accepts the
    empty list of points of every board left without corners (cv::projectPoints, perspective
    cameras, does not). *)
Theorem C55_the_log_can_stop_a_run :
  forall accepts svd lr uq pick g0 solve bpts models thresh it env pose0 calib2 fixi, ceres solve -> good_heap pick -> log_ok lr -> (forall n, fair_shuffles (env 0 n)) ->
  (forall c, models c = 0%Z \/ models c = 1%Z) -> (forall l l' X, calib2 l l' = Some X -> rigid X) ->
  forall nc nb (ins : list (insertion pt2)) t0, Forall (known nc nb) ins -> Forall (detected_well bpts) ins -> insert_all (init_tables nc nb) ins = Some t0 ->
  forall src p0 gp0 r, calibrate_logged accepts bpts models svd lr uq pick g0 solve thresh it env pose0 calib2 fixi src t0 p0 gp0 = Some r <->
    calibrate svd lr uq pick g0 solve bpts models thresh it env pose0 calib2 fixi src t0 p0 gp0 = Some r /\
    forall o, In o (mvals (t_obs (ru_t r))) -> o_pts o = [] -> accepts (models (o_cam o)) = true.
Proof. exact calibrate_logged_iff. Qed.
Print Assumptions C55_the_log_can_stop_a_run.

(** Which runs get through, with a single camera: exactly those in which every image keeps no
    corner or at least four, and in which no board of a perspective camera loses all its
    corners (if cv::projectPoints refuses an empty list and its fisheye variant does not). *)
Theorem C55_one_camera_and_the_log :
  forall accepts svd lr uq pick g0 solve bpts models thresh it env pose0 calib2 fixi, ceres solve -> good_heap pick -> log_ok lr -> (forall c n, fair_shuffles (env c n)) ->
  (forall c, models c = 0%Z \/ models c = 1%Z) -> (0 < it)%Z ->
  (forall l l', length l = length l' -> 3 < length l -> exists X, calib2 l l' = Some X) -> (forall l l' X, calib2 l l' = Some X -> rigid X) ->
  accepts 0%Z = false -> accepts 1%Z = true ->
  forall nc nb (ins : list (insertion pt2)) t0, Forall (known nc nb) ins -> Forall (detected_well bpts) ins -> insert_all (init_tables nc nb) ins = Some t0 ->
  forall c0, (forall i, In i ins -> i_cam i = c0) ->
  forall src p0 gp0 i, initializeCalibrationAllCam bpts models src t0 (pa_intr p0) = Some i ->
  exists t ps, estimatePoseAllBoards (env 0) (cam_of models (mkPar (pa_pose p0) i)) bpts (pose0 0) thresh it t0 = Some (t, ps) /\
    ((exists r, calibrate_logged accepts bpts models svd lr uq pick g0 solve thresh it env pose0 calib2 fixi src t0 p0 gp0 = Some r) <->
     (forall f, corners_left t c0 f = 0 \/ 4 <= corners_left t c0 f) /\
     (models c0 = 0%Z -> forall o, In o (mvals (t_obs t)) -> o_pts o <> [])).
Proof.
  intros accepts svd lr uq pick g0 solve bpts models thresh it env pose0 calib2 fixi CE Hh LO Fair Mo Hit C2 Rc A0 A1 nc nb ins t0 Kn Dw Ei c0 One src p0 gp0 i In0.
  destruct (C55_one_camera svd lr uq pick g0 solve bpts models thresh it env pose0 calib2 fixi CE Hh LO Fair Mo Hit C2 Rc nc nb ins t0 Kn Dw Ei c0 One src p0 gp0 i In0) as (t & ps & Ee & H).
  exists t, ps. split; [exact Ee|].
  destruct (estimate_all_boards (env 0) (Fair 0) (cam_of models (mkPar (pa_pose p0) i)) bpts thresh it nc nb ins t0 (pose0 0) Kn Dw Ei) as (t' & ps' & Ee' & AD & _ & _ & TR).
  assert (t' = t) by congruence. subst t'.
  assert (OC : forall o, In o (mvals (t_obs t)) -> o_cam o = c0).
  { intros o Ho. apply In_nth_error in Ho as (n & Ho). destruct (ad_obs_ins nc nb ins t AD n o Ho) as (x & Hx & Ex & _). rewrite Ex. apply One. eapply nth_error_In; eauto. }
  assert (F4 : four_or_none t <-> forall f, corners_left t c0 f = 0 \/ 4 <= corners_left t c0 f).
  { split; [intros F f; apply F|]. intros F c f. destruct (Z.eq_dec c c0) as [->|N]; [apply F|]. left. unfold corners_left.
    assert (Z0 : filter (fun o => andb (Z.eqb (o_cam o) c) (Z.eqb (o_frame o) f)) (mvals (t_obs t)) = []).
    { assert (Q : forall l, (forall o, In o l -> o_cam o = c0) -> filter (fun o : bobs pt2 => andb (Z.eqb (o_cam o) c) (Z.eqb (o_frame o) f)) l = []).
      { induction l as [|o l IH]; intros Q; [reflexivity|]. cbn [filter]. rewrite (Q o (or_introl eq_refl)). destruct (Z.eqb_spec c0 c); [congruence|]. cbn [andb]. apply IH. intros; apply Q; right; auto. }
      apply Q. exact OC. }
    rewrite Z0. reflexivity. }
  assert (TT : forall r, calibrate svd lr uq pick g0 solve bpts models thresh it env pose0 calib2 fixi src t0 p0 gp0 = Some r -> ru_t r = t).
  { intros r E. destruct (calibrate_tables _ _ _ _ _ _ _ _ _ _ _ _ _ _ _ _ _ _ _ E) as (i' & ps2 & In' & Ep). rewrite In0 in In'. injection In' as <-. congruence. }
  assert (LI := fun r => C55_the_log_can_stop_a_run accepts svd lr uq pick g0 solve bpts models thresh it env pose0 calib2 fixi CE Hh LO (Fair 0) Mo Rc nc nb ins t0 Kn Dw Ei src p0 gp0 r).
  split.
  - intros (r & E). apply LI in E as (E & B). split; [apply F4, H; eauto|]. intros M o Ho Z0. rewrite (TT r E) in B. specialize (B o Ho Z0). rewrite (OC o Ho), M, A0 in B. discriminate B.
  - intros (F & B). destruct (proj2 H (proj2 F4 F)) as (r & E). exists r. apply LI. split; [exact E|]. rewrite (TT r E). intros o Ho Z0. rewrite (OC o Ho).
    destruct (Mo c0) as [M|M]; rewrite M; [destruct (B M o Ho Z0)|exact A1].
Qed.
Print Assumptions C55_one_camera_and_the_log.

(** Every completed run had enough corners in all its images, whatever the hand-eye calibration
    may do. *)
Theorem C55_completed_runs_had_four_corners :
  forall svd lr uq pick g0 solve bpts models thresh it env pose0 calib2 fixi, good_heap pick -> log_ok lr -> (forall c n, fair_shuffles (env c n)) ->
  (forall c, models c = 0%Z \/ models c = 1%Z) -> (0 < it)%Z ->
  forall nc nb (ins : list (insertion pt2)) t0, Forall (known nc nb) ins -> Forall (detected_well bpts) ins -> insert_all (init_tables nc nb) ins = Some t0 ->
  forall src p0 gp0 r, calibrate svd lr uq pick g0 solve bpts models thresh it env pose0 calib2 fixi src t0 p0 gp0 = Some r ->
  forall c f, corners_left (ru_t r) c f = 0 \/ 4 <= corners_left (ru_t r) c f.
Proof.
  intros svd lr uq pick g0 solve bpts models thresh it env pose0 calib2 fixi Hh LO Fair Mo Hit nc nb ins t0 Kn Dw Ei src p0 gp0 r E.
  destruct (calibrate_tables _ _ _ _ _ _ _ _ _ _ _ _ _ _ _ _ _ _ _ E) as (i & ps & In0 & Ep).
  destruct (estimate_all_boards (env 0) (Fair 0) (cam_of models (mkPar (pa_pose p0) i)) bpts thresh it nc nb ins t0 (pose0 0) Kn Dw Ei) as (t & ps' & Ee & AD & _ & _ & TR).
  assert (t = ru_t r) by congruence. subst t.
  unfold calibrate in E. apply bind_Some in E as (r0 & E0 & E). apply bind_Some in E as (r1 & E1 & _). unfold initIntrinsic in E0. rewrite In0, Ep in E0. apply omap_Some in E0 as (p & _ & E0).
  assert (Et : ru_t r0 = ru_t r) by (rewrite E0; reflexivity).
  apply (objects_total svd lr uq pick g0 solve bpts models thresh it env pose0 Hh LO Fair Mo Hit nc nb ins (ru_t r) AD TR r0 Et). eauto.
Qed.
Print Assumptions C55_completed_runs_had_four_corners.

(** the plain hand-eye method (he_approach = 1) meets the hypothesis above: it never fails on
    equally long lists *)
Theorem C55_plain_hand_eye_is_total : forall lr he heh svd km shuffle rnd l l', length l = length l' -> exists X, handeye lr he heh svd km shuffle rnd 1 l l' = Some X.
Proof.
  intros lr he heh svd km shuffle rnd l l' E. unfold handeye. cbn [Z.eqb Pos.eqb]. unfold handeyeCalibration. rewrite E, Nat.leb_refl. eauto.
Qed.
Print Assumptions C55_plain_hand_eye_is_total.

(** ** Examples *)
Definition dull_run (ins : list (insertion pt2)) : option run :=
  calibrate (fun _ => Q4 0 0 0 1)%R log0 false pick_first empty_graph (fun _ p => p) grid (fun _ => 0%Z) 1 1000 (fun _ _ => dull_env) (fun _ _ => (vzero, vzero)) (fun _ _ => Some pid) 1%Z NoFile
    (run_of 1 2 ins) (mkPar (fun _ => (vzero, vzero)) (fun _ => I9 1 1 0 0 0 0 0 0 0)%R) (fun _ => (vzero, vzero)).
Lemma dull_one ins : Forall (known 1 2) ins -> Forall one_of_three ins ->
  exists t, map (fun o => (o_cam o, o_frame o, length (o_pts o))) (mvals (t_obs t)) = map kept_of ins /\ ((exists r, dull_run ins = Some r) <-> four_or_none t) /\
    forall r, dull_run ins = Some r -> ru_t r = t.
Proof.
  intros Kn Ot. assert (Dw : Forall (detected_well grid) ins) by (eapply Forall_impl; [|exact Ot]; apply one_detected).
  destruct (insert_all_from_init 1 2 ins Kn) as (t0 & Ei & _). assert (Er : run_of 1 2 ins = t0) by (unfold run_of; rewrite Ei; reflexivity).
  set (p0 := mkPar (fun _ => (vzero, vzero)) (fun _ => I9 1 1 0 0 0 0 0 0 0)%R).
  destruct (proj1 C39_missing_file_leaves_memory grid (fun _ => 0%Z) t0 (pa_intr p0)) as (i & In0 & _).
  destruct (C55_one_camera (fun _ => Q4 0 0 0 1)%R log0 false pick_first empty_graph (fun _ p => p) grid (fun _ => 0%Z) 1%R 1000%Z (fun _ _ => dull_env) (fun _ _ => (vzero, vzero)) (fun _ _ => Some pid) 1%Z
    ceres_idle pick_first_good log0_ok (fun _ _ => dull_fair) (fun _ => or_introl eq_refl) ltac:(lia) (fun _ _ _ _ => ex_intro _ pid eq_refl)) with (nc := 1) (nb := 2) (ins := ins) (t0 := t0) (c0 := 0%Z) (src := NoFile) (p0 := p0) (gp0 := fun _ : nat => (vzero, vzero)) (i := i)
    as (t & ps & Ee & H); auto.
  { intros l l' X Q. injection Q as <-. apply rigid_id. }
  { intros x Hx. rewrite Forall_forall in Kn. destruct (Kn x Hx) as (Q & _). lia. }
  exists t. unfold dull_run. rewrite Er. fold p0. split; [|split; [exact H|]].
  - destruct (dull_tables (cam_of (fun _ => 0%Z) (mkPar (pa_pose p0) i)) (fun _ => (vzero, vzero)) 1000 1 2 ins t0 Kn Ot Ei) as (t' & ps' & Ee' & K); [reflexivity|lia|].
    rewrite Ee in Ee'. injection Ee' as -> _. exact K.
  - intros r E. destruct (calibrate_tables _ _ _ _ _ _ _ _ _ _ _ _ _ _ _ _ _ _ _ E) as (i' & ps' & In' & Ep). rewrite In0 in In'. injection In' as <-. rewrite Ee in Ep. injection Ep as ->. auto.
Qed.
(** A run that gets through although one board keeps only three corners, and another image
    loses all of its corners; it meets the hypotheses of
    [C54_a_board_with_few_corners_left_cannot_be_reused]. *)
Example C55_example_through : exists r, dull_run some_lost = Some r /\ corners_left (ru_t r) 0 0 = 8 /\ corners_left (ru_t r) 0 1 = 0 /\
  exists o, In o (mvals (t_obs (ru_t r))) /\ length (o_pts o) < 4.
Proof.
  destruct some_known as (Kn & Ot). destruct (dull_one some_lost Kn Ot) as (t & K & H & T). rewrite some_kept in K.
  assert (L := left_of t _ K). assert (F : four_or_none t).
  { intros c f. rewrite L. cbn [filter fst snd]. destruct (Z.eqb_spec 0 c), (Z.eqb_spec 0 f), (Z.eqb_spec 1 f); cbn [andb map snd fold_right]; lia. }
  destruct (proj2 H F) as (r & E). exists r. split; [auto|]. rewrite (T r E). split; [rewrite L; reflexivity|]. split; [rewrite L; reflexivity|].
  destruct (mvals (t_obs t)) as [|o1 [|o2 os]]; [discriminate K|discriminate K|]. exists o2. split; [right; left; auto|]. injection K as _ _ _ _ _ K _. lia.
Qed.
(** One image with three corners, and the run ends in undefined behaviour. *)
Example C55_example_stopped : dull_run too_few = None.
Proof.
  destruct few_known as (Kn & Ot). destruct (dull_one too_few Kn Ot) as (t & K & H & T). rewrite few_kept in K.
  destruct (dull_run too_few) as [r|] eqn:E; [exfalso|reflexivity]. destruct (proj1 H (ex_intro _ r eq_refl) 0%Z 1%Z) as [Q|Q]; rewrite (left_of t _ K) in Q; cbn in Q; lia.
Qed.
(** The run of [C55_example_through] loses all corners of a board, so that the log of the errors
    stops it if cv::projectPoints refuses an empty list; with a projection that accepts it, the
    log lets it through. *)
Example C55_example_log : forall accepts, let logged_run := calibrate_logged accepts grid (fun _ => 0%Z) (fun _ => Q4 0 0 0 1)%R log0 false pick_first empty_graph (fun _ p => p) 1 1000 (fun _ _ => dull_env)
    (fun _ _ => (vzero, vzero)) (fun _ _ => Some pid) 1%Z NoFile (run_of 1 2 some_lost) (mkPar (fun _ => (vzero, vzero)) (fun _ => I9 1 1 0 0 0 0 0 0 0)%R) (fun _ => (vzero, vzero)) in
  (accepts 0%Z = false -> logged_run = None) /\ (accepts 0%Z = true -> exists r, logged_run = Some r).
Proof.
  intros accepts logged_run. destruct some_known as (Kn & Ot). destruct (dull_one some_lost Kn Ot) as (t & K & H & T). rewrite some_kept in K.
  assert (Dw : Forall (detected_well grid) some_lost) by (eapply Forall_impl; [|exact Ot]; apply one_detected).
  destruct (insert_all_from_init 1 2 some_lost Kn) as (t0 & Ei & _). assert (Er : run_of 1 2 some_lost = t0) by (unfold run_of; rewrite Ei; reflexivity).
  assert (LI := fun r => C55_the_log_can_stop_a_run accepts (fun _ => Q4 0 0 0 1)%R log0 false pick_first empty_graph (fun _ p => p) grid (fun _ => 0%Z) 1%R 1000%Z (fun _ _ => dull_env) (fun _ _ => (vzero, vzero))
    (fun _ _ => Some pid) 1%Z ceres_idle pick_first_good log0_ok (fun _ => dull_fair) (fun _ => or_introl eq_refl) ltac:(intros l l' X Q; injection Q as <-; apply rigid_id) 1 2 some_lost t0 Kn Dw Ei NoFile
    (mkPar (fun _ => (vzero, vzero)) (fun _ => I9 1 1 0 0 0 0 0 0 0)%R) (fun _ => (vzero, vzero)) r). cbv beta in LI.
  destruct C55_example_through as (r & E & _). assert (Et := T r E). unfold dull_run in E. subst logged_run. rewrite Er in *. split; intros A.
  - match goal with |- ?x = None => assert (N : forall r', x = Some r' -> False) end.
    { intros r' E'. destruct (proj1 (LI _) E') as (E2 & B). assert (r' = r) by congruence. subst r'. rewrite Et in B.
      destruct (mvals (t_obs t)) as [|o1 [|o2 [|o3 os]]]; [discriminate K|discriminate K|discriminate K|]. injection K as _ _ _ _ _ _ _ _ K _.
      specialize (B o3 ltac:(right; right; left; reflexivity)). destruct (o_pts o3); [|discriminate K]. specialize (B eq_refl). congruence. }
    clear LI. match goal with |- ?x = None => destruct x as [r'|] end; [exfalso; eapply N; reflexivity|reflexivity].
  - exists r. apply LI. split; [exact E|]. auto.
Qed.
Print Assumptions C55_example_log.
Print Assumptions C55_example_through.
Print Assumptions C55_example_stopped.
