(** Proofs about the logged workflow *)
From Coq Require Import List ZArith QArith Lia Reals Lra Permutation Sorted Relations.
From Verif Require Import SMap GraphModel GraphSpec GraphPath DataModel DataSpec DataProofs DetectModel DetectSpec DetectProofs RansacModel RansacSpec RansacProofs
  GeomModel GeomSpec GeomProofs GeomMedian ChainModel ChainSpec ChainProofs ChainCam
  ObjectsModel ObjectsSpec ObjectsProofs ObjectsSave ObjectsBuild ObjectsMerge ObjectsObs
  GroupModel GroupSpec GroupProofs GroupMerge GroupObs GroupPose StageModel StageSpec StageProofs StageMain StageCams StageMerge
  PipelineModel PipelineSpec PipelineProofs StalePairs ObjectsMain EstimateAll HandEyeModel HandEyeSpec HandEyeProofs CameraModel ResidualModel ResidualSpec ResidualProofs ResidualMain ResidualGroup
  ResidualSolve ResidualAvg FileModel IntrinsicModel GroupAll PropChain PropObjects PropGroup PropStale PropResidual WorkflowModel WorkflowRigid WorkflowProofs WorkflowReach WorkflowWhole PropSaved LogModel.
Import ListNotations.
Close Scope Q_scope.
Close Scope R_scope.
Open Scope nat_scope.

Lemma logged_Some ok x r : logged ok x = Some r <-> x = Some r /\ ok r = true.
Proof.
  unfold logged. destruct x as [a|]; cbn [bind]; [|split; [intros Q; discriminate Q|intros (Q & _); discriminate Q]].
  destruct (ok a) eqn:E; split; intros Q.
  - injection Q as <-. auto.
  - destruct Q as (Q & _). exact Q.
  - discriminate Q.
  - destruct Q as (Q & A). injection Q as <-. congruence.
Qed.
Lemma bind_intro {A B} (x : option A) (f : A -> option B) a b : x = Some a -> f a = Some b -> bind x f = Some b.
Proof. intros -> H. exact H. Qed.

Section Unconditional.
Variables (accepts : Z -> bool) (svd : (nat -> nat -> R) -> quat) (lr : mat3 -> vec3) (uq : bool) (pick : dstate -> nat) (g0 : graph).
Variables (solve : list block -> params -> params) (bpts : Z -> list vec3) (models : Z -> Z) (thresh : R) (it : Z).
Variables (env : nat -> nat -> rs_env par6 vec3) (pose0 : nat -> nat -> par6).
Variable calib2 : list pose -> list pose -> option pose.
Variable fixi : Z.

Lemma objects_logged_run r r' : calibrate3DObjects_logged accepts bpts models svd lr uq pick g0 solve thresh it env pose0 r = Some r' ->
  run_calibrate3DObjects svd lr uq pick g0 solve bpts models thresh it env pose0 r = Some r'.
Proof.
  intros E. apply bind_Some in E as (r1 & E1 & E). apply bind_Some in E as (r2 & E2 & E). apply logged_Some in E2 as (E2 & _). apply logged_Some in E as (E & _).
  unfold run_calibrate3DObjects. eapply bind_intro; [exact E1|]. eapply bind_intro; [exact E2|exact E].
Qed.
Lemma merge_logged_run c r r' : merge3DObjects_logged accepts bpts models svd lr uq pick g0 solve thresh it env pose0 c r = Some r' ->
  run_merge3DObjects svd lr uq pick g0 solve bpts models thresh it env pose0 c r = Some r'.
Proof.
  intros E. apply bind_Some in E as (r1 & E1 & E). apply bind_Some in E as (r2 & E2 & E). apply bind_Some in E as (r3 & E3 & E). apply bind_Some in E as (r4 & E4 & E). apply bind_Some in E as (r5 & E5 & E).
  apply logged_Some in E2 as (E2 & _). apply logged_Some in E as (E & _).
  unfold run_merge3DObjects. eapply bind_intro; [exact E1|]. eapply bind_intro; [exact E2|]. eapply bind_intro; [exact E3|]. eapply bind_intro; [exact E4|]. eapply bind_intro; [exact E5|exact E].
Qed.
(** the logged steps change nothing *)
Lemma calibrate_logged_run src t0 p0 gp0 r :
  calibrate_logged accepts bpts models svd lr uq pick g0 solve thresh it env pose0 calib2 fixi src t0 p0 gp0 = Some r ->
  calibrate svd lr uq pick g0 solve bpts models thresh it env pose0 calib2 fixi src t0 p0 gp0 = Some r.
Proof.
  intros E. apply bind_Some in E as (r0 & E0 & E). apply bind_Some in E as (r1 & E1 & E). apply bind_Some in E as (r2 & E2 & E). apply bind_Some in E as (r3 & E3 & E).
  apply bind_Some in E as (r4 & E4 & E). apply bind_Some in E as (r5 & E5 & E). apply bind_Some in E as (r6 & E6 & E). apply bind_Some in E as (r7 & E7 & E).
  apply logged_Some in E0 as (E0 & _). apply objects_logged_run in E1. apply merge_logged_run in E3. apply merge_logged_run in E6. apply logged_Some in E as (E & _).
  unfold calibrate. eapply bind_intro; [exact E0|]. eapply bind_intro; [exact E1|]. eapply bind_intro; [exact E2|]. eapply bind_intro; [exact E3|].
  eapply bind_intro; [exact E4|]. eapply bind_intro; [exact E5|]. eapply bind_intro; [exact E6|]. eapply bind_intro; [exact E7|exact E].
Qed.
End Unconditional.

Section Logged.
Variables (accepts : Z -> bool) (svd : (nat -> nat -> R) -> quat) (lr : mat3 -> vec3) (uq : bool) (pick : dstate -> nat) (g0 : graph).
Variables (solve : list block -> params -> params) (bpts : Z -> list vec3) (models : Z -> Z) (thresh : R) (it : Z).
Variables (env : nat -> nat -> rs_env par6 vec3) (pose0 : nat -> nat -> par6).
Variable calib2 : list pose -> list pose -> option pose.
Variable fixi : Z.
Hypothesis CE : ceres solve.
Hypothesis Hh : good_heap pick.
Hypothesis LO : log_ok lr.
Hypothesis Rc : forall l l' X, calib2 l l' = Some X -> rigid X.
Variables (nc nb : nat) (ins : list (insertion pt2)) (t : tables pt2).
Hypothesis AD : after_detection nc nb ins t.
Hypothesis TR : forall o, In o (mvals (t_obs t)) -> trimmed bpts o.
Let Hp : paired t := trimmed_paired bpts t TR.
Notation Good := (good svd lr uq pick g0 bpts t).
Notation Objects := (good_objects svd lr uq pick g0 bpts t).

Lemma in_range_iff {A} (l : list A) ids : in_range l ids = true <-> Forall (fun k => (0 <= k < Z.of_nat (length l))%Z) ids.
Proof.
  unfold in_range. rewrite forallb_forall, Forall_forall. split; intros H x Hx; specialize (H x Hx).
  - apply andb_prop in H as (A1 & A2). apply Z.leb_le in A1. apply Z.ltb_lt in A2. lia.
  - apply andb_true_intro. split; [apply Z.leb_le|apply Z.ltb_lt]; lia.
Qed.
Lemma projected_le m n : projected m n <= n.
Proof. unfold projected. destruct (orb (Z.eqb m 0) (Z.eqb m 1)); lia. Qed.
Lemma projects_some m n : 0 < n -> projects accepts m n = true.
Proof. intros H. unfold projects. apply Nat.ltb_lt in H. rewrite H. destruct (orb (Z.eqb m 0) (Z.eqb m 1)); reflexivity. Qed.

Lemma object_repro_true objs oo o bs : mfind (oo_obj oo) objs = Some o -> well_built bpts bs o -> gathers t o oo -> object_repro accepts models objs oo = true.
Proof.
  intros Ho W G. unfold object_repro. rewrite Ho. destruct (gathers_lengths bpts t TR o oo bs W G) as (L & Rg).
  assert (NE := ga_nonempty _ _ _ G). assert (P : 0 < length (oo_ids oo)) by (rewrite L; destruct (oo_pts oo); [contradiction|cbn; lia]).
  rewrite (proj2 (in_range_iff _ _) Rg), (projects_some _ _ P). cbn [andb]. apply Nat.leb_le. rewrite <- L. apply projected_le.
Qed.
Lemma all_objects_true s : (forall k o, In (k, o) (ca_objs s) -> exists bs, well_built bpts bs o) ->
  (forall oo, In oo (ot_all (ca_oobs s)) -> exists o, mfind (oo_obj oo) (ca_objs s) = Some o /\ gathers t o oo) ->
  computeReproErrAllObject accepts models s = true /\ reproErrorAllCamGroup accepts models s = true.
Proof.
  intros WB GA. assert (ONE : forall oo, In oo (ot_all (ca_oobs s)) -> object_repro accepts models (ca_objs s) oo = true).
  { intros oo H. destruct (GA oo H) as (o & Ho & G). destruct (WB _ _ (mfind_In _ _ _ Ho)) as (bs & W). eapply object_repro_true; eauto. }
  split; [apply forallb_forall; exact ONE|]. apply forallb_forall. intros G _. apply forallb_forall. intros (k, n) _. cbn [snd].
  unfold view_data. destruct (nth_error (ot_all (ca_oobs s)) n) as [oo|] eqn:En; [|reflexivity]. destruct (mfind (oo_obj oo) (ca_objs s)) eqn:Eo; [|reflexivity].
  apply ONE. eapply nth_error_In; eauto.
Qed.
Lemma good_logs r : Good r -> computeReproErrAllObject accepts models (ru_s r) = true /\ reproErrorAllCamGroup accepts models (ru_s r) = true.
Proof.
  intros G. destruct (reached_gathers bpts svd lr uq pick g0 Hh nc nb ins t AD TR (ru_s r) (gd_reached _ _ _ _ _ _ _ _ G)) as (A & B). apply all_objects_true; auto.
Qed.
Lemma objects_logs r : Objects r -> computeReproErrAllObject accepts models (ru_s r) = true.
Proof.
  intros G. destruct (go_run _ _ _ _ _ _ _ _ G) as (bp & rf & K & E).
  destruct (first_gathers bpts svd lr uq pick g0 Hh nc nb ins t AD TR bp rf (ru_s r) K E) as (A & B). apply all_objects_true; auto.
Qed.

Lemma objects_run_logged r r' : ru_t r = t -> run_calibrate3DObjects svd lr uq pick g0 solve bpts models thresh it env pose0 r = Some r' ->
  calibrate3DObjects_logged accepts bpts models svd lr uq pick g0 solve thresh it env pose0 r = Some r'.
Proof.
  intros Et E0. assert (E := E0). apply bind_Some in E as (r1 & E1 & E). apply bind_Some in E as (r2 & E2 & E).
  destruct (new_objects_good svd lr uq pick g0 bpts Hh LO nc nb ins t AD TR r r1 Et E1) as (G1 & _).
  destruct (estimate_good_objects svd lr uq pick g0 bpts models thresh it env pose0 t 1 r1 r2 G1 E2) as (G2 & _ & _).
  destruct (calibrate3DObjects_good svd lr uq pick g0 solve bpts models thresh it env pose0 CE Hh LO nc nb ins t AD TR r r' Et E0) as (G3 & _).
  unfold calibrate3DObjects_logged. eapply bind_intro; [exact E1|]. eapply bind_intro; [apply logged_Some; split; [exact E2|apply objects_logs; auto]|].
  apply logged_Some. split; [exact E|apply objects_logs; auto].
Qed.
Lemma merge_run_logged c r r' : Good r -> run_merge3DObjects svd lr uq pick g0 solve bpts models thresh it env pose0 c r = Some r' ->
  merge3DObjects_logged accepts bpts models svd lr uq pick g0 solve thresh it env pose0 c r = Some r'.
Proof.
  intros G E0. assert (E := E0). apply bind_Some in E as (r1 & E1 & E). apply bind_Some in E as (r2 & E2 & E). apply bind_Some in E as (r3 & E3 & E). apply bind_Some in E as (r4 & E4 & E). apply bind_Some in E as (r5 & E5 & E).
  destruct (good_estimate svd lr uq pick g0 bpts models thresh it env pose0 t c r r1 G E1) as (G1 & _). destruct (good_group_poses svd lr uq pick g0 bpts t r1 r2 G1 E2) as (G2 & _).
  destruct (merge_good svd lr uq pick g0 solve bpts models thresh it env pose0 CE Hh LO nc nb ins t AD TR c r r' G E0) as (G6 & _).
  unfold merge3DObjects_logged. eapply bind_intro; [exact E1|]. eapply bind_intro; [apply logged_Some; split; [exact E2|apply good_logs; auto]|].
  eapply bind_intro; [exact E3|]. eapply bind_intro; [exact E4|]. eapply bind_intro; [exact E5|]. apply logged_Some. split; [exact E|apply good_logs; auto].
Qed.
(** calibrate.cpp 19-66 *)
Lemma stages_logged r r' : ru_t r = t ->
  bind (run_calibrate3DObjects svd lr uq pick g0 solve bpts models thresh it env pose0 r) (fun r =>
  bind (run_calibrateCameraGroup svd lr uq pick g0 solve bpts models r) (fun r =>
  bind (run_merge3DObjects svd lr uq pick g0 solve bpts models thresh it env pose0 2 r) (fun r =>
  bind (run_pairs calib2 r) (fun r =>
  bind (run_mergeGroups lr pick g0 r) (fun r =>
  bind (run_merge3DObjects svd lr uq pick g0 solve bpts models thresh it env pose0 4 r) (fun r =>
  bind (run_mergeGroups lr pick g0 r) (run_final svd lr uq solve bpts models thresh it env pose0 fixi))))))) = Some r' ->
  bind (calibrate3DObjects_logged accepts bpts models svd lr uq pick g0 solve thresh it env pose0 r) (fun r =>
  bind (run_calibrateCameraGroup svd lr uq pick g0 solve bpts models r) (fun r =>
  bind (merge3DObjects_logged accepts bpts models svd lr uq pick g0 solve thresh it env pose0 2 r) (fun r =>
  bind (run_pairs calib2 r) (fun r =>
  bind (run_mergeGroups lr pick g0 r) (fun r =>
  bind (merge3DObjects_logged accepts bpts models svd lr uq pick g0 solve thresh it env pose0 4 r) (fun r =>
  bind (run_mergeGroups lr pick g0 r) (final_logged accepts bpts models svd lr uq solve thresh it env pose0 fixi))))))) = Some r'.
Proof.
  intros Et E. assert (GL := stages_good svd lr uq pick g0 solve bpts models thresh it env pose0 calib2 fixi CE Hh LO Rc nc nb ins t AD TR r r' Et E).
  apply bind_Some in E as (r1 & E1 & E). apply bind_Some in E as (r2 & E2 & E). apply bind_Some in E as (r3 & E3 & E).
  apply bind_Some in E as (r4 & E4 & E). apply bind_Some in E as (r5 & E5 & E). apply bind_Some in E as (r6 & E6 & E). apply bind_Some in E as (r7 & E7 & E).
  destruct (calibrate3DObjects_good svd lr uq pick g0 solve bpts models thresh it env pose0 CE Hh LO nc nb ins t AD TR r r1 Et E1) as (G1 & _).
  destruct (calibrateCameraGroup_good svd lr uq pick g0 solve bpts models CE Hh LO nc nb ins t AD TR r1 r2 G1 E2) as (G2 & _).
  destruct (merge_good svd lr uq pick g0 solve bpts models thresh it env pose0 CE Hh LO nc nb ins t AD TR 2 r2 r3 G2 E3) as (G3 & _ & _).
  destruct (good_pairs svd lr uq pick g0 bpts calib2 Hh Rc nc nb ins t AD TR r3 r4 G3 E4) as (G4 & _ & Rp & PG4).
  assert (Sorted4 : msorted (ru_prs r4)).
  { assert (Q := E4). apply omap_Some in Q as (prs & Q & Er4). rewrite Er4. cbn [ru_prs].
    exact (fold_sorted (fun k : Z * Z => initNonOverlapPair calib2 (ca_gobs (ru_s r3)) (fun k0 o => as_matrix (pa_pose (ru_p r3) (KGroup k0 o))) (findPairObjectForNonOverlap (ru_s r3)) (fst k) (snd k))
      (distinct_pairs (ca_groups (ru_s r3))) [] prs ltac:(constructor) Q). }
  assert (Rp4 : forall k P n, In (k, (P, n)) (ru_prs r4) -> rigid P) by (intros k P n H; apply (Rp k P n); apply In_mfind; auto).
  destruct (reached_ok svd lr uq pick g0 Hh bpts nc nb ins t AD Hp _ (gd_reached _ _ _ _ _ _ _ _ G4)) as (bss4 & ol4 & css4 & gl4 & CO4).
  assert (UP4 : pairs_usable (ru_prs r4) (ru_s r4)) by (apply proper_usable; eapply pairs_within_proper; eauto).
  destruct (good_merge_groups svd lr uq pick g0 bpts models it env pose0 Hh LO nc nb ins t AD TR r4 r5 G4 Rp4 UP4 E5) as (G5 & _ & _).
  eapply bind_intro; [apply objects_run_logged; eauto|]. eapply bind_intro; [exact E2|]. eapply bind_intro; [apply merge_run_logged; eauto|]. eapply bind_intro; [exact E4|].
  eapply bind_intro; [exact E5|]. eapply bind_intro; [apply merge_run_logged; eauto|]. eapply bind_intro; [exact E7|]. apply logged_Some. split; [exact E|apply good_logs; auto].
Qed.
End Logged.

(** whether the boards left without corners stop the run *)
Lemma boards_logged accepts bpts models (t : tables pt2) : (forall c, models c = 0%Z \/ models c = 1%Z) -> (forall o, In o (mvals (t_obs t)) -> trimmed bpts o) ->
  (computeReproErrAllBoard accepts bpts models t = true <-> forall o, In o (mvals (t_obs t)) -> o_pts o = [] -> accepts (models (o_cam o)) = true).
Proof.
  intros Mo TR. unfold computeReproErrAllBoard. rewrite forallb_forall. split; intros H o Ho; destruct (TR o Ho) as (L & Rg & _).
  - intros E. specialize (H o Ho). unfold board_repro in H. apply andb_prop in H as (_ & H). apply andb_prop in H as (H & _). rewrite <- L, E in H. cbn [length] in H. unfold projects in H.
    destruct (Mo (o_cam o)) as [M|M]; rewrite M in *; cbn in H; exact H.
  - unfold board_repro. rewrite (proj2 (in_range_iff _ _) Rg). cbn [andb]. apply andb_true_intro. split.
    + destruct (o_pts o) eqn:E.
      * unfold projects. rewrite (H o Ho E), Bool.orb_true_r. destruct (orb _ _); reflexivity.
      * apply projects_some. rewrite <- L. cbn. lia.
    + apply Nat.leb_le. rewrite L. apply projected_le.
Qed.
Lemma calibrate_logged_iff :
  forall accepts svd lr uq pick g0 solve bpts models thresh it env pose0 calib2 fixi, ceres solve -> good_heap pick -> log_ok lr -> (forall n, fair_shuffles (env 0 n)) ->
  (forall c, models c = 0%Z \/ models c = 1%Z) -> (forall l l' X, calib2 l l' = Some X -> rigid X) ->
  forall nc nb (ins : list (insertion pt2)) t0, Forall (known nc nb) ins -> Forall (detected_well bpts) ins -> insert_all (init_tables nc nb) ins = Some t0 ->
  forall src p0 gp0 r, calibrate_logged accepts bpts models svd lr uq pick g0 solve thresh it env pose0 calib2 fixi src t0 p0 gp0 = Some r <->
    calibrate svd lr uq pick g0 solve bpts models thresh it env pose0 calib2 fixi src t0 p0 gp0 = Some r /\
    forall o, In o (mvals (t_obs (ru_t r))) -> o_pts o = [] -> accepts (models (o_cam o)) = true.
Proof.
  intros accepts svd lr uq pick g0 solve bpts models thresh it env pose0 calib2 fixi CE Hh LO Fair Mo Rc nc nb ins t0 Kn Dw Ei src p0 gp0 r.
  assert (QQ : calibrate svd lr uq pick g0 solve bpts models thresh it env pose0 calib2 fixi src t0 p0 gp0 = Some r ->
    (calibrate_logged accepts bpts models svd lr uq pick g0 solve thresh it env pose0 calib2 fixi src t0 p0 gp0 = Some r <-> computeReproErrAllBoard accepts bpts models (ru_t r) = true)).
  { intros E. destruct (calibrate_tables _ _ _ _ _ _ _ _ _ _ _ _ _ _ _ _ _ _ _ E) as (i & ps & In0 & Ep).
    destruct (calibrate_good svd lr uq pick g0 solve bpts models thresh it env pose0 calib2 fixi CE Hh LO Fair Rc nc nb ins t0 Kn Dw Ei src p0 gp0 r E) as (AD & TR & _).
    assert (E' := E). apply bind_Some in E' as (r0 & E0 & E'). assert (Et : ru_t r0 = ru_t r).
    { unfold initIntrinsic in E0. rewrite In0, Ep in E0. apply omap_Some in E0 as (p & _ & ->). reflexivity. }
    assert (SL := stages_logged accepts svd lr uq pick g0 solve bpts models thresh it env pose0 calib2 fixi CE Hh LO Rc nc nb ins (ru_t r) AD TR r0 r Et E').
    unfold calibrate_logged, initIntrinsic_logged, logged at 1. rewrite E0. cbn [bind]. rewrite Et. destruct (computeReproErrAllBoard accepts bpts models (ru_t r)) eqn:B.
    - split; [reflexivity|]. intros _. cbn [bind]. exact SL.
    - cbn [bind]. split; intros Q; discriminate Q. }
  assert (BB : calibrate svd lr uq pick g0 solve bpts models thresh it env pose0 calib2 fixi src t0 p0 gp0 = Some r ->
    (computeReproErrAllBoard accepts bpts models (ru_t r) = true <-> forall o, In o (mvals (t_obs (ru_t r))) -> o_pts o = [] -> accepts (models (o_cam o)) = true)).
  { intros E. apply boards_logged; auto. apply (calibrate_good svd lr uq pick g0 solve bpts models thresh it env pose0 calib2 fixi CE Hh LO Fair Rc nc nb ins t0 Kn Dw Ei src p0 gp0 r E). }
  split.
  - intros E. assert (E1 := calibrate_logged_run _ _ _ _ _ _ _ _ _ _ _ _ _ _ _ _ _ _ _ _ E). split; [exact E1|]. apply (BB E1), (QQ E1), E.
  - intros (E & A). apply (QQ E), (BB E), A.
Qed.
