(** Whole runs: the merges of camera groups, and the state at the end. *)
From Coq Require Import List ZArith QArith Lia Reals Lra Permutation Sorted Relations.
From Verif Require Import SMap GraphModel GraphSpec DataModel DataSpec DataProofs DetectModel DetectSpec DetectProofs RansacModel RansacSpec RansacProofs
  GeomModel GeomSpec GeomProofs GeomMedian ChainModel ChainSpec ChainProofs ChainCam
  ObjectsModel ObjectsSpec ObjectsProofs ObjectsSave ObjectsBuild ObjectsMerge ObjectsObs
  GroupModel GroupSpec GroupProofs GroupMerge GroupObs StageModel StageSpec StageProofs StageMain StageCams StageMerge
  PipelineModel PipelineSpec PipelineProofs StalePairs ObjectsMain EstimateAll HandEyeModel HandEyeSpec HandEyeProofs CameraModel ResidualModel ResidualSpec ResidualProofs ResidualMain ResidualGroup
  ResidualSolve FileModel IntrinsicModel GroupAll PropChain PropGroup PropHandEye PropStale PropResidual WorkflowModel WorkflowRigid WorkflowProofs WorkflowReach.
Import ListNotations.
Close Scope Q_scope.
Close Scope R_scope.
Open Scope nat_scope.

(** a pose for (a, b) comes with one for (b, a) *)
Definition symmetric_pairs (prs : smap (Z * Z) (pose * nat)) : Prop := forall a b, has_pair prs a b -> has_pair prs b a.

Section Whole.
Variables (svd : (nat -> nat -> R) -> quat) (lr : mat3 -> vec3) (uq : bool) (pick : dstate -> nat) (g0 : graph).
Variables (bpts : Z -> list vec3).
Hypothesis Hh : good_heap pick.
Variables (nc nb : nat) (ins : list (insertion pt2)) (t : tables pt2).
Hypothesis AD : after_detection nc nb ins t.
Hypothesis Hp : paired t.
Notation Reached := (reached svd lr uq pick g0 bpts t).

Lemma sees_group s bss ol css gl G o f : calib_ok bpts t bss ol css gl s -> sees_in (ot_all (ca_oobs s)) G o f -> group_sees t G.
Proof.
  intros CO (oo & Ho & _ & Co & _). destruct (co_obs _ _ _ _ _ _ _ CO oo Ho) as (i & o' & _ & _ & Ga). destruct (ga_content _ _ _ Ga) as (bs & F2 & _ & Pts & _).
  assert (Ne := ga_nonempty _ _ _ Ga). rewrite Pts in Ne.
  assert (E : exists b0, In b0 bs /\ o_pts b0 <> []).
  { clear - Ne. induction bs as [|b0 bs IH]; [cbn in Ne; congruence|]. cbn in Ne. destruct (o_pts b0) eqn:E0.
    - destruct IH as (x & Hx & Px); auto. exists x. split; auto. right. auto.
    - exists b0. split; [left; auto|congruence]. }
  destruct E as (b0 & Hb & Pb).
  assert (Q : exists n, In n (oo_bobs oo) /\ obs_at t n b0).
  { clear - F2 Hb. induction F2 as [|n b l l' H F IH]; [destruct Hb|]. destruct Hb as [<-|Hb]; [exists n; split; [left; auto|auto]|]. destruct (IH Hb) as (m & A & B). exists m. split; [right; auto|auto]. }
  destruct Q as (n & Hn & On). apply (ga_bobs _ _ _ Ga) in Hn as (b' & Hb' & Cb & _). assert (b' = b0) by (unfold obs_at in *; congruence). subst b'.
  exists n, b0. rewrite Cb. auto.
Qed.
(** the poses of pairs of groups *)
Lemma pairs_found calib2 gp s prs : Reached s -> findPoseNoOverlapAllCamGroup calib2 gp (findPairObjectForNonOverlap s) s = Some prs ->
  pairs_within t prs s.
Proof.
  intros Rd EP a b Hab. split.
  - destruct Hab as (P & n & Hab). apply (proj1 (C35_poses_stored pt2 svd lr uq pick g0 Hh bpts nc nb ins t AD Hp s Rd calib2 gp prs EP) a b P n Hab).
  - destruct (C35_poses_stored pt2 svd lr uq pick g0 Hh bpts nc nb ins t AD Hp s Rd calib2 gp prs EP) as (Ks & St). destruct Hab as (P & n & Hab).
    destruct (Ks a b P n Hab) as (N & A & B & HA & HB).
    destruct (St a b A B N HA HB) as (o1 & o2 & F & Eo & SF & IF & L3 & G3). destruct (le_lt_dec (length F) 3) as [L|L]; [rewrite L3 in Hab by auto; discriminate|].
    destruct F as [|f F]; [cbn in L; lia|]. destruct (proj1 (IF f) (or_introl eq_refl)) as (S1 & S2).
    destruct (reached_ok svd lr uq pick g0 Hh bpts nc nb ins t AD Hp s Rd) as (bss & ol & css & gl & CO).
    split; [exists A|exists B]; (split; [auto|]); eapply sees_group; eauto.
Qed.
Lemma pairs_rigid calib2 gp s prs : Reached s -> (forall l l' X, calib2 l l' = Some X -> rigid X) ->
  findPoseNoOverlapAllCamGroup calib2 gp (findPairObjectForNonOverlap s) s = Some prs -> forall k P n, mfind k prs = Some (P, n) -> rigid P.
Proof.
  intros Rd Rc EP (a, b) P n H.
  destruct (C35_poses_stored pt2 svd lr uq pick g0 Hh bpts nc nb ins t AD Hp s Rd calib2 gp prs EP) as (Ks & St).
  destruct (Ks a b P n H) as (N & A & B & HA & HB). destruct (St a b A B N HA HB) as (o1 & o2 & F & Eo & SF & IF & L3 & G3).
  destruct (le_lt_dec (length F) 3) as [L|L]; [rewrite L3 in H by auto; discriminate H|]. destruct (G3 L) as (X & EX & Es). assert (P = pinv X) by congruence. subst P.
  apply rigid_inv. eauto.
Qed.
(** after the first merge every group has seen something *)
Lemma merged_sees prs s s' : Reached s -> pairs_within t prs s -> mergeGroups pick g0 t prs s = Some s' ->
  Reached s' /\ forall k G, mfind k (ca_groups s') = Some G -> group_sees t G.
Proof.
  intros Rd PG EM. destruct (reached_ok svd lr uq pick g0 Hh bpts nc nb ins t AD Hp s Rd) as (bss & ol & css & gl & CO).
  assert (PP := pairs_within_proper bpts t prs s bss ol css gl CO PG). assert (UP : pairs_usable prs s) by (apply proper_usable; auto).
  split; [eapply rd_groups; eauto|].
  destruct (groups_keep_ok pick g0 Hh bpts nc nb ins t AD prs s s' bss ol css gl CO UP EM) as (css' & gl' & CO' & _ & _ & PV & L1 & _ & _ & Mc).
  destruct (C30_merging_groups pt2 svd lr uq pick g0 Hh bpts nc nb ins t AD Hp prs s s' Rd UP EM) as (CM & SM).
  set (obs := observed_groups (ca_groups s) (ca_gobs s)) in *. set (es := map (fun '(k, (_, n)) => (k, n)) prs) in *.
  assert (OS := observed_sees bpts t s bss ol css gl CO). fold obs in OS.
  assert (GK := co_groups_ok _ _ _ _ _ _ _ CO). assert (GK' := co_groups_ok _ _ _ _ _ _ _ CO').
  intros k G HG. assert (HG0 := HG). rewrite (co_groups _ _ _ _ _ _ _ CO') in HG. apply mfind_In, dense_In in HG as (i & -> & HG).
  destruct (nth_error_length_ex gl' css' i G (eq_sym (gk_len _ _ GK')) HG) as (cs' & Hcs').
  assert (GO : group_origin G) by (eapply gk_or; eauto). assert (GR : grouped cs' G) by (eapply gk_wb; eauto).
  assert (Hr := go_member _ GO). rewrite (gr_cams _ _ GR) in Hr. apply in_map_iff in Hr as ((c0, Q) & Ec & Hr). cbn [fst] in Ec. subst c0.
  destruct (nth_error (connectedComponents (covis_graph g0 (vertices obs es) es)) i) as [c|] eqn:Ec.
  2:{ apply nth_error_None in Ec. assert (i < length gl') by (apply nth_error_Some; congruence). lia. }
  destruct (proj1 (Mc i c cs' Ec Hcs' (cg_ref G) Q) Hr) as (j & bs & T & P & Hj & Hbs & HP & _ & _).
  assert (Oj : In (Z.of_nat j) obs).
  { destruct (comp_facts _ _ PV g0 c (nth_error_In _ _ Ec)) as (_ & Sub & _). apply Sub in Hj.
    rewrite vertices_In in Hj by apply PP. destruct Hj as [Hj1|(b & Hj1)]; auto. eapply PP; eauto. }
  apply OS in Oj as (Gj & HGj & Se). destruct Se as (n & b & Hn & Hb & Hc).
  destruct (CM (Z.of_nat j) Gj (o_cam b) HGj (ex_intro _ n (ex_intro _ b (conj Hn (conj Hb Hc)))) Hc) as (k' & Mk').
  assert (Mr : member (ca_groups s) (Z.of_nat j) (cg_ref G)).
  { rewrite (co_groups _ _ _ _ _ _ _ CO). apply (member_nth css gl _ _ GK). exists j, bs. split; [auto|]. split; [auto|]. apply in_map_iff. exists (cg_ref G, P). auto. }
  assert (k' = Z.of_nat i).
  { refine (proj2 (SM (o_cam b) (cg_ref G) (Z.of_nat j) (Z.of_nat j) k' (Z.of_nat i) _ Mr Mk' _) (rst_refl _ _ _)); [exists Gj; auto|]. exists G. split; [auto|apply GO]. }
  subst k'. destruct Mk' as (G' & HG' & Hc'). assert (G' = G) by congruence. subst G'. exists n, b. auto.
Qed.
Lemma second_usable prs s : Reached s -> (forall k G, mfind k (ca_groups s) = Some G -> group_sees t G) ->
  (forall a b, has_pair prs a b -> a <> b /\ (0 <= a)%Z /\ (0 <= b)%Z) -> pairs_usable prs s.
Proof.
  intros Rd Se Ne. destruct (reached_ok svd lr uq pick g0 Hh bpts nc nb ins t AD Hp s Rd) as (bss & ol & css & gl & CO). constructor.
  - intros a [H|H]; apply mfind_edges in H; apply Ne in H; tauto.
  - intros a b H. assert (H' : (0 <= a)%Z) by (destruct H as [H|H]; apply mfind_edges in H; apply Ne in H; tauto). clear H. rename H' into H. destruct (Z.le_gt_cases (Z.of_nat (length (ca_groups s))) a) as [L|L]; [right; auto|left].
    apply (observed_sees bpts t s bss ol css gl CO). assert (Eg := co_groups _ _ _ _ _ _ _ CO). rewrite Eg, dense_length in L.
    destruct (nth_error gl (Z.to_nat a)) as [G|] eqn:E; [|apply nth_error_None in E; lia].
    assert (HG : mfind a (ca_groups s) = Some G) by (rewrite Eg; replace a with (Z.of_nat (Z.to_nat a)) by lia; apply dense_nth; auto).
    exists G. split; [auto|eauto].
Qed.
End Whole.

Lemma fold_sorted (v : Z * Z -> option (option (pose * nat))) l : forall m r, msorted m ->
  fold_left (fun acc k => match acc with None => None | Some m => match v k with None => None | Some None => Some m | Some (Some w) => Some (mset k w m) end end) l (Some m) = Some r -> msorted r.
Proof.
  induction l as [|k l IH]; intros m r S E; cbn [fold_left] in E; [injection E as <-; auto|]. destruct (v k) as [[w|]|].
  - eapply IH; [|eauto]. apply mset_sorted; auto.
  - eapply IH; eauto.
  - exfalso. revert E. clear. induction l as [|x l IH]; cbn [fold_left]; [intros H; discriminate H|exact IH].
Qed.
Section Runs.
Variables (svd : (nat -> nat -> R) -> quat) (lr : mat3 -> vec3) (uq : bool) (pick : dstate -> nat) (g0 : graph).
Variables (solve : list block -> params -> params) (bpts : Z -> list vec3) (models : Z -> Z) (thresh : R) (it : Z).
Variables (env : nat -> nat -> rs_env par6 vec3) (pose0 : nat -> nat -> par6).
Variable calib2 : list pose -> list pose -> option pose.
Variable fix_intrinsic : Z.
Hypothesis CE : ceres solve.
Hypothesis Hh : good_heap pick.
Hypothesis LO : log_ok lr.
Hypothesis Rc : forall l l' X, calib2 l l' = Some X -> rigid X.
Variables (nc nb : nat) (ins : list (insertion pt2)) (t : tables pt2).
Hypothesis AD : after_detection nc nb ins t.
Hypothesis TR : forall o, In o (mvals (t_obs t)) -> trimmed bpts o.
Let Hp : paired t := trimmed_paired bpts t TR.
Notation Good := (good svd lr uq pick g0 bpts t).

Lemma good_pairs r r' : Good r -> run_pairs calib2 r = Some r' ->
  Good r' /\ ru_s r' = ru_s r /\ (forall k P n, mfind k (ru_prs r') = Some (P, n) -> rigid P) /\
  pairs_within t (ru_prs r') (ru_s r').
Proof.
  intros [A B C D F] E. apply omap_Some in E as (prs & E & ->). split; [constructor; auto|]. split; [reflexivity|]. cbn [ru_prs ru_s]. split.
  - exact (pairs_rigid svd lr uq pick g0 bpts Hh nc nb ins t AD Hp calib2 _ (ru_s r) prs B Rc E).
  - exact (pairs_found svd lr uq pick g0 bpts Hh nc nb ins t AD Hp calib2 _ (ru_s r) prs B E).
Qed.
Lemma good_merge_groups r r' : Good r -> (forall k P n, In (k, (P, n)) (ru_prs r) -> rigid P) -> pairs_usable (ru_prs r) (ru_s r) ->
  run_mergeGroups lr pick g0 r = Some r' -> Good r' /\ ru_prs r' = ru_prs r /\ mergeGroups pick g0 t (ru_prs r) (ru_s r) = Some (ru_s r').
Proof.
  intros [A B C D F] Rp UP E. apply omap_Some in E as (s & E & ->). rewrite A in E. cbn [with_ps ru_prs ru_s]. split; [|auto].
  assert (Rd : reached svd lr uq pick g0 bpts t s) by (exact (rd_groups svd lr uq pick g0 bpts t (ru_prs r) (ru_s r) s B UP E)).
  assert (Rg : rigid_groups (ca_groups s)) by (eapply mergeGroups_rigid; eauto).
  destruct (reached_ok svd lr uq pick g0 Hh bpts nc nb ins t AD Hp s Rd) as (bss & ol & css & gl & CO).
  assert (EO : ca_objs s = ca_objs (ru_s r)).
  { unfold mergeGroups in E. destruct (mergeCameraGroup _ _ _ _); [|discriminate E]. injection E as <-. reflexivity. }
  constructor; cbn [with_ps ru_t ru_s ru_p]; [auto|auto| |rewrite EO; auto|auto].
  apply put_cams_represents; [auto|auto| |].
  - intros k G H. rewrite (co_groups _ _ _ _ _ _ _ CO) in *. eapply dense_own_group; eauto. apply (co_groups_ok _ _ _ _ _ _ _ CO).
  - rewrite EO. apply represents_split in C. tauto.
Qed.
Lemma good_final r r' : Good r -> run_final svd lr uq solve bpts models thresh it env pose0 fix_intrinsic r = Some r' -> Good r' /\ ru_prs r' = ru_prs r.
Proof.
  intros G E. apply bind_Some in E as (r1 & E1 & E). apply bind_Some in E as (r2 & E2 & E). apply bind_Some in E as (r3 & E3 & E).
  destruct (good_estimate svd lr uq pick g0 bpts models thresh it env pose0 t 6 r r1 G E1) as (G1 & _ & P1).
  destruct (good_group_poses svd lr uq pick g0 bpts t r1 r2 G1 E2) as (G2 & _ & P2).
  destruct (good_refine svd lr uq pick g0 solve bpts models CE Hh nc nb ins t AD TR r2 r3 G2 E3) as (G3 & _ & _ & _ & P3).
  destruct (Z.eqb fix_intrinsic 0).
  - destruct (good_refine_all svd lr uq pick g0 solve bpts models CE Hh nc nb ins t AD TR r3 r' G3 E) as (G4 & P4). split; [auto|congruence].
  - injection E as <-. split; [auto|congruence].
Qed.
Lemma regroup_sees q gs : (forall k G, mfind k gs = Some G -> group_sees t G) -> forall k G, mfind k (refine_groups q gs) = Some G -> group_sees t G.
Proof.
  intros H k G. unfold refine_groups. intros E. 
  assert (Q : exists G0, mfind k gs = Some G0 /\ cg_cams G = cg_cams G0).
  { clear H. induction gs as [|(a, x) gs IH]; cbn [map mfind] in *; [discriminate E|]. destruct (kcmp k a); [injection E as <-; eauto|apply IH; auto|apply IH; auto]. }
  destruct Q as (G0 & E0 & Ec). destruct (H k G0 E0) as (n & b & A & B & C). exists n, b. rewrite Ec. auto.
Qed.
(** calibrate.cpp 34-72 *)
Lemma stages_good r r' : ru_t r = t ->
  bind (run_calibrate3DObjects svd lr uq pick g0 solve bpts models thresh it env pose0 r) (fun r =>
  bind (run_calibrateCameraGroup svd lr uq pick g0 solve bpts models r) (fun r =>
  bind (run_merge3DObjects svd lr uq pick g0 solve bpts models thresh it env pose0 2 r) (fun r =>
  bind (run_pairs calib2 r) (fun r =>
  bind (run_mergeGroups lr pick g0 r) (fun r =>
  bind (run_merge3DObjects svd lr uq pick g0 solve bpts models thresh it env pose0 4 r) (fun r =>
  bind (run_mergeGroups lr pick g0 r) (run_final svd lr uq solve bpts models thresh it env pose0 fix_intrinsic))))))) = Some r' -> Good r'.
Proof.
  intros Et E. apply bind_Some in E as (r1 & E1 & E). apply bind_Some in E as (r2 & E2 & E). apply bind_Some in E as (r3 & E3 & E).
  apply bind_Some in E as (r4 & E4 & E). apply bind_Some in E as (r5 & E5 & E). apply bind_Some in E as (r6 & E6 & E). apply bind_Some in E as (r7 & E7 & E).
  destruct (calibrate3DObjects_good svd lr uq pick g0 solve bpts models thresh it env pose0 CE Hh LO nc nb ins t AD TR r r1 Et E1) as (G1 & _).
  destruct (calibrateCameraGroup_good svd lr uq pick g0 solve bpts models CE Hh LO nc nb ins t AD TR r1 r2 G1 E2) as (G2 & _).
  destruct (merge_good svd lr uq pick g0 solve bpts models thresh it env pose0 CE Hh LO nc nb ins t AD TR 2 r2 r3 G2 E3) as (G3 & _ & _).
  destruct (good_pairs r3 r4 G3 E4) as (G4 & _ & Rp & PG4).
  assert (P5 : ru_prs r5 = ru_prs r4) by (apply omap_Some in E5 as (? & _ & ->); reflexivity).
  assert (P7 : ru_prs r7 = ru_prs r6) by (apply omap_Some in E7 as (? & _ & ->); reflexivity).
  assert (Sorted4 : msorted (ru_prs r4)).
  { apply omap_Some in E4 as (prs & E4 & ->). cbn [ru_prs].
    exact (fold_sorted (fun k : Z * Z => initNonOverlapPair calib2 (ca_gobs (ru_s r3)) (fun k0 o => as_matrix (pa_pose (ru_p r3) (KGroup k0 o))) (findPairObjectForNonOverlap (ru_s r3)) (fst k) (snd k))
      (distinct_pairs (ca_groups (ru_s r3))) [] prs ltac:(constructor) E4). }
  assert (Rp4 : forall k P n, In (k, (P, n)) (ru_prs r4) -> rigid P) by (intros k P n H; apply (Rp k P n); apply In_mfind; auto).
  assert (SyAll : ru_prs r' = ru_prs r4).
  { assert (P6 : ru_prs r6 = ru_prs r5).
    { clear - E6. apply bind_Some in E6 as (a & Ea & E). apply bind_Some in E as (b & Eb & E). apply bind_Some in E as (c & Ec & E). apply bind_Some in E as (d & Ed & E). apply bind_Some in E as (e & Ee & E).
      apply omap_Some in Ea as (? & _ & ->). apply omap_Some in Eb as (? & _ & ->). apply bind_Some in Ec as (? & _ & Ec). apply bind_Some in Ec as (? & _ & Ec). injection Ec as <-.
      apply omap_Some in Ed as (? & _ & ->). apply omap_Some in Ee as (? & _ & ->). apply omap_Some in E as (? & _ & ->). reflexivity. }
    assert (P8 : ru_prs r' = ru_prs r7).
    { clear - E. apply bind_Some in E as (a & Ea & E). apply bind_Some in E as (b & Eb & E). apply bind_Some in E as (c & Ec & E).
      apply omap_Some in Ea as (? & _ & ->). apply omap_Some in Eb as (? & _ & ->). apply omap_Some in Ec as (? & _ & ->).
      destruct (Z.eqb fix_intrinsic 0); [apply omap_Some in E as (? & _ & ->); reflexivity|injection E as <-; reflexivity]. }
    congruence. }
  destruct G4 as [T4 R4 S4 O4 Q4].
  destruct (reached_ok svd lr uq pick g0 Hh bpts nc nb ins t AD Hp _ R4) as (bss4 & ol4 & css4 & gl4 & CO4).
  assert (UP4 : pairs_usable (ru_prs r4) (ru_s r4)) by (apply proper_usable; eapply pairs_within_proper; eauto).
  destruct (good_merge_groups r4 r5 (Build_good _ _ _ _ _ _ _ _ T4 R4 S4 O4 Q4) Rp4 UP4 E5) as (G5 & _ & EM5).
  destruct (merged_sees svd lr uq pick g0 bpts Hh nc nb ins t AD Hp (ru_prs r4) (ru_s r4) (ru_s r5) R4 PG4 EM5) as (_ & Se5).
  destruct (merge_good svd lr uq pick g0 solve bpts models thresh it env pose0 CE Hh LO nc nb ins t AD TR 4 r5 r6 G5 E6) as (G6 & (q & Q6) & P6).
  assert (Se6 : forall k G, mfind k (ca_groups (ru_s r6)) = Some G -> group_sees t G) by (rewrite Q6; apply regroup_sees; auto).
  assert (P64 : ru_prs r6 = ru_prs r4) by congruence.
  destruct (good_merge_groups r6 r7) as (G7 & _ & _); auto.
  - rewrite P64. auto.
  - rewrite P64. apply (second_usable svd lr uq pick g0 bpts Hh nc nb ins t AD Hp); auto; [apply G6|].
    intros a b H. destruct (PG4 a b H) as (N & (A & HA & _) & (B & HB & _)). split; [auto|]. rewrite (co_groups _ _ _ _ _ _ _ CO4) in HA, HB.
    apply mfind_In, dense_In in HA as (i & -> & _). apply mfind_In, dense_In in HB as (j & -> & _). lia.
  - apply (good_final r7 r' G7 E).
Qed.
End Runs.

(** calibrate.cpp 15-72 *)
Theorem calibrate_good :
  forall svd lr uq pick g0 solve bpts models thresh it env pose0 calib2 fixi, ceres solve -> good_heap pick -> log_ok lr -> (forall n, fair_shuffles (env 0 n)) ->
  (forall l l' X, calib2 l l' = Some X -> rigid X) ->
  forall nc nb (ins : list (insertion pt2)) t0, Forall (known nc nb) ins -> Forall (detected_well bpts) ins -> insert_all (init_tables nc nb) ins = Some t0 ->
  forall src p0 gp0 r, calibrate svd lr uq pick g0 solve bpts models thresh it env pose0 calib2 fixi src t0 p0 gp0 = Some r ->
  after_detection nc nb ins (ru_t r) /\ (forall o, In o (mvals (t_obs (ru_t r))) -> trimmed bpts o) /\
  good svd lr uq pick g0 bpts (ru_t r) r.
Proof.
  intros svd lr uq pick g0 solve bpts models thresh it env pose0 calib2 fixi CE Hh LO Fair Rc nc nb ins t0 Kn Dw Ei src p0 gp0 r E.
  apply bind_Some in E as (r0 & E0 & E). unfold initIntrinsic in E0.
  destruct (initializeCalibrationAllCam bpts models src t0 (pa_intr p0)) as [i|]; [|discriminate E0].
  destruct (estimate_all_boards (env 0) Fair (cam_of models (mkPar (pa_pose p0) i)) bpts thresh it nc nb ins t0 (pose0 0) Kn Dw Ei) as (t & ps & Ee & AD & _ & _ & TR).
  rewrite Ee in E0. apply omap_Some in E0 as (p1 & _ & E0). assert (Et : ru_t r0 = t) by (rewrite E0; reflexivity).
  assert (Er : ru_t r = t).
  { clear - E Et. repeat (apply bind_Some in E as (?r & ?H & E)).
    assert (TE : forall c a b, estimate_objects_step models thresh it env pose0 c a = Some b -> ru_t b = ru_t a) by (intros c a b Q; apply omap_Some in Q as (? & _ & ->); reflexivity).
    assert (TG : forall a b, group_poses_step svd lr uq a = Some b -> ru_t b = ru_t a) by (intros a b Q; apply omap_Some in Q as (? & _ & ->); reflexivity).
    assert (TR : forall a b, refine_step solve bpts models a = Some b -> ru_t b = ru_t a) by (intros a b Q; apply omap_Some in Q as (? & _ & ->); reflexivity).
    assert (T1 : forall a b, run_calibrate3DObjects svd lr uq pick g0 solve bpts models thresh it env pose0 a = Some b -> ru_t b = ru_t a).
    { intros a b Q. apply bind_Some in Q as (x & Qx & Q). apply bind_Some in Q as (y & Qy & Q). apply bind_Some in Qx as (? & _ & Qx). apply bind_Some in Qx as (? & _ & Qx). injection Qx as <-.
      apply TE in Qy. apply omap_Some in Q as (? & _ & ->). exact Qy. }
    assert (T2 : forall a b, run_calibrateCameraGroup svd lr uq pick g0 solve bpts models a = Some b -> ru_t b = ru_t a).
    { intros a b Q. apply bind_Some in Q as (x & Qx & Q). apply bind_Some in Q as (y & Qy & Q). apply bind_Some in Qx as (? & _ & Qx). injection Qx as <-.
      apply TG in Qy. apply TR in Q. rewrite Q. exact Qy. }
    assert (T3 : forall c a b, run_merge3DObjects svd lr uq pick g0 solve bpts models thresh it env pose0 c a = Some b -> ru_t b = ru_t a).
    { intros c a b Q. apply bind_Some in Q as (x1 & Q1 & Q). apply bind_Some in Q as (x2 & Q2 & Q). apply bind_Some in Q as (x3 & Q3 & Q). apply bind_Some in Q as (x4 & Q4 & Q). apply bind_Some in Q as (x5 & Q5 & Q).
      apply TE in Q1. apply TG in Q2. apply bind_Some in Q3 as (? & _ & Q3). apply bind_Some in Q3 as (? & _ & Q3). injection Q3 as <-. apply TE in Q4. apply TG in Q5. apply TR in Q. cbn [with_ps ru_t] in *. congruence. }
    assert (T4 : forall a b, run_mergeGroups lr pick g0 a = Some b -> ru_t b = ru_t a) by (intros a b Q; apply omap_Some in Q as (? & _ & ->); reflexivity).
    assert (T5 : forall a b, run_pairs calib2 a = Some b -> ru_t b = ru_t a) by (intros a b Q; apply omap_Some in Q as (? & _ & ->); reflexivity).
    apply T1 in H. apply T2 in H0. apply T3 in H1. apply T5 in H2. apply T4 in H3. apply T3 in H4. apply T4 in H5.
    apply TE in H6. apply TG in H7. apply TR in H8. destruct (Z.eqb fixi 0); [apply omap_Some in E as (? & _ & ->); cbn [ru_t]|injection E as <-]; congruence. }
  rewrite Er. split; [auto|]. split; [auto|].
  exact (stages_good svd lr uq pick g0 solve bpts models thresh it env pose0 calib2 fixi CE Hh LO Rc nc nb ins t AD TR r0 r Et E).
Qed.
