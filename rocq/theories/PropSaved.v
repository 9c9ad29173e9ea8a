(** The saved keypoints: C54. *)
From Coq Require Import List ZArith QArith Lia Reals Lra Permutation Sorted Relations ClassicalEpsilon.
From Verif Require Import SMap GraphModel GraphSpec GraphPath DataModel DataSpec DataProofs PropData DetectModel DetectSpec DetectProofs RansacModel RansacSpec RansacProofs PropRansac GeomModel GeomSpec GeomProofs ChainModel ObjectsModel GroupModel
  StageSpec StageProofs PipelineModel PipelineSpec EstimateAll CameraModel ResidualModel ResidualSpec ResidualProofs PropGeom PropResidual PropFile WorkflowModel WorkflowProofs WorkflowReach PropWorkflow RigSpec RigPnP RigExample PropRig OutlierSpec OutlierExample PropOutliers SavedSpec.
Import ListNotations.
Close Scope Q_scope.
Close Scope R_scope.
Open Scope nat_scope.

Section Tables.
Variables (svd : (nat -> nat -> R) -> quat) (lr : mat3 -> vec3) (uq : bool) (pick : dstate -> nat) (g0 : graph).
Variable solve : list block -> params -> params.
Variables (bpts : Z -> list vec3) (models : Z -> Z) (thresh : R) (it : Z).
Variables (env : nat -> nat -> rs_env par6 vec3) (pose0 : nat -> nat -> par6).
Variable calib2 : list pose -> list pose -> option pose.
Variable fixi : Z.

Definition same_tables (r r' : run) : Prop := ru_t r' = ru_t r.
Lemma st_trans a b c : same_tables a b -> same_tables b c -> same_tables a c.
Proof. unfold same_tables. congruence. Qed.
Lemma st_estimate c r r' : estimate_objects_step models thresh it env pose0 c r = Some r' -> same_tables r r'.
Proof. intros E. apply omap_Some in E as (x & _ & ->). reflexivity. Qed.
Lemma st_poses r r' : group_poses_step svd lr uq r = Some r' -> same_tables r r'.
Proof. intros E. apply omap_Some in E as (x & _ & ->). reflexivity. Qed.
Lemma st_refine r r' : refine_step solve bpts models r = Some r' -> same_tables r r'.
Proof. intros E. apply omap_Some in E as (x & _ & ->). reflexivity. Qed.
Lemma st_refine_intr r r' : refine_intrinsic_step solve bpts models r = Some r' -> same_tables r r'.
Proof. intros E. apply omap_Some in E as (x & _ & ->). reflexivity. Qed.
Lemma st_refine_objs r r' : refine_objects_step solve bpts models r = Some r' -> same_tables r r'.
Proof. intros E. apply omap_Some in E as (x & _ & ->). reflexivity. Qed.
Lemma st_new_objects r r' : new_objects svd lr uq pick g0 bpts r = Some r' -> same_tables r r'.
Proof. intros E. apply bind_Some in E as (x & _ & E). apply bind_Some in E as (y & _ & E). injection E as <-. reflexivity. Qed.
Lemma st_new_groups r r' : new_groups svd lr uq pick g0 r = Some r' -> same_tables r r'.
Proof. intros E. apply bind_Some in E as (x & _ & E). injection E as <-. reflexivity. Qed.
Lemma st_merged r r' : merged_objects svd lr uq pick g0 bpts r = Some r' -> same_tables r r'.
Proof. intros E. apply bind_Some in E as (x & _ & E). apply bind_Some in E as (y & _ & E). injection E as <-. reflexivity. Qed.
Lemma st_merge c r r' : run_merge3DObjects svd lr uq pick g0 solve bpts models thresh it env pose0 c r = Some r' -> same_tables r r'.
Proof.
  intros E. apply bind_Some in E as (r1 & E1 & E). apply bind_Some in E as (r2 & E2 & E). apply bind_Some in E as (r3 & E3 & E).
  apply bind_Some in E as (r4 & E4 & E). apply bind_Some in E as (r5 & E5 & E).
  eapply st_trans; [eapply st_estimate; eauto|]. eapply st_trans; [eapply st_poses; eauto|]. eapply st_trans; [eapply st_merged; eauto|].
  eapply st_trans; [eapply st_estimate; eauto|]. eapply st_trans; [eapply st_poses; eauto|]. eapply st_refine; eauto.
Qed.
Lemma st_pairs r r' : run_pairs calib2 r = Some r' -> same_tables r r'.
Proof. intros E. apply omap_Some in E as (x & _ & ->). reflexivity. Qed.
Lemma st_mergeGroups r r' : run_mergeGroups lr pick g0 r = Some r' -> same_tables r r'.
Proof. intros E. apply omap_Some in E as (x & _ & ->). reflexivity. Qed.
Lemma st_final r r' : run_final svd lr uq solve bpts models thresh it env pose0 fixi r = Some r' -> same_tables r r'.
Proof.
  intros E. apply bind_Some in E as (z1 & E & E'). apply bind_Some in E' as (z2 & E' & E''). apply bind_Some in E'' as (z3 & E'' & E3').
  eapply st_trans; [eapply st_estimate; eauto|]. eapply st_trans; [eapply st_poses; eauto|]. eapply st_trans; [eapply st_refine; eauto|].
  destruct (Z.eqb fixi 0); [eapply st_refine_intr; eauto|injection E3' as <-; reflexivity].
Qed.
(** after the run the tables are those that the estimation of the board poses left *)
Lemma calibrate_tables src t0 p0 gp0 r :
  calibrate svd lr uq pick g0 solve bpts models thresh it env pose0 calib2 fixi src t0 p0 gp0 = Some r ->
  exists i ps, initializeCalibrationAllCam bpts models src t0 (pa_intr p0) = Some i /\
    estimatePoseAllBoards (env 0) (cam_of models (mkPar (pa_pose p0) i)) bpts (pose0 0) thresh it t0 = Some (ru_t r, ps).
Proof.
  intros E. unfold calibrate in E. apply bind_Some in E as (r0 & E0 & E). unfold initIntrinsic in E0.
  destruct (initializeCalibrationAllCam bpts models src t0 (pa_intr p0)) as [i|]; [|discriminate E0].
  destruct (estimatePoseAllBoards _ _ _ _ _ _ _) as [(t, ps)|] eqn:Ep in E0; [|discriminate E0]. exists i, ps. split; [auto|]. rewrite Ep.
  apply omap_Some in E0 as (p & _ & E0). assert (T0 : ru_t r0 = t) by (rewrite E0; reflexivity). clear E0.
  enough (S : same_tables r0 r) by (rewrite S, T0; auto).
  apply bind_Some in E as (r1 & E1 & E). apply bind_Some in E as (r2 & E2 & E). apply bind_Some in E as (r3 & E3 & E). apply bind_Some in E as (r4 & E4 & E).
  apply bind_Some in E as (r5 & E5 & E). apply bind_Some in E as (r6 & E6 & E). apply bind_Some in E as (r7 & E7 & E).
  apply bind_Some in E1 as (x1 & E1 & E1'). apply bind_Some in E1' as (x2 & E1' & E1'').
  apply bind_Some in E2 as (y1 & E2 & E2'). apply bind_Some in E2' as (y2 & E2' & E2'').
  eapply st_trans; [eapply st_new_objects; eauto|]. eapply st_trans; [eapply st_estimate; eauto|]. eapply st_trans; [eapply st_refine_objs; eauto|].
  eapply st_trans; [eapply st_new_groups; eauto|]. eapply st_trans; [eapply st_poses; eauto|]. eapply st_trans; [eapply st_refine; eauto|].
  eapply st_trans; [eapply st_merge; eauto|]. eapply st_trans; [eapply st_pairs; eauto|]. eapply st_trans; [eapply st_mergeGroups; eauto|].
  eapply st_trans; [eapply st_merge; eauto|]. eapply st_trans; [eapply st_mergeGroups; eauto|]. eapply st_final; eauto.
Qed.
End Tables.

(** what the estimation of the board poses leaves of the detections *)
Lemma parts_left {rpose} (env : nat -> rs_env rpose vec3) cam bpts pose0 thresh it nc nb (ins : list (insertion pt2)) t0 t ps :
  (forall n, fair_shuffles (env n)) -> Forall (known nc nb) ins -> Forall (detected_well bpts) ins -> insert_all (init_tables nc nb) ins = Some t0 ->
  estimatePoseAllBoards env cam bpts pose0 thresh it t0 = Some (t, ps) -> Forall2 part_of ins (all_said t).
Proof.
  intros Fair Kn Dw E0 E. destruct (insert_all_from_init nc nb ins Kn) as (t1 & E1 & H & _). assert (t1 = t0) by congruence. subst t1. clear E1.
  assert (EO : mvals (t_obs t0) = map new_obs ins) by (rewrite (hd_obs _ _ _ _ H); apply dense_vals).
  assert (EK : length (mkeys (t_obs t0)) = length ins) by (rewrite (hd_obs _ _ _ _ H); unfold mkeys; rewrite map_length, dense_length, map_length; auto).
  unfold estimatePoseAllBoards in E. rewrite EO in E. destruct (collect _) as [rs|] eqn:Ec in E; [|discriminate E]. injection E as Et _.
  assert (L : length rs = length ins). { apply collect_Some in Ec. apply (f_equal (@length _)) in Ec. rewrite mapi_length, !map_length in Ec. lia. }
  assert (Ot : t_obs t = combine (mkeys (t_obs t0)) (map fst rs)) by (rewrite <- Et; reflexivity).
  assert (V : mvals (t_obs t) = map fst rs). { unfold mvals. rewrite Ot. apply combine_vals. rewrite map_length. lia. }
  unfold all_said. rewrite V, map_map. clear - Ec Dw Fair L. apply Forall2_of_nth; [rewrite map_length; auto|].
  intros n i s Hi Hs. rewrite nth_error_map in Hs. destruct (nth_error rs n) as [(o', p)|] eqn:Er; [|discriminate Hs]. cbn in Hs. injection Hs as <-.
  assert (Hn : nth_error (map new_obs ins) n = Some (new_obs i)) by (rewrite nth_error_map, Hi; auto).
  destruct (mapi_defined _ _ _ _ _ _ Ec Hn) as (y & Hy & Ey). assert (y = (o', p)) by congruence. subst y.
  rewrite Forall_forall in Dw. destruct (Dw i (nth_error_In _ _ Hi)) as (D1 & D2 & D3).
  destruct (C16_points_and_ids_stay_aligned _ _ (env n) (Fair n) (cam (i_cam i)) (bpts (i_board i)) (pose0 n) thresh it (new_obs i)) as (o1 & p1 & keep & A1 & A2 & A3 & A4 & A5 & A6 & A7 & _);
    [exact D1|cbn; lia|exact D3|].
  cbn [Nat.add] in Ey. change (o_cam (new_obs i)) with (i_cam i) in Ey. change (o_board (new_obs i)) with (i_board i) in Ey. rewrite A1 in Ey. injection Ey as <- _.
  split; [unfold obs_says; cbn [fst]; rewrite A2, A3, A4; reflexivity|]. exists keep. auto.
Qed.
Lemma relabelled_refined {pt} (t0 t : tables pt) : relabelled t0 t -> refined t0 t.
Proof.
  intros [A B C D E]. constructor; auto; [|rewrite D; auto]. apply (f_equal (map fst)) in E. rewrite !map_map in E. cbn [fst] in E. exact E.
Qed.

(** ** C54: what is saved of the detections *)
(** A completed run saves, and a later run loads, of every detected board the corners that
    were left after outlier removal, and no other corners. *)
Theorem C54_saved_keypoints_are_what_is_left :
  forall svd lr uq pick g0 solve bpts models thresh it env pose0 calib2 fixi, ceres solve -> good_heap pick -> log_ok lr -> (forall n, fair_shuffles (env 0 n)) ->
  (forall l l' X, calib2 l l' = Some X -> rigid X) ->
  forall nc nb (ins : list (insertion pt2)) t0, Forall (known nc nb) ins -> Forall (detected_well bpts) ins -> insert_all (init_tables nc nb) ins = Some t0 ->
  (forall c, (0 <= c < Z.of_nat nc)%Z -> exists i, In i ins /\ i_cam i = c) ->
  forall src p0 gp0 r, calibrate svd lr uq pick g0 solve bpts models thresh it env pose0 calib2 fixi src t0 p0 gp0 = Some r ->
  exists t' left, loadDetectedKeypoints (saveDetectedKeypoints (ru_t r)) nc (init_tables nc nb) = Loaded t' /\
    Forall2 part_of ins left /\ all_said (ru_t r) = left /\ Permutation (all_said t') left /\
    (forall k, filter (about k) (all_said t') = filter (about k) left).
Proof.
  intros svd lr uq pick g0 solve bpts models thresh it env pose0 calib2 fixi CE Hh LO Fair Rc nc nb ins t0 Kn Dw Ei Cv src p0 gp0 r E.
  destruct (C51_completed_runs_are_consistent svd lr uq pick g0 solve bpts models thresh it env pose0 calib2 fixi CE Hh LO Fair Rc nc nb ins t0 Kn Dw Ei src p0 gp0 r E) as ((_ & t1 & E1 & RL) & _).
  assert (t1 = t0) by congruence. subst t1.
  destruct (C11_save_then_load _ nc nb ins t0 (ru_t r) Kn Ei (relabelled_refined _ _ RL) Cv) as (t' & A & B & C & _).
  exists t', (all_said (ru_t r)). split; [auto|]. split; [|auto].
  destruct (calibrate_tables _ _ _ _ _ _ _ _ _ _ _ _ _ _ _ _ _ _ _ E) as (i & ps & _ & Ep). eapply parts_left; eauto.
Qed.
Print Assumptions C54_saved_keypoints_are_what_is_left.

(** an observation with too few corners cannot be used again *)
Lemma too_few_boards {rpose} (env : nat -> rs_env rpose vec3) cam bpts pose0 thresh it t : (forall n, fair_shuffles (env n)) -> (forall c, cp_model (cam c) = 0 \/ cp_model (cam c) = 1)%Z -> (0 < it)%Z ->
  (exists o, In o (mvals (t_obs t)) /\ length (o_pts o) < 4) -> estimatePoseAllBoards env cam bpts pose0 thresh it t = None.
Proof.
  intros Fair Md Hit (o & Ho & L). unfold estimatePoseAllBoards. destruct (collect _) as [rs|] eqn:Ec; [exfalso|reflexivity].
  apply In_nth_error in Ho as (n & Hn). destruct (mapi_defined _ _ _ _ _ _ Ec Hn) as (y & _ & Ey). unfold boardobs_estimatePose in Ey.
  destruct (collect _) as [scene|] in Ey; [|discriminate Ey].
  assert (Q : ransacP3PDistortion (env (0 + n)) (cp_K (cam (o_cam o))) (cp_D (cam (o_cam o))) scene (o_pts o) (pose0 (0 + n)) thresh it (cp_model (cam (o_cam o))) (99 / 100)%R true = None).
  { unfold ransacP3PDistortion. destruct (Md (o_cam o)) as [-> | ->]; cbn [Z.eqb Pos.eqb].
    - apply C15_fewer_than_four_points_is_undefined; auto.
    - apply C15_fewer_than_four_points_is_undefined; auto. rewrite map_length. auto. }
  rewrite Q in Ey. discriminate Ey.
Qed.
Theorem C54_a_board_with_few_corners_left_cannot_be_reused :
  forall svd lr uq pick g0 solve bpts models thresh it env pose0 calib2 fixi, ceres solve -> good_heap pick -> log_ok lr -> (forall n, fair_shuffles (env 0 n)) ->
  (forall l l' X, calib2 l l' = Some X -> rigid X) ->
  forall nc nb (ins : list (insertion pt2)) t0, Forall (known nc nb) ins -> Forall (detected_well bpts) ins -> insert_all (init_tables nc nb) ins = Some t0 ->
  (forall c, (0 <= c < Z.of_nat nc)%Z -> exists i, In i ins /\ i_cam i = c) ->
  forall src p0 gp0 r, calibrate svd lr uq pick g0 solve bpts models thresh it env pose0 calib2 fixi src t0 p0 gp0 = Some r ->
  (exists o, In o (mvals (t_obs (ru_t r))) /\ length (o_pts o) < 4) ->
  exists t', loadDetectedKeypoints (saveDetectedKeypoints (ru_t r)) nc (init_tables nc nb) = Loaded t' /\
  forall svd' lr' uq' pick' g0' solve' bpts' models' thresh' it' env' pose0' calib2' fixi' src' p0' gp0',
    (forall n, fair_shuffles (env' 0 n)) -> (forall c, models' c = 0 \/ models' c = 1)%Z -> (0 < it')%Z ->
    calibrate svd' lr' uq' pick' g0' solve' bpts' models' thresh' it' env' pose0' calib2' fixi' src' t' p0' gp0' = None.
Proof.
  intros svd lr uq pick g0 solve bpts models thresh it env pose0 calib2 fixi CE Hh LO Fair Rc nc nb ins t0 Kn Dw Ei Cv src p0 gp0 r E (o & Ho & L).
  destruct (C54_saved_keypoints_are_what_is_left svd lr uq pick g0 solve bpts models thresh it env pose0 calib2 fixi CE Hh LO Fair Rc nc nb ins t0 Kn Dw Ei Cv src p0 gp0 r E) as (t' & l & El & _ & Al & P & _).
  exists t'. split; [auto|]. intros svd' lr' uq' pick' g0' solve' bpts' models' thresh' it' env' pose0' calib2' fixi' src' p0' gp0' Fair' Md Hit.
  match goal with |- ?x = None => destruct x as [r'|] eqn:E'; [exfalso|reflexivity] end.
  destruct (calibrate_tables _ _ _ _ _ _ _ _ _ _ _ _ _ _ _ _ _ _ _ E') as (i & ps & _ & Ep).
  rewrite too_few_boards in Ep; [discriminate Ep|auto| |auto|].
  - intros c. unfold cam_of. cbn [cp_model]. apply Md.
  - assert (Q : In (obs_says o) (all_said t')) by (apply (Permutation_in _ (Permutation_sym P)); rewrite <- Al; apply in_map; auto).
    apply in_map_iff in Q as (o' & Q & Ho'). exists o'. split; [auto|]. unfold obs_says in Q. injection Q as _ _ _ Q _. rewrite Q. auto.
Qed.
Print Assumptions C54_a_board_with_few_corners_left_cannot_be_reused.

(** The file is meant to save detection time when calibrating again with other parameters
    (McCalib.cpp 485-492).  It does not have all detected corners: corner 5, which camera 0
    saw in frame 0, is not in it, since it did not fit with the threshold of the first run. *)
Theorem C54_all_detected_corners_are_saved_refuted :
  exists svd lr solve bpts models env pose0 calib2 file nc nb ins t0 p0 gp0 r t' c f b k m,
  svd_ok svd /\ log_ok lr /\ ceres solve /\ (forall c n : nat, exact_pnp lr (env c n)) /\
  Forall (known nc nb) ins /\ Forall (detected_well bpts) ins /\ insert_all (init_tables nc nb) ins = Some t0 /\
  calibrate svd lr false pick_first empty_graph solve bpts models 1 1000 env pose0 calib2 0 (FromFile file) t0 p0 gp0 = Some r /\
  loadDetectedKeypoints (saveDetectedKeypoints (ru_t r)) nc (init_tables nc nb) = Loaded t' /\
  says_corner (map ins_says ins) c f b k m /\ ~ says_corner (all_said t') c f b k m.
Proof.
  destruct C20_svd_exists as (svd & SO). set (p0 := mkPar (fun _ => (vzero, vzero)) (fun _ => I9 0 0 0 0 0 0 0 0 0)%R).
  destruct (wrong_run svd false (fun _ p => p) (fun _ _ => (vzero, vzero)) (fun _ _ => None) 0%Z p0 (fun _ => (vzero, vzero)) SO ceres_idle) as (t & r & Et & Er & Tr & _).
  destruct (C11_save_then_load _ 2 1 rig_ins (ru_t r) (ru_t r) rig_known Tr) as (t' & El & _ & P & _).
  { constructor; auto. }
  { intros c Hc. assert (D : (c = 0 \/ c = 1)%Z) by lia. destruct D as [-> | ->]; [exists (clean_one (0, 0)%Z)|exists (clean_one (1, 0)%Z)]; (split; [|reflexivity]); cbn; auto. }
  exists svd, log0, (fun _ p => p), six_pts, (rg_model two_rig), (fun _ _ => astray_env log0), (fun _ _ => (vzero, vzero)), (fun _ _ => None), two_file, 2, 1, wrong_ins, t, p0, (fun _ => (vzero, vzero)), r, t'.
  exists 0%Z, 0%Z, 0%Z, 5%Z, (seen 0 0 (V3 0 0 0)%R).
  split; [auto|]. split; [apply log0_ok|]. split; [apply ceres_idle|]. split; [intros; apply astray_pnp|]. split; [apply wrong_known|]. split.
  { unfold wrong_ins. rewrite Forall_map, Forall_forall. intros cf _. split; [reflexivity|]. split; [cbn; lia|]. cbn. repeat constructor; lia. }
  split; [auto|]. split; [auto|]. split; [auto|]. split.
  - exists (ins_says (wrong_one (0, 0)%Z)), 5. split; [left; reflexivity|]. split; [reflexivity|]. split; reflexivity.
  - intros (s & j & Hs & _ & _ & Hj). apply (Permutation_in _ P) in Hs. destruct (insert_all_from_init 2 1 rig_ins rig_known) as (t1 & E1 & H & _). assert (t1 = ru_t r) by congruence. subst t1.
    unfold all_said in Hs. rewrite (hd_obs _ _ _ _ H), dense_vals, map_map in Hs. apply in_map_iff in Hs as (i & <- & Hi).
    assert (Q : i_ids i = rig_ids). { rewrite <- clean_ins in Hi. apply in_map_iff in Hi as (cf & <- & _). reflexivity. }
    change (nth_error (i_ids i) j = Some 5%Z) in Hj. rewrite Q in Hj. destruct j as [|[|[|[|[|j]]]]]; cbn in Hj; try discriminate Hj. destruct j; discriminate Hj.
Qed.
Print Assumptions C54_all_detected_corners_are_saved_refuted.
(** ... and the hypotheses of C54_saved_keypoints_are_what_is_left are met by this run *)
Example C54_example : exists svd solve t r, good_heap pick_first /\ ceres solve /\ log_ok log0 /\ fair_shuffles (astray_env log0) /\
  Forall (known 2 1) wrong_ins /\ Forall (detected_well six_pts) wrong_ins /\ insert_all (init_tables 2 1) wrong_ins = Some t /\
  (forall c, (0 <= c < 2)%Z -> exists i, In i wrong_ins /\ i_cam i = c) /\
  calibrate svd log0 true pick_first empty_graph solve six_pts (rg_model two_rig) 1 1000 (fun _ _ => astray_env log0) (fun _ _ => (vzero, vzero)) (fun _ _ => None) 0 (FromFile two_file) t
    (mkPar (fun _ => (vzero, vzero)) (fun _ => I9 0 0 0 0 0 0 0 0 0)%R) (fun _ => (vzero, vzero)) = Some r.
Proof.
  destruct C20_svd_exists as (svd & SO). destruct (wrong_run svd true (fun _ p => p) (fun _ _ => (vzero, vzero)) (fun _ _ => None) 0%Z (mkPar (fun _ => (vzero, vzero)) (fun _ => I9 0 0 0 0 0 0 0 0 0)%R) (fun _ => (vzero, vzero)) SO ceres_idle)
    as (t & r & Et & Er & _). exists svd, (fun _ p => p), t, r. split; [apply pick_first_good|]. split; [apply ceres_idle|]. split; [apply log0_ok|]. split; [intros k l; apply swaps_fair|]. split; [apply wrong_known|]. split.
  { unfold wrong_ins. rewrite Forall_map, Forall_forall. intros cf _. split; [reflexivity|]. split; [cbn; lia|]. cbn. repeat constructor; lia. }
  split; [auto|]. split; [|auto]. intros c Hc. assert (D : (c = 0 \/ c = 1)%Z) by lia. destruct D as [-> | ->]; [exists (wrong_one (0, 0)%Z)|exists (wrong_one (1, 0)%Z)]; (split; [|reflexivity]); cbn; auto.
Qed.
Print Assumptions C54_example.
