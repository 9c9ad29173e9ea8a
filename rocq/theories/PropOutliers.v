(** Wrong corners: C53, and what is saved of the detections (C54). *)
From Coq Require Import List ZArith QArith Lia Reals Lra Permutation Sorted Relations ClassicalEpsilon.
From Verif Require Import SMap GraphModel GraphSpec GraphPath DataModel DataSpec DataProofs DetectModel DetectSpec DetectProofs RansacModel RansacSpec RansacProofs GeomModel GeomSpec GeomProofs ChainModel ObjectsModel GroupModel
  StageSpec StageProofs PipelineModel CameraModel ResidualModel ResidualSpec ResidualProofs PropGeom PropResidual PropFile WorkflowModel WorkflowReach PropWorkflow RigSpec RigPnP RigSteps RigExample PropRig OutlierSpec RansacRobust RigOutliers OutlierExample.
Import ListNotations.
Close Scope Q_scope.
Close Scope R_scope.
Open Scope nat_scope.

Lemma Forall2_nth_r {A B} (R : A -> B -> Prop) l l' : Forall2 R l l' -> forall n x, nth_error l n = Some x -> exists y, nth_error l' n = Some y /\ R x y.
Proof. induction 1 as [|a b l l' H F IH]; intros [|n] x E; cbn in *; try discriminate E; [injection E as <-; eauto|auto]. Qed.
Lemma collect_mapi_to {A B C} (f : nat -> A -> option B) (l : list A) (l' : list C) (h : C -> B) :
  Forall2 (fun _ _ => True) l l' -> forall n, (forall k x y, nth_error l k = Some x -> nth_error l' k = Some y -> f (n + k) x = Some (h y)) -> collect (mapi f n l) = Some (map h l').
Proof.
  induction 1 as [|a b l l' _ F IH]; intros n H; [reflexivity|]. cbn [mapi map collect]. assert (H0 := H 0 a b eq_refl eq_refl). rewrite Nat.add_0_r in H0. rewrite H0, (IH (S n)); [reflexivity|].
  intros k x y Hx Hy. replace (S n + k) with (n + S k) by lia. apply H; auto.
Qed.

Section Cleaning.
Variables (lr : mat3 -> vec3) (bpts : Z -> list vec3) (w : rig) (thresh : R) (it : Z).
Variables (env : nat -> nat -> rs_env par6 vec3) (pose0 : nat -> nat -> par6).
Hypothesis LO : log_ok lr.
Variables (nc nb : nat) (ins ins0 : list (insertion pt2)) (td : tables pt2).
Hypothesis Kn : Forall (known nc nb) ins.
Hypothesis Et : insert_all (init_tables nc nb) ins = Some td.
Hypothesis RG : rigid_rig w.
Hypothesis CL : Forall2 (cleaned bpts w) ins ins0.
Hypothesis ED : exact_detections bpts w ins0.
Hypothesis GP : general_position bpts w ins0.
Hypothesis PN : forall c n, exact_pnp lr (env c n).
Hypothesis UN : forall c n, exact_undistort bpts w ins0 (env c n).
Hypothesis Tp : (0 < thresh)%R.
Hypothesis TA : forall n i i0, nth_error ins n = Some i -> nth_error ins0 n = Some i0 -> told_apart bpts w thresh it (env 0 n) i i0.

Lemma cleaned_known : Forall (known nc nb) ins0.
Proof.
  clear Et ED GP UN TA. induction CL as [|i i0 l l0 (E1 & E2 & E3 & _) F IH]; [constructor|]. inversion Kn as [|? ? H H']; subst. constructor; [|apply IH; auto]. unfold known in *. rewrite E1, E3. auto.
Qed.
Lemma cleaned_tables : exists t, insert_all (init_tables nc nb) ins0 = Some t /\ t = mkT (combine (mkeys (t_obs td)) (map new_obs ins0)) (t_cams td) (t_boards td) (t_frames td) (t_camobs td).
Proof.
  destruct (insert_all_same ins ins0 (init_tables nc nb) (init_tables nc nb)) with (t1 := td) as (t & E & S1 & S2 & S3 & S4 & l & l' & S5 & S6 & S7).
  - clear - CL. induction CL as [|i i0 l l0 (E1 & E2 & E3 & E4 & _) F IH]; constructor; auto. repeat split; auto.
  - do 4 (split; [reflexivity|]). exists [], []. split; [reflexivity|]. split; reflexivity.
  - exact Et.
  - exists t. split; [exact E|]. destruct (insert_all_from_init nc nb ins0 cleaned_known) as (t2 & E2 & H & _). assert (t2 = t) by congruence. subst t2. assert (O := hd_obs _ _ _ _ H).
    rewrite S5. destruct t as [obs cams boards frames camobs]. cbn [t_obs t_cams t_boards t_frames t_camobs] in *. subst cams boards frames camobs. f_equal. rewrite O.
    assert (Q : length l = length (map (@recorded pt2) ins0)). { rewrite S7. rewrite S6 in O. apply (f_equal (@length _)) in O. rewrite !dense_length in O. exact O. }
    symmetry. apply (dense_swap l (map (@recorded pt2) ins0)). exact Q.
Qed.
Lemma cleaned_from p0 i t : (forall c, (0 <= c < Z.of_nat nc)%Z -> getIntrinsics (rg_model w c) (i c) = getIntrinsics (rg_model w c) (rg_intr w c)) ->
  insert_all (init_tables nc nb) ins0 = Some t -> comes_from lr bpts (with_intr i w) thresh it env pose0 t p0 i td.
Proof.
  intros Eq Et0. destruct cleaned_tables as (t2 & E2 & Q). rewrite Et0 in E2. injection E2 as <-.
  assert (Ov : mvals (t_obs td) = map new_obs ins). { destruct (insert_all_from_init nc nb ins Kn) as (t1 & E1 & H & _). assert (t1 = td) by congruence. subst t1. rewrite (hd_obs _ _ _ _ H). apply dense_vals. }
  assert (Ov0 : mvals (t_obs t) = map new_obs ins0). { destruct (insert_all_from_init nc nb ins0 cleaned_known) as (t1 & E1 & H & _). assert (t1 = t) by congruence. subst t1. rewrite (hd_obs _ _ _ _ H). apply dense_vals. }
  unfold comes_from, estimatePoseAllBoards. rewrite Ov.
  rewrite (collect_mapi_to _ (map new_obs ins) ins0 (fun i0 => (new_obs i0, Proj2RT lr (board_at w (i_cam i0) (i_frame i0) (i_board i0))))).
  - match goal with |- Some (mkT (combine _ ?m) _ _ _ _, _) = _ => replace m with (map (@new_obs pt2) ins0) by (rewrite map_map; reflexivity) end.
    rewrite Ov0. rewrite Q. f_equal. f_equal. rewrite !map_map. reflexivity.
  - clear - CL. induction CL; cbn; constructor; auto.
  - intros k x i0 Hx Hi0. cbn [Nat.add]. rewrite nth_error_map in Hx. destruct (nth_error ins k) as [j|] eqn:Ej; [|discriminate Hx]. injection Hx as <-.
    destruct (Forall2_nth_r _ _ _ CL k j Ej) as (i0' & Hi0' & Cl). assert (i0' = i0) by congruence. subst i0'. assert (Ta := TA k j i0 Ej Hi0).
    assert (SC : exists sc, Forall2 (corner bpts (i_board j)) (i_ids j) sc).
    { assert (C := ta_corner _ _ _ _ _ _ _ Ta). clear - C. induction (i_ids j) as [|k l IH]; [exists []; constructor|]. destruct (C k (or_introl eq_refl)) as (q & Hq). destruct IH as (sc & F); [intros; apply C; right; auto|]. exists (q :: sc). constructor; auto. }
    destruct SC as (sc & SC). destruct Cl as (C1 & C2 & C3 & C4). cbn [new_obs o_cam o_board]. rewrite C1, C2, C3.
    apply (wrong_removed lr bpts w ins0 LO RG ED GP (env 0 k) (PN 0 k) (UN 0 k) thresh it j i0 Tp (nth_error_In _ _ Hi0) (conj C1 (conj C2 (conj C3 C4))) Ta sc SC).
    assert (Rn : (0 <= i_cam j < Z.of_nat nc)%Z) by (exact (proj1 (proj1 (Forall_forall _ _) Kn j (nth_error_In _ _ Ej)))).
    assert (G := Eq (i_cam j) Rn). destruct (same_values (rg_model w (i_cam j)) (i (i_cam j)) (rg_intr w (i_cam j)) (proj1 RG _) G) as (V1 & _). unfold getIntrinsics in G. injection G as _ _ _ _ G2.
    unfold cam_of. cbn [cp_K cp_D cp_model pa_intr with_intr rg_model]. unfold matrix_of in V1. rewrite V1, G2. reflexivity.
Qed.
End Cleaning.

(** ** C53 *)
(** Detections of which some corners are wrong: if without them they are noise-free detections
    as in C52, and sample consensus can tell the wrong corners (they are at least the threshold
    away from where they should be, a sample with a wrong corner does not give a pose that
    explains as many corners as are right, and a sample without is drawn early enough), then
    the run completes and all results are exact, as without the wrong corners. *)
Theorem C53_wrong_corners_do_not_matter :
  forall svd lr uq pick g0 solve bpts w thresh it env pose0 calib2 fixi,
  ceres solve -> good_heap pick -> svd_ok svd -> log_ok lr -> (0 < thresh)%R -> (0 < it)%Z -> (forall c n, exact_pnp lr (env c n)) ->
  forall nc nb ins ins0 t, Forall (known nc nb) ins -> insert_all (init_tables nc nb) ins = Some t ->
  Forall2 (cleaned bpts w) ins ins0 -> (forall n i i0, nth_error ins n = Some i -> nth_error ins0 n = Some i0 -> told_apart bpts w thresh it (env 0 n) i i0) ->
  rigid_rig w -> exact_detections bpts w ins0 -> general_position bpts w ins0 -> no_tiny_angles lr w -> related_cameras calib2 w ins0 ->
  (nc <= 2 \/ (forall a b, fst (rg_cam w a) = fst (rg_cam w b)) \/ shares_with_first ins0) -> (forall c n, exact_undistort bpts w ins0 (env c n)) ->
  forall src p0 gp0 i, initializeCalibrationAllCam bpts (rg_model w) src t (pa_intr p0) = Some i ->
  (forall c, (0 <= c < Z.of_nat nc)%Z -> getIntrinsics (rg_model w c) (i c) = getIntrinsics (rg_model w c) (rg_intr w c)) ->
  exists r, calibrate svd lr uq pick g0 solve bpts (rg_model w) thresh it env pose0 calib2 fixi src t p0 gp0 = Some r /\
    insert_all (init_tables nc nb) ins0 = Some (ru_t r) /\
    reported_error (rg_model w) r = Some 0%R /\
    true_cameras w ins0 (saved_cameras (rg_model w) r) /\
    (forall i, In i ins0 -> exists k o, In (k, o) (ca_objs (ru_s r)) /\ In (i_board i) (mkeys (ob_boards o))) /\
    (forall k o, In (k, o) (ca_objs (ru_s r)) -> true_points bpts w o) /\
    Forall2 (fun e f => fst f = fst e /\ true_poses lr w ins0 (snd e) (snd f)) (ca_objs (ru_s r)) (saved_poses r).
Proof.
  intros svd lr uq pick g0 solve bpts w thresh it env pose0 calib2 fixi CE Hh SO LO Tp Hit PN nc nb ins ins0 t Kn Et CL TA RG ED GP NT CN Few UN src p0 gp0 i Ei Eq.
  destruct (cleaned_tables bpts w nc nb ins ins0 t Kn Et CL) as (t0 & Et0 & _). assert (Kn0 := cleaned_known bpts w nc nb ins ins0 Kn CL).
  assert (Cf := cleaned_from lr bpts w thresh it env pose0 LO nc nb ins ins0 t Kn Et RG CL ED GP PN UN Tp TA p0 i t0 Eq Et0).
  destruct (rig_results svd lr uq pick g0 solve bpts w thresh it env pose0 calib2 fixi CE Hh SO LO Tp Hit PN nc nb ins0 t0 Kn0 Et0 RG ED GP NT CN Few UN t src p0 gp0 i Ei Eq Cf) as (r & E & Tr & H).
  exists r. rewrite Tr. auto.
Qed.
Print Assumptions C53_wrong_corners_do_not_matter.

(** a rig, detections with a wrong corner in every image, solvePnP, ... that meet all this *)
Lemma wrong_known : Forall (known 2 1) wrong_ins.
Proof. repeat constructor; cbn; lia. Qed.
Lemma clean_ins : map clean_one [(0, 0); (1, 0); (0, 1); (1, 1)]%Z = rig_ins.
Proof. reflexivity. Qed.
Lemma wrong_pairs : Forall2 (cleaned six_pts two_rig) wrong_ins rig_ins.
Proof. rewrite <- clean_ins. unfold wrong_ins. cbn [map]. repeat (constructor; [apply wrong_cleaned|]). constructor. Qed.
Lemma wrong_all_told n i i0 : nth_error wrong_ins n = Some i -> nth_error rig_ins n = Some i0 -> told_apart six_pts two_rig 1 1000 (astray_env log0) i i0.
Proof.
  rewrite <- clean_ins. unfold wrong_ins. rewrite !nth_error_map. destruct (nth_error [(0, 0); (1, 0); (0, 1); (1, 1)]%Z n) as [cf|] eqn:E; cbn [option_map]; [|intros Q; discriminate Q].
  intros Q1 Q2. injection Q1 as <-. injection Q2 as <-. apply wrong_told. eapply nth_error_In. exact E.
Qed.
Lemma wrong_run : forall svd uq solve pose0 calib2 fixi p0 gp0, svd_ok svd -> ceres solve ->
  exists t r, insert_all (init_tables 2 1) wrong_ins = Some t /\
    calibrate svd log0 uq pick_first empty_graph solve six_pts (rg_model two_rig) 1 1000 (fun _ _ => astray_env log0) pose0 calib2 fixi (FromFile two_file) t p0 gp0 = Some r /\
    insert_all (init_tables 2 1) rig_ins = Some (ru_t r) /\ reported_error (rg_model two_rig) r = Some 0%R /\ true_cameras two_rig rig_ins (saved_cameras (rg_model two_rig) r).
Proof.
  intros svd uq solve pose0 calib2 fixi p0 gp0 SO CE. destruct (insert_all_from_init 2 1 wrong_ins wrong_known) as (t & Et & H & _). exists t.
  assert (Q : exists i, initializeCalibrationAllCam six_pts (rg_model two_rig) (FromFile two_file) t (pa_intr p0) = Some i /\ forall c, (0 <= c < 2)%Z -> i c = rg_intr two_rig c).
  { unfold initializeCalibrationAllCam. rewrite (hd_cam_keys _ _ _ _ H). cbn [seq map Z.of_nat Pos.of_succ_nat fold_left]. cbn. eexists. split; [reflexivity|].
    intros c Hc. assert (D : (c = 0 \/ c = 1)%Z) by lia. destruct D as [-> | ->]; reflexivity. }
  destruct Q as (i & Ei & Eq).
  destruct (C53_wrong_corners_do_not_matter svd log0 uq pick_first empty_graph solve six_pts two_rig 1 1000 (fun _ _ => astray_env log0) pose0 calib2 fixi
    CE pick_first_good SO log0_ok ltac:(lra) ltac:(lia) (fun _ _ => astray_pnp log0) 2 1 wrong_ins rig_ins t wrong_known Et wrong_pairs wrong_all_told rig_rigid six_exact six_general rig_angles (or_introl rig_connected)
    (or_introl (le_n 2)) ltac:(intros a n c f b k m q M; discriminate M) (FromFile two_file) p0 gp0 i Ei) as (r & Er & T & A & B & _).
  - intros c Hc. rewrite Eq; auto.
  - exists r. auto 10.
Qed.
Example C53_example : exists svd solve t, svd_ok svd /\ ceres solve /\ log_ok log0 /\ exact_pnp log0 (astray_env log0) /\
  Forall (known 2 1) wrong_ins /\ insert_all (init_tables 2 1) wrong_ins = Some t /\ Forall2 (cleaned six_pts two_rig) wrong_ins rig_ins /\
  (forall n i i0, nth_error wrong_ins n = Some i -> nth_error rig_ins n = Some i0 -> told_apart six_pts two_rig 1 1000 (astray_env log0) i i0) /\
  (forall i, In i wrong_ins -> exists j, j < length (i_pts i) /\ ~ right six_pts two_rig i j) /\
  rigid_rig two_rig /\ exact_detections six_pts two_rig rig_ins /\ general_position six_pts two_rig rig_ins /\ no_tiny_angles log0 two_rig /\ connected_rig rig_ins /\
  exact_undistort six_pts two_rig rig_ins (astray_env log0) /\
  exists r, calibrate svd log0 true pick_first empty_graph solve six_pts (rg_model two_rig) 1 1000 (fun _ _ => astray_env log0) (fun _ _ => (vzero, vzero)) (fun _ _ => None) 0 (FromFile two_file) t
              (mkPar (fun _ => (vzero, vzero)) (fun _ => I9 0 0 0 0 0 0 0 0 0)%R) (fun _ => (vzero, vzero)) = Some r /\ reported_error (rg_model two_rig) r = Some 0%R.
Proof.
  destruct C20_svd_exists as (svd & SO). destruct (wrong_run svd true (fun _ p => p) (fun _ _ => (vzero, vzero)) (fun _ _ => None) 0%Z (mkPar (fun _ => (vzero, vzero)) (fun _ => I9 0 0 0 0 0 0 0 0 0)%R) (fun _ => (vzero, vzero)) SO ceres_idle)
    as (t & r & Et & Er & _ & R0 & _). exists svd, (fun _ p => p), t. split; [auto|]. split; [apply ceres_idle|]. split; [apply log0_ok|]. split; [apply astray_pnp|]. split; [apply wrong_known|]. split; [auto|].
  split; [apply wrong_pairs|]. split; [apply wrong_all_told|]. split.
  { intros i Hi. unfold wrong_ins in Hi. apply in_map_iff in Hi as (cf & <- & _). exists 5. split; [cbn; lia|]. rewrite wrong_right. lia. }
  split; [apply rig_rigid|]. split; [apply six_exact|]. split; [apply six_general|]. split; [apply rig_angles|]. split; [apply rig_connected|]. split; [intros c f b k m q M; discriminate M|]. exists r. auto.
Qed.
Print Assumptions C53_example.
