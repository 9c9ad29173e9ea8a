(** Noise-free detections: C52, and what the saved object poses are (C50). *)
From Coq Require Import List ZArith QArith Lia Reals Lra Permutation Sorted Relations ClassicalEpsilon.
From Verif Require Import SMap GraphModel GraphSpec GraphPath DataModel DataSpec DataProofs DetectModel RansacModel RansacSpec GeomModel GeomSpec GeomProofs ChainModel ObjectsModel GroupModel
  StageProofs PipelineModel CameraModel ResidualModel ResidualSpec PropGeom PropResidual PropFile WorkflowModel WorkflowReach PropWorkflow RigSpec RigSteps RigExample RigThree.
Import ListNotations.
Close Scope Q_scope.
Close Scope R_scope.
Open Scope nat_scope.

(** ** Cameras with the same parameters *)
Lemma same_values m i j : (m = 0 \/ m = 1)%Z -> getIntrinsics m i = getIntrinsics m j ->
  matrix_of i = matrix_of j /\ [a4 i; a5 i; a6 i; a7 i] = [a4 j; a5 j; a6 j; a7 j] /\ flat m i = flat m j /\ forall P q, image m i P q = image m j P q.
Proof.
  intros Hm E. destruct i as [i0 i1 i2 i3 i4 i5 i6 i7 i8], j as [j0 j1 j2 j3 j4 j5 j6 j7 j8]. unfold getIntrinsics, getCameraMat, getDistortionVector in E. cbn [a0 a1 a2 a3 a4 a5 a6 a7 a8] in E.
  destruct Hm as [-> | ->]; cbn [Z.eqb Pos.eqb] in E; injection E; intros; subst; auto.
Qed.
(** the rig with intrinsic parameters i *)
Definition with_intr (i : Z -> intr) (w : rig) : rig := mkRig (rg_model w) i (rg_cam w) (rg_frame w) (rg_board w).
Lemma sighted_known nc nb ins c f b k m : Forall (known nc nb) ins -> sighted ins c f b k m -> (0 <= c < Z.of_nat nc)%Z.
Proof. intros K (i & j & Hi & <- & _). exact (proj1 (proj1 (Forall_forall _ _) K i Hi)). Qed.

Lemma same_rig bpts w nc nb ins (i : Z -> intr) (env : nat -> nat -> rs_env par6 vec3) : Forall (known nc nb) ins -> rigid_rig w -> exact_detections bpts w ins -> general_position bpts w ins ->
  (forall c n, exact_undistort bpts w ins (env c n)) -> (forall c, (0 <= c < Z.of_nat nc)%Z -> getIntrinsics (rg_model w c) (i c) = getIntrinsics (rg_model w c) (rg_intr w c)) ->
  exact_detections bpts (with_intr i w) ins /\ general_position bpts (with_intr i w) ins /\ forall c n, exact_undistort bpts (with_intr i w) ins (env c n).
Proof.
  intros Kn RG ED GP UN Eq.
  set (w' := with_intr i w).
  assert (SV : forall c f b k m, sighted ins c f b k m -> matrix_of (i c) = matrix_of (rg_intr w c) /\
     [a4 (i c); a5 (i c); a6 (i c); a7 (i c)] = [a4 (rg_intr w c); a5 (rg_intr w c); a6 (rg_intr w c); a7 (rg_intr w c)] /\
     flat (rg_model w c) (i c) = flat (rg_model w c) (rg_intr w c) /\ forall P q, image (rg_model w c) (i c) P q = image (rg_model w c) (rg_intr w c) P q).
  { intros c f b k m S. apply same_values; [apply RG|]. apply Eq. eapply sighted_known; eauto. }
  assert (ED' : exact_detections bpts w' ins).
  { destruct ED as [A B D]. constructor; auto. intros c f b k m S. destruct (D c f b k m S) as (q & Hq & Z & I). exists q. split; [auto|]. split; [exact Z|].
    destruct (SV c f b k m S) as (_ & _ & _ & V). cbn [w' with_intr rg_model rg_intr]. rewrite V. exact I. }
  assert (GP' : general_position bpts w' ins).
  { intros c f l L N S P RP H. apply (GP c f l L N S P RP). destruct l as [|(b0, k0) l]; [discriminate L|]. destruct (S b0 k0 (or_introl eq_refl)) as (m & S0). destruct (SV c f b0 k0 m S0) as (_ & _ & V & _).
    cbn [w' with_intr rg_model rg_intr rg_board] in H. rewrite V in H. exact H. }
  assert (UN' : forall c n, exact_undistort bpts w' ins (env c n)).
  { intros a n c f b k m q M S Hq. cbn [w' with_intr rg_model rg_intr] in *. destruct (SV c f b k m S) as (V1 & V2 & _). rewrite V1, V2. exact (UN a n c f b k m q M S Hq). }
  split; [exact ED'|]. split; [exact GP'|exact UN'].
Qed.
Lemma related_some calib2 w ins : related_cameras calib2 w ins -> ins <> [].
Proof. intros [(N & _)|(m & _ & (N & _) & _)]; exact N. Qed.
Lemma rig_results :
  forall svd lr uq pick g0 solve bpts w thresh it env pose0 calib2 fixi,
  ceres solve -> good_heap pick -> svd_ok svd -> log_ok lr -> (0 < thresh)%R -> (0 < it)%Z -> (forall c n, exact_pnp lr (env c n)) ->
  forall nc nb ins t, Forall (known nc nb) ins -> insert_all (init_tables nc nb) ins = Some t ->
  rigid_rig w -> exact_detections bpts w ins -> general_position bpts w ins -> no_tiny_angles lr w -> related_cameras calib2 w ins ->
  (nc <= 2 \/ (forall a b, fst (rg_cam w a) = fst (rg_cam w b)) \/ shares_with_first ins) -> (forall c n, exact_undistort bpts w ins (env c n)) ->
  forall td src p0 gp0 i, initializeCalibrationAllCam bpts (rg_model w) src td (pa_intr p0) = Some i ->
  (forall c, (0 <= c < Z.of_nat nc)%Z -> getIntrinsics (rg_model w c) (i c) = getIntrinsics (rg_model w c) (rg_intr w c)) ->
  comes_from lr bpts (with_intr i w) thresh it env pose0 t p0 i td ->
  exists r, calibrate svd lr uq pick g0 solve bpts (rg_model w) thresh it env pose0 calib2 fixi src td p0 gp0 = Some r /\
    ru_t r = t /\
    reported_error (rg_model w) r = Some 0%R /\
    true_cameras w ins (saved_cameras (rg_model w) r) /\
    (forall i, In i ins -> exists k o, In (k, o) (ca_objs (ru_s r)) /\ In (i_board i) (mkeys (ob_boards o))) /\
    (forall k o, In (k, o) (ca_objs (ru_s r)) -> true_points bpts w o) /\
    Forall2 (fun e f => fst f = fst e /\ true_poses lr w ins (snd e) (snd f)) (ca_objs (ru_s r)) (saved_poses r).
Proof.
  intros svd lr uq pick g0 solve bpts w thresh it env pose0 calib2 fixi CE Hh SO LO Tp Hit PN nc nb ins t Kn Et RG ED GP NT CN Few UN td src p0 gp0 i Ei Eq Cf.
  set (w' := with_intr i w). destruct (same_rig bpts w nc nb ins i env Kn RG ED GP UN Eq) as (ED' & GP' & UN'). fold w' in ED', GP', UN'.
  destruct (calibrate_exact svd lr uq pick g0 solve bpts w' thresh it env pose0 CE Hh SO LO nc nb ins t Kn Et RG ED' GP' NT PN UN' Tp Hit Few calib2 fixi src p0 gp0 i td CN Ei (fun c => eq_refl) Cf)
    as (r & E & X & ES & PO & A).
  exists r. split; [exact E|]. split; [exact (gd_t _ _ _ _ _ _ _ _ (xa_good _ _ _ _ _ _ _ _ _ X))|]. split; [|split; [|split; [|split]]].
  - exact (zero_error svd lr uq pick g0 bpts w' Hh LO nc nb ins t Kn Et RG ED' Few r (related_some _ _ _ CN) X PO).
  - destruct (results_cameras svd lr uq pick g0 bpts w' Hh nc nb ins t Kn Et RG ED' Few r X A) as (N & D & ref & S & M & T). split; [exact N|]. split; [exact D|].
    exists ref. split; [exact S|]. split; [exact M|]. intros c k H. destruct (T c k H) as (T1 & T2 & T3). split; [|split; [exact T2|exact T3]].
    cbn [w' with_intr rg_model rg_intr] in T1. rewrite T1. apply Eq. assert (Sc : saw ins c) by (apply D; apply (in_map fst) in H; auto). destruct Sc as (j & Hj & <-).
    exact (proj1 (proj1 (Forall_forall _ _) Kn j Hj)).
  - apply (results_points svd lr uq pick g0 bpts w' Hh nc nb ins t Kn Et RG ED' Few r X).
  - apply (results_points svd lr uq pick g0 bpts w' Hh nc nb ins t Kn Et RG ED' Few r X).
  - exact (results_poses_all svd lr uq pick g0 bpts w' Hh nc nb ins t Kn Et ED' Few r X ES).
Qed.

(** ** C52 *)
(** Noise-free detections of a connected rig with at most two cameras (or cameras that are
    all oriented alike), intrinsic parameters that start at their true values, and OpenCV
    and Ceres functions that are right in the absence of noise: whatever is drawn at random,
    the run completes and all results are exact.
    - the reported error is 0;
    - the file of camera parameters holds exactly the cameras that detected a board, with
      their true parameters, and their true poses relative to the first of them;
    - every detected board is in an object; the objects' files have its corners where they are;
    - the saved object poses are the true poses of the objects' reference boards. *)
Theorem C52_exact_data_exact_calibration :
  forall svd lr uq pick g0 solve bpts w thresh it env pose0 calib2 fixi,
  ceres solve -> good_heap pick -> svd_ok svd -> log_ok lr -> (0 < thresh)%R -> (0 < it)%Z -> (forall c n, exact_pnp lr (env c n)) ->
  forall nc nb ins t, Forall (known nc nb) ins -> insert_all (init_tables nc nb) ins = Some t ->
  rigid_rig w -> exact_detections bpts w ins -> general_position bpts w ins -> no_tiny_angles lr w -> connected_rig ins ->
  (nc <= 2 \/ (forall a b, fst (rg_cam w a) = fst (rg_cam w b)) \/ shares_with_first ins) -> (forall c n, exact_undistort bpts w ins (env c n)) ->
  forall src p0 gp0 i, initializeCalibrationAllCam bpts (rg_model w) src t (pa_intr p0) = Some i ->
  (forall c, (0 <= c < Z.of_nat nc)%Z -> getIntrinsics (rg_model w c) (i c) = getIntrinsics (rg_model w c) (rg_intr w c)) ->
  exists r, calibrate svd lr uq pick g0 solve bpts (rg_model w) thresh it env pose0 calib2 fixi src t p0 gp0 = Some r /\
    reported_error (rg_model w) r = Some 0%R /\
    true_cameras w ins (saved_cameras (rg_model w) r) /\
    (forall i, In i ins -> exists k o, In (k, o) (ca_objs (ru_s r)) /\ In (i_board i) (mkeys (ob_boards o))) /\
    (forall k o, In (k, o) (ca_objs (ru_s r)) -> true_points bpts w o) /\
    Forall2 (fun e f => fst f = fst e /\ true_poses lr w ins (snd e) (snd f)) (ca_objs (ru_s r)) (saved_poses r).
Proof.
  intros svd lr uq pick g0 solve bpts w thresh it env pose0 calib2 fixi CE Hh SO LO Tp Hit PN nc nb ins t Kn Et RG ED GP NT CN Few UN src p0 gp0 i Ei Eq.
  destruct (same_rig bpts w nc nb ins i env Kn RG ED GP UN Eq) as (ED' & GP' & UN').
  assert (Cf := comes_from_itself lr bpts (with_intr i w) thresh it env pose0 LO nc nb ins t Kn Et RG ED' GP' PN UN' Tp Hit p0 i (fun c => eq_refl)).
  destruct (rig_results svd lr uq pick g0 solve bpts w thresh it env pose0 calib2 fixi CE Hh SO LO Tp Hit PN nc nb ins t Kn Et RG ED GP NT (or_introl CN) Few UN t src p0 gp0 i Ei Eq Cf) as (r & E & _ & H).
  exists r. auto.
Qed.

(** The same, started from a file of camera parameters with the true values. *)
Lemma init_from_file bpts models file t : forall l i0, (forall c, In c l -> exists e, entry file c = Some e /\ proper_matrix (r_K e) /\ coefficients (models c) (length (r_dist e))) ->
  exists i, fold_left (fun acc c => match acc with
                          | Some i => option_map (fun x c' => if Z.eqb c' c then x else i c') (init_camera bpts models (FromFile file) t c (i c))
                          | None => None end) l (Some i0) = Some i.
Proof.
  induction l as [|c l IH]; intros i0 H; cbn [fold_left]; [eauto|]. destruct (H c (or_introl eq_refl)) as (e & Ee & PM & CO). cbn [init_camera]. rewrite Ee.
  destruct (C38_set_then_get (models c) (r_K e) (r_dist e) (i0 c) PM CO) as (x & Ex & _). rewrite Ex. cbn [option_map]. apply IH. intros d Hd. apply H. right. auto.
Qed.
Theorem C52_starting_from_a_file :
  forall svd lr uq pick g0 solve bpts w thresh it env pose0 calib2 fixi,
  ceres solve -> good_heap pick -> svd_ok svd -> log_ok lr -> (0 < thresh)%R -> (0 < it)%Z -> (forall c n, exact_pnp lr (env c n)) ->
  forall nc nb ins t, Forall (known nc nb) ins -> insert_all (init_tables nc nb) ins = Some t ->
  rigid_rig w -> exact_detections bpts w ins -> general_position bpts w ins -> no_tiny_angles lr w -> connected_rig ins ->
  (nc <= 2 \/ (forall a b, fst (rg_cam w a) = fst (rg_cam w b)) \/ shares_with_first ins) -> (forall c n, exact_undistort bpts w ins (env c n)) ->
  forall file, (forall c, (0 <= c < Z.of_nat nc)%Z -> exists e, entry file c = Some e /\ (r_K e, r_dist e) = getIntrinsics (rg_model w c) (rg_intr w c)) ->
  forall p0 gp0, exists r, calibrate svd lr uq pick g0 solve bpts (rg_model w) thresh it env pose0 calib2 fixi (FromFile file) t p0 gp0 = Some r /\
    reported_error (rg_model w) r = Some 0%R /\ true_cameras w ins (saved_cameras (rg_model w) r).
Proof.
  intros svd lr uq pick g0 solve bpts w thresh it env pose0 calib2 fixi CE Hh SO LO Tp Hit PN nc nb ins t Kn Et RG ED GP NT CN Few UN file Hf p0 gp0.
  destruct (insert_all_from_init nc nb ins Kn) as (t1 & E1 & H & _). assert (t1 = t) by congruence. subst t1. assert (CK := hd_cam_keys _ _ _ _ H).
  assert (Rng : forall c, In c (mkeys (t_cams t)) <-> (0 <= c < Z.of_nat nc)%Z).
  { intros c. rewrite CK, in_map_iff. split; [intros (n & <- & Hn); apply in_seq in Hn; lia|]. intros Q. exists (Z.to_nat c). split; [lia|]. apply in_seq. lia. }
  assert (PE : forall c, In c (mkeys (t_cams t)) -> exists e, entry file c = Some e /\ proper_matrix (r_K e) /\ coefficients (rg_model w c) (length (r_dist e)) /\ (r_K e, r_dist e) = getIntrinsics (rg_model w c) (rg_intr w c)).
  { intros c Hc. apply Rng in Hc. destruct (Hf c Hc) as (e & Ee & Eq). exists e. split; [auto|]. assert (Eq' := Eq). unfold getIntrinsics in Eq'. injection Eq' as -> ->. split; [|split; [|auto]].
    - repeat split; reflexivity.
    - apply dist_length. apply RG. }
  assert (Q : exists i, initializeCalibrationAllCam bpts (rg_model w) (FromFile file) t (pa_intr p0) = Some i).
  { apply (init_from_file bpts (rg_model w) file t (mkeys (t_cams t)) (pa_intr p0)). intros c Hc. destruct (PE c Hc) as (e & A & B & D & _). eauto. }
  destruct Q as (i & Ei). assert (ND : NoDup (mkeys (t_cams t))).
  { rewrite CK. apply FinFun.Injective_map_NoDup; [intros a b; lia|apply seq_NoDup]. }
  destruct (init_each _ _ _ _ _ _ ND Ei) as (Each & _).
  destruct (C52_exact_data_exact_calibration svd lr uq pick g0 solve bpts w thresh it env pose0 calib2 fixi CE Hh SO LO Tp Hit PN nc nb ins t Kn Et RG ED GP NT CN Few UN (FromFile file) p0 gp0 i Ei) as (r & Er & R0 & R1 & _).
  - intros c Hc. apply Rng in Hc. destruct (PE c Hc) as (e & Ee & PM & CO & Eq). specialize (Each c Hc). cbn [init_camera] in Each. rewrite Ee in Each.
    destruct (C38_set_then_get (rg_model w c) (r_K e) (r_dist e) (pa_intr p0 c) PM CO) as (x & Ex & Eg). rewrite Each in Ex. injection Ex as <-. congruence.
  - exists r. auto.
Qed.
Print Assumptions C52_exact_data_exact_calibration.
Print Assumptions C52_starting_from_a_file.

(** Two cameras and one board, two frames (RigExample): all assumptions are met. *)
Definition two_file : list (Z * cam_rec) :=
  map (fun c => (c, mkRec (M3 1 0 0 0 1 0 0 0 1)%R [0; 0; 0; 0; 0]%R 0 0 0 0 pid)) [0; 1]%Z.
Lemma two_run : forall svd uq solve pose0 calib2 fixi p0 gp0, svd_ok svd -> ceres solve ->
  exists t r, insert_all (init_tables 2 1) rig_ins = Some t /\
    calibrate svd log0 uq pick_first empty_graph solve rig_pts (rg_model two_rig) 1 1000 (fun _ _ => ideal_env log0) pose0 calib2 fixi (FromFile two_file) t p0 gp0 = Some r /\
    reported_error (rg_model two_rig) r = Some 0%R /\ true_cameras two_rig rig_ins (saved_cameras (rg_model two_rig) r) /\
    (forall i, In i rig_ins -> exists k o, In (k, o) (ca_objs (ru_s r)) /\ In (i_board i) (mkeys (ob_boards o))) /\
    Forall2 (fun e f => fst f = fst e /\ true_poses log0 two_rig rig_ins (snd e) (snd f)) (ca_objs (ru_s r)) (saved_poses r).
Proof.
  intros svd uq solve pose0 calib2 fixi p0 gp0 SO CE. destruct (insert_all_from_init 2 1 rig_ins rig_known) as (t & Et & H & _). exists t.
  assert (Q : exists i, initializeCalibrationAllCam rig_pts (rg_model two_rig) (FromFile two_file) t (pa_intr p0) = Some i /\ forall c, (0 <= c < 2)%Z -> i c = rg_intr two_rig c).
  { unfold initializeCalibrationAllCam. rewrite (hd_cam_keys _ _ _ _ H). cbn [seq map Z.of_nat Pos.of_succ_nat fold_left]. cbn. eexists. split; [reflexivity|].
    intros c Hc. assert (D : (c = 0 \/ c = 1)%Z) by lia. destruct D as [-> | ->]; reflexivity. }
  destruct Q as (i & Ei & Eq).
  destruct (C52_exact_data_exact_calibration svd log0 uq pick_first empty_graph solve rig_pts two_rig 1 1000 (fun _ _ => ideal_env log0) pose0 calib2 fixi
    CE pick_first_good SO log0_ok ltac:(lra) ltac:(lia) (fun _ _ => ideal_pnp log0) 2 1 rig_ins t rig_known Et rig_rigid rig_exact rig_general rig_angles rig_connected
    (or_introl (le_n 2)) ltac:(intros a n c f b k m q M; discriminate M) (FromFile two_file) p0 gp0 i Ei) as (r & Er & A & B & D & _ & E).
  - intros c Hc. rewrite Eq; auto.
  - exists r. auto 10.
Qed.
Example C52_example : exists svd solve t, svd_ok svd /\ ceres solve /\ Forall (known 2 1) rig_ins /\ insert_all (init_tables 2 1) rig_ins = Some t /\
  rigid_rig two_rig /\ exact_detections rig_pts two_rig rig_ins /\ general_position rig_pts two_rig rig_ins /\ no_tiny_angles log0 two_rig /\ connected_rig rig_ins /\ log_ok log0 /\
  exact_pnp log0 (ideal_env log0) /\ exact_undistort rig_pts two_rig rig_ins (ideal_env log0) /\
  rg_cam two_rig 0%Z <> rg_cam two_rig 1%Z /\
  exists r, calibrate svd log0 true pick_first empty_graph solve rig_pts (rg_model two_rig) 1 1000 (fun _ _ => ideal_env log0) (fun _ _ => (vzero, vzero)) (fun _ _ => None) 0 (FromFile two_file) t
              (mkPar (fun _ => (vzero, vzero)) (fun _ => I9 0 0 0 0 0 0 0 0 0)%R) (fun _ => (vzero, vzero)) = Some r /\ reported_error (rg_model two_rig) r = Some 0%R.
Proof.
  destruct C20_svd_exists as (svd & SO). destruct (two_run svd true (fun _ p => p) (fun _ _ => (vzero, vzero)) (fun _ _ => None) 0%Z (mkPar (fun _ => (vzero, vzero)) (fun _ => I9 0 0 0 0 0 0 0 0 0)%R) (fun _ => (vzero, vzero)) SO ceres_idle)
    as (t & r & Et & Er & R0 & _). exists svd, (fun _ p => p), t. split; [auto|]. split; [apply ceres_idle|]. split; [apply rig_known|]. split; [auto|]. split; [apply rig_rigid|]. split; [apply rig_exact|].
  split; [apply rig_general|]. split; [apply rig_angles|]. split; [apply rig_connected|]. split; [apply log0_ok|]. split; [apply ideal_pnp|]. split; [intros c f b k m q M; discriminate M|].
  split; [cbn; intros Q; injection Q as Q; lra|]. exists r. auto.
Qed.
Print Assumptions C52_example.

(** Three cameras, one of them upside down (RigThree): all assumptions are met. *)
Definition three_file : list (Z * cam_rec) :=
  map (fun c => (c, mkRec (M3 1 0 0 0 1 0 0 0 1)%R [0; 0; 0; 0; 0]%R 0 0 0 0 pid)) [0; 1; 2]%Z.
Example C52_three_cameras_example : exists svd solve t, svd_ok svd /\ ceres solve /\ Forall (known 3 1) three_ins /\ insert_all (init_tables 3 1) three_ins = Some t /\
  shares_with_first three_ins /\ fst (rg_cam three_rig 0) <> fst (rg_cam three_rig 2) /\
  exists r, calibrate svd log0 true pick_first empty_graph solve rig_pts (rg_model three_rig) 1 1000 (fun _ _ => ideal_env log0) (fun _ _ => (vzero, vzero)) (fun _ _ => None) 0 (FromFile three_file) t
              (mkPar (fun _ => (vzero, vzero)) (fun _ => I9 0 0 0 0 0 0 0 0 0)%R) (fun _ => (vzero, vzero)) = Some r /\ reported_error (rg_model three_rig) r = Some 0%R /\
    true_cameras three_rig three_ins (saved_cameras (rg_model three_rig) r).
Proof.
  destruct C20_svd_exists as (svd & SO). destruct (insert_all_from_init 3 1 three_ins three_known) as (t & Et & H & _). exists svd, (fun _ p => p), t.
  split; [auto|]. split; [apply ceres_idle|]. split; [apply three_known|]. split; [auto|]. split; [apply three_direct|]. split; [apply three_not_equal|].
  apply (C52_starting_from_a_file svd log0 true pick_first empty_graph (fun _ p => p) rig_pts three_rig 1 1000 (fun _ _ => ideal_env log0) (fun _ _ => (vzero, vzero)) (fun _ _ => None) 0%Z
    ceres_idle pick_first_good SO log0_ok ltac:(lra) ltac:(lia) (fun _ _ => ideal_pnp log0) 3 1 three_ins t three_known Et three_rigid three_exact three_general three_angles three_connected
    (or_intror (or_intror three_direct)) ltac:(intros a n c f b k m q M; discriminate M)).
  intros c Hc. assert (D : (c = 0 \/ c = 1 \/ c = 2)%Z) by lia. destruct D as [-> | [-> | ->]]; eexists; (split; [reflexivity|reflexivity]).
Qed.
Print Assumptions C52_three_cameras_example.

(** ** C50: the saved object poses *)
(** The README says that the saved poses of an object are with respect to the reference
    camera.  They are not: even with noise-free detections, the file has the pose of the
    object for camera 1, (1, 0, 1), although for the reference camera 0 the object is at
    (0, 0, 1) and (0, 0, 2) in the two frames. *)
Theorem C50_poses_relative_to_reference_camera_refuted :
  exists svd lr solve bpts w env pose0 calib2 file t p0 gp0 ins r, svd_ok svd /\ log_ok lr /\ ceres solve /\ (forall c n : nat, exact_pnp lr (env c n)) /\
  insert_all (init_tables 2 1) ins = Some t /\ exact_detections bpts w ins /\
  calibrate svd lr false pick_first empty_graph solve bpts (rg_model w) 1 1000 env pose0 calib2 0 (FromFile file) t p0 gp0 = Some r /\
  (exists k, In (1%Z, k) (saved_cameras (rg_model w) r)) /\
  exists id ps P, In (id, ps) (saved_poses r) /\ In P ps /\ forall f b, matrix P <> board_at w 0 f b.
Proof.
  destruct C20_svd_exists as (svd & SO). set (p0 := mkPar (fun _ => (vzero, vzero)) (fun _ => I9 0 0 0 0 0 0 0 0 0)%R).
  destruct (two_run svd false (fun _ p => p) (fun _ _ => (vzero, vzero)) (fun _ _ => None) 0%Z p0 (fun _ => (vzero, vzero)) SO ceres_idle) as (t & r & Et & Er & R0 & (_ & TC & _) & TB & TP).
  exists svd, log0, (fun _ p => p), rig_pts, two_rig, (fun _ _ => ideal_env log0), (fun _ _ => (vzero, vzero)), (fun _ _ => None), two_file, t, p0, (fun _ => (vzero, vzero)), rig_ins, r.
  split; [auto|]. split; [apply log0_ok|]. split; [apply ceres_idle|]. split; [intros; apply ideal_pnp|]. split; [auto|]. split; [apply rig_exact|]. split; [auto|].
  set (i1 := mkIns 1%Z 0%Z 0%Z (shot 1 0) rig_ids rig_path). assert (H1 : In i1 rig_ins) by (right; left; reflexivity). split.
  - assert (Q : In 1%Z (map fst (saved_cameras (rg_model two_rig) r))) by (apply TC; exists i1; auto). apply in_map_iff in Q as ((c, k) & E & Q). cbn in E. subst c. eauto.
  - destruct (TB i1 H1) as (k & o & Ho & Hb).
    assert (Q : exists ps, In (k, ps) (saved_poses r) /\ true_poses log0 two_rig rig_ins o ps).
    { clear - TP Ho. induction TP as [|e f l l' (E & T) TP IH]; [destruct Ho|]. destruct Ho as [->|Ho]; [|destruct (IH Ho) as (ps & A & B); exists ps; split; [right; auto|auto]].
      exists (snd f). split; [left; destruct f; cbn in *; congruence|auto]. }
    destruct Q as (ps & Hps & l & El & Ml). exists k, ps, (Proj2RT log0 (board_at two_rig 1 0 (ob_ref o))). split; [auto|]. split.
    + rewrite El. apply in_map_iff. exists (1, 0)%Z. split; [auto|]. apply Ml. exists i1. auto.
    + intros f b. rewrite !at_board. intros E. assert (Q := f_equal (fun P => vx (snd P)) E). cbn in Q. lra.
Qed.
Print Assumptions C50_poses_relative_to_reference_camera_refuted.

(** ** C39: a run with fixed intrinsics that start from a file *)
Example C39_example : exists svd solve t p0 gp0 r, ceres solve /\ NoDup (mkeys (t_cams t)) /\
  calibrate svd log0 true pick_first empty_graph solve rig_pts (rg_model two_rig) 1 1000 (fun _ _ => ideal_env log0) (fun _ _ => (vzero, vzero)) (fun _ _ => None) 1 (FromFile two_file) t p0 gp0 = Some r /\
  pa_intr (ru_p r) 0%Z <> pa_intr p0 0%Z /\ exists k, In (1%Z, k) (saved_cameras (rg_model two_rig) r) /\ r_K k = M3 1 0 0 0 1 0 0 0 1.
Proof.
  destruct C20_svd_exists as (svd & SO). set (p0 := mkPar (fun _ => (vzero, vzero)) (fun _ => I9 0 0 0 0 0 0 0 0 0)%R).
  destruct (two_run svd true (fun _ p => p) (fun _ _ => (vzero, vzero)) (fun _ _ => None) 1%Z p0 (fun _ => (vzero, vzero)) SO ceres_idle) as (t & r & Et & Er & _ & (_ & TC & ref & _ & _ & TK) & _).
  exists svd, (fun _ p => p), t, p0, (fun _ => (vzero, vzero)), r. split; [apply ceres_idle|].
  destruct (insert_all_from_init 2 1 rig_ins rig_known) as (t' & Et' & H & _). assert (t' = t) by congruence. subst t'.
  assert (CK := hd_cam_keys _ _ _ _ H). split; [rewrite CK; apply FinFun.Injective_map_NoDup; [intros a b; lia|apply seq_NoDup]|]. split; [auto|]. split.
  - destruct (C39_fixed_intrinsics_never_change _ _ _ _ _ _ _ _ _ _ _ _ _ _ ceres_idle (fun Q : 1%Z = 0%Z => ltac:(discriminate Q)) _ _ _ _ _ Er) as (i & Ei & Eq). rewrite Eq.
    unfold initializeCalibrationAllCam in Ei. rewrite CK in Ei. cbn [seq map Z.of_nat Pos.of_succ_nat fold_left] in Ei. cbn in Ei. injection Ei as <-. cbn. intros Q. injection Q as Q. lra.
  - set (i1 := mkIns 1%Z 0%Z 0%Z (shot 1 0) rig_ids rig_path). assert (H1 : In i1 rig_ins) by (right; left; reflexivity).
    assert (Q : In 1%Z (map fst (saved_cameras (rg_model two_rig) r))) by (apply TC; exists i1; auto). apply in_map_iff in Q as ((c, k) & E & Q). cbn in E. subst c. exists k. split; [auto|].
    destruct (TK _ _ Q) as (E & _). unfold getIntrinsics in E. injection E as -> _. reflexivity.
Qed.
Print Assumptions C39_example.
