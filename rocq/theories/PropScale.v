(** C67: square sizes given in another unit give the same calibration in that unit. *)
From Coq Require Import List ZArith QArith Lia Reals Lra Relations.
From Verif Require Import SMap GraphModel GraphSpec GraphPath DataModel DataSpec DataProofs DetectModel RansacModel RansacSpec GeomModel GeomSpec GeomProofs ChainModel ObjectsModel GroupModel
  StageProofs PipelineModel CameraModel ResidualModel ResidualSpec PropGeom PropResidual FileModel PropFile WorkflowModel PropWorkflow RigSpec RigSteps RigExample RigThree PropRig ScaleSpec.
Import ListNotations.
Close Scope Q_scope.
Close Scope nat_scope.
Open Scope R_scope.

Section Scale.
Variable s : R.
Hypothesis Hs : 0 < s.

Lemma longer_mul P Q : pmul (longer s P) (longer s Q) = longer s (pmul P Q).
Proof. destruct P as (A, t), Q as (B, u). unfold longer, pmul. cbn [fst snd]. f_equal. apply vec3_eq; cbn; ring. Qed.
Lemma longer_inv P : pinv (longer s P) = longer s (pinv P).
Proof. destruct P as (A, t). unfold longer, pinv. cbn [fst snd]. f_equal. apply vec3_eq; cbn; ring. Qed.
Lemma longer_act P q : pact (longer s P) (vscale s q) = vscale s (pact P q).
Proof. destruct P as (A, t). unfold longer, pact. cbn [fst snd]. apply vec3_eq; cbn; ring. Qed.
Lemma longer_rigid P : rigid (longer s P) <-> rigid P.
Proof. unfold rigid, longer. cbn. tauto. Qed.
Lemma vscale_inj a b : vscale s a = vscale s b -> a = b.
Proof. intros E. apply vec3_eq; [apply (f_equal vx) in E|apply (f_equal vy) in E|apply (f_equal vz) in E]; cbn in E; nra. Qed.
Lemma longer_image m i P q : image m i (longer s P) (vscale s q) = image m i P q.
Proof.
  unfold image. rewrite longer_act. set (c := pact P q). cbn [vscale vx vy vz].
  destruct (Req_EM_T (vz c) 0) as [Z|Z], (Req_EM_T (s * vz c) 0) as [Z'|Z']; auto.
  - exfalso. apply Z'. rewrite Z. ring.
  - exfalso. apply Z. nra.
  - replace (s * vx c / (s * vz c)) with (vx c / vz c) by (field; lra). replace (s * vy c / (s * vz c)) with (vy c / vz c) by (field; lra). reflexivity.
Qed.
Lemma longer_front P q : 0 < vz (pact (longer s P) (vscale s q)) <-> 0 < vz (pact P q).
Proof. rewrite longer_act. cbn [vscale vz]. split; intros H; nra. Qed.
Lemma shorter P : longer s (fst P, vscale (/ s) (snd P)) = P.
Proof. destruct P as (A, t). unfold longer. cbn [fst snd]. f_equal. apply vec3_eq; cbn; field; lra. Qed.

Lemma larger_world w c f : world_at (larger_rig s w) c f = longer s (world_at w c f).
Proof. unfold world_at. cbn [larger_rig rg_cam rg_frame]. apply longer_mul. Qed.
Lemma larger_board w c f b : board_at (larger_rig s w) c f b = longer s (board_at w c f b).
Proof. unfold board_at. rewrite larger_world. cbn [larger_rig rg_board]. apply longer_mul. Qed.
Lemma larger_corner bpts b k q : corner (larger_boards s bpts) b k q <-> exists p, corner bpts b k p /\ q = vscale s p.
Proof.
  unfold corner, larger_boards. rewrite nth_error_map. split.
  - intros (H & E). destruct (nth_error (bpts b) (Z.to_nat k)) as [p|]; [|discriminate E]. cbn in E. injection E as <-. exists p. auto.
  - intros (p & (H & ->) & ->). auto.
Qed.

Lemma larger_rigid w : rigid_rig w -> rigid_rig (larger_rig s w).
Proof. intros (A & B & C & D). split; [exact A|]. split; [|split]; intros x; apply longer_rigid; auto. Qed.
Lemma larger_exact bpts w ins : exact_detections bpts w ins -> exact_detections (larger_boards s bpts) (larger_rig s w) ins.
Proof.
  intros [A B C]. constructor; auto. intros c f b k m S. destruct (C c f b k m S) as (q & H & F & I). exists (vscale s q).
  split; [apply larger_corner; eauto|]. rewrite larger_board. split; [apply longer_front; auto|]. cbn [larger_rig rg_model rg_intr]. rewrite longer_image. auto.
Qed.
Lemma larger_general bpts w ins : general_position bpts w ins -> general_position (larger_boards s bpts) (larger_rig s w) ins.
Proof.
  intros G c f l Ll ND Sg P RP H. rewrite larger_world. rewrite <- (shorter P). f_equal.
  set (P' := (fst P, vscale (/ s) (snd P))) in *. apply (G c f l Ll ND Sg P'); [exact RP|]. intros b k q Hb Hc.
  assert (Hc' : corner (larger_boards s bpts) b k (vscale s q)) by (apply larger_corner; eauto).
  destruct (H b k (vscale s q) Hb Hc') as (F & I). cbn [larger_rig rg_board rg_model rg_intr] in F, I. rewrite larger_world in I.
  rewrite <- (shorter P) in F, I. fold P' in F, I. rewrite !longer_act in F, I. rewrite !longer_image in I. split; [|exact I].
  rewrite longer_front in F by auto. exact F.
Qed.
Lemma longer_plain lr P : plain (Proj2RT lr (longer s P)) <-> plain (Proj2RT lr P).
Proof. unfold plain, Proj2RT, longer. cbn [fst snd]. tauto. Qed.
Lemma larger_angles lr w : no_tiny_angles lr w -> no_tiny_angles lr (larger_rig s w).
Proof.
  intros (A & B & C). split; [|split]; intros; [rewrite larger_board| |]; cbn [larger_rig rg_cam rg_board]; rewrite ?longer_inv, ?longer_mul; apply longer_plain; auto.
Qed.
Lemma larger_undistort bpts w ins env : exact_detections bpts w ins -> exact_undistort bpts w ins env -> exact_undistort (larger_boards s bpts) (larger_rig s w) ins env.
Proof.
  intros ED U c f b k m q M S Hc. apply larger_corner in Hc as (p & Hp & ->). cbn zeta. rewrite larger_board, longer_act. cbn [larger_rig rg_intr vscale vx vy vz].
  rewrite (U c f b k m p M S Hp). destruct (ed_image _ _ _ ED c f b k m S) as (q' & Hq & F & _).
  assert (q' = p) as -> by (destruct Hp as (_ & E), Hq as (_ & E'); congruence).
  f_equal; field; lra.
Qed.
End Scale.

(** The same detections, calibrated with the true sizes of the squares and with sizes s times as large: both
    runs succeed with error zero and give the same intrinsic parameters; rotations are the same, and all
    translations and corners of objects are s times as large. *)
Theorem C67_unit_of_length :
  forall svd lr uq pick g0 solve bpts w thresh it env pose0 calib2 fixi,
  ceres solve -> good_heap pick -> svd_ok svd -> log_ok lr -> (0 < thresh)%R -> (0 < it)%Z -> (forall c n, exact_pnp lr (env c n)) ->
  forall nc nb ins t, Forall (known nc nb) ins -> insert_all (init_tables nc nb) ins = Some t ->
  rigid_rig w -> exact_detections bpts w ins -> general_position bpts w ins -> no_tiny_angles lr w -> connected_rig ins ->
  ((nc <= 2)%nat \/ (forall a b, fst (rg_cam w a) = fst (rg_cam w b)) \/ shares_with_first ins) -> (forall c n, exact_undistort bpts w ins (env c n)) ->
  forall s, 0 < s ->
  forall src p0 gp0 i i', initializeCalibrationAllCam bpts (rg_model w) src t (pa_intr p0) = Some i ->
  initializeCalibrationAllCam (larger_boards s bpts) (rg_model w) src t (pa_intr p0) = Some i' ->
  (forall c, (0 <= c < Z.of_nat nc)%Z -> getIntrinsics (rg_model w c) (i c) = getIntrinsics (rg_model w c) (rg_intr w c) /\
                                         getIntrinsics (rg_model w c) (i' c) = getIntrinsics (rg_model w c) (rg_intr w c)) ->
  exists r r',
    calibrate svd lr uq pick g0 solve bpts (rg_model w) thresh it env pose0 calib2 fixi src t p0 gp0 = Some r /\
    calibrate svd lr uq pick g0 solve (larger_boards s bpts) (rg_model w) thresh it env pose0 calib2 fixi src t p0 gp0 = Some r' /\
    reported_error (rg_model w) r = Some 0 /\ reported_error (rg_model w) r' = Some 0 /\
    (forall c, In c (map fst (saved_cameras (rg_model w) r)) <-> In c (map fst (saved_cameras (rg_model w) r'))) /\
    (forall c k k', In (c, k) (saved_cameras (rg_model w) r) -> In (c, k') (saved_cameras (rg_model w) r') ->
       r_K k' = r_K k /\ r_dist k' = r_dist k /\ r_type k' = r_type k /\ r_pose k' = longer s (r_pose k)) /\
    (forall n o n' o' cols cols' x x' b k, In (n, o) (ca_objs (ru_s r)) -> In (n', o') (ca_objs (ru_s r')) -> ob_ref o = ob_ref o' ->
       save3DObj bpts o = Some cols -> save3DObj (larger_boards s bpts) o' = Some cols' ->
       In (x, b, k) cols -> In (x', b, k) cols' -> x' = vscale s x).
Proof.
  intros svd lr uq pick g0 solve bpts w thresh it env pose0 calib2 fixi CE Hh SO LO Tp Hit PN nc nb ins t Kn Et RG ED GP NT CN Few UN s Hs src p0 gp0 i i' Ei Ei' SI.
  destruct (C52_exact_data_exact_calibration svd lr uq pick g0 solve bpts w thresh it env pose0 calib2 fixi CE Hh SO LO Tp Hit PN nc nb ins t Kn Et RG ED GP NT CN Few UN src p0 gp0 i Ei
    (fun c Hc => proj1 (SI c Hc))) as (r & Er & R0 & (ND & KS & ref & Sr & Mr & TC) & _ & TP & _).
  destruct (C52_exact_data_exact_calibration svd lr uq pick g0 solve (larger_boards s bpts) (larger_rig s w) thresh it env pose0 calib2 fixi CE Hh SO LO Tp Hit PN nc nb ins t Kn Et (larger_rigid s w RG)
    (larger_exact s Hs bpts w ins ED) (larger_general s Hs bpts w ins GP) (larger_angles s lr w NT) CN Few (fun c n => larger_undistort s Hs bpts w ins (env c n) ED (UN c n)) src p0 gp0 i' Ei'
    (fun c Hc => proj2 (SI c Hc))) as (r' & Er' & R0' & (ND' & KS' & ref' & Sr' & Mr' & TC') & _ & TP' & _).
  cbn [larger_rig rg_model rg_intr rg_cam] in *.
  assert (ref' = ref) as -> by (assert (A := Mr ref' Sr'); assert (B := Mr' ref Sr); lia).
  exists r, r'. split; [exact Er|]. split; [exact Er'|]. split; [exact R0|]. split; [exact R0'|]. split; [|split].
  - intros c. rewrite KS, KS'. tauto.
  - intros c k k' Hk Hk'. destruct (TC c k Hk) as (A & B & C), (TC' c k' Hk') as (A' & B' & C'). cbn [larger_rig rg_model rg_intr rg_cam] in *.
    rewrite <- A in A'. injection A' as A1 A2. split; [auto|]. split; [auto|]. split; [congruence|]. rewrite C', C, longer_inv, longer_mul. reflexivity.
  - intros n o n' o' cols cols' x x' b k Ho Ho' Q Ec Ec' Hx Hx'. destruct (TP n o Ho) as (l & El & _ & F), (TP' n' o' Ho') as (l' & El' & _ & F').
    assert (l = cols) as -> by congruence. assert (l' = cols') as -> by congruence.
    destruct (F x b k Hx) as (q & Hq & E), (F' x' b k Hx') as (q' & Hq' & E'). apply larger_corner in Hq' as (p & Hp & ->).
    assert (p = q) as -> by (destruct Hp as (_ & Y), Hq as (_ & Y'); congruence).
    cbn [larger_rig rg_board] in E'. rewrite longer_act, <- E, <- longer_act, <- Q in E'.
    destruct RG as (_ & _ & _ & RB). apply (f_equal (pact (pinv (longer s (rg_board w (ob_ref o)))))) in E'.
    rewrite <- !pact_mul, pinv_l, !pact_id in E' by (apply longer_rigid; apply RB). exact E'.
Qed.
Print Assumptions C67_unit_of_length.

(** "Wrong sizes of the squares show in the reported error" is false: two runs on the same detections, with squares of
    one unit and of 1000 units, both with error zero, that put camera 1 at different places. *)
Theorem C67_wrong_sizes_show_in_the_error_refuted : exists svd solve t r r' k k',
  svd_ok svd /\ ceres solve /\ insert_all (init_tables 2 1) rig_ins = Some t /\ exact_detections rig_pts two_rig rig_ins /\
  calibrate svd log0 true pick_first empty_graph solve rig_pts (rg_model two_rig) 1 1000 (fun _ _ => ideal_env log0) (fun _ _ => (vzero, vzero)) (fun _ _ => None) 0 (FromFile two_file) t
    (mkPar (fun _ => (vzero, vzero)) (fun _ => I9 0 0 0 0 0 0 0 0 0)%R) (fun _ => (vzero, vzero)) = Some r /\
  calibrate svd log0 true pick_first empty_graph solve (larger_boards 1000 rig_pts) (rg_model two_rig) 1 1000 (fun _ _ => ideal_env log0) (fun _ _ => (vzero, vzero)) (fun _ _ => None) 0 (FromFile two_file) t
    (mkPar (fun _ => (vzero, vzero)) (fun _ => I9 0 0 0 0 0 0 0 0 0)%R) (fun _ => (vzero, vzero)) = Some r' /\
  reported_error (rg_model two_rig) r = Some 0 /\ reported_error (rg_model two_rig) r' = Some 0 /\
  In (1%Z, k) (saved_cameras (rg_model two_rig) r) /\ In (1%Z, k') (saved_cameras (rg_model two_rig) r') /\ r_pose k' <> r_pose k.
Proof.
  destruct C20_svd_exists as (svd & SO). destruct (insert_all_from_init 2 1 rig_ins rig_known) as (t & Et & H & _). exists svd, (fun _ p => p), t.
  set (p0 := mkPar (fun _ => (vzero, vzero)) (fun _ => I9 0 0 0 0 0 0 0 0 0)%R).
  assert (Q : forall pts, exists i, initializeCalibrationAllCam pts (rg_model two_rig) (FromFile two_file) t (pa_intr p0) = Some i /\ forall c, (0 <= c < 2)%Z -> i c = rg_intr two_rig c).
  { intros pts. unfold initializeCalibrationAllCam. rewrite (hd_cam_keys _ _ _ _ H). cbn [seq map Z.of_nat Pos.of_succ_nat fold_left]. cbn. eexists. split; [reflexivity|].
    intros c Hc. assert (D : (c = 0 \/ c = 1)%Z) by lia. destruct D as [-> | ->]; reflexivity. }
  destruct (Q rig_pts) as (i & Ei & Eq), (Q (larger_boards 1000 rig_pts)) as (i' & Ei' & Eq').
  assert (F : forall c, (0 <= c < Z.of_nat 2)%Z -> getIntrinsics (rg_model two_rig c) (i c) = getIntrinsics (rg_model two_rig c) (rg_intr two_rig c) /\
                                         getIntrinsics (rg_model two_rig c) (i' c) = getIntrinsics (rg_model two_rig c) (rg_intr two_rig c)) by (intros c Hc; rewrite Eq, Eq' by exact Hc; auto).
  destruct (C67_unit_of_length svd log0 true pick_first empty_graph (fun _ p => p) rig_pts two_rig 1 1000 (fun _ _ => ideal_env log0) (fun _ _ => (vzero, vzero)) (fun _ _ => None) 0%Z
    ceres_idle pick_first_good SO log0_ok ltac:(lra) ltac:(lia) (fun _ _ => ideal_pnp log0) 2 1 rig_ins t rig_known Et rig_rigid rig_exact rig_general rig_angles rig_connected
    (or_introl (le_n 2)) ltac:(intros a n c f b k m q M; discriminate M) 1000 ltac:(lra) (FromFile two_file) p0 (fun _ => (vzero, vzero)) i i' Ei Ei' F)
    as (r & r' & Er & Er' & R0 & R0' & KK & TC & _).
  destruct (two_run svd true (fun _ p => p) (fun _ _ => (vzero, vzero)) (fun _ _ => None) 0%Z p0 (fun _ => (vzero, vzero)) SO ceres_idle) as (t2 & r2 & Et2 & Er2 & _ & (_ & KS & ref & Sr & Mr & TR) & _).
  assert (t2 = t) as -> by congruence. assert (r2 = r) as -> by congruence.
  assert (S0 : saw rig_ins 0%Z) by (eexists; split; [left; reflexivity|reflexivity]).
  assert (S1 : saw rig_ins 1%Z) by (unfold saw, rig_ins; eexists; split; [right; left; reflexivity|reflexivity]).
  assert (I1 := proj2 (KS 1%Z) S1). apply in_map_iff in I1 as ((c1 & k) & Q1 & I1). cbn in Q1. subst c1.
  assert (I1' := proj1 (KK 1%Z) (in_map fst _ _ I1)). apply in_map_iff in I1' as ((c1 & k') & Q1 & I1'). cbn in Q1. subst c1.
  exists r, r', k, k'. split; [exact SO|]. split; [exact ceres_idle|]. split; [exact Et|]. split; [exact rig_exact|]. do 4 (split; [assumption|]). split; [exact I1|]. split; [exact I1'|].
  destruct (TC 1%Z k k' I1 I1') as (_ & _ & _ & ->). destruct (TR 1%Z k I1) as (_ & _ & ->). assert (ref = 0%Z) as ->.
  { destruct Sr as (x & Hx & <-). assert (A := Mr 0%Z S0). assert (B : Forall (fun i => (0 <= i_cam i)%Z) rig_ins) by (repeat constructor; cbn; lia). rewrite Forall_forall in B. specialize (B x Hx). lia. }
  assert (PI1 : pinv (rg_cam two_rig 1%Z) = (mid, V3 (-1) 0 0)).
  { symmetry. apply pinv_unique; [apply rig_rigid|]. unfold pmul, pid. cbn [two_rig rg_cam fst snd tx Z.eqb Pos.eqb]. f_equal; [apply mm_id_l|apply vec3_eq; cbn; ring]. }
  rewrite PI1. intros E. apply (f_equal snd) in E. apply (f_equal vx) in E. cbn in E. lra.
Qed.
Print Assumptions C67_wrong_sizes_show_in_the_error_refuted.
