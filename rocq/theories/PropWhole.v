(** C59: the whole application on exact data.  Specification: AppSpec.v, RigSpec.v. *)
From Coq Require Import List ZArith Lia Reals Lra Ascii String Bool Permutation FunctionalExtensionality.
From Verif Require Import RigSteps SMap GraphModel GraphSpec GraphPath DataModel DataSpec DataProofs PropData DetectModel DetectSpec DetectProofs RansacModel RansacSpec
  GeomModel GeomSpec GeomProofs GeomMedian ObjectsModel ObjectsSpec ObjectsSave ObjectsMain ObjectsBuild ObjectsMerge ObjectsObs
  GroupModel GroupSpec GroupObs GroupPose StageModel StageSpec StageProofs PipelineModel PipelineSpec PipelineProofs EstimateAll CameraModel ResidualModel ResidualSpec ResidualProofs ResidualMain ResidualGroup
  ResidualSolve ResidualAvg FileModel FileSpec PropFile PropResidual WorkflowModel WorkflowProofs WorkflowReach WorkflowWhole PropWorkflow RigSpec PropRig
  BoardModel InputModel InputSpec ImagesModel ImagesSpec PropImages IntrinsicModel PropIntrinsic AppModel AppSpec Sizes LogModel LogProofs LogSizes AppProofs PropApp RigExample AppExample.
From Verif Require PropGeom.
Import ListNotations.
Close Scope R_scope.
Open Scope nat_scope.
Open Scope string_scope.

(** ** The sizes of the images do not matter for the cameras that are saved *)
Definition same_record (a b : Z * cam_rec) : Prop :=
  fst b = fst a /\ r_K (snd b) = r_K (snd a) /\ r_dist (snd b) = r_dist (snd a) /\ r_type (snd b) = r_type (snd a) /\ r_group (snd b) = r_group (snd a) /\ r_pose (snd b) = r_pose (snd a).
Lemma only_first cams : forall (l : smap Z cgroup) out,
  fold_left (fun '(out, is_open) '(g, G) => (if is_open : bool then (out ++ group_records cams g G)%list else out, false)) l (out, false) = (out, false).
Proof. induction l as [|(g, G) l IH]; intros out; cbn [fold_left]; auto. Qed.
Lemma saved_sizes models r0 cs : alike (t_cams (ru_t r0)) cs -> Forall2 same_record (saved_cameras models r0) (saved_cameras models (run_cams cs r0)).
Proof.
  intros A. unfold saved_cameras, saveCamerasParams. cbn [run_cams ru_s]. destruct (ca_groups (ru_s r0)) as [|(g, G) l]; cbn [fold_left]; [constructor|].
  rewrite !only_first. cbn [fst app]. unfold group_records. induction (mkeys (cg_map G)) as [|c keys IH]; cbn [flat_map]; [constructor|]. apply Forall2_app; [|exact IH].
  assert (F : match mfind c (cameras_of models r0), mfind c (cameras_of models (run_cams cs r0)) with
              | Some k, Some k' => k_intr k' = k_intr k /\ k_model k' = k_model k | None, None => True | _, _ => False end).
  { unfold cameras_of. cbn [run_cams ru_t ru_p with_cams t_cams]. clear IH keys. revert cs A. unfold alike. induction (t_cams (ru_t r0)) as [|(a, x) m IH]; intros [|(a', x') m'] A; cbn [map fst snd] in A; try discriminate A; cbn [map mfind]; [exact I|].
    injection A as <- B C. destruct (kcmp c a); [cbn; auto|apply IH; auto|apply IH; auto]. }
  destruct (mfind c (cameras_of models r0)) as [k|], (mfind c (cameras_of models (run_cams cs r0))) as [k'|]; try contradiction; [|constructor].
  destruct F as (F1 & F2), (mfind c (cg_poses G)); [|constructor]. constructor; [|constructor]. unfold same_record. cbn. rewrite F1, F2. auto 10.
Qed.
Lemma same_record_true W ins l l' : Forall2 same_record l l' -> true_cameras W ins l -> true_cameras W ins l'.
Proof.
  intros F (A & B & ref & C & D & E). assert (K : map fst l' = map fst l) by (clear -F; induction F as [|a b l l' (H & _) F IH]; cbn; congruence).
  split; [rewrite K; auto|]. split; [rewrite K; auto|]. exists ref. do 2 (split; [auto|]). intros c k Hk.
  assert (X : exists k0, In (c, k0) l /\ same_record (c, k0) (c, k)).
  { clear -F Hk. induction F as [|a b l l' S F IH]; [destruct Hk|]. destruct Hk as [-> |Hk]; [|destruct (IH Hk) as (k0 & H1 & H2); exists k0; split; [right; auto|auto]].
    destruct a as (c0, k0). assert (E := proj1 S). cbn in E. subst c0. exists k0. split; [left; auto|auto]. }
  destruct X as (k0 & Hk0 & _ & S1 & S2 & S3 & _ & S4). cbn [snd] in *. destruct (E c k0 Hk0) as (E1 & E2 & E3). rewrite S1, S2, S3, S4. auto.
Qed.
Lemma calibrated_alike nc nb ins t0 t (r0 : run) : insert_all (init_tables nc nb) ins = Some t0 -> Forall (known nc nb) ins -> after_detection nc nb ins (ru_t r0) -> sized t0 t -> alike (t_cams (ru_t r0)) (t_cams t).
Proof.
  intros Ei Kn (_ & t1 & E1 & Rl) (cs & -> & A & _). cbn [with_cams t_cams]. assert (t1 = t0) by congruence. subst t1. eapply alike_trans; [|exact A]. exact (rl_cams _ _ Rl).
Qed.

Lemma file_read bpts w file nc nb ins t p0 : rigid_rig w -> holds nc nb ins t ->
  (forall c, (0 <= c < Z.of_nat nc)%Z -> exists e, entry file c = Some e /\ (r_K e, r_dist e) = getIntrinsics (rg_model w c) (rg_intr w c)) ->
  exists i, initializeCalibrationAllCam bpts (rg_model w) (FromFile file) t (pa_intr p0) = Some i /\
    forall c, (0 <= c < Z.of_nat nc)%Z -> getIntrinsics (rg_model w c) (i c) = getIntrinsics (rg_model w c) (rg_intr w c).
Proof.
  intros RG H Hf. assert (CK := hd_cam_keys _ _ _ _ H).
  assert (Rng : forall c, In c (mkeys (t_cams t)) <-> (0 <= c < Z.of_nat nc)%Z).
  { intros c. rewrite CK, in_map_iff. split; [intros (n & <- & Hn); apply in_seq in Hn; lia|]. intros Q. exists (Z.to_nat c). split; [lia|]. apply in_seq. lia. }
  assert (PE : forall c, In c (mkeys (t_cams t)) -> exists e, entry file c = Some e /\ proper_matrix (r_K e) /\ coefficients (rg_model w c) (List.length (r_dist e)) /\ (r_K e, r_dist e) = getIntrinsics (rg_model w c) (rg_intr w c)).
  { intros c Hc. apply Rng in Hc. destruct (Hf c Hc) as (e & Ee & Eq). exists e. split; [auto|]. assert (Eq' := Eq). unfold getIntrinsics in Eq'. injection Eq' as -> ->. split; [|split; [|auto]].
    - repeat split; reflexivity.
    - apply dist_length. apply RG. }
  assert (Q : exists i, initializeCalibrationAllCam bpts (rg_model w) (FromFile file) t (pa_intr p0) = Some i).
  { apply (init_from_file bpts (rg_model w) file t (mkeys (t_cams t)) (pa_intr p0)). intros c Hc. destruct (PE c Hc) as (e & A & B & D & _). eauto. }
  destruct Q as (i & Ei). exists i. split; [exact Ei|]. assert (ND : NoDup (mkeys (t_cams t))).
  { rewrite CK. apply FinFun.Injective_map_NoDup; [intros a b; lia|apply seq_NoDup]. }
  destruct (init_each _ _ _ _ _ _ ND Ei) as (Each & _).
  intros c Hc. apply Rng in Hc. destruct (PE c Hc) as (e & Ee & PM & CO & Eq). specialize (Each c Hc). cbn [init_camera] in Each. rewrite Ee in Each.
  destruct (C38_set_then_get (rg_model w c) (r_K e) (r_dist e) (pa_intr p0 c) PM CO) as (x & Ex & Eg). rewrite Each in Ex. injection Ex as <-. congruence.
Qed.
Lemma save_boards bpts o cols x b k : save3DObj bpts o = Some cols -> In (x, b, k) cols -> In b (mkeys (ob_boards o)).
Proof.
  unfold save3DObj. destruct (collect _) as [l|] eqn:E; [|intros Q; discriminate Q]. destruct (Nat.leb _ _); [|intros Q; discriminate Q]. intros Q H. injection Q as <-.
  apply collect_Some in E. assert (In (Some (x, b, k)) (map Some l)) as M by (apply in_map; auto). rewrite <- E in M. apply in_flat_map in M as (b' & Hb & M).
  apply in_map_iff in M as (j & M & _). apply omap_Some in M as (q & _ & M). injection M as _ -> _. auto.
Qed.
Lemma exact_well bpts W ins : exact_detections bpts W ins -> Forall (detected_well bpts) ins.
Proof.
  intros Ee. apply Forall_forall. intros i Hi. destruct (ed_corners _ _ _ Ee i Hi) as (_ & E1 & E2). split; [auto|]. split; [rewrite <- E1; auto|].
  apply Forall_forall. intros k Hk. apply In_nth_error in Hk as (j & Hj). assert (Lj : j < List.length (i_pts i)) by (rewrite <- E1; apply nth_error_Some; congruence).
  destruct (nth_error (i_pts i) j) as [m|] eqn:Hm; [|apply nth_error_None in Hm; lia].
  destruct (ed_image _ _ _ Ee (i_cam i) (i_frame i) (i_board i) k m) as (q & (K0 & Kq) & _); [exists i, j; auto 10|]. assert (Z.to_nat k < List.length (bpts (i_board i))) by (apply nth_error_Some; congruence). lia.
Qed.
Lemma some_corner bpts W ins : exact_detections bpts W ins -> forall i, In i ins -> exists k q, corner bpts (i_board i) k q.
Proof.
  intros Ee i Hi. destruct (ed_corners _ _ _ Ee i Hi) as (_ & E1 & E2). destruct (i_ids i) as [|k ids] eqn:Ek; [cbn in E2; lia|]. destruct (i_pts i) as [|m pts] eqn:Em; [cbn in E1; lia|].
  destruct (ed_image _ _ _ Ee (i_cam i) (i_frame i) (i_board i) k m) as (q & C & _); [exists i, 0; rewrite Ek, Em; auto 10|]. eauto.
Qed.
Lemma combine_nth_error' {A B} : forall (l : list A) (m : list B) j a b, nth_error (combine l m) j = Some (a, b) -> nth_error l j = Some a /\ nth_error m j = Some b.
Proof. induction l as [|x l IH]; intros [|y m] [|j] a b H; cbn in H; try discriminate H; [injection H as -> ->; auto|]. cbn. apply IH. auto. Qed.
Lemma Forall2_In_r {A B} (P : A -> B -> Prop) l m y : Forall2 P l m -> In y m -> exists x, In x l /\ P x y.
Proof. intros F. induction F as [|a b l m H F IH]; intros []; [subst; exists a; split; [left|]; auto|]. destruct (IH H0) as (x & Hx & Px). exists x. split; [right|]; auto. Qed.
Lemma Forall2_In_l {A B} (P : A -> B -> Prop) l m x : Forall2 P l m -> In x l -> exists y, In y m /\ P x y.
Proof. intros F. induction F as [|a b l m H F IH]; intros []; [subst; exists b; split; [left|]; auto|]. destruct (IH H0) as (y & Hy & Py). exists y. split; [right|]; auto. Qed.

Lemma no_file bpts models t : forall i0, exists i, initializeCalibrationAllCam bpts models NoFile t i0 = Some i /\ forall c, i c = i0 c.
Proof.
  unfold initializeCalibrationAllCam. induction (mkeys (t_cams t)) as [|k l IH]; intros i0; cbn [fold_left]; [exists i0; auto|]. cbn [init_camera option_map].
  destruct (IH (fun c' => if Z.eqb c' k then i0 k else i0 c')) as (i & E & Q). exists i. split; [exact E|]. intros c. rewrite Q. destruct (Z.eqb_spec c k) as [-> |N]; auto.
Qed.
(** no corner is removed *)
Lemma exact_calibration :
  forall svd lr uq pick g0 solve bpts w thresh it env pose0 calib2 fixi,
  ceres solve -> good_heap pick -> svd_ok svd -> log_ok lr -> (0 < thresh)%R -> (0 < it)%Z -> (forall c n, exact_pnp lr (env c n)) ->
  forall nc nb ins t, Forall (known nc nb) ins -> insert_all (init_tables nc nb) ins = Some t ->
  rigid_rig w -> exact_detections bpts w ins -> general_position bpts w ins -> no_tiny_angles lr w -> related_cameras calib2 w ins ->
  (nc <= 2 \/ (forall a b, fst (rg_cam w a) = fst (rg_cam w b)) \/ shares_with_first ins) -> (forall c n, exact_undistort bpts w ins (env c n)) ->
  forall src p0 gp0 i, initializeCalibrationAllCam bpts (rg_model w) src t (pa_intr p0) = Some i ->
  (forall c, (0 <= c < Z.of_nat nc)%Z -> getIntrinsics (rg_model w c) (i c) = getIntrinsics (rg_model w c) (rg_intr w c)) ->
  exists r, calibrate svd lr uq pick g0 solve bpts (rg_model w) thresh it env pose0 calib2 fixi src t p0 gp0 = Some r /\ ru_t r = t /\
    reported_error (rg_model w) r = Some 0%R /\
    true_cameras w ins (saved_cameras (rg_model w) r) /\
    (forall i, In i ins -> exists k o, In (k, o) (ca_objs (ru_s r)) /\ In (i_board i) (mkeys (ob_boards o))) /\
    (forall k o, In (k, o) (ca_objs (ru_s r)) -> true_points bpts w o) /\
    Forall2 (fun e f => fst f = fst e /\ true_poses lr w ins (snd e) (snd f)) (ca_objs (ru_s r)) (saved_poses r).
Proof.
  intros svd lr uq pick g0 solve bpts w thresh it env pose0 calib2 fixi CE Hh SO LO Tp Hit PN nc nb ins t Kn Et RG ED GP NT CN Few UN src p0 gp0 i Ei Eq.
  destruct (same_rig bpts w nc nb ins i env Kn RG ED GP UN Eq) as (ED' & GP' & UN').
  assert (Cf := comes_from_itself lr bpts (with_intr i w) thresh it env pose0 LO nc nb ins t Kn Et RG ED' GP' PN UN' Tp Hit p0 i (fun c => eq_refl)).
  exact (rig_results svd lr uq pick g0 solve bpts w thresh it env pose0 calib2 fixi CE Hh SO LO Tp Hit PN nc nb ins t Kn Et RG ED GP NT CN Few UN t src p0 gp0 i Ei Eq Cf).
Qed.
(** no board enters the calibration without corners *)
Lemma never_empty {bpts} nc nb (ins : list (insertion pt2)) t0 : Forall (known nc nb) ins -> Forall (detected_well bpts) ins -> insert_all (init_tables nc nb) ins = Some t0 ->
  forall o, In o (mvals (t_obs t0)) -> o_pts o <> [].
Proof.
  intros Kn Dw Ei o Ho Zo. destruct (insert_all_from_init nc nb ins Kn) as (t' & Et' & H & _). rewrite Ei in Et'. injection Et' as <-.
  rewrite (hd_obs _ _ _ _ H), dense_vals in Ho. apply in_map_iff in Ho as (x & <- & Hx). rewrite Forall_forall in Dw. destruct (Dw x Hx) as (_ & L & _). cbn [recorded o_pts] in Zo. rewrite Zo in L. cbn in L. lia.
Qed.
(** the state at the end of the run comes from the boards [ins] *)
Definition whole_run (L : libs) (s : setup) (ins : list (insertion pt2)) (r : run) : Prop :=
  exists t1, after_detection (su_nc s) (List.length (su_boards s)) ins t1 /\ (forall o, In o (mvals (t_obs t1)) -> trimmed (su_pts s) o) /\
    reached (lb_svd L) (lb_lr L) (cf_quaternion (su_conf s)) (lb_pick L) (lb_g0 L) (su_pts s) t1 (ru_s r) /\ (forall o, In o (mvals (t_obs t1)) -> o_pts o <> []) /\
    mkeys (t_cams (ru_t r)) = map Z.of_nat (seq 0 (su_nc s)).
(** started with the true intrinsics, wherever they come from *)
Lemma exact_files_full : forall w L program path rest s t W i,
  sound_libs L -> sound_world w -> svd_ok (lb_svd L) -> (forall c n, exact_pnp (lb_lr L) (lb_env L c n)) ->
  w_exists w [] path = true -> yml_path path -> snd (construct w path) = Some s -> boardExtraction w L s = Some t ->
  (0 < cf_ransac (su_conf s))%R -> (0 < cf_iterations (su_conf s))%Z ->
  initializeCalibrationAllCam (su_pts s) (su_models s) (source w L s) t (pa_intr (lb_p0 L)) = Some i ->
  (forall c, (0 <= c < Z.of_nat (su_nc s))%Z -> getIntrinsics (rg_model W c) (i c) = getIntrinsics (rg_model W c) (rg_intr W c)) ->
  (forall ins, entering w L s ins -> exact_scene L s W ins) ->
  exists es ins r all, main w L (program :: path :: rest) = (es, Returned 0) /\ entering w L s ins /\ completed w L path s t r /\
    all_results s r all /\ files es = filter (fun f => w_open w (folders es) (fst f)) all /\ true_results (lb_lr L) s W ins all /\ whole_run L s ins r.
Proof.
  intros w L a path rest s t W i SL SW SO PN Ex Ym C1 C2 Th It Eii Ii ES. assert (SL' := SL). destruct SL' as [CE Hh LO Fair Rc Sc].
  destruct (extraction w L s t Sc C2) as (ins & t0 & En & Kn & Ei & Sz). destruct (ES ins En) as [Em Er Ee Eg Ea Eco Edi Eun].
  assert (EM : rg_model W = su_models s) by (apply functional_extensionality; auto).
  assert (DW := exact_well _ _ _ Ee).
  assert (MoS : forall c, su_models s c = 0%Z \/ su_models s c = 1%Z) by (intros c; rewrite <- EM; apply Er).
  set (conf := su_conf s) in *. set (nc := su_nc s) in *. set (nb := List.length (su_boards s)) in *.
  assert (Sz' := Sz). destruct Sz' as (cs & Et & A & _). set (p0 := mkPar (pa_pose (lb_p0 L)) i).
  assert (RUN : exists r0, calibrate (lb_svd L) (lb_lr L) (cf_quaternion conf) (lb_pick L) (lb_g0 L) (lb_solve L) (su_pts s) (su_models s) (cf_ransac conf) (cf_iterations conf) (lb_env L) (lb_pose0 L)
      (lb_handeye L (cf_he conf)) (cf_fix_intrinsic conf) NoFile t0 p0 (lb_gp0 L) = Some r0 /\ ru_t r0 = t0 /\ reported_error (su_models s) r0 = Some 0%R /\ true_cameras W ins (saved_cameras (su_models s) r0) /\
      (forall i, In i ins -> exists k o, In (k, o) (ca_objs (ru_s r0)) /\ In (i_board i) (mkeys (ob_boards o))) /\
      (forall k o, In (k, o) (ca_objs (ru_s r0)) -> true_points (su_pts s) W o) /\
      Forall2 (fun e f => fst f = fst e /\ true_poses (lb_lr L) W ins (snd e) (snd f)) (ca_objs (ru_s r0)) (saved_poses r0)).
  { destruct (no_file (su_pts s) (rg_model W) t0 (pa_intr p0)) as (i' & Ei' & Qi).
    rewrite <- EM. apply (exact_calibration (lb_svd L) (lb_lr L) (cf_quaternion conf) (lb_pick L) (lb_g0 L) (lb_solve L) (su_pts s) W (cf_ransac conf) (cf_iterations conf) (lb_env L) (lb_pose0 L)
      (lb_handeye L (cf_he conf)) (cf_fix_intrinsic conf) CE Hh SO LO Th It PN nc nb ins t0 Kn Ei Er Ee Eg Ea Eco Edi Eun NoFile p0 (lb_gp0 L) i' Ei').
    intros c Hc. rewrite Qi. apply Ii. auto. }
  destruct RUN as (r0 & Er0 & Rt & R0 & RC & RB & RP & RV). set (r := run_cams cs r0).
  assert (C3 : calibrate_app w L s t = Some r).
  { unfold calibrate_app. fold conf. rewrite (logged_known_start _ _ _ _ _ _ _ _ _ _ _ _ _ _ _ _ _ _ _ _ Eii). fold p0. rewrite Et, calibrate_logged_cams; [|exact A|apply init_no_file_cams; exact A].
    assert (EL : calibrate_logged (lb_empty L) (su_pts s) (su_models s) (lb_svd L) (lb_lr L) (cf_quaternion conf) (lb_pick L) (lb_g0 L) (lb_solve L) (cf_ransac conf) (cf_iterations conf) (lb_env L) (lb_pose0 L)
      (lb_handeye L (cf_he conf)) (cf_fix_intrinsic conf) NoFile t0 p0 (lb_gp0 L) = Some r0).
    { apply (calibrate_logged_iff (lb_empty L) (lb_svd L) (lb_lr L) (cf_quaternion conf) (lb_pick L) (lb_g0 L) (lb_solve L) (su_pts s) (su_models s) (cf_ransac conf) (cf_iterations conf) (lb_env L) (lb_pose0 L)
        (lb_handeye L (cf_he conf)) (cf_fix_intrinsic conf) CE Hh LO Fair MoS (Rc _) nc nb ins t0 Kn DW Ei). split; [exact Er0|]. rewrite Rt. intros o Ho Zo. exfalso. exact (never_empty nc nb ins t0 Kn DW Ei o Ho Zo). }
    rewrite EL. reflexivity. }
  assert (CM : completed w L path s t r) by (split; auto).
  assert (SK : sound_keypoints w L s).
  { intros _ ins' En'. destruct (ES ins' En') as [_ _ Ee' _ _ _ _ _]. apply (exact_well _ _ _ Ee'). }
  assert (AV : all_visible s r).
  { intros c f b k m H. exists m. apply (C56_no_error_no_red (lb_svd L) (lb_lr L) (cf_quaternion conf) (lb_pick L) (lb_g0 L) (lb_solve L) (su_pts s) (su_models s) (cf_ransac conf) (cf_iterations conf) (lb_env L) (lb_pose0 L)
      (lb_handeye L (cf_he conf)) (cf_fix_intrinsic conf) CE Hh LO Fair (Rc _) nc nb ins t0 Kn DW Ei NoFile p0 (lb_gp0 L) r0 Er0 R0 c f b k m H). reflexivity. }
  assert (RT := proj2 (C58_a_completed_calibration_is_saved w L a path rest s t r SL SW SK Ex Ym CM) AV).
  destruct (main w L (a :: path :: rest)) as [es st] eqn:Emm. cbn [snd] in RT. subst st.
  destruct (C58_what_is_written _ _ _ _ _ _ Emm) as (s' & t' & r' & all & CM' & AR & EF).
  destruct CM' as [D1 D2 D3]. assert (s' = s) by congruence. subst s'. assert (t' = t) by congruence. subst t'. assert (r' = r) by congruence. subst r'.
  exists es, ins, r, all. do 5 (split; [auto|]). 
  destruct (done_facts (lb_svd L) (lb_lr L) (cf_quaternion conf) (lb_pick L) (lb_g0 L) (lb_solve L) (su_pts s) (su_models s) (cf_ransac conf) (cf_iterations conf) (lb_env L) (lb_pose0 L)
    (lb_handeye L (cf_he conf)) (cf_fix_intrinsic conf) CE Hh LO Fair (Rc _) nc nb ins t0 Kn DW Ei NoFile p0 (lb_gp0 L) r0 Er0) as (AD & TR & bss & ol & css & gl & CO & _).
  assert (KO : forall k o, In (k, o) (ca_objs (ru_s r0)) -> ob_id o = k).
  { intros k o H. rewrite (co_objs _ _ _ _ _ _ _ CO) in H. apply dense_In in H as (j & -> & H). apply (ok_ids _ _ _ (co_objects _ _ _ _ _ _ _ CO) j o H). }
  assert (UO : forall k o o', In (k, o) (ca_objs (ru_s r0)) -> In (k, o') (ca_objs (ru_s r0)) -> o = o').
  { intros k o o' H H'. rewrite (co_objs _ _ _ _ _ _ _ CO) in H, H'. apply dense_In in H as (j & -> & H), H' as (j' & E & H'). apply Nat2Z.inj in E. subst j'. congruence. }
  assert (OD : forall p l, In (p, DObjects l) all -> Forall2 (fun e f => fst f = ob_id (snd e) /\ save3DObj (su_pts s) (snd e) = Some (snd f)) (ca_objs (ru_s r0)) l).
  { intros p l H. apply AR in H. inversion H; subst. auto. }
  split; [split|].
  - clear Rt. intros p l H. apply AR in H. inversion H; subst. apply (same_record_true W ins _ _ (saved_sizes (su_models s) r0 cs (calibrated_alike nc nb ins t0 (with_cams cs t0) r0 Ei Kn AD Sz)) RC).
  - intros p l j k q H Hj Hq. destruct (RB j Hj) as (key & o & Ho & Hb). destruct (RP key o Ho) as (cols & Ec & T1 & _). destruct (T1 _ k q Hb Hq) as (x & Hx).
    destruct (Forall2_In_l _ _ _ _ (OD p l H) Ho) as ((id, cols') & Hl & E1 & E2). cbn [fst snd] in E1, E2. assert (cols' = cols) by congruence. subst cols'. eauto.
  - intros p l p' l' id cols ps H H' Hc Hp. 
    destruct (Forall2_In_r _ _ _ _ (OD p l H) Hc) as ((key, o) & Ho & E1 & E2). cbn [fst snd] in E1, E2. rewrite (KO _ _ Ho) in E1. subst key.
    apply AR in H'. assert (l' = saved_poses r0) by (inversion H'; subst; reflexivity). subst l'.
    destruct (Forall2_In_r _ _ _ _ RV Hp) as ((key, o') & Ho' & F1 & F2). cbn [fst snd] in F1, F2. subst key. rewrite <- (UO _ _ _ Ho Ho') in F2.
    destruct (RP _ _ Ho) as (cols' & Ec & T1 & T2). assert (cols' = cols) by congruence. subst cols'. exists (ob_ref o). split; [exact T2|].
    destruct F2 as (views & -> & V). exists views. split; [reflexivity|]. intros c f. rewrite V. split.
    + intros (j & Hi & Q1 & Q2 & Hb). destruct (some_corner _ _ _ Ee j Hi) as (k & q & Hk). destruct (T1 _ k q Hb Hk) as (x & Hx). exists j, x, k. auto.
    + intros (j & x & k & Hi & Q1 & Q2 & Hx). exists j. do 3 (split; [auto|]). eapply save_boards; eauto.
  - intros p n l ge fe ce e H Hge Hfe Hce He. apply AR in H. assert (ER : saveReprojectionErrorToFile (su_models s) (ru_p r0) (ru_s r0) = Some (n, l)) by (inversion H; subst; auto).
    destruct (calibrate_good (lb_svd L) (lb_lr L) (cf_quaternion conf) (lb_pick L) (lb_g0 L) (lb_solve L) (su_pts s) (su_models s) (cf_ransac conf) (cf_iterations conf) (lb_env L) (lb_pose0 L)
      (lb_handeye L (cf_he conf)) (cf_fix_intrinsic conf) CE Hh LO Fair (Rc _) nc nb ins t0 Kn DW Ei NoFile p0 (lb_gp0 L) r0 Er0) as (_ & _ & [_ Rd _ _ _]).
    destruct (C37_contents_of_the_file (lb_svd L) (lb_lr L) (cf_quaternion conf) (lb_pick L) (lb_g0 L) Hh (su_pts s) nc nb ins (ru_t r0) AD TR (ru_s r0) Rd (su_models s) (ru_p r0) n l ER) as (_ & _ & FC).
    apply In_nth_error in Hge as (gi & Hge). destruct (FC gi ge Hge) as (G & HG & _ & _ & _ & FF & _). destruct (FF fe Hfe) as (F2 & _).
    destruct (Forall2_In_r _ _ _ _ F2 Hce) as (oo & Hoo & _ & _ & o & rp & Ho & Lr & Hr & Ece). apply filter_In in Hoo as (Hoo & Sb).
    rewrite Ece in He. apply in_map_iff in He as ((m, q) & <- & Hmq). apply In_nth_error in Hmq as (j & Hj). apply combine_nth_error' in Hj as (Hm & Hq).
    destruct (proj1 (C42_zero_iff_exact (lb_svd L) (lb_lr L) (cf_quaternion conf) (lb_pick L) (lb_g0 L) Hh (su_pts s) nc nb ins (ru_t r0) AD TR (ru_s r0) Rd (su_models s) (ru_p r0)) R0) as (_ & Z).
    destruct (Z oo Hoo) as (k' & G' & o' & HG' & Hc' & Ho' & Re). assert (o' = o) by congruence. subst o'.
    assert (Q1 := Hr j q Hq). assert (Q2 := Re j m Hm). 
    assert (G' = G).
    { rewrite (co_groups _ _ _ _ _ _ _ CO), dense_find in HG. apply nth_error_In in HG. rewrite (co_groups _ _ _ _ _ _ _ CO) in HG'. apply dense_In in HG' as (gj & _ & HG'). apply nth_error_In in HG'.
      unfold seen_by in Sb. apply andb_prop in Sb as (_ & Sb). apply existsb_exists in Sb as (c & Hc & Ec). apply Z.eqb_eq in Ec. subst c.
      eapply (camera_group (su_pts s) (ru_t r0) bss ol css gl (ru_s r0) CO (oo_cam oo)); eauto. }
    subst G'. destruct Q1 as (k1 & x1 & A1 & A2 & A3), Q2 as (k2 & x2 & B1 & B2 & B3). rewrite A1 in B1. injection B1 as B1. apply Nat2Z.inj in B1. subst k2. rewrite A2 in B2. injection B2 as <-. rewrite A3 in B3. injection B3 as ->.
    cbn [fst snd]. unfold distance. rewrite !Rminus_diag_eq by reflexivity. replace (0 ^ 2 + 0 ^ 2)%R with 0%R by ring. apply sqrt_0.
  - intros p k H Sa. apply AR in H. assert (Ek : k = saveDetectedKeypoints (ru_t r)) by (inversion H; subst; reflexivity). subst k.
    destruct (C11_save_then_load _ nc nb ins t0 (ru_t r) Kn Ei) as (t' & El & _ & P & _).
    + unfold r. cbn [run_cams ru_t]. rewrite Rt. constructor; try reflexivity. cbn [with_cams t_cams]. symmetry. apply alike_keys. exact A.
    + intros c Hc. exact (Sa c Hc).
    + exists t'. split; [exact El|]. rewrite P. unfold r. cbn [run_cams ru_t]. rewrite Rt. unfold all_said. cbn [with_cams t_obs].
      destruct (insert_all_from_init nc nb ins Kn) as (t'' & Et' & Hh' & _). rewrite Ei in Et'. injection Et' as <-. rewrite (hd_obs _ _ _ _ Hh'), dense_vals, map_map. apply Permutation_refl.
  - exists t0. rewrite <- Rt. split; [exact AD|]. split; [exact TR|]. split; [|split; [rewrite Rt; exact (never_empty nc nb ins t0 Kn DW Ei)|]].
    + destruct (calibrate_good (lb_svd L) (lb_lr L) (cf_quaternion conf) (lb_pick L) (lb_g0 L) (lb_solve L) (su_pts s) (su_models s) (cf_ransac conf) (cf_iterations conf) (lb_env L) (lb_pose0 L)
        (lb_handeye L (cf_he conf)) (cf_fix_intrinsic conf) CE Hh LO Fair (Rc _) nc nb ins t0 Kn DW Ei NoFile p0 (lb_gp0 L) r0 Er0) as (_ & _ & [_ Rd _ _ _]). exact Rd.
    + unfold r. cbn [run_cams ru_t with_cams t_cams]. rewrite <- (alike_keys _ _ A). destruct (insert_all_from_init nc nb ins Kn) as (t2 & Et2 & H2 & _). rewrite Ei in Et2. injection Et2 as <-. exact (hd_cam_keys _ _ _ _ H2).
Qed.
Lemma exact_files : forall w L program path rest s t W i,
  sound_libs L -> sound_world w -> svd_ok (lb_svd L) -> (forall c n, exact_pnp (lb_lr L) (lb_env L c n)) ->
  w_exists w [] path = true -> yml_path path -> snd (construct w path) = Some s -> boardExtraction w L s = Some t ->
  (0 < cf_ransac (su_conf s))%R -> (0 < cf_iterations (su_conf s))%Z ->
  initializeCalibrationAllCam (su_pts s) (su_models s) (source w L s) t (pa_intr (lb_p0 L)) = Some i ->
  (forall c, (0 <= c < Z.of_nat (su_nc s))%Z -> getIntrinsics (rg_model W c) (i c) = getIntrinsics (rg_model W c) (rg_intr W c)) ->
  (forall ins, entering w L s ins -> exact_scene L s W ins) ->
  exists es ins r all, main w L (program :: path :: rest) = (es, Returned 0) /\ entering w L s ins /\ completed w L path s t r /\
    all_results s r all /\ files es = filter (fun f => w_open w (folders es) (fst f)) all /\ true_results (lb_lr L) s W ins all.
Proof.
  intros w L a path rest s t W i H1 H2 H3 H4 H5 H6 H7 H8 H9 H10 H11 H12 H13. destruct (exact_files_full w L a path rest s t W i H1 H2 H3 H4 H5 H6 H7 H8 H9 H10 H11 H12 H13) as (es & ins & r & all & A & B & C & D & E & F & _).
  exists es, ins, r, all. auto 8.
Qed.

Lemma exact_data_full : forall w L program path rest s t W,
  sound_libs L -> sound_world w -> svd_ok (lb_svd L) -> (forall c n, exact_pnp (lb_lr L) (lb_env L c n)) ->
  w_exists w [] path = true -> yml_path path -> snd (construct w path) = Some s -> boardExtraction w L s = Some t ->
  (0 < cf_ransac (su_conf s))%R -> (0 < cf_iterations (su_conf s))%Z -> true_parameters w s W ->
  (forall ins, entering w L s ins -> exact_scene L s W ins) ->
  exists es ins r all, main w L (program :: path :: rest) = (es, Returned 0) /\ entering w L s ins /\ completed w L path s t r /\
    all_results s r all /\ files es = filter (fun f => w_open w (folders es) (fst f)) all /\ true_results (lb_lr L) s W ins all /\ whole_run L s ins r.
Proof.
  intros w L a path rest s t W SL SW SO PN Ex Ym C1 C2 Th It TP ES.
  destruct (extraction w L s t (sl_threads _ SL) C2) as (ins & t0 & En & Kn & Ei & (cs & Et & A & _)). destruct (ES ins En) as [Em Er Ee Eg Ea Eco Edi Eun].
  assert (EM : rg_model W = su_models s) by (apply functional_extensionality; auto).
  destruct TP as (P1 & P2 & P3 & P4 & P5). set (file := w_params w (cf_cam_params (su_conf s))) in *.
  assert (SRC : source w L s = FromFile file).
  { unfold source, load_intrinsics. apply String.eqb_neq in P1, P2. rewrite P1, P2. cbn [negb andb]. unfold yml_available. apply yml_path_spec in P4 as (Y1 & Y2). rewrite P3, Y1, Y2, String.eqb_refl. reflexivity. }
  destruct (insert_all_from_init (su_nc s) (List.length (su_boards s)) ins Kn) as (t' & Et' & H & _). rewrite Ei in Et'. injection Et' as <-.
  destruct (file_read (su_pts s) W file (su_nc s) _ ins t0 (lb_p0 L) Er H P5) as (i & Eii & Ii). rewrite EM in Eii.
  apply (exact_files_full w L a path rest s t W i); auto. rewrite SRC, Et, init_from_file_cams; auto.
Qed.
(** The application on exact data, with a file of true camera parameters: it returns 0, and
    the files are those of the rig. *)
Theorem C59_exact_data_exact_files : forall w L program path rest s t W,
  sound_libs L -> sound_world w -> svd_ok (lb_svd L) -> (forall c n, exact_pnp (lb_lr L) (lb_env L c n)) ->
  w_exists w [] path = true -> yml_path path -> snd (construct w path) = Some s -> boardExtraction w L s = Some t ->
  (0 < cf_ransac (su_conf s))%R -> (0 < cf_iterations (su_conf s))%Z -> true_parameters w s W ->
  (forall ins, entering w L s ins -> exact_scene L s W ins) ->
  exists es ins r all, main w L (program :: path :: rest) = (es, Returned 0) /\ entering w L s ins /\ completed w L path s t r /\
    all_results s r all /\ files es = filter (fun f => w_open w (folders es) (fst f)) all /\ true_results (lb_lr L) s W ins all.
Proof.
  intros w L a path rest s t W H1 H2 H3 H4 H5 H6 H7 H8 H9 H10 H11 H12. destruct (exact_data_full w L a path rest s t W H1 H2 H3 H4 H5 H6 H7 H8 H9 H10 H11 H12) as (es & ins & r & all & A & B & C & D & E & F & _).
  exists es, ins, r, all. auto 8.
Qed.
Print Assumptions C59_exact_data_exact_files.


(** *** The intrinsics from the images *)
Lemma positions_recorded (p : insertion pt2 -> bool) (all : list (insertion pt2)) : forall l k, (forall j i, nth_error l j = Some i -> nth_error all (k + j) = Some i) ->
  flat_map (fun n => match nth_error (map recorded all) n with Some o => [o] | None => [] end) (positions_from k p l) = map recorded (filter p l).
Proof.
  induction l as [|i l IH]; intros k H; cbn [positions_from filter]; [reflexivity|].
  assert (R : flat_map (fun n => match nth_error (map recorded all) n with Some o => [o] | None => [] end) (positions_from (S k) p l) = map recorded (filter p l)).
  { apply IH. intros j i' Hj. specialize (H (S j) i' Hj). rewrite <- H. f_equal. lia. }
  destruct (p i); cbn [app flat_map]; [|exact R]. rewrite nth_error_map. specialize (H 0 i eq_refl). rewrite Nat.add_0_r in H. rewrite H. cbn [option_map app map]. rewrite R. reflexivity.
Qed.
Lemma init_all bpts models src t : forall l i0, (forall c x, In c l -> exists y, init_camera bpts models src t c x = Some y) ->
  exists i, fold_left (fun acc c => match acc with
                          | Some i => option_map (fun x c' => if Z.eqb c' c then x else i c') (init_camera bpts models src t c (i c))
                          | None => None end) l (Some i0) = Some i.
Proof.
  induction l as [|c l IH]; intros i0 H; cbn [fold_left]; [eauto|]. destruct (H c (i0 c) (or_introl eq_refl)) as (y & E). rewrite E. cbn [option_map]. apply IH. intros d x Hd. apply H. right. auto.
Qed.
Lemma selection_all {A B} (P : A -> Prop) (Rel : A -> B -> Prop) l m : selection P Rel l m -> (forall a, In a l -> P a) -> Forall2 Rel l m.
Proof. intros S. induction S as [|a l b m Pa R S IH|a l m N S IH]; intros H; [constructor| |exfalso; apply N; apply H; left; auto]. constructor; [auto|]. apply IH. intros x Hx. apply H. right. auto. Qed.
Lemma drawn_map (l : list (insertion pt2)) : forall drawn bs, Forall2 (fun n b => nth_error (map recorded l) n = Some b) drawn bs -> exists is, bs = map recorded is /\ Forall2 (fun n i => nth_error l n = Some i) drawn is.
Proof.
  induction drawn as [|n d IH]; intros bs F; inversion F as [|? b ? bs' Hb F']; subst; [exists []; split; [reflexivity|constructor]|].
  destruct (IH bs' F') as (is & -> & G). rewrite nth_error_map in Hb. destruct (nth_error l n) as [i|] eqn:E; [|discriminate Hb]. injection Hb as <-. exists (i :: is). split; [reflexivity|constructor; auto].
Qed.
Lemma drawn_nodup {A} (l : list A) drawn is : NoDup l -> NoDup drawn -> Forall2 (fun n i => nth_error l n = Some i) drawn is -> NoDup is.
Proof.
  intros Nl Nd F. induction F as [|n i d is H F IH]; [constructor|]. inversion Nd as [|? ? N1 N2]; subst. constructor; [|apply IH; auto].
  intros Hi. destruct (Forall2_In_r _ _ _ _ F Hi) as (n' & Hn & E). assert (n' = n).
  { apply (proj1 (NoDup_nth_error l) Nl); [apply nth_error_Some; congruence|congruence]. } subst n'. contradiction.
Qed.
Lemma nodup_of_map {A B} (f : A -> B) l : NoDup (map f l) -> NoDup l.
Proof. induction l as [|a l IH]; intros N; [constructor|]. inversion N as [|? ? N1 N2]; subst. constructor; [|auto]. intros H. apply N1. apply in_map. auto. Qed.

(** The same without a parameter file, when OpenCV's calibration of the single cameras gives
    the true parameters. *)
Theorem C59_calibrating_the_cameras : forall w L program path rest s t W,
  sound_libs L -> sound_world w -> svd_ok (lb_svd L) -> (forall c n, exact_pnp (lb_lr L) (lb_env L c n)) ->
  w_exists w [] path = true -> yml_path path -> snd (construct w path) = Some s -> boardExtraction w L s = Some t ->
  (0 < cf_ransac (su_conf s))%R -> (0 < cf_iterations (su_conf s))%Z ->
  (forall ins, entering w L s ins -> exact_scene L s W ins /\ calibrates_truly L s W ins t) ->
  exists es ins r all, main w L (program :: path :: rest) = (es, Returned 0) /\ entering w L s ins /\ completed w L path s t r /\
    all_results s r all /\ files es = filter (fun f => w_open w (folders es) (fst f)) all /\ true_results (lb_lr L) s W ins all.
Proof.
  intros w L a path rest s t W SL SW SO PN Ex Ym C1 C2 Th It ES.
  destruct (extraction w L s t (sl_threads _ SL) C2) as (ins & t0 & En & Kn & Ei & Sz). destruct (ES ins En) as ([Em Er Ee Eg Ea Eco Edi Eun] & [T1 T2 T3 T4 T5]).
  assert (EM : rg_model W = su_models s) by (apply functional_extensionality; auto).
  assert (SRC : source w L s = FromImages (lb_shuffle L) (lb_cvcal L)).
  { unfold source, load_intrinsics. destruct T1 as [-> | ->]; reflexivity. }
  destruct (insert_all_from_init (su_nc s) (List.length (su_boards s)) ins Kn) as (t' & Et' & H & _). rewrite Ei in Et'. injection Et' as <-.
  assert (CK : mkeys (t_cams t) = map Z.of_nat (seq 0 (su_nc s))) by (rewrite (sized_keys _ _ Sz); apply (hd_cam_keys _ _ _ _ H)).
  assert (Rng : forall c, In c (mkeys (t_cams t)) <-> (0 <= c < Z.of_nat (su_nc s))%Z).
  { intros c. rewrite CK, in_map_iff. split; [intros (n & <- & Hn); apply in_seq in Hn; lia|]. intros Q. exists (Z.to_nat c). split; [lia|]. apply in_seq. lia. }
  assert (NI : NoDup ins) by (eapply nodup_of_map; apply (ed_once _ _ _ Ee)).
  assert (DW := exact_well _ _ _ Ee). rewrite Forall_forall in DW.
  assert (IC : forall c x, In c (mkeys (t_cams t)) -> exists y, init_camera (su_pts s) (su_models s) (source w L s) t c x = Some y /\ getIntrinsics (rg_model W c) y = getIntrinsics (rg_model W c) (rg_intr W c)).
  { intros c x Hc. rewrite SRC. cbn [init_camera]. assert (Hr := Hc). apply Rng in Hr.
    destruct (mfind c (t_cams t)) as [r|] eqn:Er'; [|apply mfind_None in Er'; contradiction].
    assert (OB : flat_map (fun n => match nth_error (mvals (t_obs t)) n with Some o => [o] | None => [] end) (mvals (c_obs r)) = map recorded (filter (by_cam c) ins)).
    { destruct Sz as (cs & Et & A & So). assert (Eo : t_obs t = t_obs t0) by (rewrite Et; reflexivity). rewrite Eo, (hd_obs _ _ _ _ H), dense_vals.
      assert (Cr : exists r0, mfind c (t_cams t0) = Some r0 /\ c_obs r = c_obs r0).
      { rewrite Et in Er'. cbn [with_cams t_cams] in Er'. assert (Q := alike_find _ _ c A). rewrite Er' in Q. destruct (mfind c (t_cams t0)) as [r0|]; [|discriminate Q]. exists r0. split; [auto|]. injection Q as Q. auto. }
      destruct Cr as (r0 & E0 & ->). destruct (hd_cam _ _ _ _ H c r0 E0) as (-> & _). rewrite dense_vals. apply positions_recorded. auto. }
    rewrite OB. set (obs := map recorded (filter (by_cam c) ins)).
    assert (VO : forall b, In b obs -> Forall (fun k => (0 <= k < Z.of_nat (List.length (su_pts s (o_board b))))%Z) (o_ids b)).
    { intros b Hb. apply in_map_iff in Hb as (i & <- & Hi). apply filter_In in Hi as (Hi & _). apply (DW i Hi). }
    destruct (init_views (su_models s c) (c_cols r) (c_rows r) (su_pts s) obs (lb_shuffle L c)) as [vs|] eqn:Ev; [|exfalso; exact (C41_never_undefined _ _ _ _ _ _ VO Ev)].
    destruct (C41_initial_subset _ _ _ _ obs _ vs (T2 c (List.length obs)) Ev) as (drawn & bs & k & Lk & Ld & Nd & Fd & Sel).
    assert (US : forall b, In b bs -> usable (su_models s c) (c_cols r) (c_rows r) b).
    { intros b Hb M. destruct (Forall2_In_r _ _ _ _ Fd Hb) as (n & _ & Hn). apply nth_error_In in Hn. apply in_map_iff in Hn as (i & <- & Hi). apply filter_In in Hi as (Hi & Hci). apply Z.eqb_eq in Hci.
      intros px py Hp. apply (T4 c r i px py); auto. rewrite EM. auto. }
    assert (F := selection_all _ _ _ _ Sel US). destruct (drawn_map _ _ _ Fd) as (is & -> & Fi).
    assert (CV : lb_cvcal L (rg_model W c) vs (c_cols r) (c_rows r) = Some (getIntrinsics (rg_model W c) (rg_intr W c))).
    { assert (Li : List.length is = List.length drawn) by (clear -Fi; induction Fi; cbn; congruence). unfold obs in Ld. rewrite map_length in Ld.
      apply (T5 c is vs).
      - eapply drawn_nodup; [|exact Nd|exact Fi]. apply NoDup_filter. auto.
      - intros Q. rewrite Q in Li. cbn in Li. destruct (T3 c Hr) as (i & Hi & Hci). assert (In i (filter (by_cam c) ins)) as M by (apply filter_In; split; [auto|apply Z.eqb_eq; auto]).
        destruct (filter (by_cam c) ins) as [|i' l']; [destruct M|]. cbn [List.length] in Ld. destruct Lk as [(_ & ->)|(_ & ->)]; cbn [Nat.min] in Ld; lia.
      - intros i Hi. destruct (Forall2_In_r _ _ _ _ Fi Hi) as (n & _ & Hn). apply nth_error_In in Hn. apply filter_In in Hn as (Hn & Hci). split; [auto|]. apply Z.eqb_eq. auto.
      - rewrite Li, Ld. unfold by_cam. f_equal. rewrite EM. destruct Lk as [(-> & ->)|(Q & ->)]; [reflexivity|]. apply Z.eqb_neq in Q. rewrite Q. reflexivity.
      - clear -F. remember (map recorded is) as bs eqn:E. revert is E. induction F as [|b v bs vs (H1 & H2) F IH]; intros [|i is] E; try discriminate E; [constructor|]. injection E as -> E. constructor; [|apply IH; auto].
        split; [exact H1|]. cbn [recorded o_ids o_board] in H2. clear -H2. induction H2 as [|k q ks qs (n & -> & N) F IH]; [constructor|]. constructor; [|exact IH]. split; [lia|]. rewrite Nat2Z.id. auto. }
    unfold initializeCalibration. rewrite Ev. rewrite EM in CV. rewrite CV. assert (M := proj1 Er c). rewrite EM in M.
    assert (Mb : (Z.eqb (su_models s c) 0 || Z.eqb (su_models s c) 1)%bool = true) by (destruct M as [-> | ->]; reflexivity). rewrite Mb. rewrite EM.
    destruct (getIntrinsics (su_models s c) (rg_intr W c)) as (K, d) eqn:Eg'. assert (Eg2 := Eg'). unfold getIntrinsics in Eg2. injection Eg2 as <- <-.
    destruct (C38_set_then_get (su_models s c) (fst (getIntrinsics (su_models s c) (rg_intr W c))) (snd (getIntrinsics (su_models s c) (rg_intr W c))) x) as (y & Ey & Gy).
    - repeat split; reflexivity.
    - unfold getIntrinsics. cbn [snd]. apply dist_length. auto.
    - exists y. split; [exact Ey|]. rewrite Gy. reflexivity. }
  destruct (init_all (su_pts s) (su_models s) (source w L s) t (mkeys (t_cams t)) (pa_intr (lb_p0 L))) as (i & Eii); [intros c x Hc; destruct (IC c x Hc) as (y & Ey & _); eauto|].
  assert (ND : NoDup (mkeys (t_cams t))) by (rewrite CK; apply FinFun.Injective_map_NoDup; [intros p q; lia|apply seq_NoDup]).
  apply (exact_files w L a path rest s t W i); auto.
  - intros c Hc. destruct (init_each _ _ _ _ _ _ ND Eii) as (Each & _). apply Rng in Hc. specialize (Each c Hc). destruct (IC c (pa_intr (lb_p0 L) c) Hc) as (y & Ey & Gy). rewrite Each in Ey. injection Ey as <-. exact Gy.
  - intros ins' En'. apply ES. auto.
Qed.
Print Assumptions C59_calibrating_the_cameras.

(** ** Examples *)
Definition result_names (c : config) : list string :=
  [cameras_name c; "calibrated_objects_data.yml"; "calibrated_objects_pose_data.yml"; "reprojection_error_data.yml"; "detected_keypoints_data.yml"].
Lemma all_names s r all : all_results s r all -> map fst all = map (path_join (cf_save (su_conf s))) (result_names (su_conf s)).
Proof.
  intros (K & R). assert (P : forall p d, In (p, d) all -> p = path_join (cf_save (su_conf s)) (nth (kind d) (result_names (su_conf s)) "")).
  { intros p d H. apply R in H. destruct H as [p J|p l J _|p J|p e J _|p J]; apply path_join_spec in J; exact J. }
  assert (E : map fst all = map (fun k => path_join (cf_save (su_conf s)) (nth k (result_names (su_conf s)) "")) [0; 1; 2; 3; 4]).
  { rewrite <- K, map_map. apply map_ext_in. intros (p, d) H. cbn [fst snd]. apply P. auto. }
  exact E.
Qed.
(** without pictures the only folder made is the one of the constructor *)
Lemma no_pictures w L a path rest s t r : completed w L path s t r -> w_exists w [] path = true -> yml_path path -> cf_save_detect (su_conf s) <> 1%Z -> cf_save_repro (su_conf s) <> 1%Z ->
  folders (fst (main w L (a :: path :: rest))) = su_made s.
Proof.
  intros [C1 C2 C3] Ex Ym D1 D2. cbn [main]. unfold yml_available. apply yml_path_spec in Ym as (Y1 & Y2). rewrite Ex, Y1, Y2, String.eqb_refl. cbn [andb].
  unfold runCalibrationWorkflow. destruct (construct w path) as [e1 o] eqn:Ec. destruct (construct_events _ _ _ _ Ec) as (made & _ & _ & Hs). cbn [snd] in C1. subst o. destruct (Hs s eq_refl) as (Em & _).
  rewrite C2, C3. cbn [fst]. unfold save_all, all_pictures. apply Z.eqb_neq in D1, D2. rewrite D1, D2. cbn [option_map fst snd app].
  rewrite folders_app, (shape_no_dirs s r _ _ (run_steps_shape s r _ (result_files_ok w s (su_made s) r))). cbn [app]. auto.
Qed.
Definition grid_started (svd : (nat -> nat -> R) -> quat) (i0 : intr) (save name params : string) : Prop :=
  params = "cams.yml" \/ (save = "out" /\ params = "missing.yml") /\ i0 = I9 1 1 0 0 0 0 0 0 0.
Lemma grid_run svd i0 save name params : svd_ok svd -> grid_started svd i0 save name params ->
  exists s es ins r all, snd (construct (grid_world save name params) "conf.yml") = Some s /\ su_conf s = read_config (grid_config save name params) /\
    main (grid_world save name params) (grid_libs svd i0) ["calibrate"; "conf.yml"] = (es, Returned 0) /\
    entering (grid_world save name params) (grid_libs svd i0) s ins /\ all_results s r all /\
    files es = filter (fun f => w_open (grid_world save name params) (folders es) (fst f)) all /\ true_results log0 s two_rig ins all /\
    folders es = (if negb (present [] save) && has_filename save then [save] else []).
Proof.
  intros SO St. destruct (grid_setup save name params) as (B & made & C1 & HB & Em). set (s := grid_set save name params B made) in *.
  destruct (grid_extraction save name params B made svd i0) as (t & C2).
  set (w := grid_world save name params) in *. set (L := grid_libs svd i0) in *. assert (SL : sound_libs L) by apply grid_libs_sound. assert (SW : sound_world w) by apply grid_world_sound.
  assert (PN : forall c n, exact_pnp (lb_lr L) (lb_env L c n)) by (intros; apply ideal_pnp).
  assert (Ym : yml_path "conf.yml"). { apply yml_path_spec. split; reflexivity. }
  assert (Ex : w_exists w [] "conf.yml" = true) by reflexivity.
  assert (Th : (0 < cf_ransac (su_conf s))%R) by (cbn; lra). assert (It : (0 < cf_iterations (su_conf s))%Z) by (cbn; lia).
  assert (R : exists es ins r all, main w L ["calibrate"; "conf.yml"] = (es, Returned 0) /\ entering w L s ins /\ completed w L "conf.yml" s t r /\
    all_results s r all /\ files es = filter (fun f => w_open w (folders es) (fst f)) all /\ true_results (lb_lr L) s two_rig ins all).
  { destruct St as [-> |((-> & ->) & ->)].
    - apply (C59_exact_data_exact_files w L "calibrate" "conf.yml" [] s t two_rig SL SW SO PN Ex Ym C1 C2 Th It); [|apply grid_scene; auto].
      split; [discriminate|]. split; [discriminate|]. split; [reflexivity|]. split; [apply yml_path_spec; split; reflexivity|].
      intros c Hc. change (Z.of_nat (su_nc s)) with 2%Z in Hc. assert (D : c = 0%Z \/ c = 1%Z) by lia. destruct D as [-> | ->]; (eexists; split; [reflexivity|reflexivity]).
    - destruct (no_file (su_pts s) (su_models s) t (pa_intr (lb_p0 L))) as (i & Ei & Qi).
      apply (exact_files w L "calibrate" "conf.yml" [] s t two_rig i SL SW SO PN Ex Ym C1 C2 Th It); [|intros c _; rewrite Qi; reflexivity|apply grid_scene; auto].
      assert (SR : source w L s = NoFile) by (unfold s, grid_set; rewrite Em; reflexivity). rewrite SR. exact Ei. }
  destruct R as (es & ins & r & all & Rm & En & Cm & Ar & Ef & Tr). exists s, es, ins, r, all. split; [exact C1|]. split; [reflexivity|]. do 5 (split; [auto|]).
  assert (F := no_pictures w L "calibrate" "conf.yml" [] s t r Cm Ex Ym). rewrite Rm in F. cbn [fst] in F. rewrite F; [exact Em|cbn; discriminate|cbn; discriminate].
Qed.

Lemma entering_saw svd i0 save name params s ins : snd (construct (grid_world save name params) "conf.yml") = Some s -> entering (grid_world save name params) (grid_libs svd i0) s ins -> saw ins 0.
Proof.
  intros C En. destruct (grid_setup save name params) as (B & made & C1 & HB & Em). rewrite C1 in C. injection C as <-. apply (grid_entering save name params B made) in En. subst ins.
  eexists. split; [left; reflexivity|reflexivity].
Qed.
(** All assumptions of C58 and C59 are met by two cameras and a board; the five files. *)
Example C59_example : exists svd i0 s es ins r all,
  snd (construct (grid_world "out" "" "cams.yml") "conf.yml") = Some s /\ main (grid_world "out" "" "cams.yml") (grid_libs svd i0) ["calibrate"; "conf.yml"] = (es, Returned 0) /\
  entering (grid_world "out" "" "cams.yml") (grid_libs svd i0) s ins /\ all_results s r all /\ folders es = ["out"] /\ files es = all /\
  map fst all = ["out/calibrated_cameras_data.yml"; "out/calibrated_objects_data.yml"; "out/calibrated_objects_pose_data.yml"; "out/reprojection_error_data.yml"; "out/detected_keypoints_data.yml"] /\
  true_results log0 s two_rig ins all.
Proof.
  destruct PropGeom.C20_svd_exists as (svd & SO). exists svd, (I9 0 0 0 0 0 0 0 0 0).
  destruct (grid_run svd (I9 0 0 0 0 0 0 0 0 0) "out" "" "cams.yml" SO (or_introl eq_refl)) as (s & es & ins & r & all & C1 & Ec & Rm & En & Ar & Ef & Tr & Fo).
  exists s, es, ins, r, all. assert (N := all_names _ _ _ Ar). rewrite Ec in N. cbn in N. change (folders es = ["out"]) in Fo. do 5 (split; [auto|]). split; [|split; [exact N|exact Tr]].
  rewrite Ef, Fo. clear -N. assert (X : forall l : list (string * doc), (forall f, In f l -> w_open (grid_world "out" "" "cams.yml") ["out"] (fst f) = true) -> filter (fun f => w_open (grid_world "out" "" "cams.yml") ["out"] (fst f)) l = l).
  { induction l as [|f l IH]; intros H; [reflexivity|]. cbn [filter]. rewrite (H f (or_introl eq_refl)). f_equal. apply IH. intros g Hg. apply H. right. auto. }
  apply X. intros f Hf. apply (in_map fst) in Hf. rewrite N in Hf. destruct Hf as [<-|[<-|[<-|[<-|[<-|[]]]]]]; reflexivity.
Qed.

(** "The application returns 0, so the results were saved" is false: a save path that ends with
    a slash is not created, and files that cannot be opened are ignored. *)
Theorem C58_returning_0_means_saved_refuted : exists w L path es,
  sound_libs L /\ sound_world w /\ (exists s t r, completed w L path s t r) /\ main w L ["calibrate"; path] = (es, Returned 0) /\ files es = [] /\ folders es = [] /\ drawn es = [].
Proof.
  destruct PropGeom.C20_svd_exists as (svd & SO). set (w := grid_world "out/" "" "cams.yml"). set (L := grid_libs svd (I9 0 0 0 0 0 0 0 0 0)).
  destruct (grid_run svd (I9 0 0 0 0 0 0 0 0 0) "out/" "" "cams.yml" SO (or_introl eq_refl)) as (s & es & ins & r & all & C1 & Ec & Rm & En & Ar & Ef & Tr & Fo).
  change (folders es = []) in Fo. assert (N := all_names _ _ _ Ar). rewrite Ec in N. cbn in N.
  destruct (C58_what_is_written _ _ _ _ _ _ Rm) as (s' & t' & r' & _ & Cm & _).
  exists w, L, "conf.yml", es. split; [apply grid_libs_sound|]. split; [apply grid_world_sound|]. split; [exists s', t', r'; auto|]. split; [auto|].
  assert (Fe : files es = []).
  { rewrite Ef, Fo. clear -N. assert (X : forall f, In f all -> w_open (grid_world "out/" "" "cams.yml") [] (fst f) = false).
    { intros f Hf. apply (in_map fst) in Hf. rewrite N in Hf. destruct Hf as [<-|[<-|[<-|[<-|[<-|[]]]]]]; reflexivity. }
    clear N. induction all as [|f l IH]; [reflexivity|]. cbn [filter]. rewrite (X f (or_introl eq_refl)). apply IH. intros g Hg. apply X. right. auto. }
  assert (Fd : drawn es = []).
  { destruct (C58_pictures _ _ _ _ _ _ Rm) as (s'' & t'' & r'' & l1 & l2 & Cm' & Ed & H1 & H2). assert (s'' = s) by (destruct Cm' as [Q _ _]; rewrite C1 in Q; congruence). subst s''.
    rewrite Ec in H1, H2. cbn in H1, H2. rewrite Ed, H1, H2. reflexivity. }
  auto.
Qed.
Print Assumptions C58_returning_0_means_saved_refuted.

(** "The camera parameters are saved" is false when the configured name is that of another
    result: the file with the cameras is overwritten by the keypoints. *)
Theorem C58_cameras_are_kept_refuted : exists w L path es p before cams between points,
  sound_libs L /\ sound_world w /\ main w L ["calibrate"; path] = (es, Returned 0) /\
  files es = (before ++ (p, DCameras cams) :: between ++ [(p, DKeypoints points)])%list /\ cams <> [].
Proof.
  destruct PropGeom.C20_svd_exists as (svd & SO). set (w := grid_world "out" "detected_keypoints_data.yml" "cams.yml"). set (L := grid_libs svd (I9 0 0 0 0 0 0 0 0 0)).
  destruct (grid_run svd (I9 0 0 0 0 0 0 0 0 0) "out" "detected_keypoints_data.yml" "cams.yml" SO (or_introl eq_refl)) as (s & es & ins & r & all & C1 & Ec & Rm & En & Ar & Ef & Tr & Fo).
  change (folders es = ["out"]) in Fo. assert (N := all_names _ _ _ Ar). rewrite Ec in N. cbn in N.
  assert (K := proj1 Ar). destruct all as [|(p0, d0) [|(p1, d1) [|(p2, d2) [|(p3, d3) [|(p4, d4) [|f l]]]]]]; try discriminate N. injection N as -> -> -> -> ->.
  cbn [map snd] in K. destruct d0 as [cams| | | |]; try discriminate K. destruct d4 as [| | | |points]; try discriminate K.
  exists w, L, "conf.yml", es, "out/detected_keypoints_data.yml", [], cams, [("out/calibrated_objects_data.yml", d1); ("out/calibrated_objects_pose_data.yml", d2); ("out/reprojection_error_data.yml", d3)], points.
  split; [apply grid_libs_sound|]. split; [apply grid_world_sound|]. split; [exact Rm|]. split; [rewrite Ef, Fo; reflexivity|].
  intros ->. destruct (tr_cameras _ _ _ _ _ Tr _ [] (or_introl eq_refl)) as (_ & S & _ & _). destruct (proj2 (S 0%Z)).
  exact (entering_saw svd (I9 0 0 0 0 0 0 0 0 0) _ _ _ _ _ C1 En).
Qed.
Print Assumptions C58_cameras_are_kept_refuted.

(** "Without the configured file of camera parameters there is no result" is false: its absence
    is logged, and the calibration goes on with whatever the memory holds. *)
Theorem C59_missing_parameters_refuted : exists w L path es s,
  sound_libs L /\ sound_world w /\ snd (construct w path) = Some s /\ cf_cam_params (su_conf s) = "missing.yml" /\
  w_exists w (folders es) "missing.yml" = false /\
  main w L ["calibrate"; path] = (es, Returned 0) /\ List.length (files es) = 5.
Proof.
  destruct PropGeom.C20_svd_exists as (svd & SO). set (w := grid_world "out" "" "missing.yml"). set (L := grid_libs svd (I9 1 1 0 0 0 0 0 0 0)).
  destruct (grid_run svd (I9 1 1 0 0 0 0 0 0 0) "out" "" "missing.yml" SO (or_intror (conj (conj eq_refl eq_refl) eq_refl))) as (s & es & ins & r & all & C1 & Ec & Rm & En & Ar & Ef & Tr & Fo).
  change (folders es = ["out"]) in Fo. assert (N := all_names _ _ _ Ar). rewrite Ec in N. cbn in N.
  exists w, L, "conf.yml", es, s. split; [apply grid_libs_sound|]. split; [apply grid_world_sound|]. split; [auto|]. split; [rewrite Ec; reflexivity|]. split; [rewrite Fo; reflexivity|]. split; [exact Rm|].
  destruct all as [|(p0, d0) [|(p1, d1) [|(p2, d2) [|(p3, d3) [|(p4, d4) [|f l]]]]]]; try discriminate N. injection N as -> -> -> -> ->. rewrite Ef, Fo. reflexivity.
Qed.
Print Assumptions C59_missing_parameters_refuted.

(** The assumptions of C59_calibrating_the_cameras are met as well. *)
Example C59_images_example : exists svd i0 s t ins, svd_ok svd /\
  snd (construct (grid_world "out" "" "None") "conf.yml") = Some s /\ boardExtraction (grid_world "out" "" "None") (grid_libs svd i0) s = Some t /\
  (forall l, entering (grid_world "out" "" "None") (grid_libs svd i0) s l <-> l = ins) /\
  exact_scene (grid_libs svd i0) s two_rig ins /\ calibrates_truly (grid_libs svd i0) s two_rig ins t /\
  snd (main (grid_world "out" "" "None") (grid_libs svd i0) ["calibrate"; "conf.yml"]) = Returned 0.
Proof.
  destruct PropGeom.C20_svd_exists as (svd & SO). set (i0 := I9 0 0 0 0 0 0 0 0 0).
  destruct (grid_setup "out" "" "None") as (B & made & C1 & HB & Em). set (s := grid_set "out" "" "None" B made) in *.
  destruct (grid_extraction "out" "" "None" B made svd i0) as (t & C2). exists svd, i0, s, t, grid_ins.
  assert (EN : forall l, entering (grid_world "out" "" "None") (grid_libs svd i0) s l <-> l = grid_ins) by (intros l; apply grid_entering).
  assert (ES : exact_scene (grid_libs svd i0) s two_rig grid_ins) by (apply (grid_scene "out" "" "None" B made HB); apply EN; reflexivity).
  assert (CT : calibrates_truly (grid_libs svd i0) s two_rig grid_ins t).
  { constructor.
    - right. reflexivity.
    - intros c n. apply Permutation_refl.
    - intros c Hc. change (Z.of_nat (su_nc s)) with 2%Z in Hc. assert (D : c = 0%Z \/ c = 1%Z) by lia. destruct D as [-> | ->]; eexists; (split; [|]); [left; reflexivity|reflexivity|right; right; left; reflexivity|reflexivity].
    - intros c r i x y M. cbn in M. discriminate M.
    - intros. reflexivity. }
  do 6 (split; [auto|]).
  destruct (C59_calibrating_the_cameras (grid_world "out" "" "None") (grid_libs svd i0) "calibrate" "conf.yml" [] s t two_rig) as (es & ins & r & all & Rm & _); try rewrite Rm; auto.
  - apply grid_libs_sound.
  - apply grid_world_sound.
  - intros; apply ideal_pnp.
  - apply yml_path_spec. split; reflexivity.
  - cbn. lra.
  - cbn. lia.
  - intros l Hl. rewrite (proj1 (EN l) Hl). auto.
Qed.
