(** C64: the application on cameras without a common view. *)
From Coq Require Import List ZArith Lia Reals Lra Relations Ascii String Bool.
From Verif Require Import SMap GraphModel GraphSpec DataModel DataSpec DataProofs DetectModel DetectSpec RansacModel RansacSpec GeomModel GeomSpec GeomProofs
  ObjectsModel HandEyeModel HandEyeSpec CameraModel ResidualModel ResidualSpec WorkflowModel RigSpec RigExample ApartSpec ApartExample BoardModel InputModel InputSpec AppModel AppSpec AppProofs AppExample PropApart PropWhole.
From Coq Require ClassicalEpsilon.
From Verif Require PropRig PropResidual PropHandEye PropGeom GraphPath.
Import ListNotations.
Close Scope R_scope.
Open Scope nat_scope.
Open Scope string_scope.

(** Both methods for cameras without a common view give a rigid transform if the solver does
    (geometrytools.cpp 362-401, 620-686). *)
Theorem C34_result_is_rigid : forall lr he heh svd km shuffle rnd approach p1 p2 X, (forall d, rigid (he d)) -> (forall d, rigid (heh d)) ->
  handeye lr he heh svd km shuffle rnd approach p1 p2 = Some X -> rigid X.
Proof.
  intros lr he heh svd km shuffle rnd a p1 p2 X _ Hh. assert (P : forall q1 q2, handeyeCalibration lr heh q1 q2 = Some X -> rigid X).
  { intros q1 q2. unfold handeyeCalibration. destruct (Nat.leb _ _); [|intros H; discriminate H]. intros H. apply (f_equal (fun o => match o with Some x => x | None => pid end)) in H. rewrite <- H. apply Hh. }
  unfold handeye. destruct (Z.eqb a 0); [|apply P]. unfold handeyeBootstraptTranslationCalibration. destruct (collect _) as [cs|]; [|intros H; discriminate H].
  destruct (Nat.ltb _ _); [|apply P]. destruct (getAverageRotation _ _ _ _) as [r|]; [|intros H; discriminate H]. intros H. injection H as <-. apply exp_rot_rotation.
Qed.
Print Assumptions C34_result_is_rigid.
(** such a solver exists *)
Example C34_rigid_solver_exists : exists he, exact_solver he /\ forall d, rigid (he d).
Proof.
  exists (fun data => if ClassicalEpsilon.excluded_middle_informative (exists X, rigid X /\ determines data X) then ClassicalEpsilon.epsilon (inhabits pid) (fun X => rigid X /\ determines data X) else pid). split.
  - intros data X RX _ D. destruct (ClassicalEpsilon.excluded_middle_informative _) as [_|N]; [|exfalso; apply N; eauto].
    destruct (ClassicalEpsilon.epsilon_spec (inhabits pid) (fun X => rigid X /\ determines data X) (ex_intro _ X (conj RX D))) as (R' & (Y & S') & _).
    destruct D as (_ & U). apply (U _ Y R' S').
  - intros d. destruct (ClassicalEpsilon.excluded_middle_informative _) as [E|_]; [apply (ClassicalEpsilon.epsilon_spec (inhabits pid) _ E)|apply rot_id].
Qed.

(** As C59_exact_data_exact_files, where the motion of the boards relates the sets of cameras. *)
Theorem C64_application : forall w L program path rest s t W he heh km shuffle rnd,
  sound_libs L -> sound_world w -> svd_ok (lb_svd L) -> (forall c n, exact_pnp (lb_lr L) (lb_env L c n)) ->
  kmeans_ok km -> shuffle_ok shuffle -> rnd_ok rnd -> exact_solver he -> exact_solver heh ->
  (forall a, lb_handeye L a = handeye (lb_lr L) he heh (lb_svd L) km shuffle rnd a) ->
  w_exists w [] path = true -> yml_path path -> snd (construct w path) = Some s -> boardExtraction w L s = Some t ->
  (0 < cf_ransac (su_conf s))%R -> (0 < cf_iterations (su_conf s))%Z -> true_parameters w s W ->
  (forall c, rg_model W c = su_models s c) -> rigid_rig W -> no_tiny_angles (lb_lr L) W ->
  (forall ins, entering w L s ins ->
     exact_detections (su_pts s) W ins /\ general_position (su_pts s) W ins /\ (forall c n, exact_undistort (su_pts s) W ins (lb_env L c n)) /\
     parts_at_once (frames_needed (cf_he (su_conf s))) ins /\ enough_motion (cf_he (su_conf s)) W ins /\
     (su_nc s <= 2 \/ (forall a b, fst (rg_cam W a) = fst (rg_cam W b)) \/ shares_with_first ins)) ->
  exists es ins r all, main w L (program :: path :: rest) = (es, Returned 0) /\ entering w L s ins /\ completed w L path s t r /\
    all_results s r all /\ files es = filter (fun f => w_open w (folders es) (fst f)) all /\ true_results (lb_lr L) s W ins all.
Proof.
  intros w L a path rest s t W he heh km shuffle rnd SL SW SO PN Km Sh Rn He Hh HL Ex Ym C1 C2 Th It TP Em Er Ta ES.
  apply C59_exact_data_exact_files; auto. intros ins En. destruct (ES ins En) as (E1 & E2 & E3 & E4 & E5 & E6). constructor; auto.
  rewrite HL. apply C64_motion_relates_cameras; auto. apply SL.
Qed.
Print Assumptions C64_application.

(** ** Example: two cameras, two boards of 3 x 3 corners, four frames (ApartExample) *)
Definition apart_config : cfile :=
  [ ("number_camera", NInt 2); ("number_board", NInt 2); ("number_x_square", NInt 4); ("number_y_square", NInt 4); ("square_size", NInt 1); ("length_square", NInt 2); ("length_marker", NInt 1);
    ("distortion_model", NInt 0); ("ransac_threshold", NInt 1); ("number_iterations", NInt 1000); ("he_approach", NInt 1);
    ("save_path", NStr "out"); ("camera_params_file_name", NStr ""); ("cam_params_path", NStr "cams.yml"); ("keypoints_path", NStr "kp.yml") ].
Definition apart_node (c : Z) : kpnode pt2 :=
  mkKp 640 480 [0; 1; 2; 3]%Z ["a.png"; "a.png"; "a.png"; "a.png"] [c; c; c; c] [shota c 0; shota c 1; shota c 2; shota c 3] [grid_ids; grid_ids; grid_ids; grid_ids].
Definition apart_world : world :=
  mkWorld present (fun made p => present made (folder_of p) || String.eqb (folder_of p) ".") (fun _ _ => true)
    (fun _ => apart_config) (fun _ => [(0%Z, apart_node 0); (1%Z, apart_node 1)]) (fun _ => PropRig.two_file) (fun _ => []) (fun _ => mkCont false (mkImg 0 0 (fun _ _ => 0%R)) (fun _ => ([], []))).
Definition apart_he (svd : (nat -> nat -> R) -> quat) he : Z -> list pose -> list pose -> option pose :=
  handeye log0 he he svd (fun pts k => map (fun i => Nat.modulo i k) (seq 0 (List.length pts))) (fun _ l => l) (fun _ _ _ => 0).
Definition apart_libs (svd : (nat -> nat -> R) -> quat) he : libs :=
  mkLibs svd log0 pick_first empty_graph (fun _ p => p) (fun _ _ => ideal_env log0) (fun _ _ => (vzero, vzero)) (apart_he svd he) (fun _ l => l) (fun _ _ _ _ => Some (getIntrinsics 0 (I9 1 1 0 0 0 0 0 0 0)%R))
    (fun _ => (0, 0, 0, 0, 0, 0)%R) (fun _ => (0, 0, 0, 0)%R) (fun _ ts => List.concat ts) (mkPar (fun _ => (vzero, vzero)) (fun _ => I9 0 0 0 0 0 0 0 0 0)%R) (fun _ => (vzero, vzero)) (fun m => Z.eqb m 1).
Lemma apart_setup : exists B B', snd (construct apart_world "conf.yml") = Some (mkSetup (read_config apart_config) 2 [B; B'] ["out"]) /\ bd_pts B = board_pts 4 4 1 /\ bd_pts B' = board_pts 4 4 1.
Proof. eexists. eexists. split; [apply construct_ok; [reflexivity|reflexivity|reflexivity|apply small_all; repeat constructor|reflexivity]|]. split; reflexivity. Qed.
Section Apart.
Variables (B B' : board).
Hypothesis (HB : bd_pts B = board_pts 4 4 1) (HB' : bd_pts B' = board_pts 4 4 1).
Definition apart_set : setup := mkSetup (read_config apart_config) 2 [B; B'] ["out"].
Lemma apart_su c : (0 <= c < 2)%Z -> su_pts apart_set c = grid_pts.
Proof.
  intros H. assert (D : (c = 0 \/ c = 1)%Z) by lia. unfold su_pts.
  destruct D as [-> | ->]; [change (znth (su_boards apart_set) 0) with (Some B)|change (znth (su_boards apart_set) 1) with (Some B')]; cbv iota; rewrite ?HB, ?HB'; apply grid_board.
Qed.
Lemma apart_corner c j q k : (0 <= c < Z.of_nat 2)%Z -> nth_error five_pts j = Some q -> nth_error grid_ids j = Some k -> corner (su_pts apart_set) c k q.
Proof.
  intros Hc Hq Hk. unfold corner. rewrite apart_su by (cbn in Hc; lia). destruct j as [|[|[|[|[|n]]]]]; cbn in Hq, Hk; try (injection Hq as <-; injection Hk as <-; split; [lia|reflexivity]). destruct n; discriminate Hk.
Qed.
Definition named (f : Z) : string := "a.png".
Lemma apart_entering L ins : entering apart_world L apart_set ins <-> ins = apart_with grid_ids named 2 4.
Proof. unfold entering. assert (X : load_keypoints (w_exists apart_world (su_made apart_set)) (su_conf apart_set) = true) by reflexivity. rewrite X. reflexivity. Qed.
Lemma apart_extraction svd he : exists t, boardExtraction apart_world (apart_libs svd he) apart_set = Some t.
Proof. eexists. vm_compute. reflexivity. Qed.
Lemma grid_ids_distinct : NoDup grid_ids.
Proof. repeat constructor; cbn; intuition lia. Qed.
Lemma apart_parts : parts_at_once 4 (apart_with grid_ids named 2 4).
Proof.
  split; [discriminate|]. intros c d (i & Hi & <-) (j & Hj & <-) NS. assert (Ic := with_inv _ _ _ _ _ Hi). assert (Id := with_inv _ _ _ _ _ Hj). destruct Ic as (c & f & C & _ & ->), Id as (d & g & D & _ & ->). cbn [i_cam] in *.
  exists c, d. split; [apply rt_refl|]. split; [apply rt_refl|]. destruct (apart_both grid_ids named 2 4 c d C D) as (a & b & fs & N & L & H). exists a, b, fs. split; [auto|]. split; [auto|]. intros l l' N1 N2 H1 H2.
  assert (L1 : forall (c : Z) l, NoDup l -> (forall x, In x l -> saw (apart_with grid_ids named 2 4) x /\ same_view (apart_with grid_ids named 2 4) c x) -> List.length l <= 1).
  { intros e k Nk Hk. destruct k as [|x [|y k]]; [cbn; lia|cbn; lia|exfalso]. assert (x = y) by (transitivity e; [symmetry|]; apply (apart_unrelated grid_ids named 2 4), Hk; cbn; auto). subst. inversion Nk as [|? ? Q _]. apply Q. left; auto. }
  assert (A := L1 c l N1 H1). assert (A' := L1 d l' N2 H2). assert (List.length l * List.length l' <= 1) by nia. nia.
Qed.
End Apart.
Example C64_application_example : exists svd he s es ins r all, svd_ok svd /\ exact_solver he /\
  snd (construct apart_world "conf.yml") = Some s /\ main apart_world (apart_libs svd he) ["calibrate"; "conf.yml"] = (es, Returned 0) /\
  entering apart_world (apart_libs svd he) s ins /\ ~ same_view ins 0 1 /\ saw ins 0 /\ saw ins 1 /\ all_results s r all /\ true_results log0 s apart_rig ins all /\
  map fst all = ["out/calibrated_cameras_data.yml"; "out/calibrated_objects_data.yml"; "out/calibrated_objects_pose_data.yml"; "out/reprojection_error_data.yml"; "out/detected_keypoints_data.yml"].
Proof.
  destruct PropGeom.C20_svd_exists as (svd & SO). destruct C34_rigid_solver_exists as (he & HE & HR). destruct PropHandEye.C33_oracles as (Km & Sh & Rn).
  destruct apart_setup as (B & B' & C1 & HB & HB'). set (s := mkSetup (read_config apart_config) 2 [B; B'] ["out"]) in *. destruct (apart_extraction B B' svd he) as (t & C2).
  destruct (C64_application apart_world (apart_libs svd he) "calibrate" "conf.yml" [] s t apart_rig he he (fun pts k => map (fun i => Nat.modulo i k) (seq 0 (List.length pts))) (fun _ l => l) (fun _ _ _ => 0)) with (5 := Km) (6 := Sh) (7 := Rn) as (es & ins & r & all & M & En & Cm & Ar & Ef & Tr); auto.
  - constructor; cbn.
    + apply PropResidual.ceres_idle.
    + apply GraphPath.pick_first_good.
    + apply log0_ok.
    + intros n. apply (pn_fair _ _ (ideal_pnp log0)).
    + intros h l l' X. apply C34_result_is_rigid; auto.
    + intros _ ts. apply concat_interleave.
  - constructor; cbn; auto.
  - intros; apply ideal_pnp.
  - apply yml_path_spec. split; reflexivity.
  - cbn. lra.
  - cbn. lia.
  - split; [discriminate|]. split; [discriminate|]. split; [reflexivity|]. split; [apply yml_path_spec; split; reflexivity|].
    intros c Hc. change (Z.of_nat (su_nc s)) with 2%Z in Hc. assert (D : c = 0%Z \/ c = 1%Z) by lia. destruct D as [-> | ->]; (eexists; split; [reflexivity|reflexivity]).
  - intros c. unfold su_models. cbn. destruct (Z.to_nat c) as [|[|[|n]]]; reflexivity.
  - apply apart_rigid.
  - apply apart_angles.
  - intros ins En. apply (apart_entering B B') in En. subst ins. split; [|split; [|split; [|split; [|split]]]].
    + apply with_exact; [reflexivity|apply grid_ids_distinct|apply apart_corner; auto].
    + apply with_general; [reflexivity|apply grid_ids_distinct|apply apart_corner; auto].
    + intros c n a f b k m q E. discriminate E.
    + apply apart_parts.
    + apply apart_turns. lia.
    + left. cbn. lia.
  - exists svd, he, s, es, ins, r, all. do 5 (split; [auto|]). assert (Q := proj1 (apart_entering B B' _ _) En). subst ins. split; [intros H; apply apart_unrelated in H; discriminate H|].
    split; [eexists; split; [apply (with_In grid_ids named 2 4 0 0); lia|reflexivity]|]. split; [eexists; split; [apply (with_In grid_ids named 2 4 1 0); lia|reflexivity]|].
    split; [auto|]. split; [auto|]. assert (N := all_names _ _ _ Ar). exact N.
Qed.
Print Assumptions C64_application_example.
