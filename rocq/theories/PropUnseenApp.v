(** C69 for the whole application. *)
From Coq Require Import List ZArith Lia Reals String Bool.
From Verif Require Import SMap GraphModel DataModel DataSpec DataProofs DetectModel RansacModel GeomModel ObjectsModel GroupModel StageSpec
  PipelineModel CameraModel ResidualModel FileModel IntrinsicModel WorkflowModel BoardModel InputModel ImagesModel LogModel Sizes AppModel AppSpec AppProofs AppExample PropWhole UnseenSpec UnseenProofs PropUnseen.
Import ListNotations.
Close Scope R_scope.
Open Scope nat_scope.
Open Scope string_scope.

(** ** Loading the keypoints *)
Definition has (t : tables pt2) (b : Z) : Prop := mfind b (t_boards t) <> None.
Definition both (P : Z -> Prop) (t t' : tables pt2) : Prop := four_same t t' /\ forall b, P b -> has t b /\ has t' b.
Lemma has_mset t b c v : has t b -> mfind b (mset c v (t_boards t)) <> None.
Proof. intros H E. apply mfind_None in E. apply H. apply mfind_None. intros X. apply E. apply mset_keys_in. right. exact X. Qed.
Lemma insert_both P t t' i : both P t t' -> P (i_board i) -> orel (both P) (insertNewBoard t i) (insertNewBoard t' i).
Proof.
  intros ((Qo & Qc & Qf & Qm) & H) Pi. destruct (H _ Pi) as (H1 & H2). unfold has in H1, H2. unfold insertNewBoard. rewrite Qo, Qc, Qf, Qm. destruct (mfind (i_cam i) (t_cams t')) as [c|]; [|exact I].
  destruct (mfind (i_board i) (t_boards t)) as [b|]; [|congruence]. destruct (mfind (i_board i) (t_boards t')) as [b'|]; [|congruence].
  destruct (mfind (i_frame i) (t_frames t')) as [f|]; destruct (mfind (i_cam i, i_frame i) (t_camobs t')) as [co|]; (split; [repeat split|intros d Hd; destruct (H d Hd); split; apply has_mset; assumption]).
Qed.
Lemma insert_all_both P l : forall t t', both P t t' -> (forall i, In i l -> P (i_board i)) -> orel (both P) (insert_all t l) (insert_all t' l).
Proof.
  induction l as [|i l IH]; intros t t' B H; cbn [insert_all]; [exact B|]. assert (X := insert_both P t t' i B (H i (or_introl eq_refl))).
  destruct (insertNewBoard t i) as [u|], (insertNewBoard t' i) as [u'|]; cbn [orel] in X; try contradiction; [|exact I]. apply IH; auto. intros j Hj. apply H. right. exact Hj.
Qed.
Lemma size_both P t t' c w h : both P t t' -> both P (set_image_size t c w h) (set_image_size t' c w h).
Proof.
  intros ((Qo & Qc & Qf & Qm) & H). unfold set_image_size. rewrite Qc, Qo, Qf, Qm. destruct (mfind c (t_cams t')) as [x|]; (split; [repeat split; auto|exact H]).
Qed.
Lemma zip_boards c fs : forall ps bs pts ids i, In i (@zip_ins pt2 c fs ps bs pts ids) -> In (i_board i) bs.
Proof.
  induction fs as [|f fs IH]; intros ps bs pts ids i H; [destruct H|]. destruct ps as [|p ps], bs as [|b bs], pts as [|q pts], ids as [|d ids]; try destruct H as [].
  - left. rewrite <- H. reflexivity.
  - right. eapply IH. exact H.
Qed.
Definition lrel (R : tables pt2 -> tables pt2 -> Prop) (x y : @load_result pt2) : Prop :=
  match x, y with Loaded t, Loaded t' => R t t' | AssertFailed, AssertFailed => True | LoadUB, LoadUB => True | _, _ => False end.
Lemma load_both (P : Z -> Prop) file cs : (forall b, in_keypoints file b -> P b) -> forall t t', both P t t' -> lrel (both P) (DataModel.load_cameras file t cs) (DataModel.load_cameras file t' cs).
Proof.
  intros H. induction cs as [|c cs IH]; intros t t' B; cbn [DataModel.load_cameras]; [exact B|]. unfold DataModel.load_camera.
  set (k := match mfind c file with Some k => k | None => _ end). match goal with |- context [if ?b then _ else _] => destruct b; [|exact I] end.
  assert (X := insert_all_both P (zip_ins c (k_frames k) (k_paths k) (k_boards k) (k_pts k) (k_ids k)) _ _ (size_both P t t' c (k_width k) (k_height k) B)).
  assert (Y : forall i, In i (zip_ins c (k_frames k) (k_paths k) (k_boards k) (k_pts k) (k_ids k)) -> P (i_board i)).
  { intros i Hi. apply zip_boards in Hi. apply H. unfold k in Hi. destruct (mfind c file) as [k0|] eqn:E; [|destruct Hi]. exists c, k0. auto. }
  specialize (X Y). destruct (insert_all (set_image_size t c (k_width k) (k_height k)) _) as [u|], (insert_all (set_image_size t' c (k_width k) (k_height k)) _) as [u'|]; cbn [orel] in X; try contradiction; [|exact I].
  apply IH. exact X.
Qed.
Lemma init_has nc nb b : (0 <= b < Z.of_nat nb)%Z -> has (init_tables nc nb) b.
Proof.
  intros H. unfold has, init_tables. cbn [t_boards]. replace b with (Z.of_nat (Z.to_nat b)) by lia. rewrite dense_find, (nth_error_nth' _ (mkBoard [] [])) by (rewrite repeat_length; lia). discriminate.
Qed.
Lemma alike_relabelled cs (t : tables pt2) : alike (t_cams t) cs -> relabelled t (with_cams cs t).
Proof. intros A. constructor; try reflexivity. cbn [with_cams t_cams]. symmetry. exact A. Qed.
Lemma extracted w L s ins t : entering w L s ins -> load_keypoints (w_exists w (su_made s)) (su_conf s) = true -> boardExtraction w L s = Some t ->
  after_detection (su_nc s) (List.length (su_boards s)) ins t.
Proof.
  intros En LK E. unfold entering in En. rewrite LK in En. unfold boardExtraction in E. rewrite LK in E. unfold loadDetectedKeypoints in E. destruct (DataModel.load_cameras _ _ _) as [t1| |] eqn:E1; try discriminate E. injection E as <-.
  destruct (load_fold _ _ _ _ _ _ _ [] (init_sized _ _) eq_refl E1) as (t0 & A & (cs & -> & B & _)). cbn [app] in A. rewrite <- En in A. split; [eapply insert_all_known; eauto|]. exists t0. split; [exact A|]. apply alike_relabelled. exact B.
Qed.

(** ** The whole application *)
Section Application.
Variables (w : world) (L : libs) (s s' : setup).
Hypothesis SB : same_but_boards (su_conf s) (su_conf s').
Hypothesis Snc : su_nc s = su_nc s'.
Hypothesis Smade : su_made s = su_made s'.
Hypothesis LK : load_keypoints (w_exists w (su_made s)) (su_conf s) = true.
Hypothesis Same : forall b, in_keypoints (w_keypoints w (cf_keypoints (su_conf s))) b -> same_board s s' b.

Lemma loads_too : load_keypoints (w_exists w (su_made s')) (su_conf s') = true.
Proof. rewrite <- Smade, <- LK. unfold load_keypoints. destruct SB as (_ & _ & _ & _ & _ & _ & _ & _ & _ & _ & _ & _ & E & _). rewrite E. reflexivity. Qed.
Lemma board_in_range b : same_board s s' b -> (0 <= b < Z.of_nat (List.length (su_boards s)))%Z /\ (0 <= b < Z.of_nat (List.length (su_boards s')))%Z.
Proof.
  intros (B & B' & H0 & H1 & H2 & _). assert (X1 : Z.to_nat b < List.length (su_boards s)) by (apply nth_error_Some; rewrite H1; discriminate). assert (X2 : Z.to_nat b < List.length (su_boards s')) by (apply nth_error_Some; rewrite H2; discriminate). lia.
Qed.
Lemma same_pts b : same_board s s' b -> su_pts s b = su_pts s' b.
Proof.
  intros (B & B' & H0 & H1 & H2 & E). unfold su_pts, znth. destruct (Z.ltb_spec b 0); [lia|]. rewrite H1, H2, E. reflexivity.
Qed.
Lemma extraction_same : orel four_same (boardExtraction w L s) (boardExtraction w L s').
Proof.
  unfold boardExtraction. rewrite LK, loads_too. destruct SB as (_ & _ & _ & _ & _ & _ & _ & _ & _ & _ & _ & _ & E & _). rewrite <- E, <- Snc. unfold loadDetectedKeypoints.
  assert (X := load_both (in_keypoints (w_keypoints w (cf_keypoints (su_conf s)))) (w_keypoints w (cf_keypoints (su_conf s))) (map Z.of_nat (seq 0 (su_nc s))) (fun b H => H)
    (init_tables (su_nc s) (List.length (su_boards s))) (init_tables (su_nc s) (List.length (su_boards s')))).
  assert (Y : both (in_keypoints (w_keypoints w (cf_keypoints (su_conf s)))) (init_tables (su_nc s) (List.length (su_boards s))) (init_tables (su_nc s) (List.length (su_boards s')))).
  { split; [repeat split|]. intros b Hb. destruct (board_in_range b (Same b Hb)). split; apply init_has; assumption. }
  specialize (X Y). destruct (DataModel.load_cameras _ (init_tables _ (List.length (su_boards s))) _), (DataModel.load_cameras _ (init_tables _ (List.length (su_boards s'))) _); cbn [lrel] in X; try contradiction; cbn [orel]; auto. apply X.
Qed.
Lemma entering_same ins : entering w L s ins -> entering w L s' ins.
Proof. unfold entering. rewrite LK, loads_too, <- Snc. destruct SB as (_ & _ & _ & _ & _ & _ & _ & _ & _ & _ & _ & _ & E & _). rewrite <- E. auto. Qed.
Lemma entering_boards ins i : entering w L s ins -> In i ins -> same_board s s' (i_board i).
Proof.
  unfold entering. rewrite LK. intros -> Hi. apply in_flat_map in Hi as (c & _ & Hi). apply Same. unfold boards_in_file in Hi. destruct (mfind _ _) as [k|] eqn:E; [|destruct Hi]. apply zip_boards in Hi. exists (Z.of_nat c), k. auto.
Qed.
Lemma calibrate_app_same t t' ins : entering w L s ins -> boardExtraction w L s = Some t -> boardExtraction w L s' = Some t' -> four_same t t' ->
  orel (fun r r' => same_results (su_models s) (su_pts s) (su_pts s') r r' /\ ru_s r = ru_s r' /\ ru_p r = ru_p r' /\ ru_gp r = ru_gp r' /\ t_frames (ru_t r) = t_frames (ru_t r') /\ t_cams (ru_t r) = t_cams (ru_t r'))
    (calibrate_app w L s t) (calibrate_app w L s' t').
Proof.
  intros En E E' FS. assert (AD := extracted w L s ins t En LK E). assert (AD' := extracted w L s' ins t' (entering_same ins En) loads_too E'). rewrite <- Snc in AD'.
  assert (Sp : forall i, In i ins -> su_pts s (i_board i) = su_pts s' (i_board i)) by (intros i Hi; apply same_pts, (entering_boards ins i En Hi)).
  assert (Sm : su_models s = su_models s') by (unfold su_models; destruct SB as (_ & _ & _ & _ & _ & _ & _ & _ & F & _); rewrite F; reflexivity).
  assert (Ss : source w L s = source w L s').
  { unfold source, load_intrinsics. rewrite <- Smade. destruct SB as (_ & _ & _ & _ & _ & _ & _ & _ & _ & _ & _ & F & _). rewrite F. reflexivity. }
  unfold calibrate_app. rewrite <- Ss, <- Sm. destruct SB as (_ & _ & _ & _ & _ & F6 & F7 & F8 & _ & _ & _ & _ & _ & _ & _ & F16 & F17). rewrite <- F6, <- F7, <- F8, <- F16, <- F17.
  assert (X := calibrate_logged_like2 (lb_svd L) (lb_lr L) (cf_quaternion (su_conf s)) (lb_pick L) (lb_g0 L) (lb_solve L) (su_models s) (cf_ransac (su_conf s)) (cf_iterations (su_conf s)) (lb_env L) (lb_pose0 L) (lb_handeye L (cf_he (su_conf s)))
    (cf_fix_intrinsic (su_conf s)) (su_pts s) (su_pts s') (su_nc s) (List.length (su_boards s)) (List.length (su_boards s')) ins ins t t' AD AD' (four_same_bare _ _ FS) Sp (lb_empty L) (source w L s) (lb_p0 L) (lb_gp0 L)).
  destruct (calibrate_logged (lb_empty L) (su_pts s) _ _ _ _ _ _ _ _ _ _ _ _ _ _ _ _ _) as [r|], (calibrate_logged (lb_empty L) (su_pts s') _ _ _ _ _ _ _ _ _ _ _ _ _ _ _ _ _) as [r'|]; cbn [orel] in X |- *; auto.
  split; [exact (like2_results (su_models s) (su_pts s) (su_pts s') (su_nc s) _ _ ins ins t t' AD AD' Sp _ _ eq_refl (proj1 (proj2 (proj2 FS))) X)|].
  destruct X as ([(_ & Lc & _) Lp Lg _ Ls _ _] & RL & RL'). assert (Lf : t_frames (ru_t r) = t_frames (ru_t r')) by (rewrite (rl_frames _ _ RL), (rl_frames _ _ RL'); apply FS). auto.
Qed.
Lemma save_all_same r r' : same_results (su_models s) (su_pts s) (su_pts s') r r' -> ru_s r = ru_s r' -> ru_p r = ru_p r' -> ru_gp r = ru_gp r' -> t_frames (ru_t r) = t_frames (ru_t r') -> t_cams (ru_t r) = t_cams (ru_t r') ->
  save_all w L s r = save_all w L s' r'.
Proof.
  intros [R1 R2 R3 R4 R5 R6] Es Ep Eg Ef Ec.
  assert (Sm : su_models s' = su_models s) by (unfold su_models; destruct SB as (_ & _ & _ & _ & _ & _ & _ & _ & F & _); rewrite F; reflexivity).
  destruct SB as (_ & _ & _ & _ & _ & _ & _ & _ & _ & F10 & F11 & _ & _ & F14 & F15 & _).
  assert (IF : in_folder s' = in_folder s) by (unfold in_folder; rewrite F10; reflexivity).
  assert (PE : forall root f g cs made, (forall c, f c = g c) -> pictures w s root f cs made = pictures w s' root g cs made).
  { intros root f g cs made H. unfold pictures. apply fold_left_ext. intros acc c _. destruct acc as [st|]; [|reflexivity]. unfold camera_pictures. rewrite IF, H. reflexivity. }
  assert (D : forall c, saveDetectionImages (readable_image w) r c = saveDetectionImages (readable_image w) r' c).
  { intros c. unfold saveDetectionImages. rewrite <- Ef. apply gather_ext. intros fr _. unfold frame_picture, detect_marks. rewrite <- Es. reflexivity. }
  assert (P : forall c, saveReprojectionImages (lb_lr L) (su_models s) (readable_image w) r c = saveReprojectionImages (lb_lr L) (su_models s) (readable_image w) r' c).
  { intros c. unfold saveReprojectionImages. rewrite <- Ef. apply gather_ext. intros fr _. unfold frame_picture, repro_marks. rewrite <- Es, <- Ep, <- Eg. reflexivity. }
  assert (AP : all_pictures w L s r = all_pictures w L s' r').
  { unfold all_pictures. rewrite <- F14, <- F15, <- Smade, <- Ec, Sm. rewrite (PE _ _ _ _ _ D). destruct (if Z.eqb _ 1 then _ else _) as [(es, made)|]; [|reflexivity]. rewrite (PE _ _ _ _ _ P). reflexivity. }
  assert (OD : objects_doc s r = objects_doc s' r').
  { unfold objects_doc. do 2 f_equal. transitivity (map (fun '(i, x) => option_map (fun cols => (i, cols)) x) (map (fun e => (ob_id (snd e), save3DObj (su_pts s) (snd e))) (ca_objs (ru_s r)))).
    - rewrite map_map. apply map_ext. intros (k, o). reflexivity.
    - rewrite R2, map_map. apply map_ext. intros (k, o). reflexivity. }
  assert (ED : errors_doc s r = errors_doc s' r') by (unfold errors_doc; rewrite Sm, R4; reflexivity).
  assert (RF : forall made, result_files w s made r = result_files w s' made r').
  { intros made. unfold result_files. rewrite OD, ED, R3, R5, Sm, R1, IF, Es, Ep. unfold cameras_path. rewrite F10, F11. reflexivity. }
  unfold save_all. rewrite AP. destruct (all_pictures w L s' r') as [(es, made)|]; [|reflexivity]. rewrite RF. reflexivity.
Qed.
Lemma rest_same : match boardExtraction w L s, boardExtraction w L s' with
  | Some t, Some t' => match calibrate_app w L s t, calibrate_app w L s' t' with Some r, Some r' => save_all w L s r = save_all w L s' r' | None, None => True | _, _ => False end
  | None, None => True | _, _ => False end.
Proof.
  assert (X := extraction_same). destruct (boardExtraction w L s) as [t|] eqn:E, (boardExtraction w L s') as [t'|] eqn:E'; cbn [orel] in X; try contradiction; [|exact I].
  assert (En : exists ins, entering w L s ins) by (unfold entering; rewrite LK; eexists; reflexivity). destruct En as (ins & En).
  assert (Y := calibrate_app_same t t' ins En E E' X). destruct (calibrate_app w L s t) as [r|], (calibrate_app w L s' t') as [r'|]; cbn [orel] in Y; auto. destruct Y as (Y1 & Y2 & Y3 & Y4 & Y5 & Y6). apply save_all_same; auto.
Qed.
End Application.

(** ** C69. Two configuration files that differ at most in the description of the boards (with the same name at two times, or with two names).  The detected corners are read from a file,
    and the boards in this file are described alike in both.  Then the application does the same with both: it creates the same folders,
    draws the same pictures, writes the same files with the same contents and ends in the same way. *)
Theorem C69_the_application_does_the_same : forall w f L program path path' rest rest' s s',
  w_exists w [] path = true -> yml_path path -> w_exists w [] path' = true -> yml_path path' ->
  snd (construct w path) = Some s -> snd (construct (with_configs f w) path') = Some s' ->
  same_but_boards (su_conf s) (su_conf s') ->
  load_keypoints (w_exists w (su_made s)) (su_conf s) = true ->
  (forall b, in_keypoints (w_keypoints w (cf_keypoints (su_conf s))) b -> same_board s s' b) ->
  main w L (program :: path :: rest) = main (with_configs f w) L (program :: path' :: rest').
Proof.
  intros w f L program path path' rest rest' s s' Ex Ym Ex' Ym' C C' SB LK Same.
  assert (YA : forall p, w_exists w [] p = true -> yml_path p -> yml_available (w_exists w []) p = true).
  { intros p X Y. unfold yml_available. apply yml_path_spec in Y as (Y1 & Y2). rewrite X, Y1, Y2. reflexivity. }
  assert (CS : forall w p u, snd (construct w p) = Some u -> save_folder w (cf_save (su_conf u)) = Some (su_made u) /\ fst (construct w p) = map MakeDir (su_made u) /\ su_nc u = Z.to_nat (cf_nb_camera (su_conf u))).
  { clear. intros w p u H. unfold construct in H |- *. destruct (andb _ _); [|discriminate H]. destruct (save_folder w (cf_save (read_config (w_config w p)))) as [made|] eqn:Es; [|discriminate H]. cbn [fst snd] in H |- *.
    destruct (andb _ _); [|discriminate H]. destruct (collect _) as [bs|]; [|discriminate H]. injection H as <-. cbn [su_conf su_made su_nc]. auto. }
  destruct (CS w path s C) as (A1 & A2 & A3), (CS (with_configs f w) path' s' C') as (B1 & B2 & B3). change (save_folder (with_configs f w)) with (save_folder w) in B1.
  assert (Smade : su_made s = su_made s'). { destruct SB as (_ & _ & _ & _ & _ & _ & _ & _ & _ & F10 & _). rewrite F10, B1 in A1. injection A1 as A1. symmetry. exact A1. }
  assert (Snc : su_nc s = su_nc s') by (rewrite A3, B3, (proj1 SB); reflexivity).
  assert (X := rest_same w L s s' SB Snc Smade LK Same).
  unfold main. change (w_exists (with_configs f w)) with (w_exists w). rewrite (YA path Ex Ym), (YA path' Ex' Ym'). unfold runCalibrationWorkflow. destruct (construct w path) as (es & o), (construct (with_configs f w) path') as (es' & o'). cbn [fst snd] in *. subst o o' es es'. rewrite <- Smade. change (boardExtraction (with_configs f w) L s') with (boardExtraction w L s'). change (calibrate_app (with_configs f w) L s') with (calibrate_app w L s'). change (save_all (with_configs f w) L s') with (save_all w L s').
  destruct (boardExtraction w L s) as [t|], (boardExtraction w L s') as [t'|]; try contradiction; [|reflexivity]. destruct (calibrate_app w L s t) as [r|], (calibrate_app w L s' t') as [r'|]; try contradiction; [|reflexivity]. rewrite X. reflexivity.
Qed.
Print Assumptions C69_the_application_does_the_same.

(** Two cameras and one board as in C59; the other configuration has two more boards, of other sizes. *)
Definition three_boards : cfile :=
  [ ("number_camera", NInt 2); ("number_board", NInt 3); ("number_x_square_per_board", NSeq [NInt 4; NInt 5; NInt 7]); ("number_y_square_per_board", NSeq [NInt 4; NInt 6; NInt 3]); ("square_size_per_board", NSeq [NInt 1; NInt 2; NInt 9]);
    ("length_square", NInt 2); ("length_marker", NInt 1);
    ("distortion_model", NInt 0); ("ransac_threshold", NInt 1); ("number_iterations", NInt 1000);
    ("save_path", NStr "out"); ("camera_params_file_name", NStr ""); ("cam_params_path", NStr "cams.yml"); ("keypoints_path", NStr "kp.yml") ].
Example C69_application_example : exists svd s s' es,
  let w := grid_world "out" "" "cams.yml" in let L := grid_libs svd (I9 0 0 0 0 0 0 0 0 0) in
  snd (construct w "conf.yml") = Some s /\ snd (construct (with_configs (fun _ => three_boards) w) "conf.yml") = Some s' /\ List.length (su_boards s) = 1 /\ List.length (su_boards s') = 3 /\
  same_but_boards (su_conf s) (su_conf s') /\ load_keypoints (w_exists w (su_made s)) (su_conf s) = true /\
  (forall b, in_keypoints (w_keypoints w (cf_keypoints (su_conf s))) b -> same_board s s' b) /\
  main w L ["calibrate"; "conf.yml"] = (es, Returned 0) /\ main (with_configs (fun _ => three_boards) w) L ["calibrate"; "conf.yml"] = (es, Returned 0) /\ List.length (files es) = 5.
Proof.
  destruct PropGeom.C20_svd_exists as (svd & SO). destruct (grid_setup "out" "" "cams.yml") as (B & made & C1 & HB & Em).
  destruct (grid_run svd (I9 0 0 0 0 0 0 0 0 0) "out" "" "cams.yml" SO (or_introl eq_refl)) as (s & es & ins & r & all & C1' & Ec & Rm & En & Ar & Ef & Tr & Fo).
  rewrite C1 in C1'. injection C1' as <-. change (folders es = ["out"]) in Fo. assert (N := all_names _ _ _ Ar). rewrite Ec in N. cbn in N.
  set (s := mkSetup (read_config (grid_config "out" "" "cams.yml")) 2 [B] made) in *.
  assert (C2 : exists Ba Bb Bc, snd (construct (with_configs (fun _ => three_boards) (grid_world "out" "" "cams.yml")) "conf.yml") = Some (mkSetup (read_config three_boards) 2 [Ba; Bb; Bc] ["out"]) /\ bd_pts Ba = board_pts 4 4 1).
  { eexists. eexists. eexists. split; [apply construct_ok; [reflexivity|reflexivity|reflexivity|apply small_all; repeat constructor|reflexivity]|reflexivity]. }
  destruct C2 as (Ba & Bb & Bc & C2 & HBa). set (s' := mkSetup (read_config three_boards) 2 [Ba; Bb; Bc] ["out"]) in *.
  assert (SB : same_but_boards (su_conf s) (su_conf s')) by (repeat split).
  assert (LK : load_keypoints (w_exists (grid_world "out" "" "cams.yml") (su_made s)) (su_conf s) = true) by reflexivity.
  assert (Same : forall b, in_keypoints (w_keypoints (grid_world "out" "" "cams.yml") (cf_keypoints (su_conf s))) b -> same_board s s' b).
  { intros b (c & k & F & Hb). cbn [grid_world w_keypoints] in F. apply mfind_In in F. assert (b = 0%Z) as -> by (destruct F as [F|[F|[]]]; injection F as <- <-; destruct Hb as [<-|[<-|[]]]; reflexivity).
    exists B, Ba. split; [lia|]. split; [reflexivity|]. split; [reflexivity|]. rewrite HB, HBa. reflexivity. }
  assert (Ym : yml_path "conf.yml") by (apply yml_path_spec; split; reflexivity).
  assert (X := C69_the_application_does_the_same (grid_world "out" "" "cams.yml") (fun _ => three_boards) (grid_libs svd (I9 0 0 0 0 0 0 0 0 0)) "calibrate" "conf.yml" "conf.yml" [] [] s s' eq_refl Ym eq_refl Ym C1 C2 SB LK Same).
  exists svd, s, s', es. cbv zeta. split; [exact C1|]. split; [exact C2|]. split; [reflexivity|]. split; [reflexivity|]. split; [exact SB|]. split; [exact LK|]. split; [exact Same|]. split; [exact Rm|]. split; [rewrite <- X; exact Rm|].
  rewrite Ef, Fo. destruct all as [|(p0, d0) [|(p1, d1) [|(p2, d2) [|(p3, d3) [|(p4, d4) [|y l]]]]]]; try discriminate N. injection N as -> -> -> -> ->. reflexivity.
Qed.
Print Assumptions C69_application_example.
