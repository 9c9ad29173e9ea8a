(** C58: the calibrate application.  Specification: AppSpec.v. *)
From Coq Require Import List ZArith Lia Reals Ascii String Bool.
From Verif Require Import SMap GraphModel GraphSpec GraphPath DataModel DataSpec DataProofs DetectModel DetectSpec DetectProofs RansacModel RansacSpec
  GeomModel GeomSpec GeomProofs GeomMedian ObjectsModel ObjectsSpec ObjectsSave ObjectsMain ObjectsBuild ObjectsMerge ObjectsObs
  GroupModel GroupSpec GroupObs GroupPose StageModel StageSpec StageProofs PipelineModel PipelineSpec PipelineProofs EstimateAll CameraModel ResidualModel ResidualSpec ResidualProofs ResidualMain ResidualGroup
  ResidualSolve ResidualAvg FileModel FileSpec PropFile WorkflowModel WorkflowProofs WorkflowReach WorkflowWhole
  BoardModel BoardSpec BoardProofs InputModel InputSpec ImagesModel ImagesSpec PropImages AppModel AppSpec Sizes LogModel LogProofs LogSizes AppProofs.
Import ListNotations.
Close Scope R_scope.
Open Scope nat_scope.
Open Scope string_scope.

(** Without a configuration the program does not touch anything.  Without any argument it is
    undefined behaviour; if the argument is not an existing file that is called something.yml,
    the program returns -1; in no other case does it return -1. *)
Theorem C58_wrong_arguments : forall w L argv,
  (List.length argv < 2 -> main w L argv = ([], Stopped)) /\
  forall program path rest, argv = program :: path :: rest ->
    (snd (main w L argv) = Returned (-1) <-> ~ (w_exists w [] path = true /\ yml_path path)) /\
    (~ (w_exists w [] path = true /\ yml_path path) -> fst (main w L argv) = []).
Proof.
  intros w L argv. split.
  - intros H. destruct argv as [|a [|b l]]; cbn in H; try lia; reflexivity.
  - intros a path rest ->. destruct (main w L (a :: path :: rest)) as [es st] eqn:E. cbn [fst snd].
    destruct (main_normal _ _ _ _ _ _ _ E) as [(N & -> & ->)|(Y & D)]; [tauto|]. split; [|tauto]. split; [|tauto]. intros Q. exfalso.
    destruct D as [(made & _ & ->)|(s & t & r & d & e2 & made & _ & _ & _ & _ & _ & _ & ->)]; [discriminate Q|].
    clear -Q. generalize dependent Q. generalize (result_files w s made r). intros l. induction l as [|[es b] l IH]; cbn [run_steps snd]; [intros Q; discriminate Q|]. destruct b; [exact IH|intros Q; discriminate Q].
Qed.
Print Assumptions C58_wrong_arguments.

Lemma shape_write s r es st p d : shape s r es st -> In (Write p d) es -> result s r p d.
Proof. induction 1 as [| |p' d' es st R H IH]; intros Hin; cbn in Hin; [tauto|destruct Hin as [Q|[]]; discriminate Q|]. destruct Hin as [Q|[Q|Hin]]; [discriminate Q|injection Q as <- <-; auto|auto]. Qed.
Lemma dirs_only made e : In e (map MakeDir made) -> exists p, e = MakeDir p.
Proof. intros H. apply in_map_iff in H as (p & <- & _). eauto. Qed.

(** Pictures and result files come from a calibration that ran to its end, and every result
    file is one of the five, in its place. *)
Theorem C58_results_come_from_a_completed_run : forall w L program path rest e,
  In e (fst (main w L (program :: path :: rest))) ->
  (exists p, e = MakeDir p) \/ exists s t r, completed w L path s t r /\ forall p d, e = Write p d -> result s r p d.
Proof.
  intros w L a path rest e H. destruct (main w L (a :: path :: rest)) as [es st] eqn:E. cbn [fst] in H.
  destruct (main_normal _ _ _ _ _ _ _ E) as [(_ & -> & _)|(_ & [(made & -> & _)|(s & t & r & d & e2 & made & C & _ & _ & Q & _ & -> & _)])].
  - destruct H.
  - left. eapply dirs_only; eauto.
  - right. exists s, t, r. split; [auto|]. intros p x ->. apply in_app_or in H as [H|H]; [apply dirs_only in H as (q & H); discriminate H|]. apply in_app_or in H as [H|H].
    + rewrite Forall_forall in Q. destruct (Q _ H).
    + eapply shape_write; [|exact H]. apply run_steps_shape, result_files_ok.
Qed.
Print Assumptions C58_results_come_from_a_completed_run.

(** The only folders made are the save folder, if it did not exist, and the folders of the
    pictures below it. *)
Lemma ensure_allowed w es made p es' made' : ensure w (es, made) p = Some (es', made') -> es' = es \/ es' = (es ++ [MakeDir p])%list.
Proof. unfold ensure. destruct (w_exists _ _ _); [intros Q; injection Q as <- <-; auto|]. destruct (w_mkdir _ _ _); [|intros Q; discriminate Q]. intros Q. injection Q as <- <-. auto. Qed.
Lemma pictures_allowed w s root pics cs : (root = "Detection" \/ root = "Reprojection") -> forall es made es' made',
  fold_left (fun acc c => match acc with Some st => camera_pictures w s root pics st c | None => None end) cs (Some (es, made)) = Some (es', made') ->
  forall p, In (MakeDir p) es' -> In (MakeDir p) es \/ allowed_folder (su_conf s) p.
Proof.
  intros HR. induction cs as [|c cs IH]; intros es made es' made' E p Hp; cbn [fold_left] in E.
  - injection E as <- <-. auto.
  - destruct (camera_pictures w s root pics (es, made) c) as [[es1 made1]|] eqn:E1.
    2:{ exfalso. clear -E. induction cs; cbn in E; [discriminate E|auto]. }
    destruct (IH _ _ _ _ E p Hp) as [H|H]; [|auto]. unfold camera_pictures in E1. destruct (ensure w (es, made) _) as [[ea ma]|] eqn:A; [|discriminate E1]. destruct (ensure w (ea, ma) _) as [[eb mb]|] eqn:B; [|discriminate E1].
    apply omap_Some in E1 as (ps & _ & E1). injection E1 as -> ->. apply in_app_or in H as [H|H]; [|exfalso; apply in_map_iff in H as (q & H & _); discriminate H].
    assert (J : joined (cf_save (su_conf s)) root (in_folder s root)) by (apply path_join_spec; reflexivity).
    assert (A1 : allowed_folder (su_conf s) (in_folder s root)) by (right; exists root, (in_folder s root); auto).
    assert (A2 : allowed_folder (su_conf s) (path_join (in_folder s root) (padded 3 c))).
    { right. exists root, (in_folder s root). do 2 (split; [auto|]). right. exists c. apply path_join_spec. reflexivity. }
    apply ensure_allowed in A, B. destruct B as [-> | ->]; [|apply in_app_or in H as [H|[Q|[]]]; [|injection Q as <-; auto]];
      (destruct A as [-> | ->]; [auto|apply in_app_or in H as [H|[Q|[]]]; [auto|injection Q as <-; auto]]).
Qed.
Theorem C58_folders_made : forall w L program path rest p,
  In (MakeDir p) (fst (main w L (program :: path :: rest))) ->
  allowed_folder (read_config (w_config w path)) p /\ (p = cf_save (read_config (w_config w path)) -> w_exists w [] p = false \/ exists s t r, completed w L path s t r).
Proof.
  intros w L a path rest p H. destruct (main w L (a :: path :: rest)) as [es st] eqn:E. cbn [fst] in H. assert (E' := E). cbn [main] in E'.
  destruct (yml_available _ _); [|injection E' as <- <-; destruct H]. unfold runCalibrationWorkflow in E'. destruct (construct w path) as [e1 o] eqn:Ec. 
  destruct (construct_events w path e1 o Ec) as (d & -> & Hd & Hs).
  assert (F : In (MakeDir p) (map MakeDir d) -> allowed_folder (read_config (w_config w path)) p /\ w_exists w [] p = false).
  { intros X. apply in_map_iff in X as (q & X & Hq). injection X as ->. apply Hd in Hq as (-> & Hq). split; [left; auto|auto]. }
  destruct o as [s|]; [|injection E' as <- <-; apply F in H as (H1 & H2); auto]. destruct (boardExtraction w L s) as [t|] eqn:Eb; [|injection E' as <- <-; apply F in H as (H1 & H2); auto].
  destruct (calibrate_app w L s t) as [r|] eqn:Er; [|injection E' as <- <-; apply F in H as (H1 & H2); auto].
  assert (C : completed w L path s t r) by (split; [rewrite Ec; auto|auto|auto]). split; [|right; eauto].
  assert (EC := proj2 (Hs s eq_refl)). injection E' as <- <-. apply in_app_or in H as [H|H]; [apply F in H; tauto|]. unfold save_all in H.
  destruct (all_pictures w L s r) as [[e2 made]|] eqn:Ep; [|destruct H]. cbn [fst] in H. apply in_app_or in H as [H|H].
  2:{ exfalso. assert (Sh := run_steps_shape s r _ (result_files_ok w s made r)). apply shape_no_dirs in Sh. unfold folders in Sh.
      assert (X : In p (rev (flat_map (fun e => match e with MakeDir p => [p] | _ => [] end) (fst (run_steps (result_files w s made r)))))) by (apply -> in_rev; apply in_flat_map; exists (MakeDir p); split; [auto|left; auto]).
      rewrite Sh in X. destruct X. }
  rewrite <- EC. unfold all_pictures in Ep. match type of Ep with match ?x with _ => _ end = _ => destruct x as [[e1' m1]|] eqn:E1 end; [|discriminate Ep].
  apply omap_Some in Ep as ([e2' m2] & E2 & Ep). cbn [fst snd] in Ep. injection Ep as -> ->. apply in_app_or in H as [H|H].
  - destruct (Z.eqb (cf_save_detect (su_conf s)) 1) in E1; [|injection E1 as <- <-; destruct H]. destruct (pictures_allowed _ _ _ _ _ (or_introl eq_refl) _ _ _ _ E1 p H) as [[]|X]; auto.
  - destruct (Z.eqb (cf_save_repro (su_conf s)) 1) in E2; [|injection E2 as <- <-; destruct H]. destruct (pictures_allowed _ _ _ _ _ (or_intror eq_refl) _ _ _ _ E2 p H) as [[]|X]; auto.
Qed.
Print Assumptions C58_folders_made.

(** If the program returns 0, the calibration ran to its end, and of its five results exactly
    those whose file could be opened have been written, each once and completely: nothing is
    said about the others. *)
Lemma steps_all w made : forall (l : list (string * option doc)) es, run_steps (map (fun f => save_file w made (fst f) (snd f)) l) = (es, Returned 0) ->
  exists ds, map (fun f => snd f) l = map Some ds /\ files es = filter (fun f => w_open w made (fst f)) (combine (map fst l) ds).
Proof.
  induction l as [|(p, d) l IH]; intros es E; cbn [map run_steps fst snd] in E.
  - injection E as <-. exists []. auto.
  - destruct (run_steps (map (fun f => save_file w made (fst f) (snd f)) l)) as [es' st'] eqn:Er.
    unfold save_file in E. destruct d as [d|]; [|discriminate E]. cbn [fst snd] in E. injection E as <- ->.
    destruct (IH es' eq_refl) as (ds & Ed & Ef). exists (d :: ds)%list. cbn [map combine filter fst snd]. rewrite Ed. split; [auto|]. rewrite files_app, Ef. destruct (w_open w made p); reflexivity.
Qed.
Definition five (s : setup) (r : run) : list (string * option doc) :=
  [ (cameras_path s, Some (DCameras (saved_cameras (su_models s) r))); (in_folder s "calibrated_objects_data.yml", objects_doc s r);
    (in_folder s "calibrated_objects_pose_data.yml", Some (DPoses (saved_poses r))); (in_folder s "reprojection_error_data.yml", errors_doc s r);
    (in_folder s "detected_keypoints_data.yml", Some (DKeypoints (saveDetectedKeypoints (ru_t r)))) ].
(** the run of the steps, the logging step aside *)
Lemma run_results w s made r es st : run_steps (result_files w s made r) = (es, st) ->
  (st = Returned 0 /\ run_steps (map (fun f => save_file w made (fst f) (snd f)) (five s r)) = (es, Returned 0) /\ exists errs, all_errors (su_models s) (ru_p r) (ru_s r) = Some errs) \/
  (st = Stopped /\ ((objects_doc s r = None \/ errors_doc s r = None) \/ all_errors (su_models s) (ru_p r) (ru_s r) = None) /\ forall p k, ~ In (Write p (DKeypoints k)) es).
Proof.
  unfold result_files, five. cbn [map fst snd]. unfold save_file. cbn [run_steps fst snd app].
  destruct (objects_doc s r) as [od|] eqn:Eo; cbn [run_steps fst snd app].
  - destruct (errors_doc s r) as [ed|] eqn:Ee; cbn [run_steps fst snd app].
    + destruct (all_errors _ _ _) as [errs|] eqn:Ea; cbn [run_steps fst snd app].
      * intros Q. injection Q as <- <-. left. split; [auto|]. split; [reflexivity|eauto].
      * intros Q. injection Q as <- <-. right. split; [auto|]. split; [auto|]. intros p k H.
        apply objects_doc_spec in Eo as (lo & -> & _). unfold errors_doc in Ee. apply omap_Some in Ee as (x & _ & ->).
        repeat (apply in_app_or in H as [H|H]; [destruct (w_open w made _); cbn in H; intuition discriminate|]). cbn in H. tauto.
    + intros Q. injection Q as <- <-. right. split; [auto|]. split; [auto|]. intros p k H. apply objects_doc_spec in Eo as (lo & -> & _).
      repeat (apply in_app_or in H as [H|H]; [destruct (w_open w made _); cbn in H; intuition discriminate|]). destruct (w_open w made _); cbn in H; intuition discriminate.
  - intros Q. injection Q as <- <-. right. split; [auto|]. split; [auto|]. intros p k H.
    apply in_app_or in H as [H|H]; (destruct (w_open w made _); cbn in H; intuition discriminate).
Qed.
Lemma five_results s r ds : map (fun f => snd f) (five s r) = map Some ds -> all_results s r (combine (map fst (five s r)) ds).
Proof.
  unfold five. cbn [map fst snd]. destruct ds as [|d1 [|d2 [|d3 [|d4 [|d5 [|]]]]]]; cbn [map]; intros Q; try discriminate Q. injection Q as <- E2 <- E4 <-.
  apply objects_doc_spec in E2 as (lo & -> & F). unfold errors_doc in E4. apply omap_Some in E4 as (x & E4 & ->). cbn [combine]. split; [reflexivity|].
  intros p d [H|[H|[H|[H|[H|[]]]]]]; injection H as <- <-; constructor; auto; try (apply path_join_spec; reflexivity). apply cameras_path_spec.
Qed.
Theorem C58_what_is_written : forall w L program path rest es,
  main w L (program :: path :: rest) = (es, Returned 0) ->
  exists s t r all, completed w L path s t r /\ all_results s r all /\ files es = filter (fun f => w_open w (folders es) (fst f)) all.
Proof.
  intros w L a path rest es E. destruct (main_normal _ _ _ _ _ _ _ E) as [(_ & _ & Q)|(_ & [(made & _ & Q)|(s & t & r & d & e2 & made & C & _ & _ & Q & Em & -> & Es)])]; try discriminate Q.
  destruct (run_steps (result_files w s made r)) as [e3 st] eqn:Er. cbn [fst snd] in *. subst st. assert (Sh := run_steps_shape s r _ (result_files_ok w s made r)). rewrite Er in Sh. cbn [fst snd] in Sh.
  destruct (run_results _ _ _ _ _ _ Er) as [(_ & Ef & _)|(X & _)]; [|discriminate X]. destruct (steps_all w made _ _ Ef) as (ds & Ed & Efi).
  exists s, t, r, (combine (map fst (five s r)) ds). split; [auto|]. split; [apply five_results; auto|].
  rewrite app_assoc, files_app, folders_app, (shape_no_dirs _ _ _ _ Sh). cbn [app]. rewrite <- Em, Efi.
  rewrite (quiet_files (map MakeDir d ++ e2)); [reflexivity|]. apply Forall_app. split; [|auto]. apply Forall_forall. intros e He. apply dirs_only in He as (p & ->). exact I.
Qed.
Print Assumptions C58_what_is_written.

(** Five different files, unless the name configured for the cameras is that of another result. *)
Theorem C58_no_result_overwrites_another : forall s r all, all_results s r all ->
  ~ absolute (cameras_name (su_conf s)) ->
  ~ In (cameras_name (su_conf s)) ["calibrated_objects_data.yml"; "calibrated_objects_pose_data.yml"; "reprojection_error_data.yml"; "detected_keypoints_data.yml"] ->
  NoDup (map fst all).
Proof.
  intros s r all (K & R) NA NI.
  assert (AB : forall x, In x ["calibrated_objects_data.yml"; "calibrated_objects_pose_data.yml"; "reprojection_error_data.yml"; "detected_keypoints_data.yml"] -> ~ absolute x).
  { intros x [<-|[<-|[<-|[<-|[]]]]] (q & Q); discriminate Q. }
  assert (P : forall p d, In (p, d) all -> p = path_join (cf_save (su_conf s)) (nth (kind d) [cameras_name (su_conf s); "calibrated_objects_data.yml"; "calibrated_objects_pose_data.yml"; "reprojection_error_data.yml"; "detected_keypoints_data.yml"] "")).
  { intros p d H. apply R in H. destruct H as [p J|p l J _|p J|p e J _|p J]; apply path_join_spec in J; exact J. }
  set (names := [cameras_name (su_conf s); "calibrated_objects_data.yml"; "calibrated_objects_pose_data.yml"; "reprojection_error_data.yml"; "detected_keypoints_data.yml"]) in *.
  assert (E : map fst all = map (fun k => path_join (cf_save (su_conf s)) (nth k names "")) [0; 1; 2; 3; 4]).
  { rewrite <- K, map_map. apply map_ext_in. intros (p, d) H. cbn [fst snd]. apply P. auto. }
  rewrite E. assert (INJ : forall x y, In x names -> In y names -> path_join (cf_save (su_conf s)) x = path_join (cf_save (su_conf s)) y -> x = y).
  { assert (NAll : forall x, In x names -> ~ absolute x) by (intros x [<-|H]; [exact NA|apply AB; exact H]). intros x y Hx Hy. apply join_inj; auto. }
  assert (ND : NoDup names).
  { unfold names. constructor; [exact NI|]. repeat (constructor; [cbn; intuition discriminate|]). constructor. }
  change [0; 1; 2; 3; 4] with (seq 0 (List.length names)). rewrite <- (map_map (fun k => nth k names "") (path_join (cf_save (su_conf s)))).
  assert (Q : map (fun k => nth k names "") (seq 0 (List.length names)) = names) by reflexivity. rewrite Q. clear -ND INJ. clearbody names.
  induction ND as [|x l N ND IH]; [constructor|]. cbn [map]. constructor.
  - intros H. apply in_map_iff in H as (y & H & Hy). apply N. rewrite (INJ x y); [auto|left; auto|right; auto|auto].
  - apply IH. intros a b Ha Hb. apply INJ; right; auto.
Qed.
Print Assumptions C58_no_result_overwrites_another.

(** The calibration is set up as the configuration says: number of cameras, the lens model of
    each camera, and for every board the corners of the grid of its configured size. *)
Theorem C58_set_up_as_configured : forall w path s, snd (construct w path) = Some s ->
  let c := read_config (w_config w path) in
  su_conf s = c /\ Z.of_nat (su_nc s) = cf_nb_camera c /\ List.length (su_boards s) = effective_nb_board (cf_boards c) /\
  (forall k, k < su_nc s -> camera_model c k = Some (su_models s (Z.of_nat k))) /\
  ((g_nx_per (cf_boards c) = [] <-> g_square_per (cf_boards c) = []) ->
   forall b, b < List.length (su_boards s) -> exists ci nx ny sq, znth (effective_index (cf_boards c)) (Z.of_nat b) = Some ci /\
     configured_size (cf_boards c) ci = Some (nx, ny, sq) /\ su_pts s (Z.of_nat b) = map vec_of (board_pts nx ny sq)) /\
  forall b, ~ (0 <= b < Z.of_nat (List.length (su_boards s)))%Z -> su_pts s b = [].
Proof.
  intros w path s H. cbv zeta. unfold construct in H. set (c := read_config (w_config w path)) in *.
  destruct (Z.ltb 0 (cf_nb_camera c) && Z.ltb 0 (g_nb_board (cf_boards c))) eqn:E0; [|discriminate H]. apply andb_prop in E0 as (E0 & _). apply Z.ltb_lt in E0.
  destruct (save_folder w (cf_save c)) as [made|]; [|discriminate H]. cbn [snd] in H. destruct (Nat.leb_spec (Z.to_nat (cf_nb_camera c)) (List.length (cf_models c))) as [L|L]; [|discriminate H]. cbn [andb] in H. destruct (all_accepted _ _ _); [|discriminate H].
  apply omap_Some in H as (bs & Eb & ->). cbn [su_conf su_nc su_boards]. apply collect_Some in Eb.
  assert (Lb : List.length bs = effective_nb_board (cf_boards c)). { apply (f_equal (@List.length _)) in Eb. rewrite !map_length, seq_length in Eb. auto. }
  split; [reflexivity|]. split; [lia|]. split; [auto|]. split; [|split].
  - intros k Hk. unfold camera_model, su_models. cbn [su_conf]. rewrite Nat2Z.id. apply nth_error_nth'. lia.
  - intros Cs b Hb. assert (Q : nth_error (map (fun k => calib_board (cf_boards c) (Z.of_nat k)) (seq 0 (effective_nb_board (cf_boards c)))) b = nth_error (map Some bs) b) by (rewrite Eb; reflexivity).
    rewrite !nth_error_map in Q. assert (Sq : nth_error (seq 0 (effective_nb_board (cf_boards c))) b = Some b).
    { rewrite (nth_error_nth' _ 0) by (rewrite seq_length; lia). rewrite seq_nth by lia. reflexivity. }
    rewrite Sq in Q. cbn [option_map] in Q. destruct (nth_error bs b) as [B|] eqn:EB; [|discriminate Q]. cbn [option_map] in Q. injection Q as Q.
    destruct (calib_board_main _ _ _ Cs Q) as (ci & I1 & I2 & _ & _ & _ & I3 & _). exists ci, (bd_nx B), (bd_ny B), (bd_square B). split; [auto|]. split; [auto|].
    unfold su_pts, znth. cbn [su_boards]. destruct (Z.ltb_spec (Z.of_nat b) 0); [lia|]. rewrite Nat2Z.id, EB, I3. reflexivity.
  - intros b Hb. unfold su_pts, znth. cbn [su_boards]. destruct (Z.ltb_spec b 0); [reflexivity|]. rewrite (proj2 (nth_error_None _ _)) by lia. reflexivity.
Qed.
Print Assumptions C58_set_up_as_configured.
(** and the camera file names for every camera the lens model that the configuration gives it *)
Theorem C58_saved_lens_models : forall w L program path rest p l,
  In (Write p (DCameras l)) (fst (main w L (program :: path :: rest))) ->
  forall k e, In (Z.of_nat k, e) l -> (Z.of_nat k < cf_nb_camera (read_config (w_config w path)))%Z -> camera_model (read_config (w_config w path)) k = Some (r_type e).
Proof.
  intros w L a path rest p l H k e He Hk. destruct (C58_results_come_from_a_completed_run _ _ _ _ _ _ H) as [(q & Q)|(s & t & r & [C1 _ _] & Rs)]; [discriminate Q|].
  specialize (Rs p (DCameras l) eq_refl). inversion Rs; subst. destruct (C58_set_up_as_configured w path s C1) as (_ & Nc & _ & Mo & _).
  rewrite (Mo k) by lia. f_equal. unfold saved_cameras, saveCamerasParams in He.
  assert (G : forall gs out b, (forall c e, In (c, e) out -> r_type e = su_models s c) -> forall c e,
    In (c, e) (fst (fold_left (fun '(out, is_open) '(g, G) => (if is_open : bool then out ++ group_records (cameras_of (su_models s) r) g G else out, false)%list) gs (out, b))) -> r_type e = su_models s c).
  { induction gs as [|(g, G) gs IH]; intros out b Ho c x Hx; [exact (Ho c x Hx)|]. cbn [fold_left] in Hx. eapply IH; [|exact Hx]. clear x Hx IH. intros c' x Hx. destruct b; [|auto].
    apply in_app_or in Hx as [Hx|Hx]; [auto|]. unfold group_records in Hx. apply in_flat_map in Hx as (c2 & _ & Hx).
    destruct (mfind c2 (cameras_of (su_models s) r)) as [km|] eqn:Ek; [|destruct Hx]. destruct (mfind c2 (cg_poses G)) as [P|]; [|destruct Hx]. destruct Hx as [Hx|[]]. injection Hx as <- <-.
    apply mfind_In in Ek. unfold cameras_of in Ek. apply in_map_iff in Ek as ((c3, e3) & Q & _). injection Q as -> <-. reflexivity. }
  symmetry. eapply G; [|exact He]. intros c x [].
Qed.
Print Assumptions C58_saved_lens_models.

(** Wherever the program is interrupted: every file it opened has been written completely
    before anything else was done, apart from the last one; and if the keypoints are complete,
    the run is over. *)
Lemma shape_open s r es st : shape s r es st -> forall a p b, es = (a ++ Open p :: b)%list -> b = [] /\ st = Stopped \/ exists d b', b = Write p d :: b'.
Proof.
  induction 1 as [st0|p0|p' d' es st R H IH]; intros a p b E.
  - destruct a; discriminate E.
  - destruct a as [|x a]; [injection E as <- <-; auto|]. injection E as <- E. destruct a; discriminate E.
  - destruct a as [|x [|y a]]; cbn in E.
    + injection E as <- <-. eauto.
    + injection E as <- E. discriminate E.
    + injection E as <- <- E. eapply IH; eauto.
Qed.
Lemma shape_written s r es st : shape s r es st -> forall a p d b, es = (a ++ Write p d :: b)%list -> exists a', a = (a' ++ [Open p])%list.
Proof.
  induction 1 as [st0|p0|p' d' es st R H IH]; intros a p d b E.
  - destruct a; discriminate E.
  - destruct a as [|x a]; [discriminate E|]. injection E as <- E. destruct a; discriminate E.
  - destruct a as [|x [|y a]]; cbn in E.
    + discriminate E.
    + injection E as <- <- <- <-. exists []. auto.
    + injection E as <- <- E. destruct (IH _ _ _ _ E) as (a' & ->). exists (Open p' :: Write p' d' :: a')%list. auto.
Qed.
Lemma quiet_split q es x a b : Forall quiet q -> ~ quiet x -> (q ++ es = a ++ x :: b)%list -> exists a', a = (q ++ a')%list /\ es = (a' ++ x :: b)%list.
Proof.
  intros F. revert a. induction F as [|e q Q F IH]; intros a N E; [exists a; auto|]. destruct a as [|y a]; cbn in E.
  - injection E as -> _. contradiction.
  - injection E as <- E. destruct (IH _ N E) as (a' & -> & ->). exists a'. auto.
Qed.
Theorem C58_interrupted_anywhere : forall w L argv before after,
  fst (main w L argv) = (before ++ after)%list ->
  (forall a p b, before = (a ++ Open p :: b)%list -> b = [] \/ exists d b', b = Write p d :: b') /\
  (forall a p d b, before = (a ++ Write p d :: b)%list -> exists a', a = (a' ++ [Open p])%list) /\
  (forall p k, In (Write p (DKeypoints k)) before -> after = [] /\ snd (main w L argv) = Returned 0).
Proof.
  intros w L argv before after E. destruct (main w L argv) as [es st] eqn:Em. cbn [fst snd] in *. subst es.
  assert (N : exists q e3, (before ++ after = q ++ e3)%list /\ Forall quiet q /\ (e3 = [] \/ exists s r made, run_steps (result_files w s made r) = (e3, st))).
  { destruct argv as [|a [|path rest]]; [injection Em as Q <-; exists [], []; rewrite <- Q; auto|injection Em as Q <-; exists [], []; rewrite <- Q; auto|].
    assert (QD : forall d, Forall quiet (map MakeDir d)) by (intros d; apply Forall_forall; intros e He; apply dirs_only in He as (p & ->); exact I).
    destruct (main_normal _ _ _ _ _ _ _ Em) as [(_ & -> & _)|(_ & [(made & -> & _)|(s & t & r & d & e2 & made & _ & _ & _ & Q & _ & -> & ->)])].
    - exists [], []. auto.
    - exists (map MakeDir made), []. rewrite app_nil_r. auto.
    - exists (map MakeDir d ++ e2)%list, (fst (run_steps (result_files w s made r))). rewrite app_assoc. split; [auto|]. split; [apply Forall_app; auto|]. right. exists s, r, made. apply surjective_pairing. }
  destruct N as (q & e3 & E & Q & S).
  assert (SH : exists s r, shape s r e3 st).
  { destruct S as [-> |(s & r & made & S)].
    - exists (mkSetup (read_config []) 0 [] []), (mkRun (init_tables 0 0) (lb_p0 L) (lb_gp0 L) [] (mkCal [] (mkOT [] [] [] [] []) [] (mkGT [] [] [] []))). constructor.
    - exists s, r. assert (Sh := run_steps_shape s r _ (result_files_ok w s made r)). rewrite S in Sh. exact Sh. }
  destruct SH as (s0 & r0 & SH). split; [|split].
  - intros a p b ->. rewrite <- app_assoc in E. cbn [app] in E. symmetry in E. destruct (quiet_split _ _ (Open p) _ _ Q (fun H => H) E) as (a' & _ & E3).
    destruct (shape_open _ _ _ _ SH _ _ _ E3) as [(X & _)|(d & b' & X)]; [left; destruct b; [auto|discriminate X]|]. destruct b as [|y b]; [auto|]. right. cbn [app] in X. injection X as -> _. eauto.
  - intros a p d b ->. rewrite <- app_assoc in E. cbn [app] in E. symmetry in E. destruct (quiet_split _ _ (Write p d) _ _ Q (fun H => H) E) as (a' & -> & E3).
    destruct (shape_written _ _ _ _ SH _ _ _ _ E3) as (a2 & ->). exists (q ++ a2)%list. apply app_assoc.
  - intros p k H. apply in_split in H as (a & b & ->). rewrite <- app_assoc in E. cbn [app] in E. symmetry in E. destruct (quiet_split _ _ (Write p (DKeypoints k)) _ _ Q (fun H => H) E) as (a' & _ & E3).
    destruct S as [-> |(s & r & made & S)]; [destruct a'; discriminate E3|].
    destruct (run_results _ _ _ _ _ _ S) as [(-> & Ef & _)|(_ & _ & X)].
    2:{ exfalso. apply (X p k). rewrite E3. apply in_or_app. right. left. auto. }
    split; [|auto]. assert (b ++ after = [])%list as Z; [|apply app_eq_nil in Z; tauto].
    destruct (run_steps (map (fun f => save_file w made (fst f) (snd f)) (five s r))) as [e4 st4] eqn:E4. injection Ef as -> ->.
    clear -E4 E3. unfold five in E4. cbn [map run_steps fst snd] in E4. unfold save_file in E4.
    destruct (objects_doc s r) as [od|] eqn:Eo; [|discriminate E4]. destruct (errors_doc s r) as [ed|] eqn:Ee; [|discriminate E4]. cbn [run_steps fst snd] in E4. injection E4 as E4.
    apply objects_doc_spec in Eo as (lo & -> & _). unfold errors_doc in Ee. apply omap_Some in Ee as (x & _ & ->). rewrite E3 in E4. clear E3. rewrite app_nil_r in E4.
    revert a' E4.
    assert (ST : forall (c : bool) p' d l a', (forall k', d <> DKeypoints k') -> ((if c then [Open p'; Write p' d] else []) ++ l = a' ++ Write p (DKeypoints k) :: b ++ after)%list ->
                 exists a2, l = (a2 ++ Write p (DKeypoints k) :: b ++ after)%list).
    { intros c p' d l a2 N E. destruct c; cbn [app] in E; [|eauto]. destruct a2 as [|y [|y2 a2]]; cbn [app] in E; [discriminate E|injection E as _ _ E _; destruct (N _ E)|injection E as _ _ E; eauto]. }
    intros a' E. do 4 (apply ST in E as (? & E); [|intros k' X; discriminate X]). destruct (w_open w made _) in E; cbn [app] in E.
    + destruct x3 as [|y [|y2 a2]]; cbn [app] in E; [discriminate E|injection E as _ _ _ E; auto|]. injection E as _ _ E. destruct a2; discriminate E.
    + destruct x3; discriminate E.
Qed.
Print Assumptions C58_interrupted_anywhere.

(** The pictures: as configured, first those with the detections, then those with the
    reprojections. *)
Lemma drawn_app a b : drawn (a ++ b)%list = (drawn a ++ drawn b)%list.
Proof. unfold drawn. apply flat_map_app. Qed.
Lemma drawn_dirs d : drawn (map MakeDir d) = [].
Proof. unfold drawn. induction d; auto. Qed.
Lemma drawn_pics ps : drawn (map Picture ps) = ps.
Proof. unfold drawn. induction ps as [|p ps IH]; cbn; [auto|]. rewrite IH. auto. Qed.
Lemma shape_drawn s r es st : shape s r es st -> drawn es = [].
Proof. induction 1; auto. Qed.
Lemma pictures_drawn w s root pics cs : forall es made es' made',
  fold_left (fun acc c => match acc with Some st => camera_pictures w s root pics st c | None => None end) cs (Some (es, made)) = Some (es', made') ->
  exists l, gather pics cs = Some l /\ drawn es' = (drawn es ++ l)%list.
Proof.
  induction cs as [|c cs IH]; intros es made es' made' E; cbn [fold_left] in E.
  - injection E as <- <-. exists []. rewrite app_nil_r. auto.
  - destruct (camera_pictures w s root pics (es, made) c) as [[es1 made1]|] eqn:E1.
    2:{ exfalso. clear -E. induction cs; cbn in E; [discriminate E|auto]. }
    unfold camera_pictures in E1. destruct (ensure w (es, made) _) as [[ea ma]|] eqn:A; [|discriminate E1]. destruct (ensure w (ea, ma) _) as [[eb mb]|] eqn:B; [|discriminate E1].
    apply omap_Some in E1 as (ps & Ep & E1). injection E1 as -> ->. apply ensure_events in A as (d1 & -> & ->), B as (d2 & -> & ->).
    destruct (IH _ _ _ _ E) as (l & El & Ed). exists (ps ++ l)%list. split.
    + rewrite gather_cons, Ep, El. reflexivity.
    + rewrite Ed, !drawn_app, !drawn_dirs, drawn_pics, !app_nil_r, app_assoc. auto.
Qed.
Theorem C58_pictures : forall w L program path rest es,
  main w L (program :: path :: rest) = (es, Returned 0) ->
  exists s t r l1 l2, completed w L path s t r /\ drawn es = (l1 ++ l2)%list /\
    (if Z.eq_dec (cf_save_detect (su_conf s)) 1 then saveDetectionImagesAllCam (readable_image w) r = Some l1 else l1 = []) /\
    (if Z.eq_dec (cf_save_repro (su_conf s)) 1 then saveReprojectionImagesAllCam (lb_lr L) (su_models s) (readable_image w) r = Some l2 else l2 = []).
Proof.
  intros w L a path rest es E. destruct (main_normal _ _ _ _ _ _ _ E) as [(_ & _ & Q)|(_ & [(made & _ & Q)|(s & t & r & d & e2 & made & C & _ & Ep & Q & Em & -> & Es)])]; try discriminate Q.
  unfold all_pictures in Ep. match type of Ep with match ?x with _ => _ end = _ => destruct x as [[e1' m1]|] eqn:E1 end; [|discriminate Ep].
  apply omap_Some in Ep as ([e2' m2] & E2 & Ep). cbn [fst snd] in Ep. injection Ep as -> ->.
  assert (Sh := run_steps_shape s r _ (result_files_ok w s m2 r)). 
  exists s, t, r, (drawn e1'), (drawn e2'). split; [auto|]. split; [rewrite !drawn_app, drawn_dirs, (shape_drawn _ _ _ _ Sh), app_nil_r; auto|]. split.
  - destruct (Z.eq_dec (cf_save_detect (su_conf s)) 1) as [e|N].
    + rewrite e in E1. cbn [Z.eqb Pos.eqb] in E1. apply pictures_drawn in E1 as (l & El & ->). exact El.
    + apply Z.eqb_neq in N. rewrite N in E1. injection E1 as <- <-. auto.
  - destruct (Z.eq_dec (cf_save_repro (su_conf s)) 1) as [e|N].
    + rewrite e in E2. cbn [Z.eqb Pos.eqb] in E2. apply pictures_drawn in E2 as (l & El & ->). exact El.
    + apply Z.eqb_neq in N. rewrite N in E2. injection E2 as <- <-. auto.
Qed.
Print Assumptions C58_pictures.

(** ** A completed calibration is saved *)
Lemma views_iff bpts models (r : run) bss ol css gl : calib_ok bpts (ru_t r) bss ol css gl (ru_s r) -> (forall o, In o (mvals (t_obs (ru_t r))) -> trimmed bpts o) ->
  (forall oo, In oo (ot_all (ca_oobs (ru_s r))) -> In (oo_frame oo) (mkeys (t_frames (ru_t r)))) -> represents (ru_p r) (ca_objs (ru_s r)) (ca_groups (ru_s r)) ->
  (forall k G oo, In (k, G) (ca_groups (ru_s r)) -> In oo (ot_all (ca_oobs (ru_s r))) -> In (oo_cam oo) (cg_cams G) -> exists ce, proper_errors models (ru_p r) (ru_s r) G oo ce) <->
  (forall c f b k m, corner_left (ru_t r) c f b k m -> exists q, put_at bpts models (ru_p r) (ru_s r) c f b k q).
Proof.
  intros CO TR FR RP.
  assert (VO : forall n oo, nth_error (ot_all (ca_oobs (ru_s r))) n = Some oo -> exists o, mfind (oo_obj oo) (ca_objs (ru_s r)) = Some o /\ Forall (fun z => (0 <= z)%Z) (oo_ids oo) /\ List.length (oo_ids oo) = List.length (oo_pts oo)).
  { intros n oo Hn. destruct (view_ok bpts (ru_t r) bss ol css gl (ru_s r) CO TR n oo Hn) as (o & bs & V & _ & _ & _ & _ & _ & _ & Le & Rg). exists o.
    split; [|split; [eapply Forall_impl; [|exact Rg]; cbn; lia|auto]]. unfold view_data in V. rewrite Hn in V. destruct (mfind (oo_obj oo) (ca_objs (ru_s r))); [|discriminate V]. congruence. }
  split.
  - intros H c f. apply (pairs_total bpts models r bss ol css gl CO TR FR RP c f). unfold image_pairs. apply gather_total. intros k Hk.
    destruct (mfind k (gt_obs (ca_gobs (ru_s r)))) as [go|] eqn:Eg; [|eauto]. apply gather_total. intros n Hn.
    destruct (frame_obs bpts r bss ol css gl CO f k go n Hk Eg Hn) as (oo & G & Hoo & Ef & HG & Hm & Hc). unfold obs_pairs. rewrite Hoo. destruct (Z.eqb_spec (oo_cam oo) c) as [<-|_]; [|eauto].
    destruct (VO n oo Hoo) as (o & Ho & NN & Le). rewrite (group_found bpts r bss ol css gl CO _ G HG Hc), Ho.
    assert (HG' := HG). apply (groups_vals bpts (ru_t r) bss ol css gl (ru_s r) CO), in_map_iff in HG' as ((jj, G') & EG & HG'). cbn in EG. subst G'.
    destruct (H jj G oo HG' (nth_error_In _ _ Hoo) Hc) as (ce & _ & _ & o' & rp & Ho' & Lr & Rp & _). assert (o' = o) by congruence. subst o'.
    assert (E : reprojected models (ru_p r) G (cg_id G, oo_frame oo) oo o = Some rp) by (apply reprojected_spec; [auto|split; [congruence|auto]]). rewrite E. cbn. eauto.
  - intros H k G oo HG Hoo Hc. assert (HG' : In G gl) by (apply (groups_vals bpts (ru_t r) bss ol css gl (ru_s r) CO), in_map_iff; exists (k, G); auto).
    destruct (In_nth_error _ _ Hoo) as (n & Hn). destruct (VO n oo Hn) as (o & Ho & NN & Le).
    destruct (obs_frame bpts r bss ol css gl CO FR n oo G Hn HG' Hc) as (go & Hk & Hgo & Hin & Hgr).
    destruct (proj2 (pairs_total bpts models r bss ol css gl CO TR FR RP (oo_cam oo) (oo_frame oo)) (H _ _)) as (ps & E). unfold image_pairs, gather in E.
    destruct (collect _) as [ys|] eqn:Ec in E; [|discriminate E]. destruct (In_nth_error _ _ Hk) as (ik & Hik). destruct (collect_Some_nth _ _ _ _ _ Ec Hik) as (y & _ & Ey). rewrite Hgo in Ey. clear Ec E.
    destruct (collect _) as [zs|] eqn:Ec in Ey; [|discriminate Ey]. destruct (In_nth_error _ _ Hin) as (im & Him). destruct (collect_Some_nth _ _ _ _ _ Ec Him) as (z & _ & Ez).
    unfold obs_pairs in Ez. rewrite Hn, Z.eqb_refl, (group_found bpts r bss ol css gl CO _ G HG' Hc), Ho in Ez. apply omap_Some in Ez as (rp & Ez & _).
    apply (reprojected_spec models (ru_p r) G oo o rp NN) in Ez as (Lr & Ez).
    exists (mkCE (oo_cam oo) (List.length (oo_pts oo)) (map (fun mr => distance (fst mr) (snd mr)) (combine (oo_pts oo) rp))). split; [auto|]. split; [auto|]. exists o, rp.
    split; [auto|]. split; [congruence|]. auto.
Qed.
Lemma entering_well w L s ins : sound_world w -> sound_keypoints w L s -> entering w L s ins -> Forall (detected_well (su_pts s)) ins.
Proof.
  intros SW SK E. destruct (load_keypoints (w_exists w (su_made s)) (su_conf s)) eqn:El; [apply (SK El); auto|].
  unfold entering in E. rewrite El in E. destruct E as (cams & Ed & ss & F & ->). apply Forall_forall. intros i Hi. apply in_concat in Hi as (l & Hl & Hi).
  assert (P : exists ts task, In ts cams /\ In task ts /\ In i task).
  { clear -F Hl Hi. induction F as [|ts l' cams ss IL F IH]; [destruct Hl|]. destruct Hl as [-> |Hl].
    - exists ts. assert (X : exists task, In task ts /\ In i task).
      { clear -IL Hi. induction IL as [ts N|ts1 x t ts2 l IL IH]; [destruct Hi|]. destruct Hi as [-> |Hi]; [exists (i :: t)%list; split; [apply in_or_app; right; left; auto|left; auto]|].
        destruct (IH Hi) as (task & Ht & Hin). apply in_app_or in Ht as [Ht|[<-|Ht]]; [exists task|exists (x :: t)%list|exists task]; (split; [apply in_or_app|]); cbn; auto. }
      destruct X as (task & A & B). exists task. split; [left; auto|auto].
    - destruct (IH Hl) as (ts' & task & A & B & C). exists ts', task. split; [right; auto|auto]. }
  destruct P as (ts & task & Hts & Ht & Hin). unfold detectBoards in Ed. apply collect_Some in Ed. 
  assert (X : In (Some ts) (map Some cams)) by (apply in_map; auto). rewrite <- Ed in X. apply in_map_iff in X as (cam & Ect & _).
  set (fs := camera_files _ _ _ cam) in Ect.
  assert (FD : Forall (fun f => forall k, List.length (fst (fl_det f k)) = List.length (snd (fl_det f k))) fs).
  { apply Forall_forall. intros f Hf. unfold fs, camera_files in Hf. apply in_map_iff in Hf as (p & <- & _). cbn [fl_det]. apply (sw_ids _ SW). }
  clearbody fs. clear -Ect Ht Hin FD. revert ts Ect Ht. generalize 0%nat at 1. induction FD as [|f fs Hf FD IH]; intros n ts E Ht; cbn [camera_tasks] in E.
  - injection E as <-. destruct Ht.
  - destruct (detect_image _ _ _ _ _ _ _) as [l|] eqn:Ei in E; [|discriminate E]. destruct (camera_tasks _ _ (S n) fs) as [ts'|] eqn:Et; [|discriminate E]. injection E as <-. destruct Ht as [-> |Ht]; [|eapply IH; eauto].
    unfold detect_image in Ei. destruct (fl_ok f); [|injection Ei as <-; destruct Hin].
    assert (G : forall bs k l, detect_boards (su_det L s) (fl_gray f) (Z.of_nat cam) (Z.of_nat n) (fl_path f) (fl_det f) k bs = Some l -> In i l ->
              exists j b, nth_error bs j = Some b /\ i_board i = Z.of_nat (k + j) /\ detect_board (su_det L s) (fl_gray f) b (fst (fl_det f (k + j))) (snd (fl_det f (k + j))) = Stored (i_pts i) (i_ids i)).
    { clear. induction bs as [|b bs IHb]; intros k l E Hi; cbn [detect_boards] in E; [injection E as <-; destruct Hi|].
      destruct (detect_board _ _ _ _ _) as [| |c d] eqn:Eb in E; [discriminate E| |]; (destruct (detect_boards _ _ _ _ _ _ (S k) bs) as [l'|] eqn:E'; [|discriminate E]); injection E as <-.
      - destruct (IHb _ _ E' Hi) as (j & b' & A & B & C). exists (S j), b'. replace (k + S j) with (S k + j) by lia. auto.
      - destruct Hi as [<-|Hi].
        + exists 0, b. rewrite Nat.add_0_r. auto.
        + destruct (IHb _ _ E' Hi) as (j & b' & A & B & C). exists (S j), b'. replace (k + S j) with (S k + j) by lia. auto. }
    destruct (G _ _ _ Ei Hin) as (j & b & Hb & Eb & Es). cbn [Nat.add] in *. unfold detect_board in Es. destruct (Z.ltb _ _); [|discriminate Es].
    destruct (_ && existsb _ _); [discriminate Es|]. destruct (board_points b (snd (fl_det f j))) as [ob|] eqn:Ebp; [|discriminate Es].
    destruct (_ && Nat.ltb 4 _) eqn:E4; [|discriminate Es]. apply andb_prop in E4 as (_ & E4). apply Nat.ltb_lt in E4.
    set (c' := if dc_refine (su_det L s) then _ else _) in *. injection Es as Ec Ed. 
    assert (Lc : List.length c' = List.length (fst (fl_det f j))) by (unfold c'; destruct (dc_refine _); [apply apply_refined_length|auto]).
    unfold detected_well. rewrite <- Ec, <- Ed. split; [rewrite Lc; auto|]. split; [auto|].
    unfold board_points in Ebp. apply collect_Some in Ebp. apply Forall_forall. intros k Hk. 
    assert (Y : exists q, (if (k <? 0)%Z then None else nth_error (db_pts b) (Z.to_nat k)) = Some q).
    { assert (Y : In (if (k <? 0)%Z then None else nth_error (db_pts b) (Z.to_nat k)) (map Some ob)) by (rewrite <- Ebp; apply (in_map (fun i => if (i <? 0)%Z then None else nth_error (db_pts b) (Z.to_nat i))); auto).
      apply in_map_iff in Y as (q & Y & _). eauto. }
    destruct Y as (q & Y). destruct (Z.ltb_spec k 0); [discriminate Y|]. assert (Z.to_nat k < List.length (db_pts b)) by (apply nth_error_Some; congruence).
    cbn [su_det dc_boards] in Hb. rewrite nth_error_map in Hb. apply omap_Some in Hb as (B & HB & ->). cbn [db_pts] in *. rewrite map_length in *.
    unfold su_pts, znth. rewrite Eb. destruct (Z.ltb_spec (Z.of_nat j) 0); [lia|]. rewrite Nat2Z.id, HB, map_length. lia.
Qed.
Lemma gather_rest {A B} (f : A -> option (list B)) a l x : gather f (a :: l) = Some x -> exists y z, f a = Some y /\ gather f l = Some z.
Proof. rewrite gather_cons. destruct (f a), (gather f l); intros Q; try discriminate Q. eauto. Qed.
Lemma ensure_total w st p : sound_world w -> exists st', ensure w st p = Some st'.
Proof. intros SW. destruct st as [es made]. unfold ensure. destruct (sw_folders _ SW made p) as [-> |E]; [eauto|]. destruct (w_exists w made p); [eauto|]. rewrite E. eauto. Qed.
Lemma pictures_total w s root pics : sound_world w -> forall cs l st, gather pics cs = Some l ->
  exists st', fold_left (fun acc c => match acc with Some st => camera_pictures w s root pics st c | None => None end) cs (Some st) = Some st'.
Proof.
  intros SW. induction cs as [|c cs IH]; intros l st E; cbn [fold_left]; [eauto|]. apply gather_rest in E as (y & z & Ey & Ez). unfold camera_pictures at 2.
  destruct (ensure_total w st (in_folder s root) SW) as (st1 & ->). destruct (ensure_total w st1 (path_join (in_folder s root) (padded 3 c)) SW) as ((es2 & m2) & ->).
  rewrite Ey. cbn [option_map]. eapply IH; eauto.
Qed.
Definition all_visible (s : setup) (r : run) : Prop :=
  forall c f b k m, corner_left (ru_t r) c f b k m -> exists q, put_at (su_pts s) (su_models s) (ru_p r) (ru_s r) c f b k q.
Lemma saved_facts w L path s t r : sound_libs L -> sound_world w -> sound_keypoints w L s -> completed w L path s t r ->
  (exists l, saveDetectionImagesAllCam (readable_image w) r = Some l) /\
  (exists d, objects_doc s r = Some d) /\
  (all_visible s r <-> exists d, errors_doc s r = Some d) /\
  (all_visible s r -> (exists l, saveReprojectionImagesAllCam (lb_lr L) (su_models s) (readable_image w) r = Some l) /\ exists e, all_errors (su_models s) (ru_p r) (ru_s r) = Some e).
Proof.
  intros [CE Hh LO Fair Rc Sc] SW SK [C1 C2 C3]. destruct (extraction w L s t Sc C2) as (ins & t0 & En & Kn & Ei & Sz). assert (Dw := entering_well w L s ins SW SK En).
  destruct (calibrate_sized _ _ _ _ _ _ _ _ _ _ _ _ _ _ _ t0 t _ _ r Sz (calibrate_logged_run _ _ _ _ _ _ _ _ _ _ _ _ _ _ _ _ _ _ _ _ C3)) as (i & r0 & cs & _ & Er & -> & <-).
  set (nc := su_nc s) in *. set (nb := List.length (su_boards s)) in *.
  assert (DF := done_facts (lb_svd L) (lb_lr L) (cf_quaternion (su_conf s)) (lb_pick L) (lb_g0 L) (lb_solve L) (su_pts s) (su_models s) (cf_ransac (su_conf s)) (cf_iterations (su_conf s)) (lb_env L) (lb_pose0 L)
    (lb_handeye L (cf_he (su_conf s))) (cf_fix_intrinsic (su_conf s)) CE Hh LO Fair (Rc _) nc nb ins t0 Kn Dw Ei NoFile _ _ r0 Er).
  destruct DF as (AD & TR & bss & ol & css & gl & CO & FR & RP & GP).
  assert (EK : mkeys (t_cams t) = mkeys (t_cams (ru_t r0))).
  { rewrite (sized_keys _ _ Sz). destruct (insert_all_from_init nc nb ins Kn) as (t' & Et' & H & _). rewrite Ei in Et'. injection Et' as <-. rewrite (hd_cam_keys _ _ _ _ H).
    destruct (ad_holds _ _ _ _ AD) as (t1 & H1 & Rl). rewrite <- (hd_cam_keys _ _ _ _ H1). apply alike_keys. symmetry. exact (rl_cams _ _ Rl). }
  assert (RE : readable_image w "" = false) by apply (sw_empty _ SW).
  assert (I1 : saveDetectionImagesAllCam (readable_image w) (run_cams (t_cams t) r0) = saveDetectionImagesAllCam (readable_image w) r0).
  { unfold saveDetectionImagesAllCam. cbn [run_cams ru_t with_cams t_cams]. rewrite EK. reflexivity. }
  assert (I2 : saveReprojectionImagesAllCam (lb_lr L) (su_models s) (readable_image w) (run_cams (t_cams t) r0) = saveReprojectionImagesAllCam (lb_lr L) (su_models s) (readable_image w) r0).
  { unfold saveReprojectionImagesAllCam. cbn [run_cams ru_t with_cams t_cams]. rewrite EK. reflexivity. }
  assert (AV : all_visible s (run_cams (t_cams t) r0) <-> all_visible s r0) by reflexivity.
  rewrite I1, I2, AV. cbn [run_cams ru_p ru_s]. unfold errors_doc, objects_doc. cbn [run_cams ru_p ru_s].
  destruct (calibrate_good (lb_svd L) (lb_lr L) (cf_quaternion (su_conf s)) (lb_pick L) (lb_g0 L) (lb_solve L) (su_pts s) (su_models s) (cf_ransac (su_conf s)) (cf_iterations (su_conf s)) (lb_env L) (lb_pose0 L)
    (lb_handeye L (cf_he (su_conf s))) (cf_fix_intrinsic (su_conf s)) CE Hh LO Fair (Rc _) nc nb ins t0 Kn Dw Ei NoFile _ _ r0 Er) as (_ & _ & [_ Rd _ _ _]).
  assert (W := C37_written_iff_projectable (lb_svd L) (lb_lr L) (cf_quaternion (su_conf s)) (lb_pick L) (lb_g0 L) Hh (su_pts s) nc nb ins (ru_t r0) AD TR (ru_s r0) Rd (su_models s) (ru_p r0)).
  assert (V := views_iff (su_pts s) (su_models s) r0 bss ol css gl CO TR FR RP).
  split; [|split; [|split]].
  - destruct (C56_detection_images (lb_svd L) (lb_lr L) (cf_quaternion (su_conf s)) (lb_pick L) (lb_g0 L) (lb_solve L) (su_pts s) (su_models s) (cf_ransac (su_conf s)) (cf_iterations (su_conf s)) (lb_env L) (lb_pose0 L)
      (lb_handeye L (cf_he (su_conf s))) (cf_fix_intrinsic (su_conf s)) CE Hh LO Fair (Rc _) nc nb ins t0 Kn Dw Ei NoFile _ _ r0 Er (readable_image w) RE) as (l & El & _). eauto.
  - match goal with |- exists d, option_map _ (collect (map ?g ?m)) = _ => destruct (collect_total g m) as (ys & E & _); [|rewrite E; cbn; eauto] end.
    intros (k, o) H. rewrite (co_objs _ _ _ _ _ _ _ CO) in H. apply dense_In in H as (j & _ & H). assert (B := ok_built _ _ _ (co_objects _ _ _ _ _ _ _ CO)).
    assert (X : exists bs, well_built (su_pts s) bs o).
    { clear -B H. apply nth_error_In in H. induction B as [|bs o' l l' Hb B IH]; [destruct H|]. destruct H as [-> |H]; eauto. }
    destruct X as (bs & X). destruct (save_main _ _ _ X) as (cols & Ec & _). rewrite Ec. cbn. eauto.
  - unfold all_visible. rewrite <- V, <- W. split; intros (e & E); [rewrite E; cbn; eauto|]. apply omap_Some in E as (x & E & _). eauto.
  - intros A. split.
    + apply (C56_reprojection_images (lb_svd L) (lb_lr L) (cf_quaternion (su_conf s)) (lb_pick L) (lb_g0 L) (lb_solve L) (su_pts s) (su_models s) (cf_ransac (su_conf s)) (cf_iterations (su_conf s)) (lb_env L) (lb_pose0 L)
        (lb_handeye L (cf_he (su_conf s))) (cf_fix_intrinsic (su_conf s)) CE Hh LO Fair (Rc _) nc nb ins t0 Kn Dw Ei NoFile _ _ r0 Er (readable_image w) RE). exact A.
    + rewrite (all_errors_eq (su_pts s) (ru_t r0) (su_models s) (ru_p r0) bss ol css gl (ru_s r0) CO TR FR).
      match goal with |- exists e, collect (map ?g ?m) = _ => destruct (collect_total g m) as (ys & E & _); [|eauto] end.
      intros v Hv. destruct v as (G, (k, n)). assert (Hv' := Hv). apply all_views_In in Hv' as (HG & Hv').
      apply (views_In (su_pts s) (ru_t r0) (su_models s) bss ol css gl (ru_s r0) CO FR G k n HG) in Hv' as (oo & Hn & -> & HC).
      assert (HG' := HG). apply (groups_vals (su_pts s) (ru_t r0) bss ol css gl (ru_s r0) CO), in_map_iff in HG' as ((jj, G') & EG & HG'). cbn in EG. subst G'.
      destruct (proj2 V A jj G oo HG' (nth_error_In _ _ Hn) HC) as (ce & _ & _ & o & rp & Ho & Lr & Rp & _).
      eexists. apply (view_error_ok (su_pts s) (ru_t r0) (su_models s) (ru_p r0) bss ol css gl (ru_s r0) CO TR FR (G, (_, n)) _ Hv). cbn [fst snd].
      exists oo, o, rp. do 4 (split; [auto|]). split; [auto|]. split; [auto|reflexivity].
Qed.
(** If the libraries do what they are trusted for, a calibration that has run to its end is
    always saved - unless a corner that is left is in the focal plane of its camera. *)
Theorem C58_a_completed_calibration_is_saved : forall w L program path rest s t r,
  sound_libs L -> sound_world w -> sound_keypoints w L s ->
  w_exists w [] path = true -> yml_path path -> completed w L path s t r ->
  (snd (main w L (program :: path :: rest)) = Returned 0 <->
   forall c f b k m, corner_left (ru_t r) c f b k m -> exists q, put_at (su_pts s) (su_models s) (ru_p r) (ru_s r) c f b k q).
Proof.
  intros w L a path rest s t r SL SW SK Ex Ym C. destruct (saved_facts _ _ _ _ _ _ SL SW SK C) as ((ld & Ed) & (od & Eo) & Ee & Ev). fold (all_visible s r).
  destruct C as [C1 C2 C3]. cbn [main]. unfold yml_available. apply yml_path_spec in Ym as (Y1 & Y2). rewrite Ex, Y1, Y2. rewrite String.eqb_refl. cbn [andb].
  unfold runCalibrationWorkflow. destruct (construct w path) as [e1 o]. cbn [snd] in C1. subst o. rewrite C2, C3. cbn [snd]. unfold save_all. split.
  - destruct (all_pictures w L s r) as [[e2 made]|]; cbn [snd]; [|intros Q; discriminate Q]. intros Q. apply Ee.
    destruct (run_steps (result_files w s made r)) as [e3 st] eqn:E3 in Q. cbn [fst snd] in Q. subst st. destruct (run_results _ _ _ _ _ _ E3) as [(_ & E & _)|(X & _)]; [|discriminate X].
    apply steps_all in E as (ds & E & _). unfold five in E. cbn [map snd] in E. destruct ds as [|d1 [|d2 [|d3 [|d4 ds]]]]; cbn [map] in E; try discriminate E. injection E as _ _ _ E _. rewrite E. eauto.
  - intros A. destruct (Ev A) as ((lr & El) & (errs & Er)). apply Ee in A as (ed & A).
    assert (P : exists st, all_pictures w L s r = Some st).
    { unfold all_pictures.
      assert (P1 : exists e m, (if Z.eqb (cf_save_detect (su_conf s)) 1 then pictures w s "Detection" (saveDetectionImages (readable_image w) r) (mkeys (t_cams (ru_t r))) (su_made s) else Some ([], su_made s)) = Some (e, m)).
      { destruct (Z.eqb (cf_save_detect (su_conf s)) 1); [|eauto]. destruct (pictures_total w s "Detection" _ SW _ _ ([], su_made s) Ed) as ((e & m) & E). exists e, m. exact E. }
      destruct P1 as (e & m & ->).
      assert (P2 : exists st, (if Z.eqb (cf_save_repro (su_conf s)) 1 then pictures w s "Reprojection" (saveReprojectionImages (lb_lr L) (su_models s) (readable_image w) r) (mkeys (t_cams (ru_t r))) m else Some ([], m)) = Some st).
      { destruct (Z.eqb (cf_save_repro (su_conf s)) 1); [|eauto]. destruct (pictures_total w s "Reprojection" _ SW _ _ ([], m) El) as (st & E). exists st. exact E. }
      destruct P2 as (st & ->). cbn. eauto. }
    destruct P as ((e2 & made) & ->). cbn [snd].
    destruct (run_steps (result_files w s made r)) as [e3 st] eqn:E3. cbn [snd]. destruct (run_results _ _ _ _ _ _ E3) as [(X & _)|(_ & [[X|X]|X] & _)]; [auto|congruence|congruence|congruence].
Qed.
Print Assumptions C58_a_completed_calibration_is_saved.
