(** C61-C63 for the application: the scripts of python_utils on the files of a whole run.
    Specification: AnalysisSpec.v, AppSpec.v, RigSpec.v. *)
From Coq Require Import List ZArith Lia Reals Lra Sorted Ascii String.
From Verif Require Import SMap GraphModel GraphSpec DataModel DataSpec DataProofs DetectModel DetectProofs RansacModel GeomModel GeomSpec GeomProofs ChainModel ObjectsModel ObjectsSpec ObjectsProofs ObjectsSave ObjectsBuild ObjectsMerge ObjectsObs
  GroupModel GroupSpec GroupProofs GroupObs StageModel StageSpec StageProofs StageMain StageCams StageMerge PipelineModel PipelineSpec PipelineProofs ObjectsMain EstimateAll CameraModel ResidualModel ResidualSpec FileModel FileSpec
  InputModel RansacSpec ImagesModel WorkflowModel AppModel AppSpec PropResidual PropFile RigSpec AnalysisModel AnalysisSpec AnalysisProofs PropAnalysis PropReport PropDraw PropWhole PropObjects RigExample AppExample AppProofs.
From Verif Require PropGeom.
Import ListNotations.
Close Scope string_scope.
Close Scope R_scope.
Open Scope nat_scope.

Lemma retake_In rf bpts ol k o : In (k, o) (dense (retake bpts rf ol)) -> exists o0, In (k, o0) (dense ol) /\ ob_boards o = ob_boards o0.
Proof.
  intros H. apply dense_In in H as (i & -> & H). apply retake_nth in H as (o0 & H & ->). exists o0. split; [apply dense_In; eauto|reflexivity].
Qed.
(** the boards of an object have all been detected *)
Lemma reached_boards_seen {pt} svd lr uq pick g0 (Hh : good_heap pick) bpts nc nb (ins : list (insertion pt)) t (AD : after_detection nc nb ins t) (Hp : paired t) s :
  reached svd lr uq pick g0 bpts t s -> forall k o b, In (k, o) (ca_objs s) -> In b (mkeys (ob_boards o)) -> exists n bo, obs_at t n bo /\ o_board bo = b.
Proof.
  intros Rd. induction Rd as [bp rf op rf' rg s s' K1 K2 K3 E1 E2|gp rf rg s s' K1 K2 Rd IH E|prs s s' Rd IH U E|rf rg s K1 K2 Rd IH].
  - unfold calibrate3DObjects in E1. destruct (objects_stage_main nc nb ins t AD svd lr uq pick g0 Hh bpts bp) as (ol & bss & Eo & OK & Cov & _). rewrite Eo in E1. destruct (initAll3DObjectObs t (dense ol) empty_otables) as [ot|]; [|discriminate E1].
    injection E1 as <-. unfold calibrateCameraGroup in E2. cbn [ca_objs ca_oobs] in E2. destruct (cameras_stage _ _ _ _ _ _ _ _) as [gs|]; [|discriminate E2]. injection E2 as <-. cbn [ca_objs]. rewrite !refine_dense.
    intros k o b H Hb. apply retake_In in H as (o1 & H & Q1). apply retake_In in H as (o0 & H & Q). rewrite Q1, Q in Hb. apply dense_In in H as (i & _ & H). apply Cov.
    destruct (nth_error_length_ex ol bss i o0 (eq_sym (ok_len _ _ _ OK)) H) as (bs & Hbs). apply (wb_boards _ _ _ (ok_wb _ _ _ OK i bs o0 Hbs H)) in Hb.
    rewrite concat_map. apply in_concat. exists (map fst bs). split; [|auto]. apply in_map. eapply nth_error_In; eauto.
  - destruct (reached_ok svd lr uq pick g0 Hh bpts nc nb ins t AD Hp s Rd) as (bss & ol & css & gl & CO). destruct CO as [E1 OK OT Ob Cov E2 GK GT NU CA KE].
    assert (Objs : forall oo, In oo (ot_all (ca_oobs s)) -> exists i o, nth_error ol i = Some o /\ oo_obj oo = Z.of_nat i) by (intros oo H; destruct (Ob oo H) as (i & o & H1 & H2 & _); eauto).
    assert (Fr := known_frames nc nb ins t AD _ _ Ob).
    destruct (merge_stage_main bpts bss ol OK (ca_oobs s) OT Objs gl _ (ca_gobs s) GT Fr svd lr uq pick g0 Hh gp) as (ol' & bss' & Em & OK' & Cov' & _ & _).
    unfold merge3DObjects in E. rewrite E1, Em in E. destruct (mergeAllObjectObs t (dense ol')) as [ot|]; [|discriminate E]. injection E as <-. cbn [ca_objs]. rewrite refine_dense.
    intros k o b H Hb. apply retake_In in H as (o0 & H & Q). rewrite Q in Hb. apply dense_In in H as (i & _ & H).
    destruct (nth_error_length_ex ol' bss' i o0 (eq_sym (ok_len _ _ _ OK')) H) as (bs & Hbs). apply (wb_boards _ _ _ (ok_wb _ _ _ OK' i bs o0 Hbs H)) in Hb.
    assert (X : In b (map fst (concat bss'))) by (rewrite concat_map; apply in_concat; exists (map fst bs); split; [apply in_map; eapply nth_error_In; eauto|auto]).
    apply Cov' in X as (j & oo & (bs' & Hj & Hb') & _). destruct (nth_error_length_ex bss ol j bs' (ok_len _ _ _ OK) Hj) as (o' & Ho').
    apply (IH (Z.of_nat j) o' b); [rewrite E1; apply dense_In; eauto|]. apply (wb_boards _ _ _ (ok_wb _ _ _ OK j bs' o' Hj Ho')). auto.
  - unfold mergeGroups in E. destruct (mergeCameraGroup _ _ _ _) as [gs|]; [|discriminate E]. injection E as <-. exact IH.
  - cbn [refine_calib ca_objs]. destruct (reached_ok svd lr uq pick g0 Hh bpts nc nb ins t AD Hp s Rd) as (bss & ol & css & gl & CO). rewrite (co_objs _ _ _ _ _ _ _ CO) in *. rewrite refine_dense.
    intros k o b H Hb. apply retake_In in H as (o0 & H & Q). rewrite Q in Hb. eapply IH; eauto.
Qed.

(** *** The analysis of a whole run *)
Lemma Forall2_nth_l {A B} (P : A -> B -> Prop) l l' i x : Forall2 P l l' -> nth_error l i = Some x -> exists y, nth_error l' i = Some y /\ P x y.
Proof. intros F. revert i. induction F as [|a b l l' H F IH]; intros [|i] E; cbn in *; try discriminate E; [injection E as <-; eauto|eauto]. Qed.

(** Exact data, every camera sees a board, at most 100 cameras, and a ground truth that describes the rig in the
    coordinates of camera 0: from the four files of the run the analysis makes a report without errors, a zero bar for
    every frame, and the pictures of the cameras in their places. *)
Theorem C61_analysis_of_an_exact_run : forall w L program path rest s t W g,
  sound_libs L -> sound_world w -> svd_ok (lb_svd L) -> (forall c n, exact_pnp (lb_lr L) (lb_env L c n)) ->
  w_exists w [] path = true -> yml_path path -> snd (construct w path) = Some s -> boardExtraction w L s = Some t ->
  (0 < cf_ransac (su_conf s))%R -> (0 < cf_iterations (su_conf s))%Z ->
  true_parameters w s W -> (forall ins, entering w L s ins -> exact_scene L s W ins /\ forall c, (0 <= c < Z.of_nat (su_nc s))%Z -> saw ins c) ->
  su_nc s <= 100 -> tf_nb g = su_nc s -> describes W 0 pid g ->
  exists es ins r all, main w L (program :: path :: rest) = (es, Returned 0) /\ entering w L s ins /\ all_results s r all /\
    files es = filter (fun f => w_open w (folders es) (fst f)) all /\
    forall p1 cams p2 objects p3 poses p4 errors, In (p1, DCameras cams) all -> In (p2, DObjects objects) all -> In (p3, DPoses poses) all -> In (p4, DErrors errors) all ->
    exists a, post_calibration_analysis (su_nc s) cams objects poses errors g = Some a /\ no_error (an_report a) /\
      an_bars a <> [] /\ (forall bar, In bar (an_bars a) -> bar = Some 0%R) /\
      List.length (an_cameras a) = su_nc s /\ (forall i d, nth_error (an_cameras a) i = Some d -> drawing_of (1 / 2) W 0 (Z.of_nat i) d) /\
      List.length (fst (an_scene a)) = su_nc s /\ (forall i d, nth_error (fst (an_scene a)) i = Some d -> drawing_of (1 / 10) W 0 (Z.of_nat i) d) /\
      exists cols, In (0%Z, cols) objects /\ cols <> [] /\
        (forall b, In b (map fst (an_object a)) <-> exists x k, In (x, b, k) cols) /\
        (forall b pts, In (b, pts) (an_object a) -> pts = map (fun c => fst (fst c)) (filter (fun c => Z.eqb (snd (fst c)) b) cols)) /\
        snd (an_scene a) <> [] /\
        (forall n ys, In (n, ys) (snd (an_scene a)) -> exists i, In i ins /\
           Forall2 (fun col y => exists q, corner (su_pts s) (snd (fst col)) (snd col) q /\ y = pact (board_at W (i_cam i) (i_frame i) (snd (fst col))) q) cols ys).
Proof.
  intros w L a path rest s t W g SL SW SO PN Ex Ym C1 C2 Th It TP ES N100 Ng Dg.
  destruct (exact_data_full w L a path rest s t W SL SW SO PN Ex Ym C1 C2 Th It TP (fun ins En => proj1 (ES ins En))) as (es & ins & r & all & Em & En & Cm & Ar & Ef & TR & (t1 & AD & Tri & Rd & NE & CK)).
  exists es, ins, r, all. split; [exact Em|]. split; [exact En|]. split; [exact Ar|]. split; [exact Ef|].
  intros p1 cams p2 objects p3 poses p4 (nerr, errors) H1 H2 H3 H4. destruct (ES ins En) as ([_ RG _ _ _ _ _ _] & Saw).
  assert (TC := tr_cameras _ _ _ _ _ TR _ _ H1). assert (Hp := trimmed_paired _ _ Tri).
  assert (Hs : forall c, saw ins c <-> (0 <= c < Z.of_nat (su_nc s))%Z).
  { intros c. split; [|apply Saw]. intros (i & Hi & <-). destruct AD as (Kn & _). rewrite Forall_forall in Kn. apply (Kn i Hi). }
  assert (Pn : 0 < su_nc s) by (destruct TC as (_ & _ & ref & Sr & _); apply Hs in Sr; lia).
  assert (LO := sl_log _ SL). assert (Hh := sl_heap _ SL).
  assert (Q1 : cams = saved_cameras (su_models s) r) by (assert (X := proj2 Ar _ _ H1); inversion X; auto).
  assert (Q2 : Forall2 (fun e f => fst f = ob_id (snd e) /\ save3DObj (su_pts s) (snd e) = Some (snd f)) (ca_objs (ru_s r)) objects) by (assert (X := proj2 Ar _ _ H2); inversion X; auto).
  assert (Q3 : poses = saved_poses r) by (assert (X := proj2 Ar _ _ H3); inversion X; auto).
  assert (Q4 : saveReprojectionErrorToFile (su_models s) (ru_p r) (ru_s r) = Some (nerr, errors)) by (assert (X := proj2 Ar _ _ H4); inversion X; auto).
  clear Em Ar Ef C1 C2 Cm SO PN Th It TP.
  (* the report *)
  destruct (C61_true_cameras_have_no_error W ins cams (su_nc s) pid g RG TC Hs Pn Ng rigid_id Dg) as (rep & Erep & _ & Zrep).
  (* one group *)
  assert (KK : mkeys (cameras_of (su_models s) r) = map Z.of_nat (seq 0 (su_nc s))).
  { rewrite <- CK. unfold cameras_of, mkeys. rewrite map_map. apply map_ext. intros (c, e). reflexivity. }
  assert (One : List.length (ca_groups (ru_s r)) = 1).
  { destruct (Nat.lt_trichotomy (List.length (ca_groups (ru_s r))) 1) as [X|[X|X]]; [|exact X|].
    - exfalso. assert (E0 : ca_groups (ru_s r) = []) by (destruct (ca_groups (ru_s r)); [reflexivity|cbn in X; lia]).
      destruct TC as (_ & Sw & ref & Sr & _). apply Sw in Sr. rewrite Q1 in Sr. unfold saved_cameras in Sr. rewrite E0 in Sr. destruct Sr.
    - exfalso. assert (Y := C61_several_groups_cannot_be_compared _ _ _ _ _ Hh _ _ _ _ _ AD Hp _ Rd _ KK g X). rewrite Q1 in Erep. unfold saved_cameras in Erep. rewrite Y in Erep. discriminate Erep. }
  (* a detection *)
  assert (I0 : exists i, In i ins) by (destruct (proj2 (Hs 0%Z) ltac:(lia)) as (i & Hi & _); eauto). destruct I0 as (i0 & Hi0).
  destruct (In_nth_error _ _ Hi0) as (n0 & Hn0). destruct (ad_ins_obs _ _ _ _ AD _ _ Hn0) as (bo0 & Ob0 & _).
  (* the bars *)
  destruct (C62_a_bar_for_every_frame _ _ _ _ _ Hh _ _ _ _ _ AD Tri _ Rd _ _ _ _ Q4 One N100) as (G & frames & bars & HG & Sf & Ff & Eb & Lb).
  { exists n0, bo0. split; [exact Ob0|]. apply NE. eapply nth_error_In; exact Ob0. }
  assert (NB : bars <> []).
  { intros ->. unfold compute_error_statistic in Eb. cbn [fst snd] in Eb. destruct (Nat.eqb nerr 1); [|discriminate Eb]. destruct (find _ errors) as [ge|]; [|discriminate Eb].
    destruct (ge_list ge) as [|f fl]; [discriminate Eb|]. apply collect_length in Eb. discriminate Eb. }
  assert (ZB := C62_no_distance_no_bar _ _ _ (fun ge fe ce e => tr_errors _ _ _ _ _ TR _ _ _ ge fe ce e H4) Eb).
  (* object 0 *)
  destruct (reached_ok _ _ _ _ _ Hh _ _ _ _ _ AD Hp _ Rd) as (bss & ol & css & gl & CO). assert (Eo := co_objs _ _ _ _ _ _ _ CO). assert (OK := co_objects _ _ _ _ _ _ _ CO).
  assert (Corner : forall n bo, obs_at t1 n bo -> exists k q, corner (su_pts s) (o_board bo) k q).
  { intros n bo Hb. assert (Hi := nth_error_In _ _ Hb). destruct (Tri bo Hi) as (T1 & T2 & _). assert (X := NE bo Hi). destruct (o_ids bo) as [|k ks]; [destruct (o_pts bo); [contradiction|discriminate T1]|].
    apply Forall_inv in T2. exists k. destruct (nth_error (su_pts s (o_board bo)) (Z.to_nat k)) as [q|] eqn:Eq; [exists q; split; [lia|auto]|]. apply nth_error_None in Eq. lia. }
  assert (O0 : exists o0 ol', ol = o0 :: ol').
  { destruct ol as [|o0 ol']; [|eauto]. exfalso. rewrite Eo in Q2. cbn in Q2. inversion Q2; subst objects. destruct (Corner _ _ Ob0) as (k & q & Hk).
    destruct (ad_obs_ins _ _ _ _ AD _ _ Ob0) as (i1 & Hi1 & _ & _ & Eb1). rewrite Eb1 in Hk. destruct (tr_boards _ _ _ _ _ TR _ _ i1 k q H2 (nth_error_In _ _ Hi1) Hk) as (id & cols & x & Z & _). destruct Z. }
  destruct O0 as (o0 & ol' & E0).
  assert (Ho0 : nth_error ol 0 = Some o0) by (rewrite E0; reflexivity). assert (Id0 : ob_id o0 = 0%Z) by (rewrite (ok_ids _ _ _ OK 0 o0 Ho0); reflexivity).
  assert (In0 : In (0%Z, o0) (ca_objs (ru_s r))) by (rewrite Eo; apply dense_In; exists 0; split; [reflexivity|exact Ho0]).
  destruct (In_nth_error _ _ In0) as (j0 & Hj0). destruct (Forall2_nth_l _ _ _ _ _ Q2 Hj0) as ((id0, cols) & Hc0 & (Ei0 & Es0)). cbn [fst snd] in Ei0, Es0. rewrite Id0 in Ei0. subst id0. apply nth_error_In in Hc0.
  destruct (C26_saved_objects_are_complete _ _ _ _ _ _ Hh _ _ _ _ _ AD Hp _ Rd _ _ In0) as (cols' & Es1 & _ & _ & Sc & _). rewrite Es0 in Es1. injection Es1 as <-.
  assert (B0 : exists b0, In b0 (mkeys (ob_boards o0))).
  { exists (ob_ref o0). assert (OO := ok_origin _ _ _ OK). rewrite Forall_forall in OO. apply (or_member _ (OO o0 (nth_error_In _ _ Ho0))). }
  destruct B0 as (b0 & Hb0). destruct (reached_boards_seen _ _ _ _ _ Hh _ _ _ _ _ AD Hp _ Rd _ _ _ In0 Hb0) as (n1 & bo1 & Ob1 & Eb1). destruct (Corner _ _ Ob1) as (k1 & q1 & Hk1). rewrite Eb1 in Hk1.
  assert (X1 : exists x1, In (x1, b0, k1) cols).
  { assert (In (b0, k1) (map (fun c : vec3 * Z * Z => (snd (fst c), snd c)) cols)) as Y.
    { apply Sc. split; [exact Hb0|]. destruct Hk1 as (K1 & K2). assert (Z.to_nat k1 < List.length (su_pts s b0)) by (apply nth_error_Some; rewrite K2; discriminate). lia. }
    apply in_map_iff in Y as (((x1, b1), k2) & Y1 & Y2). cbn in Y1. injection Y1 as -> ->. eauto. }
  destruct X1 as (x1 & Hx1). assert (NC : cols <> []) by (intros Z; rewrite Z in Hx1; destruct Hx1).
  assert (Ids : NoDup (map (fun e => ob_id (snd e)) (ca_objs (ru_s r)))).
  { assert (E : map (fun e => ob_id (snd e)) (ca_objs (ru_s r)) = map Z.of_nat (seq 0 (List.length ol))).
    { rewrite Eo, <- (map_map snd ob_id). change (map snd (dense ol)) with (mvals (dense ol)). rewrite dense_vals. apply nth_error_ext. intros i. rewrite !nth_error_map. destruct (nth_error ol i) as [o|] eqn:Ei.
      - assert (Hi : i < List.length ol) by (apply nth_error_Some; rewrite Ei; discriminate). rewrite (nth_error_nth' _ 0) by (rewrite seq_length; exact Hi). rewrite seq_nth by exact Hi. cbn [option_map plus]. rewrite (ok_ids _ _ _ OK i o Ei). reflexivity.
      - apply nth_error_None in Ei. assert (E : nth_error (seq 0 (List.length ol)) i = None) by (apply nth_error_None; rewrite seq_length; exact Ei). rewrite E. reflexivity. }
    rewrite E. apply FinFun.Injective_map_NoDup; [intros p q; lia|apply seq_NoDup]. }
  assert (NDo : NoDup (map fst objects)).
  { assert (E : map fst objects = map (fun e => ob_id (snd e)) (ca_objs (ru_s r))) by (clear -Q2; induction Q2 as [|e f l l' (H & _) F IH]; cbn [map]; [auto|rewrite H, IH; auto]). rewrite E. exact Ids. }
  assert (NDp : NoDup (map fst poses)).
  { assert (E : map fst poses = map (fun e => ob_id (snd e)) (ca_objs (ru_s r))) by (rewrite Q3; unfold saved_poses, save3DObjPose; rewrite map_map; apply map_ext; intros (k, o); reflexivity). rewrite E. exact Ids. }
  assert (P0 : exists ps, In (0%Z, ps) poses).
  { rewrite Q3. unfold saved_poses, save3DObjPose. eexists. apply in_map_iff. exists (0%Z, o0). split; [rewrite Id0; reflexivity|exact In0]. }
  destruct P0 as (ps & Hps). destruct (tr_objects _ _ _ _ _ TR _ _ _ _ _ _ _ H2 H3 Hc0 Hps) as (ref & CS & views & Ev & Vw).
  assert (V1 : views <> []).
  { destruct (ad_obs_ins _ _ _ _ AD _ _ Ob1) as (i1 & Hi1 & _ & _ & Eb2). rewrite Eb1 in Eb2. intros Z. assert (Y : In (i_cam i1, i_frame i1) views).
    { apply Vw. exists i1, x1, k1. split; [eapply nth_error_In; exact Hi1|]. split; [reflexivity|]. split; [reflexivity|]. rewrite <- Eb2. exact Hx1. }
    rewrite Z in Y. destruct Y. }
  (* the drawings *)
  destruct (C63_cameras_are_drawn_in_place W ins cams (su_nc s) RG TC Hs Pn) as (ds & Ed & Ld & Dd).
  destruct (C63_object_is_drawn_by_boards objects cols Hc0 NDo NC) as (out & Eout & _ & Bo & Po).
  rewrite Ev in Hps. destruct (C63_views_are_drawn_in_the_axes_of_their_camera (lb_lr L) W ins cams (su_nc s) (su_pts s) objects poses cols ref views LO RG TC Hs Pn Hc0 NDo NC CS Hps NDp V1) as (ds' & scenes & Esc & Ld' & Dd' & Sc1 & Sc2).
  exists (mkAnalysis rep (ds', scenes) ds out (map Some bars)). cbn [an_report an_scene an_cameras an_object an_bars fst snd].
  split; [unfold post_calibration_analysis; rewrite Erep, Esc, Ed, Eout, Eb; reflexivity|]. split; [apply Zrep; reflexivity|].
  split; [intros Z; apply NB; destruct bars; [reflexivity|discriminate Z]|]. split; [exact ZB|]. split; [exact Ld|]. split; [exact Dd|]. split; [exact Ld'|]. split; [exact Dd'|].
  exists cols. split; [exact Hc0|]. split; [exact NC|]. split; [exact Bo|]. split; [exact Po|]. split.
  - intros Z. assert (Y : In 0 (map fst scenes)) by (apply Sc1; split; [destruct views; [contradiction|cbn; lia]|exists 0; reflexivity]). rewrite Z in Y. destruct Y.
  - intros n ys Hy. destruct (Sc2 n ys Hy) as (c & f & Hv & F). apply nth_error_In in Hv. apply Vw in Hv as (i & x & k & Hi & <- & <- & _). exists i. split; [exact Hi|].
    clear -F. induction F as [|col y l l' (q & A & B & _) F IH]; constructor; [exists q; auto|exact IH].
Qed.
Print Assumptions C61_analysis_of_an_exact_run.

(** "An object is drawn where it is, among the cameras" is false: the views of camera 1 are drawn in the axes of camera 1,
    but the cameras in the axes of camera 0. *)
Theorem C63_views_in_place_refuted : exists lr w ins file nb pts objects poses cols b0 views,
  log_ok lr /\ rigid_rig w /\ true_cameras w ins file /\ (forall c, saw ins c <-> (0 <= c < Z.of_nat nb)%Z) /\
  In (0%Z, cols) objects /\ corners_of pts w b0 cols /\ poses = [(0%Z, map (fun cf => Proj2RT lr (board_at w (fst cf) (snd cf) b0)) views)] /\
  exists ds ys c f, display_cam_obj_pose nb file objects poses = Some (ds, [(0, ys)]) /\ nth_error views 0 = Some (c, f) /\
    ~ Forall2 (fun col y => exists q, corner pts (snd (fst col)) (snd col) q /\ y = pact (board_at w 0 f (snd (fst col))) q) cols ys.
Proof.
  set (ins := [mkIns 0%Z 0%Z 0%Z [] [] rig_path; mkIns 1%Z 0%Z 0%Z [] [] rig_path] : list (insertion pt2)).
  set (rec := fun c : Z => mkRec (getCameraMat (I9 1 1 0 0 0 0 0 0 0)) [0; 0; 0; 0; 0]%R 0 0 0 0 (pmul (rg_cam two_rig 0) (pinv (rg_cam two_rig c)))).
  set (pts := fun _ : Z => [vzero]). set (cols := [(vzero, 0%Z, 0%Z)]). set (views := [(1%Z, 0%Z)]).
  set (poses := [(0%Z, map (fun cf => Proj2RT log0 (board_at two_rig (fst cf) (snd cf) 0)) views)]).
  assert (Sw : forall c, saw ins c <-> (0 <= c < Z.of_nat 2)%Z).
  { intros c. split; [intros (i & [<-|[<-|[]]] & <-); cbn; lia|]. intros H. assert (D : c = 0%Z \/ c = 1%Z) by lia. destruct D as [-> | ->]; [exists (mkIns 0%Z 0%Z 0%Z [] [] rig_path)|exists (mkIns 1%Z 0%Z 0%Z [] [] rig_path)]; cbn; auto. }
  assert (TC : true_cameras two_rig ins [(0%Z, rec 0%Z); (1%Z, rec 1%Z)]).
  { split; [repeat constructor; cbn; intuition lia|]. split; [intros c; rewrite Sw; cbn; lia|]. exists 0%Z. split; [apply Sw; lia|]. split; [intros c H; apply Sw in H; lia|].
    intros c k [E|[E|[]]]; injection E as <- <-; split; [reflexivity|split; reflexivity|reflexivity|split; reflexivity]. }
  assert (CO : corners_of pts two_rig 0 cols).
  { intros x b k [E|[]]. injection E as <- <- <-. exists vzero. split; [split; [lia|reflexivity]|reflexivity]. }
  assert (Ho : In (0%Z, cols) [(0%Z, cols)]) by (left; reflexivity).
  exists log0, two_rig, ins, [(0%Z, rec 0%Z); (1%Z, rec 1%Z)], 2, pts, [(0%Z, cols)], poses, cols, 0%Z, views.
  destruct (C63_views_are_drawn_in_the_axes_of_their_camera log0 two_rig ins [(0%Z, rec 0%Z); (1%Z, rec 1%Z)] 2 pts [(0%Z, cols)] poses cols 0%Z views log0_ok rig_rigid TC Sw ltac:(lia) Ho) as (ds & sc & E & _ & _ & _ & Q).
  - repeat constructor. intros [].
  - discriminate.
  - exact CO.
  - left. reflexivity.
  - repeat constructor. intros [].
  - discriminate.
  - do 7 (split; [first [exact log0_ok|exact rig_rigid|exact TC|exact Sw|exact Ho|exact CO|reflexivity]|]).
    assert (S : exists ys, sc = [(0, ys)]).
    { unfold display_cam_obj_pose in E. destruct (read_cameras _ _); [|discriminate E]. cbn [object0 find fst Z.eqb poses views map cols] in E. cbn [List.length every_50th seq filter Nat.modulo Nat.divmod fst snd Nat.sub Nat.eqb flat_map nth_error app] in E. injection E as _ <-. eexists. reflexivity. }
    destruct S as (ys & ->). exists ds, ys, 1%Z, 0%Z. split; [exact E|]. split; [reflexivity|]. intros F.
    destruct (Q 0 ys (or_introl eq_refl)) as (c & f & Ev & F'). injection Ev as <- <-. inversion F as [|? y ? ? (q & A & B)]; subst. inversion F' as [|? ? ? ? (q' & A' & B' & _)]; subst.
    destruct A as (_ & A), A' as (_ & A'). assert (q' = q) by congruence. subst q'. cbn in A. injection A as <-. rewrite !at_board in B'. apply (f_equal vx) in B'. unfold tx in B'. cbn in B'. lra.
Qed.
Print Assumptions C63_views_in_place_refuted.

(** The run of AppExample (two cameras, one board), with the ground truth of its rig: all assumptions hold. *)
Definition two_truth : truth_file :=
  mkTruth 2 (fun i => Some (getCameraMat (I9 1 1 0 0 0 0 0 0 0), other_axes (pmul (pmul (rg_cam two_rig (Z.of_nat (i - 1))) (pinv (rg_cam two_rig 0))) pid))).
Example C61_example : exists svd i0 s es ins r all, let w := grid_world "out" "" "cams.yml" in
  snd (construct w "conf.yml") = Some s /\ su_nc s = 2 /\ describes two_rig 0 pid two_truth /\
  main w (grid_libs svd i0) ["calibrate"; "conf.yml"]%string = (es, Returned 0) /\ entering w (grid_libs svd i0) s ins /\ all_results s r all /\
  exists p1 cams p2 objects p3 poses p4 errors a, In (p1, DCameras cams) all /\ In (p2, DObjects objects) all /\ In (p3, DPoses poses) all /\ In (p4, DErrors errors) all /\
    post_calibration_analysis 2 cams objects poses errors two_truth = Some a /\ no_error (an_report a) /\ List.length (an_cameras a) = 2.
Proof.
  destruct PropGeom.C20_svd_exists as (svd & SO). set (i0 := I9 0 0 0 0 0 0 0 0 0). exists svd, i0.
  destruct (grid_setup "out" "" "cams.yml") as (B & made & C1 & HB & Em). set (s := grid_set "out" "" "cams.yml" B made) in *.
  destruct (grid_extraction "out" "" "cams.yml" B made svd i0) as (t & C2).
  assert (D : describes two_rig 0 pid two_truth).
  { intros i _. unfold two_truth. cbn [tf_cam]. replace (S i - 1) with i by lia. reflexivity. }
  set (w := grid_world "out" "" "cams.yml") in *. set (L := grid_libs svd i0) in *. assert (SL : sound_libs L) by apply grid_libs_sound. assert (SW : sound_world w) by apply grid_world_sound.
  assert (PN : forall c n, exact_pnp (lb_lr L) (lb_env L c n)) by (intros; apply ideal_pnp).
  assert (Ym : yml_path "conf.yml"). { apply yml_path_spec. split; reflexivity. }
  assert (Ex : w_exists w [] "conf.yml" = true) by reflexivity.
  assert (Th : (0 < cf_ransac (su_conf s))%R) by (cbn; lra). assert (It : (0 < cf_iterations (su_conf s))%Z) by (cbn; lia).
  assert (Two : forall c, (0 <= c < Z.of_nat (su_nc s))%Z -> c = 0%Z \/ c = 1%Z) by (intros c Hc; change (Z.of_nat (su_nc s)) with 2%Z in Hc; lia).
  assert (TP : true_parameters w s two_rig).
  { split; [discriminate|]. split; [discriminate|]. split; [reflexivity|]. split; [apply yml_path_spec; split; reflexivity|].
    intros c Hc. destruct (Two c Hc) as [-> | ->]; (eexists; split; [reflexivity|reflexivity]). }
  assert (ES : forall ins, entering w L s ins -> exact_scene L s two_rig ins /\ forall c, (0 <= c < Z.of_nat (su_nc s))%Z -> saw ins c).
  { intros ins En. split; [apply (grid_scene "out" "" "cams.yml" B made HB); auto|]. intros c Hc. apply (grid_entering "out" "" "cams.yml" B made) in En. subst ins. unfold grid_ins, saw. cbn [map]. destruct (Two c Hc) as [-> | ->]; eexists; [split; [left; reflexivity|reflexivity]|split; [do 2 right; left; reflexivity|reflexivity]]. }
  destruct (C61_analysis_of_an_exact_run w L "calibrate"%string "conf.yml"%string [] s t two_rig two_truth SL SW SO PN Ex Ym C1 C2 Th It TP ES ltac:(cbn; lia) eq_refl D) as (es & ins & r & all & Rm & En & Ar & _ & An).
  exists s, es, ins, r, all. cbv zeta. do 6 (split; [first [exact C1|reflexivity|exact D|exact Rm|exact En|exact Ar]|]).
    assert (F : forall k, In k [0; 1; 2; 3; 4] -> exists p d, In (p, d) all /\ kind d = k).
    { intros k Hk. rewrite <- (proj1 Ar) in Hk. apply in_map_iff in Hk as ((p, d) & E & H). eauto. }
    destruct (F 0 ltac:(cbn; auto)) as (p1 & d1 & H1 & K1). destruct (F 1 ltac:(cbn; auto)) as (p2 & d2 & H2 & K2). destruct (F 2 ltac:(cbn; auto)) as (p3 & d3 & H3 & K3). destruct (F 3 ltac:(cbn; auto)) as (p4 & d4 & H4 & K4).
    destruct d1 as [cams| | | |]; try discriminate K1. destruct d2 as [|objects| | |]; try discriminate K2. destruct d3 as [| |poses| |]; try discriminate K3. destruct d4 as [| | |errors|]; try discriminate K4.
    destruct (An p1 cams p2 objects p3 poses p4 errors H1 H2 H3 H4) as (a & A1 & A2 & _ & _ & A3 & _).
    exists p1, cams, p2, objects, p3, poses, p4, errors, a. auto 10.
Qed.
