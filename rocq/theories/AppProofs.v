(** Proofs about the application model (C58, C59). *)
From Coq Require Import List ZArith Lia Reals Ascii String Bool.
From Verif Require Import SMap GraphModel DataModel DataSpec DataProofs DataSave DetectModel DetectProofs GeomModel ObjectsModel GroupModel PipelineModel CameraModel ResidualModel
  FileModel WorkflowModel WorkflowProofs BoardModel InputModel InputSpec ImagesModel AppModel AppSpec Sizes LogModel LogProofs LogSizes.
Import ListNotations.
Close Scope R_scope.
Open Scope nat_scope.
Open Scope string_scope.

(** ** Paths *)
Lemma substring_all s : substring 0 (String.length s) s = s.
Proof. induction s as [|c s IH]; cbn; [auto|]. rewrite IH. auto. Qed.
Lemma substring_app a b : substring (String.length a) (String.length b) (a ++ b) = b.
Proof. induction a as [|c a IH]; cbn; [apply substring_all|auto]. Qed.
Lemma length_app a b : String.length (a ++ b) = String.length a + String.length b.
Proof. induction a; cbn; auto. Qed.
Lemma app_ass a b c : (a ++ b) ++ c = a ++ b ++ c.
Proof. induction a; cbn; [auto|]. rewrite IHa. auto. Qed.
Lemma last_slash_app a b : find_last_slash (a ++ b) = match find_last_slash b with Some i => Some (String.length a + i) | None => find_last_slash a end.
Proof.
  induction a as [|c a IH]; cbn; [destruct (find_last_slash b); auto|]. rewrite IH.
  destruct (find_last_slash b); auto.
Qed.
Lemma last_dot_app a b : find_last_dot (a ++ b) = match find_last_dot b with Some i => Some (String.length a + i) | None => find_last_dot a end.
Proof.
  induction a as [|c a IH]; cbn; [destruct (find_last_dot b); auto|]. rewrite IH.
  destruct (find_last_dot b); auto.
Qed.
Lemma no_slash s : find_last_slash s = None <-> ~ has_char "/" s.
Proof.
  induction s as [|c s IH]; cbn; [tauto|]. destruct (find_last_slash s) as [i|] eqn:E.
  - split; [intros Q; discriminate Q|]. intros H. exfalso. assert (X : ~ has_char "/" s) by tauto. apply IH in X. discriminate X.
  - destruct (Ascii.eqb_spec c "/"); [split; [intros Q; discriminate Q|tauto]|]. split; [|auto]. intros _ [X|X]; [auto|]. apply IH in X; auto.
Qed.
(** a path is a folder (with its slash) and a filename *)
Lemma split_path p : exists folder, p = folder ++ filename p /\ ~ has_char "/" (filename p) /\ (folder = "" \/ exists d, folder = d ++ "/").
Proof.
  unfold filename. induction p as [|c p IH]; [exists ""; cbn; auto|].
  cbn [find_last_slash]. destruct (find_last_slash p) as [i|] eqn:E.
  - destruct IH as (f & Ef & N & D). exists (String c f). cbn [substring String.length]. rewrite Nat.sub_succ.
    split; [cbn; f_equal; exact Ef|]. split; [exact N|]. right. destruct D as [-> |(d & ->)].
    + exfalso. cbn in Ef. rewrite <- Ef in N. apply no_slash in N. congruence.
    + exists (String c d). reflexivity.
  - destruct (Ascii.eqb_spec c "/") as [-> |NE].
    + exists "/". cbn [substring String.length Nat.sub]. rewrite Nat.sub_0_r, substring_all. split; [reflexivity|]. split; [apply no_slash; auto|]. right. exists "". reflexivity.
    + exists "". rewrite Nat.sub_0_r, substring_all. split; [reflexivity|]. split; [|auto]. cbn. intros [X|X]; [auto|]. apply no_slash in E. auto.
Qed.
Lemma filename_of folder name : ~ has_char "/" name -> (folder = "" \/ exists d, folder = d ++ "/") -> filename (folder ++ name) = name.
Proof.
  intros N D. apply no_slash in N. unfold filename. rewrite last_slash_app, N. destruct D as [-> |(d & ->)].
  - cbn [find_last_slash]. rewrite Nat.sub_0_r. apply substring_all.
  - rewrite last_slash_app. cbn [find_last_slash Ascii.eqb]. cbn -[substring String.length String.append Nat.add Nat.sub].
    replace (S (String.length d + 0)) with (String.length (d ++ "/")) by (rewrite length_app; cbn; lia).
    rewrite (length_app (d ++ "/") name). replace (String.length (d ++ "/") + String.length name - String.length (d ++ "/")) with (String.length name) by lia.
    apply substring_app.
Qed.
Lemma split_at s : forall i, i <= String.length s -> exists a b, s = a ++ b /\ String.length a = i.
Proof.
  induction s as [|c s IH]; intros [|i] H; cbn in H; try lia.
  - exists "", "". auto.
  - exists "", (String c s). auto.
  - destruct (IH i) as (a & b & -> & L); [lia|]. exists (String c a), b. cbn. auto.
Qed.
Lemma last_dot_le s i : find_last_dot s = Some i -> i < String.length s.
Proof.
  revert i. induction s as [|c s IH]; intros i; cbn; [intros Q; discriminate Q|]. destruct (find_last_dot s) as [j|].
  - intros Q. injection Q as <-. specialize (IH j eq_refl). lia.
  - destruct (Ascii.eqb c "."); [intros Q; injection Q as <-; lia|intros Q; discriminate Q].
Qed.
Lemma yml_path_spec p : yml_path p <-> has_filename p = true /\ path_extension p = ".yml".
Proof.
  split.
  - intros (f & n & -> & NE & NS & D). unfold has_filename, path_extension.
    assert (N2 : ~ has_char "/" (n ++ ".yml")).
    { apply no_slash. rewrite last_slash_app. cbn. apply no_slash. auto. }
    rewrite (filename_of f (n ++ ".yml") N2 D). split.
    + destruct n; [contradiction|reflexivity].
    + assert (NN : String.eqb (n ++ ".yml") ".." = false).
      { destruct n as [|c [|c' n]]; cbn; try reflexivity; [destruct (Ascii.eqb c "."); reflexivity|].
        destruct (Ascii.eqb c "."); [|reflexivity]. destruct (Ascii.eqb c' "."); [|reflexivity]. destruct n; reflexivity. }
      rewrite NN, last_dot_app. cbn -[substring String.length String.append].
      replace (String.length n + 0) with (String.length n) by lia. destruct (String.length n) as [|m] eqn:E; [destruct n; [contradiction|discriminate E]|].
      rewrite <- E, length_app. replace (String.length n + String.length ".yml" - String.length n) with (String.length ".yml") by lia. apply substring_app.
  - intros (HF & HE). destruct (split_path p) as (f & Ep & NS & D). set (n := filename p) in *.
    unfold path_extension in HE. fold n in HE. destruct (String.eqb n ".."); [discriminate HE|].
    destruct (find_last_dot n) as [[|i]|] eqn:E; [discriminate HE| |discriminate HE].
    assert (Li := last_dot_le n (S i) E). destruct (split_at n (S i)) as (a & b & En & La); [lia|]. exists f, a.
    rewrite En in HE. rewrite <- La in HE. rewrite length_app in HE. replace (String.length a + String.length b - String.length a) with (String.length b) in HE by lia.
    rewrite substring_app in HE. subst b. split; [rewrite Ep, En; reflexivity|]. split; [intros ->; discriminate La|]. split; [|auto].
    apply no_slash. apply no_slash in NS. rewrite En, last_slash_app in NS. cbn in NS. auto.
Qed.

(** ** Insertions into tables with image sizes *)
Lemma alike_refl cs : alike cs cs.
Proof. reflexivity. Qed.
Lemma alike_trans a b c : alike a b -> alike b c -> alike a c.
Proof. unfold alike. congruence. Qed.
Lemma alike_mset k v v' : forall m m', alike m m' -> c_obs v = c_obs v' -> alike (mset k v m) (mset k v' m').
Proof.
  unfold alike. induction m as [|[a x] m IH]; intros [|[a' x'] m'] A E; try discriminate A; cbn [mset map fst snd]; [rewrite E; auto|].
  injection A as <- B C. destruct (kcmp k a); cbn [map fst snd]; [rewrite E; congruence|rewrite E, B; congruence|]. rewrite B. f_equal. apply IH; auto.
Qed.
Lemma alike_self_mset k v m r : msorted m -> mfind k m = Some r -> c_obs v = c_obs r -> alike m (mset k v m).
Proof.
  unfold alike. revert r. induction m as [|[a x] m IH]; intros r So F E; [discriminate F|]. cbn [mfind] in F. cbn [mset map fst snd].
  unfold msorted in So. cbn [mkeys map fst] in So. inversion So as [|? ? So' Fa]; subst.
  destruct (kcmp k a) eqn:C.
  - injection F as <-. cbn [map fst snd]. assert (k = a) by (apply kcmp_eq; auto). subst. rewrite E. auto.
  - exfalso. assert (Hin : In k (mkeys m)) by (apply mfind_Some_key; eauto). rewrite Forall_forall in Fa. apply Fa in Hin.
    unfold klt in Hin. rewrite kcmp_opp, C in Hin. discriminate Hin.
  - cbn [map fst snd]. f_equal. eapply IH; eauto.
Qed.

(** two tables that differ in the sizes of the images only *)
Definition sized (t0 t : tables pt2) : Prop := exists cs, t = with_cams cs t0 /\ alike (t_cams t0) cs /\ msorted cs.
Lemma sized_keys t0 t : sized t0 t -> mkeys (t_cams t) = mkeys (t_cams t0).
Proof. intros (cs & -> & A & _). cbn. symmetry. apply alike_keys. auto. Qed.
Lemma set_size_sized t0 t c x y : sized t0 t -> sized t0 (set_image_size t c x y).
Proof.
  intros (cs & -> & A & So). unfold set_image_size. cbn [with_cams t_cams]. destruct (mfind c cs) as [r|] eqn:E.
  - eexists. split; [reflexivity|]. split; [|apply mset_sorted; auto]. eapply alike_trans; [exact A|]. eapply alike_self_mset; eauto.
  - exists cs. auto.
Qed.
Lemma insert_sized t0 t i : sized t0 t ->
  match insertNewBoard t0 i with
  | Some t0' => exists t', insertNewBoard t i = Some t' /\ sized t0' t'
  | None => insertNewBoard t i = None
  end.
Proof.
  intros (cs & -> & A & So). assert (F := alike_find _ _ (i_cam i) A). unfold insertNewBoard. cbn [with_cams t_cams t_obs t_boards t_frames t_camobs].
  destruct (mfind (i_cam i) (t_cams t0)) as [c|] eqn:Ec, (mfind (i_cam i) cs) as [c'|] eqn:Ec'; cbn in F; try discriminate F; [|reflexivity].
  injection F as F. destruct (mfind (i_board i) (t_boards t0)) as [b|]; [|reflexivity].
  destruct (mfind (i_frame i) (t_frames t0)) as [f|], (mfind (i_cam i, i_frame i) (t_camobs t0)) as [co|]; cbn [fst snd];
    (eexists; split; [reflexivity|]; eexists; split; [reflexivity|]; cbn [t_cams]; split; [apply alike_mset; [auto|cbn; congruence]|apply mset_sorted; auto]).
Qed.
Lemma insert_all_sized l : forall t0 t, sized t0 t ->
  match insert_all t0 l with
  | Some t0' => exists t', insert_all t l = Some t' /\ sized t0' t'
  | None => insert_all t l = None
  end.
Proof.
  induction l as [|i l IH]; intros t0 t S; cbn [insert_all]; [eauto|]. assert (H := insert_sized t0 t i S).
  destruct (insertNewBoard t0 i) as [t0'|].
  - destruct H as (t' & -> & S'). apply IH. auto.
  - rewrite H. auto.
Qed.
Lemma insert_all_sized_inv l t0 t t' : sized t0 t -> insert_all t l = Some t' -> exists t0', insert_all t0 l = Some t0' /\ sized t0' t'.
Proof.
  intros S E. assert (H := insert_all_sized l t0 t S). destruct (insert_all t0 l) as [t0'|].
  - destruct H as (t2 & E2 & S'). rewrite E in E2. injection E2 as <-. eauto.
  - congruence.
Qed.
Lemma insert_all_app l1 : forall l2 (t : tables pt2), insert_all t (l1 ++ l2)%list = match insert_all t l1 with Some t' => insert_all t' l2 | None => None end.
Proof. induction l1 as [|i l1 IH]; intros l2 t; cbn; [auto|]. destruct (insertNewBoard t i); auto. Qed.
Lemma insert_all_known nc nb (l : list (insertion pt2)) t : insert_all (init_tables nc nb) l = Some t -> Forall (known nc nb) l.
Proof.
  intros E.
  assert (X : Forall (known nc nb) l \/ exists a i b, l = (a ++ i :: b)%list /\ Forall (known nc nb) a /\ ~ known nc nb i).
  { clear E. induction l as [|i l IH]; [left; constructor|].
    assert (D : known nc nb i \/ ~ known nc nb i) by (unfold known; lia). destruct D as [D|D].
    - destruct IH as [IH|(a & j & b & -> & Fa & N)]; [left; constructor; auto|]. right. exists (i :: a)%list, j, b. auto.
    - right. exists [], i, l. auto. }
  destruct X as [X|(a & i & b & -> & Fa & N)]; [exact X|]. rewrite (insert_unknown nc nb a i Fa N b) in E. discriminate E.
Qed.

(** the tables after boardExtraction *)
Lemma detect_fold w L s ls : forall t0 t1 t ins0, sized t0 t1 -> insert_all (init_tables (su_nc s) (List.length (su_boards s))) ins0 = Some t0 ->
  (forall c ts, interleave ts (lb_sched L c ts)) ->
  fold_left (fun acc cam => match acc with
                            | Some t => detect_camera L (su_det L s) t cam (camera_files (w_ls w) (w_image w) (path_join (cf_root (su_conf s)) (cf_prefix (su_conf s))) cam)
                            | None => None
                            end) ls (Some t1) = Some t ->
  exists cams ss t0', collect (map (fun cam => camera_tasks (su_det L s) (Z.of_nat cam) 0 (camera_files (w_ls w) (w_image w) (path_join (cf_root (su_conf s)) (cf_prefix (su_conf s))) cam)) ls) = Some cams /\
    Forall2 interleave cams ss /\ insert_all (init_tables (su_nc s) (List.length (su_boards s))) (ins0 ++ concat ss)%list = Some t0' /\ sized t0' t.
Proof.
  induction ls as [|c ls IH]; intros t0 t1 t ins0 S Ei Sc E; cbn [fold_left] in E.
  - injection E as <-. exists [], [], t0. cbn. rewrite app_nil_r. auto.
  - set (fs := camera_files _ _ _ c) in E. destruct (detect_camera L (su_det L s) t1 c fs) as [t2|] eqn:E1.
    2:{ exfalso. clear -E. induction ls as [|c' ls IH]; cbn in E; [discriminate E|auto]. }
    assert (X : exists ts ss t0', camera_tasks (su_det L s) (Z.of_nat c) 0 fs = Some ts /\ interleave ts ss /\ insert_all t0 ss = Some t0' /\ sized t0' t2).
    { unfold detect_camera in E1. destruct fs as [|f fs'].
      - injection E1 as <-. exists [], [], t0. cbn. split; [auto|]. split; [constructor; auto|]. auto.
      - destruct (camera_size (f :: fs')) as [[x y]|]; [|discriminate E1]. destruct (camera_tasks _ _ _ (f :: fs')) as [ts|] eqn:Et; [|discriminate E1].
        destruct (insert_all_sized_inv _ t0 _ _ (set_size_sized _ _ _ _ _ S) E1) as (t0' & A & B). exists ts, (lb_sched L c ts), t0'. auto. }
    destruct X as (ts & ss & t0' & A & B & C & D).
    destruct (IH t0' t2 t (ins0 ++ ss)%list D) as (cams & sss & t0'' & A' & B' & C' & D'); [rewrite insert_all_app, Ei; auto|auto|auto|].
    exists (ts :: cams)%list, (ss :: sss)%list, t0''. split; [|split; [|split]].
    + cbn [map]. fold fs. rewrite A. cbn [collect]. rewrite A'. auto.
    + constructor; auto.
    + cbn [concat]. rewrite <- app_assoc in C'. auto.
    + auto.
Qed.
Lemma load_fold file nc nb cs : forall t0 t1 t ins0, sized t0 t1 -> insert_all (init_tables nc nb) ins0 = Some t0 ->
  DataModel.load_cameras file t1 (map Z.of_nat cs) = Loaded t ->
  exists t0', insert_all (init_tables nc nb) (ins0 ++ flat_map (fun c => boards_in_file (mfind (Z.of_nat c) file) (Z.of_nat c)) cs)%list = Some t0' /\ sized t0' t.
Proof.
  induction cs as [|c cs IH]; intros t0 t1 t ins0 S Ei E; cbn [DataModel.load_cameras map] in E.
  - injection E as <-. exists t0. cbn. rewrite app_nil_r. auto.
  - destruct (DataModel.load_camera file t1 (Z.of_nat c)) as [t2| |] eqn:E1; try discriminate E. unfold DataModel.load_camera in E1.
    match type of E1 with (if ?b then _ else _) = _ => destruct b eqn:Eb end; [|discriminate E1].
    destruct (insert_all _ _) as [t2'|] eqn:E2 in E1; [|discriminate E1]. injection E1 as ->.
    destruct (insert_all_sized_inv _ t0 _ _ (set_size_sized _ _ _ _ _ S) E2) as (t0' & A & B).
    assert (Eq : boards_in_file (mfind (Z.of_nat c) file) (Z.of_nat c) = 
      let k := match mfind (Z.of_nat c) file with Some k => k | None => mkKp 0 0 [] [] [] [] [] end in zip_ins (Z.of_nat c) (k_frames k) (k_paths k) (k_boards k) (k_pts k) (k_ids k)).
    { unfold boards_in_file. destruct (mfind (Z.of_nat c) file); reflexivity. }
    cbv zeta in Eq. cbv zeta in A. rewrite <- Eq in A. cbn [flat_map].
    destruct (IH t0' t2 t (ins0 ++ boards_in_file (mfind (Z.of_nat c) file) (Z.of_nat c))%list B) as (t0'' & A' & B'); [rewrite insert_all_app, Ei; auto|auto|].
    exists t0''. rewrite app_assoc. auto.
Qed.
Lemma init_sized nc nb : sized (init_tables nc nb) (init_tables nc nb).
Proof. exists (t_cams (@init_tables pt2 nc nb)). split; [symmetry; apply with_cams_self|]. split; [apply alike_refl|]. apply dense_sorted. Qed.
Lemma extraction w L s t : (forall c ts, interleave ts (lb_sched L c ts)) -> boardExtraction w L s = Some t ->
  exists ins t0, entering w L s ins /\ Forall (known (su_nc s) (List.length (su_boards s))) ins /\
    insert_all (init_tables (su_nc s) (List.length (su_boards s))) ins = Some t0 /\ sized t0 t.
Proof.
  intros Sc E. unfold boardExtraction in E. unfold entering. destruct (load_keypoints _ _).
  - unfold loadDetectedKeypoints in E. destruct (DataModel.load_cameras _ _ _) as [t'| |] eqn:E1; try discriminate E. injection E as ->.
    destruct (load_fold _ _ _ _ _ _ _ [] (init_sized _ _) eq_refl E1) as (t0 & A & B). cbn [app] in A. eexists; exists t0. split; [reflexivity|].
    split; [eapply insert_all_known; eauto|]. auto.
  - unfold detect_all in E. destruct (detect_fold w L s _ _ _ _ [] (init_sized _ _) eq_refl Sc E) as (cams & ss & t0 & A & B & C & D).
    cbn [app] in C. exists (concat ss), t0. split; [|split; [eapply insert_all_known; eauto|auto]].
    exists cams. split; [exact A|]. exists ss. auto.
Qed.

(** ** The calibration on tables with sizes *)
From Coq Require Import FunctionalExtensionality.
Lemma init_no_file bpts models t i : initializeCalibrationAllCam bpts models NoFile t i = Some i.
Proof.
  unfold initializeCalibrationAllCam. induction (mkeys (t_cams t)) as [|c l IH]; cbn [fold_left]; [auto|]. cbn [init_camera option_map].
  replace (fun c' => if Z.eqb c' c then i c else i c') with i; [exact IH|]. apply functional_extensionality. intros c'. destruct (Z.eqb_spec c' c); congruence.
Qed.
Lemma calibrate_known_start svd lr uq pick g0 solve bpts models thresh it env pose0 calib2 fixi src t p0 gp0 i :
  initializeCalibrationAllCam bpts models src t (pa_intr p0) = Some i ->
  calibrate svd lr uq pick g0 solve bpts models thresh it env pose0 calib2 fixi src t p0 gp0 =
  calibrate svd lr uq pick g0 solve bpts models thresh it env pose0 calib2 fixi NoFile t (mkPar (pa_pose p0) i) gp0.
Proof.
  intros Ei. assert (E : initIntrinsic solve bpts models thresh it env pose0 fixi src t p0 gp0 = initIntrinsic solve bpts models thresh it env pose0 fixi NoFile t (mkPar (pa_pose p0) i) gp0).
  { unfold initIntrinsic. rewrite Ei. cbn [pa_intr pa_pose]. rewrite init_no_file. reflexivity. }
  unfold calibrate. rewrite E. reflexivity.
Qed.
Lemma logged_known_start accepts svd lr uq pick g0 solve bpts models thresh it env pose0 calib2 fixi src t p0 gp0 i :
  initializeCalibrationAllCam bpts models src t (pa_intr p0) = Some i ->
  calibrate_logged accepts bpts models svd lr uq pick g0 solve thresh it env pose0 calib2 fixi src t p0 gp0 =
  calibrate_logged accepts bpts models svd lr uq pick g0 solve thresh it env pose0 calib2 fixi NoFile t (mkPar (pa_pose p0) i) gp0.
Proof.
  intros Ei. assert (E : initIntrinsic solve bpts models thresh it env pose0 fixi src t p0 gp0 = initIntrinsic solve bpts models thresh it env pose0 fixi NoFile t (mkPar (pa_pose p0) i) gp0).
  { unfold initIntrinsic. rewrite Ei. cbn [pa_intr pa_pose]. rewrite init_no_file. reflexivity. }
  unfold calibrate_logged, initIntrinsic_logged. rewrite E. reflexivity.
Qed.
Lemma calibrate_started svd lr uq pick g0 solve bpts models thresh it env pose0 calib2 fixi src t p0 gp0 r :
  calibrate svd lr uq pick g0 solve bpts models thresh it env pose0 calib2 fixi src t p0 gp0 = Some r ->
  exists i, initializeCalibrationAllCam bpts models src t (pa_intr p0) = Some i.
Proof.
  intros E. unfold calibrate in E. apply bind_Some in E as (r0 & E & _). unfold initIntrinsic in E.
  destruct (initializeCalibrationAllCam bpts models src t (pa_intr p0)) as [i|]; [eauto|discriminate E].
Qed.
Lemma calibrate_sized svd lr uq pick g0 solve bpts models thresh it env pose0 calib2 fixi src t0 t p0 gp0 r : sized t0 t ->
  calibrate svd lr uq pick g0 solve bpts models thresh it env pose0 calib2 fixi src t p0 gp0 = Some r ->
  exists i r0 cs, initializeCalibrationAllCam bpts models src t (pa_intr p0) = Some i /\
    calibrate svd lr uq pick g0 solve bpts models thresh it env pose0 calib2 fixi NoFile t0 (mkPar (pa_pose p0) i) gp0 = Some r0 /\
    r = run_cams cs r0 /\ t_cams t = cs.
Proof.
  intros (cs & -> & A & _) E. destruct (calibrate_started _ _ _ _ _ _ _ _ _ _ _ _ _ _ _ _ _ _ _ E) as (i & Ei). rewrite (calibrate_known_start _ _ _ _ _ _ _ _ _ _ _ _ _ _ _ _ _ _ i Ei) in E.
  rewrite calibrate_cams in E; [|auto|apply init_no_file_cams; auto].
  apply omap_Some in E as (r0 & E & ->). exists i, r0, cs. auto.
Qed.

(** ** Effects *)
Lemma files_app a b : files (a ++ b)%list = (files a ++ files b)%list.
Proof. unfold files. apply flat_map_app. Qed.
Lemma folders_app a b : folders (a ++ b)%list = (folders b ++ folders a)%list.
Proof. unfold folders. rewrite flat_map_app, rev_app_distr. auto. Qed.
(** effects of the two savers of pictures and of the constructor *)
Definition quiet (e : event) : Prop := match e with MakeDir _ | Picture _ => True | _ => False end.
Lemma quiet_files es : Forall quiet es -> files es = [].
Proof. induction 1 as [|e es Q F IH]; [auto|]. destruct e; try destruct Q; exact IH. Qed.
Lemma construct_events w path es o : construct w path = (es, o) -> exists made, es = map MakeDir made /\
  (forall p, In p made -> p = cf_save (read_config (w_config w path)) /\ w_exists w [] p = false) /\
  (forall s, o = Some s -> su_made s = folders es /\ su_conf s = read_config (w_config w path)).
Proof.
  unfold construct. destruct (_ && _); [|intros Q; injection Q as <- <-; exists []; cbn; split; [auto|]; split; [tauto|intros s Q; discriminate Q]].
  unfold save_folder. destruct (negb _ && _) eqn:Eb.
  - destruct (w_mkdir _ _ _); [|intros Q; injection Q as <- <-; exists []; cbn; split; [auto|]; split; [tauto|intros s Q; discriminate Q]].
    intros Q. injection Q as <- <-. exists [cf_save (read_config (w_config w path))]. split; [reflexivity|]. split.
    + intros p [<-|[]]. apply andb_prop in Eb as (Eb & _). destruct (w_exists w [] _); [discriminate Eb|auto].
    + intros s Q. destruct (Nat.leb _ _ && _); [|discriminate Q]. apply omap_Some in Q as (bs & _ & ->). auto.
  - intros Q. injection Q as <- <-. exists []. split; [reflexivity|]. split; [intros p []|].
    intros s Q. destruct (Nat.leb _ _ && _); [|discriminate Q]. apply omap_Some in Q as (bs & _ & ->). auto.
Qed.
Lemma ensure_events w es made p es' made' : ensure w (es, made) p = Some (es', made') -> exists d, es' = (es ++ map MakeDir d)%list /\ made' = (rev d ++ made)%list.
Proof.
  unfold ensure. destruct (w_exists w made p); [intros Q; injection Q as <- <-; exists []; cbn; rewrite app_nil_r; auto|].
  destruct (w_mkdir w made p); [|intros Q; discriminate Q]. intros Q. injection Q as <- <-. exists [p]. auto.
Qed.
Lemma folders_dirs d : folders (map MakeDir d) = rev d.
Proof. unfold folders. f_equal. induction d; cbn; [auto|]. rewrite IHd. auto. Qed.
Lemma folders_pics ps : folders (map Picture ps) = [].
Proof. unfold folders. assert (E : flat_map (fun e => match e with MakeDir p => [p] | _ => [] end) (map Picture ps) = []) by (induction ps; auto). rewrite E. auto. Qed.
Lemma pictures_events w s root pics cs : forall es made es' made',
  fold_left (fun acc c => match acc with Some st => camera_pictures w s root pics st c | None => None end) cs (Some (es, made)) = Some (es', made') ->
  exists d, es' = (es ++ d)%list /\ Forall quiet d /\ made' = (folders d ++ made)%list.
Proof.
  induction cs as [|c cs IH]; intros es made es' made' E; cbn [fold_left] in E.
  - injection E as <- <-. exists []. rewrite app_nil_r. auto.
  - destruct (camera_pictures w s root pics (es, made) c) as [[es1 made1]|] eqn:E1.
    2:{ exfalso. clear -E. induction cs; cbn in E; [discriminate E|auto]. }
    unfold camera_pictures in E1. destruct (ensure w (es, made) _) as [[ea ma]|] eqn:A; [|discriminate E1]. destruct (ensure w (ea, ma) _) as [[eb mb]|] eqn:B; [|discriminate E1].
    apply omap_Some in E1 as (ps & _ & E1). injection E1 as -> ->. apply ensure_events in A as (d1 & -> & ->), B as (d2 & -> & ->).
    destruct (IH _ _ _ _ E) as (d & -> & Q & ->). exists (map MakeDir d1 ++ map MakeDir d2 ++ map Picture ps ++ d)%list. split; [rewrite !app_assoc; auto|]. split.
    + repeat (apply Forall_app; split); try (apply Forall_forall; intros e He; apply in_map_iff in He as (x & <- & _); exact I). auto.
    + rewrite !folders_app, !folders_dirs, folders_pics, app_nil_r, <- !app_assoc. auto.
Qed.
Lemma all_pictures_events w L s r es made : all_pictures w L s r = Some (es, made) -> Forall quiet es /\ made = (folders es ++ su_made s)%list.
Proof.
  unfold all_pictures. intros E.
  match type of E with match ?x with _ => _ end = _ => destruct x as [[e1 m1]|] eqn:E1 end; [|discriminate E].
  apply omap_Some in E as ([e2 m2] & E2 & E). cbn [fst snd] in E. injection E as -> ->.
  assert (A : Forall quiet e1 /\ m1 = (folders e1 ++ su_made s)%list).
  { destruct (Z.eqb (cf_save_detect (su_conf s)) 1) in E1; [|injection E1 as <- <-; auto].
    unfold pictures in E1. apply pictures_events in E1 as (d & -> & Q & ->). auto. }
  assert (B : Forall quiet e2 /\ m2 = (folders e2 ++ m1)%list).
  { destruct (Z.eqb (cf_save_repro (su_conf s)) 1) in E2; [|injection E2 as <- <-; auto].
    unfold pictures in E2. apply pictures_events in E2 as (d & -> & Q & ->). auto. }
  destruct A as (A1 & ->), B as (B1 & ->). split; [apply Forall_app; auto|]. rewrite folders_app, app_assoc. auto.
Qed.

(** ** Joined paths *)
Lemma prefix_slash b : String.prefix "/" b = true <-> absolute b.
Proof.
  unfold absolute. destruct b as [|c b]; cbn [String.prefix].
  - split; [intros Q; discriminate Q|]. intros (r & Q). discriminate Q.
  - destruct (ascii_dec "/" c) as [<-|N]; [split; [intros _; exists b; reflexivity|intros _; destruct b; reflexivity]|]. split; [intros Q; discriminate Q|]. intros (r & Q). cbn in Q. congruence.
Qed.
Lemma open_ended_spec a : String.eqb (filename a) "" = true <-> open_ended a.
Proof.
  rewrite String.eqb_eq. split.
  - intros E. destruct (split_path a) as (f & Ea & _ & D). rewrite E in Ea. assert (X : forall x, x ++ "" = x) by (induction x; cbn; congruence). rewrite X in Ea. subst f. exact D.
  - intros D. assert (X := filename_of a "" (fun H => H) D). assert (Y : forall x, x ++ "" = x) by (induction x; cbn; congruence). rewrite Y in X. exact X.
Qed.
Lemma path_join_spec a b p : joined a b p <-> p = path_join a b.
Proof.
  unfold joined, path_join. assert (P := prefix_slash b). assert (O := open_ended_spec a).
  destruct (String.prefix "/" b); [|destruct (String.eqb (filename a) "")].
  - destruct P as (P & _). specialize (P eq_refl). tauto.
  - destruct P as (_ & P), O as (O & _). specialize (O eq_refl). assert (~ absolute b) by (intros X; apply P in X; discriminate X). tauto.
  - destruct P as (_ & P), O as (_ & O). assert (~ absolute b) by (intros X; apply P in X; discriminate X). assert (~ open_ended a) by (intros X; apply O in X; discriminate X). tauto.
Qed.
Lemma join_inj a b b' : ~ absolute b -> ~ absolute b' -> path_join a b = path_join a b' -> b = b'.
Proof.
  assert (C : forall x y z : string, x ++ y = x ++ z -> y = z) by (induction x; cbn; intros y z Q; [auto|injection Q; auto]).
  intros A B. assert (Pa := prefix_slash b). assert (Pb := prefix_slash b'). unfold path_join.
  destruct (String.prefix "/" b); [destruct Pa as (Pa & _); destruct (A (Pa eq_refl))|]. destruct (String.prefix "/" b'); [destruct Pb as (Pb & _); destruct (B (Pb eq_refl))|].
  destruct (String.eqb (filename a) ""); intros E; [eapply C; eauto|]. apply C in E. apply (C "/") in E. exact E.
Qed.

(** ** The result files *)
Lemma cameras_path_spec s : joined (cf_save (su_conf s)) (cameras_name (su_conf s)) (cameras_path s).
Proof.
  apply path_join_spec. unfold cameras_path, cameras_name. destruct (string_dec (cf_params_name (su_conf s)) "") as [-> |N]; [reflexivity|].
  apply String.eqb_neq in N. rewrite N. reflexivity.
Qed.
Lemma objects_doc_spec s r d : objects_doc s r = Some d -> exists l, d = DObjects l /\
  Forall2 (fun e f => fst f = ob_id (snd e) /\ save3DObj (su_pts s) (snd e) = Some (snd f)) (PipelineModel.ca_objs (ru_s r)) l.
Proof.
  unfold objects_doc. intros E. apply omap_Some in E as (l & E & ->). exists l. split; [auto|]. revert l E. generalize (PipelineModel.ca_objs (ru_s r)).
  intros m. induction m as [|(k, o) m IH]; intros l E; cbn [map collect] in E; [injection E as <-; constructor|].
  destruct (option_map _ _) as [f|] eqn:Ef in E; [|discriminate E]. destruct (collect _) as [l'|] eqn:El in E; [|discriminate E]. injection E as <-.
  apply omap_Some in Ef as (cols & Ef & ->). constructor; [split; [auto|exact Ef]|]. apply IH. auto.
Qed.
(** what a step of saving does *)
Definition step_ok (s : setup) (r : run) (st : list event * bool) : Prop :=
  match st with
  | ([], _) => True
  | ([Open p], b) => b = false
  | ([Open p; Write p' d], b) => p' = p /\ b = true /\ result s r p d
  | _ => False
  end.
Lemma save_file_ok s r w made p d : (forall d', d = Some d' -> result s r p d') -> step_ok s r (save_file w made p d).
Proof. intros H. unfold save_file. destruct d as [d|], (w_open w made p); cbn; auto. Qed.
Lemma result_files_ok w s made r : Forall (step_ok s r) (result_files w s made r).
Proof.
  unfold result_files. repeat constructor; try apply save_file_ok; try (intros d' E).
  - injection E as <-. constructor. apply cameras_path_spec.
  - apply objects_doc_spec in E as (l & -> & F). constructor; [apply path_join_spec; reflexivity|auto].
  - injection E as <-. constructor. apply path_join_spec. reflexivity.
  - unfold errors_doc in E. apply omap_Some in E as (e & E & ->). constructor; [apply path_join_spec; reflexivity|auto].
  - injection E as <-. constructor. apply path_join_spec. reflexivity.
Qed.
(** effects that are not torn: a file that is opened is written completely before anything else *)
Inductive shape (s : setup) (r : run) : list event -> status -> Prop :=
| sh_nil st : shape s r [] st
| sh_torn p : shape s r [Open p] Stopped
| sh_file p d es st : result s r p d -> shape s r es st -> shape s r (Open p :: Write p d :: es) st.
Lemma run_steps_shape s r l : Forall (step_ok s r) l -> shape s r (fst (run_steps l)) (snd (run_steps l)).
Proof.
  induction 1 as [|(es, b) l H F IH]; [constructor|]. cbn [run_steps]. destruct es as [|e1 [|e2 [|]]]; cbn in H.
  - destruct b; [exact IH|constructor].
  - destruct e1; try contradiction. subst b. constructor.
  - destruct e1 as [| |p|]; try contradiction. destruct e2 as [| | |p' d]; try contradiction. destruct H as (-> & -> & H). cbn [app fst snd]. constructor; auto.
  - destruct e1; try contradiction. destruct e2; contradiction.
Qed.
Lemma shape_no_dirs s r es st : shape s r es st -> folders es = [].
Proof.
  intros H. unfold folders. assert (E : flat_map (fun e => match e with MakeDir p => [p] | _ => [] end) es = []) by (induction H; auto). rewrite E. auto.
Qed.

(** the effects of a run: directories and pictures, then the result files *)
Lemma main_normal w L a path rest es st : main w L (a :: path :: rest) = (es, st) ->
  (~ (w_exists w [] path = true /\ yml_path path) /\ es = [] /\ st = Returned (-1)) \/
  ((w_exists w [] path = true /\ yml_path path) /\
   ((exists made, es = map MakeDir made /\ st = Stopped) \/
    exists s t r d e2 made, completed w L path s t r /\ construct w path = (map MakeDir d, Some s) /\ all_pictures w L s r = Some (e2, made) /\
       Forall quiet e2 /\ made = folders (map MakeDir d ++ e2)%list /\
       es = (map MakeDir d ++ e2 ++ fst (run_steps (result_files w s made r)))%list /\ st = snd (run_steps (result_files w s made r)))).
Proof.
  cbn [main]. unfold yml_available. assert (Y := yml_path_spec path).
  destruct (w_exists w [] path); [|intros Q; injection Q as <- <-; left; split; [intros (X & _); discriminate X|auto]]. cbn [andb].
  destruct (has_filename path); [|intros Q; injection Q as <- <-; left; split; [rewrite Y; intros (_ & X & _); discriminate X|auto]]. cbn [andb].
  destruct (String.eqb_spec (path_extension path) ".yml") as [E|N]; [|intros Q; injection Q as <- <-; left; split; [tauto|auto]].
  intros Q. right. split; [tauto|]. unfold runCalibrationWorkflow in Q. destruct (construct w path) as [e1 o] eqn:Ec. destruct (construct_events w path e1 o Ec) as (d & -> & _ & Hd).
  destruct o as [s|]; [|injection Q as <- <-; left; eauto]. destruct (boardExtraction w L s) as [t|] eqn:Eb; [|injection Q as <- <-; left; eauto].
  destruct (calibrate_app w L s t) as [r|] eqn:Er; [|injection Q as <- <-; left; eauto]. unfold save_all in Q.
  destruct (all_pictures w L s r) as [[e2 made]|] eqn:Ep; cbn [fst snd] in Q; [|injection Q as <- <-; left; rewrite app_nil_r; eauto].
  injection Q as <- <-. right. exists s, t, r, d, e2, made. destruct (all_pictures_events _ _ _ _ _ _ Ep) as (Qu & ->).
  split; [split; [rewrite Ec; auto|auto|auto]|]. split; [auto|]. split; [auto|]. split; [auto|]. split; [rewrite folders_app, (proj1 (Hd s eq_refl)); auto|auto].
Qed.
