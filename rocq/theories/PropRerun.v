(** C60: calibrating again from the saved files.  Specification: AppSpec.v, RigSpec.v. *)
From Coq Require Import List ZArith Lia Reals Lra Relations Ascii String Bool Permutation FunctionalExtensionality.
From Verif Require Import SMap GraphModel GraphSpec DataModel DataSpec DataProofs PropData DetectModel DetectSpec RansacModel RansacSpec GeomModel GeomSpec
  ObjectsModel CameraModel ResidualModel ResidualSpec FileModel WorkflowModel RigSpec BoardModel InputModel InputSpec AppModel AppSpec Sizes LogModel LogProofs LogSizes AppProofs PropApp PropRig PropWorkflow StageSpec PropSaved RigExample AppExample PropWhole.
From Verif Require PropGeom.
Import ListNotations.
Close Scope R_scope.
Open Scope nat_scope.
Open Scope string_scope.

(** *** The same detections, in another order and from other images *)
Definition told (a b : list (insertion pt2)) : Prop := forall i, In i a -> exists j, In j b /\ i_cam j = i_cam i /\ i_frame j = i_frame i /\ i_board j = i_board i /\ i_pts j = i_pts i /\ i_ids j = i_ids i.
Lemma permuted_told a b : Permutation (map ins_says a) (map ins_says b) -> told a b.
Proof.
  intros P i Hi. apply (in_map ins_says) in Hi. apply (Permutation_in _ P) in Hi. apply in_map_iff in Hi as (j & E & Hj). exists j. split; [auto|]. unfold ins_says in E. injection E as -> -> -> -> ->. auto.
Qed.
Lemma told_sighted a b : told a b -> forall c f d k m, sighted a c f d k m -> sighted b c f d k m.
Proof. intros T c f d k m (i & j & Hi & <- & <- & <- & Hk & Hm). destruct (T i Hi) as (i' & Hi' & E1 & E2 & E3 & E4 & E5). exists i', j. rewrite E4, E5. auto 10. Qed.
Lemma mono_rt (R R' : Z -> Z -> Prop) : (forall x y, R x y -> R' x y) -> forall x y, clos_refl_trans Z R x y -> clos_refl_trans Z R' x y.
Proof. intros H x y C. induction C as [x y E| |x y z C1 I1 C2 I2]; [apply rt_step; auto|apply rt_refl|eapply rt_trans; eauto]. Qed.
Lemma told_together a b : told a b -> forall x y, boards_together a x y -> boards_together b x y.
Proof.
  intros T x y (i & j & Hi & Hj & <- & <- & Ec & Ef). destruct (T i Hi) as (i' & Hi' & A1 & A2 & A3 & _), (T j Hj) as (j' & Hj' & B1 & B2 & B3 & _). exists i', j'. rewrite A1, A2, A3, B1, B2, B3. auto 10.
Qed.
Lemma told_shares a b : told a b -> forall x y, shares a x y -> shares b x y.
Proof.
  intros T x y (i & j & Hi & Hj & <- & <- & Ef & C). destruct (T i Hi) as (i' & Hi' & A1 & A2 & A3 & _), (T j Hj) as (j' & Hj' & B1 & B2 & B3 & _). exists i', j'. rewrite A1, A2, A3, B1, B2, B3. 
  do 5 (split; [auto|]). eapply mono_rt; [apply told_together; eauto|auto].
Qed.
Lemma told_shares_in a b : told a b -> forall x y f, shares_in a x y f -> shares_in b x y f.
Proof.
  intros T x y f (i & j & Hi & Hj & <- & <- & Ef & Eg & C). destruct (T i Hi) as (i' & Hi' & A1 & A2 & A3 & _), (T j Hj) as (j' & Hj' & B1 & B2 & B3 & _). exists i', j'. rewrite A1, A2, A3, B1, B2, B3. 
  do 6 (split; [auto|]). eapply mono_rt; [apply told_together; eauto|auto].
Qed.
Lemma told_saw a b : told a b -> forall c, saw a c -> saw b c.
Proof. intros T c (i & Hi & <-). destruct (T i Hi) as (j & Hj & E & _). exists j. auto. Qed.
Lemma told_view a b : told a b -> forall x y, same_view a x y -> same_view b x y.
Proof. intros T x y. apply mono_rt. apply told_shares; auto. Qed.
Lemma told_often m a b : told a b -> told b a -> forall x y, often_at_once m a x y -> often_at_once m b x y.
Proof.
  intros T T' x y (u & v & fs & N & H & L). exists u, v, fs. split; [auto|]. split.
  - intros f Hf. destruct (H f Hf) as (i & j & Hi & Hj & E1 & E2 & E3 & E4 & E5 & E6).
    destruct (T i Hi) as (i' & Hi' & A1 & A2 & A3 & _), (T j Hj) as (j' & Hj' & B1 & B2 & B3 & _). exists i', j'. rewrite A1, A2, A3, B1, B2, B3. auto 10.
  - intros l l' N1 N2 H1 H2. apply L; auto; intros z Hz; [destruct (H1 z Hz)|destruct (H2 z Hz)]; split; try (eapply told_saw; eauto); eapply told_view; eauto.
Qed.
Lemma told_related f W a b : told a b -> told b a -> related_cameras f W a -> related_cameras f W b.
Proof.
  intros T T' R. assert (Ne : a <> [] -> b <> []). { intros N ->. destruct a as [|i a]; [auto|]. destruct (T i (or_introl eq_refl)) as (j & [] & _). }
  destruct R as [(N & C)|(m & L4 & (N & J) & TH)]; [left|right].
  - split; [auto|]. intros i j Hi Hj. destruct (T' i Hi) as (i' & Hi' & <- & _), (T' j Hj) as (j' & Hj' & <- & _). eapply mono_rt; [apply told_shares; eauto|auto].
  - exists m. split; [auto|]. split; [split; [auto|]|].
    + intros c d S1 S2 NS. destruct (J c d) as (c' & d' & V1 & V2 & O); try (eapply told_saw; eauto).
      * intros Q. apply NS. eapply told_view; eauto.
      * exists c', d'. split; [eapply told_view; eauto|]. split; [eapply told_view; eauto|eapply told_often; eauto].
    + intros c d x y fs S1 S2 NS SF LF A. apply TH; auto.
      * eapply told_saw; eauto.
      * eapply told_saw; eauto.
      * intros Q. apply NS. eapply told_view; eauto.
      * intros g Hg. destruct (A g Hg) as (i & j & Hi & Hj & E1 & E2 & E3). destruct (T' i Hi) as (i' & Hi' & A1 & A2 & A3 & _), (T' j Hj) as (j' & Hj' & B1 & B2 & B3 & _).
        exists i', j'. rewrite A1, A2, B1, B2. do 4 (split; [auto|]). intros Q. apply E3. eapply told_view; eauto.
Qed.
Lemma same_scene L L2 s s2 W a b : Permutation (map ins_says b) (map ins_says a) -> su_nc s2 = su_nc s -> (forall c, su_models s2 c = su_models s c) -> su_boards s2 = su_boards s ->
  no_tiny_angles (lb_lr L2) W -> related_cameras (lb_handeye L2 (cf_he (su_conf s2))) W a -> (forall c n, exact_undistort (su_pts s) W a (lb_env L2 c n)) -> exact_scene L s W a -> exact_scene L2 s2 W b.
Proof.
  intros P En Em Eb Ta Rl Un [Sm Sr Se Sg Sa Sc Sd Su]. assert (T := permuted_told _ _ P). assert (T' := permuted_told _ _ (Permutation_sym P)).
  assert (Ep : su_pts s2 = su_pts s) by (unfold su_pts; rewrite Eb; reflexivity). constructor.
  - intros c. rewrite Em. apply Sm.
  - exact Sr.
  - rewrite Ep. destruct Se as [E1 E2 E3]. constructor.
    + replace (map _ b) with (map fst (map ins_says b)) by (rewrite map_map; reflexivity). eapply Permutation_NoDup; [apply Permutation_map; apply Permutation_sym; exact P|]. rewrite map_map. exact E1.
    + intros i Hi. destruct (T i Hi) as (j & Hj & _ & _ & _ & F1 & F2). rewrite <- F1, <- F2. auto.
    + intros c f d k m S. apply E3. eapply told_sighted; eauto.
  - rewrite Ep. intros c f l Hl Nl S. apply (Sg c f l Hl Nl). intros d k H. destruct (S d k H) as (m & Hm). exists m. eapply told_sighted; eauto.
  - exact Ta.
  - eapply told_related; eauto.
  - rewrite En. destruct Sd as [H|[H|H]]; [auto|auto|right; right]. intros ref c S1 S2 S3 V3 Nc. destruct (H ref c) as (f & f' & Nf & A & B); auto.
    + eapply told_saw; eauto.
    + intros d Hd Vd. apply S2; [eapply told_saw; [|exact Hd]; auto|eapply told_view; [|exact Vd]; auto].
    + eapply told_saw; eauto.
    + eapply told_view; eauto.
    + exists f, f'. split; [auto|]. split; (eapply told_shares_in; [|eauto]; auto).
  - rewrite Ep. intros c n d f bb k m q M S. apply (Un c n d f bb k m q M). eapply told_sighted; eauto.
Qed.
Lemma first_entry (l : list (Z * cam_rec)) c : In c (map fst l) -> exists e, entry l c = Some e /\ In (c, e) l.
Proof.
  unfold entry. intros H. destruct (find (fun e => Z.eqb (fst e) c) l) as [(c', e)|] eqn:F.
  - apply List.find_some in F as (Hi & E). apply Z.eqb_eq in E. cbn [fst] in E. subst c'. exists e. auto.
  - apply in_map_iff in H as ((c', e) & Ec & Hi). cbn [fst] in Ec. subst c'. apply (List.find_none _ _ F) in Hi. cbn [fst] in Hi. rewrite Z.eqb_refl in Hi. discriminate Hi.
Qed.

(** After a run whose results are those of the rig, a run from the saved files gives them again. *)
Theorem C60_saved_files_can_be_calibrated_again : forall L s W ins all w2 L2 program path rest s2 kp k cp cams,
  exact_scene L s W ins -> true_results (lb_lr L) s W ins all -> (forall c, (0 <= c < Z.of_nat (su_nc s))%Z -> saw ins c) ->
  In (kp, DKeypoints k) all -> In (cp, DCameras cams) all ->
  sound_libs L2 -> sound_world w2 -> svd_ok (lb_svd L2) -> (forall c n, exact_pnp (lb_lr L2) (lb_env L2 c n)) ->
  no_tiny_angles (lb_lr L2) W -> related_cameras (lb_handeye L2 (cf_he (su_conf s2))) W ins -> (forall c n, exact_undistort (su_pts s) W ins (lb_env L2 c n)) ->
  w_exists w2 [] path = true -> yml_path path -> snd (construct w2 path) = Some s2 -> rerun w2 s s2 k cams ->
  (0 < cf_ransac (su_conf s2))%R -> (0 < cf_iterations (su_conf s2))%Z ->
  exists es t ins2 r all2, main w2 L2 (program :: path :: rest) = (es, Returned 0) /\ entering w2 L2 s2 ins2 /\ completed w2 L2 path s2 t r /\
    Permutation (map ins_says ins2) (map ins_says ins) /\
    all_results s2 r all2 /\ files es = filter (fun f => w_open w2 (folders es) (fst f)) all2 /\ true_results (lb_lr L2) s2 W ins2 all2 /\
    forall p l, In (p, DCameras l) all2 -> same_cameras cams l.
Proof.
  intros L s W ins all w2 L2 program path rest s2 kp k cp cams ES TR Saw Hk Hc SL SW SO PN Ta Rl Un Ex Ym C1 [Rn Rm Rb (Q1 & Q2) Re Rk (P1 & P2 & P3) Rp Rc] Th It.
  destruct (tr_keypoints _ _ _ _ _ TR kp k Hk Saw) as (t & El & P).
  assert (LK : load_keypoints (w_exists w2 (su_made s2)) (su_conf s2) = true).
  { unfold load_keypoints. apply String.eqb_neq in Q1, Q2. rewrite Q1, Q2, Re. reflexivity. }
  assert (C2 : boardExtraction w2 L2 s2 = Some t). { unfold boardExtraction. rewrite LK, Rk, Rn, Rb, El. reflexivity. }
  destruct (extraction w2 L2 s2 t (sl_threads _ SL) C2) as (ins' & t0 & En & Kn & Ei & (cs & Et & A & _)).
  destruct (insert_all_from_init (su_nc s2) (List.length (su_boards s2)) ins' Kn) as (t'' & Et' & Hh' & _). rewrite Ei in Et'. injection Et' as <-.
  assert (Eq : all_said t = map ins_says ins').
  { rewrite Et. unfold all_said. cbn [with_cams t_obs]. rewrite (hd_obs _ _ _ _ Hh'), dense_vals, map_map. reflexivity. }
  rewrite Eq in P.
  assert (UE : forall x, entering w2 L2 s2 x -> x = ins').
  { intros x Hx. unfold entering in Hx, En. rewrite LK in Hx, En. congruence. }
  assert (ES2 : forall x, entering w2 L2 s2 x -> exact_scene L2 s2 W x).
  { intros x Hx. rewrite (UE x Hx). apply (same_scene L L2 s s2 W ins ins'); auto. }
  destruct (tr_cameras _ _ _ _ _ TR cp cams Hc) as (Nd & Kc & ref & Sref & Mref & V).
  assert (TP : true_parameters w2 s2 W).
  { do 4 (split; [auto|]). rewrite Rc. intros c Hc'. rewrite Rn in Hc'. destruct (first_entry cams c) as (e & E1 & E2); [apply Kc; auto|]. exists e. split; [exact E1|]. apply (V c e E2). }
  destruct (C59_exact_data_exact_files w2 L2 program path rest s2 t W SL SW SO PN Ex Ym C1 C2 Th It TP ES2) as (es & ins2 & r & all2 & Rm2 & En2 & Cm & Ar & Ef & Tr).
  rewrite (UE _ En2) in *. exists es, t, ins', r, all2. do 7 (split; [auto|]).
  intros p l Hl. destruct (tr_cameras _ _ _ _ _ Tr p l Hl) as (_ & Kl & ref' & Sref' & Mref' & V').
  assert (T := permuted_told _ _ P). assert (T' := permuted_told _ _ (Permutation_sym P)).
  assert (SS : forall c, saw ins' c <-> saw ins c) by (intros c; split; eapply told_saw; eauto).
  assert (ref' = ref).
  { assert (ref' <= ref)%Z by (apply Mref'; apply SS; auto). assert (ref <= ref')%Z by (apply Mref; apply SS; auto). lia. } subst ref'.
  split; [intros c; rewrite Kl, Kc; apply SS|]. intros c e e' He He'. destruct (V c e He) as (A1 & A2 & A3), (V' c e' He') as (B1 & B2 & B3). rewrite <- A1 in B1. injection B1 as B1 B1'. rewrite A2, A3, B2, B3. auto.
Qed.
Print Assumptions C60_saved_files_can_be_calibrated_again.

(** Two runs of the application: the second reads the keypoints and the camera parameters
    that the first has written. *)
Theorem C60_running_again : forall w L program path rest s t W w2 L2 program2 path2 rest2 s2 kp k cp cams,
  sound_libs L -> sound_world w -> svd_ok (lb_svd L) -> (forall c n, exact_pnp (lb_lr L) (lb_env L c n)) ->
  w_exists w [] path = true -> yml_path path -> snd (construct w path) = Some s -> boardExtraction w L s = Some t ->
  (0 < cf_ransac (su_conf s))%R -> (0 < cf_iterations (su_conf s))%Z ->
  (forall ins, entering w L s ins -> exact_scene L s W ins /\ (forall c, (0 <= c < Z.of_nat (su_nc s))%Z -> saw ins c) /\
     related_cameras (lb_handeye L2 (cf_he (su_conf s2))) W ins /\ forall c n, exact_undistort (su_pts s) W ins (lb_env L2 c n)) ->
  (true_parameters w s W \/ forall ins, entering w L s ins -> calibrates_truly L s W ins t) ->
  sound_libs L2 -> sound_world w2 -> svd_ok (lb_svd L2) -> (forall c n, exact_pnp (lb_lr L2) (lb_env L2 c n)) -> no_tiny_angles (lb_lr L2) W ->
  In (kp, DKeypoints k) (files (fst (main w L (program :: path :: rest)))) -> In (cp, DCameras cams) (files (fst (main w L (program :: path :: rest)))) ->
  w_exists w2 [] path2 = true -> yml_path path2 -> snd (construct w2 path2) = Some s2 -> rerun w2 s s2 k cams ->
  (0 < cf_ransac (su_conf s2))%R -> (0 < cf_iterations (su_conf s2))%Z ->
  snd (main w L (program :: path :: rest)) = Returned 0 /\ snd (main w2 L2 (program2 :: path2 :: rest2)) = Returned 0 /\
  forall p l, In (p, DCameras l) (files (fst (main w2 L2 (program2 :: path2 :: rest2)))) -> same_cameras cams l.
Proof.
  intros w L program path rest s t W w2 L2 program2 path2 rest2 s2 kp k cp cams SL SW SO PN Ex Ym C1 C2 Th It ES Src SL2 SW2 SO2 PN2 Ta Hk Hc Ex2 Ym2 C12 RR Th2 It2.
  assert (R1 : exists es ins r all, main w L (program :: path :: rest) = (es, Returned 0) /\ entering w L s ins /\ completed w L path s t r /\
    all_results s r all /\ files es = filter (fun f => w_open w (folders es) (fst f)) all /\ true_results (lb_lr L) s W ins all).
  { destruct Src as [TP|CT].
    - apply C59_exact_data_exact_files; auto. intros x Hx. apply (ES x Hx).
    - apply C59_calibrating_the_cameras; auto. intros x Hx. split; [apply (ES x Hx)|auto]. }
  destruct R1 as (es & ins & r & all & Rm & En & _ & _ & Ef & Tr). rewrite Rm in Hk, Hc |- *. cbn [fst snd] in Hk, Hc |- *. rewrite Ef in Hk, Hc. apply filter_In in Hk as (Hk & _), Hc as (Hc & _).
  destruct (ES ins En) as (E1 & E2 & E4 & E3).
  destruct (C60_saved_files_can_be_calibrated_again L s W ins all w2 L2 program2 path2 rest2 s2 kp k cp cams E1 Tr E2 Hk Hc SL2 SW2 SO2 PN2 Ta E4 E3 Ex2 Ym2 C12 RR Th2 It2)
    as (es2 & t2 & ins2 & r2 & all2 & Rm2 & _ & _ & _ & _ & Ef2 & _ & SC).
  rewrite Rm2. cbn [fst snd]. do 2 (split; [auto|]). intros p l H. rewrite Ef2 in H. apply filter_In in H as (H & _). eauto.
Qed.
Print Assumptions C60_running_again.

(** *** After any completed run *)
Lemma kept w L path s t r : sound_libs L -> sound_world w -> sound_keypoints w L s -> completed w L path s t r ->
  exists ins t0, entering w L s ins /\ Forall (known (su_nc s) (List.length (su_boards s))) ins /\ insert_all (init_tables (su_nc s) (List.length (su_boards s))) ins = Some t0 /\ refined t0 (ru_t r).
Proof.
  intros [CE Hh LO Fair Rc Sc] SW SK [C1 C2 C3]. destruct (extraction w L s t Sc C2) as (ins & t0 & En & Kn & Ei & Sz). exists ins, t0. do 3 (split; [auto|]).
  assert (DW := entering_well w L s ins SW SK En).
  unfold calibrate_app in C3. apply calibrate_logged_run in C3. destruct (calibrate_sized _ _ _ _ _ _ _ _ _ _ _ _ _ _ _ _ _ _ _ _ Sz C3) as (i & r0 & cs & _ & Er0 & -> & Ec).
  destruct (C51_completed_runs_are_consistent _ _ _ _ _ _ _ _ _ _ _ _ _ _ CE Hh LO Fair (Rc _) _ _ _ _ Kn DW Ei _ _ _ _ Er0) as ((_ & t1 & E1 & RL) & _).
  assert (t1 = t0) by congruence. subst t1. destruct (relabelled_refined _ _ RL) as [A1 A2 A3 A4]. constructor; auto. cbn [run_cams ru_t with_cams t_cams]. rewrite <- Ec. apply (sized_keys _ _ Sz).
Qed.
Lemma ends_early w L program path rest s : w_exists w [] path = true -> yml_path path -> snd (construct w path) = Some s ->
  (forall t, boardExtraction w L s = Some t -> calibrate_app w L s t = None) -> stops_early w L (program :: path :: rest).
Proof.
  intros Ex Ym C1 H. destruct (main w L (program :: path :: rest)) as [es st] eqn:E. unfold stops_early. rewrite E. cbn [fst snd].
  destruct (main_normal _ _ _ _ _ _ _ E) as [(N & _)|(_ & [(made & -> & ->)|(s' & t & r & d & e2 & made & [D1 D2 D3] & _)])].
  - exfalso. apply N. auto.
  - split; [auto|]. intros e He. apply in_map_iff in He as (p & <- & _). eauto.
  - exfalso. assert (s' = s) by congruence. subst s'. rewrite (H t D2) in D3. discriminate D3.
Qed.
(** A second run, with the keypoints of any completed run, starts from all the corners that were
    left by it if every camera detected a board; a board with one to three corners left, or a
    camera that detected no board, makes it stop. *)
Theorem C60_what_the_second_run_starts_from : forall w L path s t r w2 L2 program2 path2 rest2 s2 kp k cams,
  sound_libs L -> sound_world w -> sound_keypoints w L s -> completed w L path s t r -> result s r kp (DKeypoints k) ->
  sound_libs L2 -> w_exists w2 [] path2 = true -> yml_path path2 -> snd (construct w2 path2) = Some s2 -> rerun w2 s s2 k cams ->
  ((forall ins c, entering w L s ins -> (0 <= c < Z.of_nat (su_nc s))%Z -> saw ins c) ->
     exists t2, boardExtraction w2 L2 s2 = Some t2 /\ Permutation (all_said t2) (all_said (ru_t r)) /\
       ((0 < cf_iterations (su_conf s2))%Z -> (forall c, su_models s2 c = 0 \/ su_models s2 c = 1)%Z ->
        (exists o, In o (mvals (t_obs (ru_t r))) /\ List.length (o_pts o) < 4) -> stops_early w2 L2 (program2 :: path2 :: rest2))) /\
  (forall c, (0 <= c < Z.of_nat (su_nc s))%Z -> (forall ins, entering w L s ins -> ~ saw ins c) -> stops_early w2 L2 (program2 :: path2 :: rest2)).
Proof.
  intros w L path s t r w2 L2 program2 path2 rest2 s2 kp k cams SL SW SK CM RK SL2 Ex Ym C1 [Rn Rm Rb (Q1 & Q2) Re Rk _ _ _].
  assert (Ek : k = saveDetectedKeypoints (ru_t r)) by (inversion RK; reflexivity). clear RK. subst k.
  destruct (kept _ _ _ _ _ _ SL SW SK CM) as (ins & t0 & En & Kn & Ei & Rf).
  assert (LK : load_keypoints (w_exists w2 (su_made s2)) (su_conf s2) = true).
  { unfold load_keypoints. apply String.eqb_neq in Q1, Q2. rewrite Q1, Q2, Re. reflexivity. }
  assert (BE : boardExtraction w2 L2 s2 = match loadDetectedKeypoints (saveDetectedKeypoints (ru_t r)) (su_nc s) (init_tables (su_nc s) (List.length (su_boards s))) with Loaded t => Some t | _ => None end).
  { unfold boardExtraction. rewrite LK, Ek, Rn, Rb. reflexivity. }
  split.
  - intros Saw. destruct (C11_save_then_load _ _ _ ins t0 (ru_t r) Kn Ei Rf (fun c Hc => Saw ins c En Hc)) as (t2 & El & _ & P & _). rewrite El in BE. exists t2. split; [auto|]. split; [auto|].
    intros It Md (o & Ho & Lo). apply (ends_early w2 L2 program2 path2 rest2 s2 Ex Ym C1). intros t' E'. rewrite BE in E'. injection E' as <-. unfold calibrate_app.
    match goal with |- ?x = None => destruct x as [r'|] eqn:E'; [exfalso|reflexivity] end. apply calibrate_logged_run in E'.
    destruct (calibrate_tables _ _ _ _ _ _ _ _ _ _ _ _ _ _ _ _ _ _ _ E') as (i & ps & _ & Ep).
    rewrite too_few_boards in Ep; [discriminate Ep|apply (sl_fair _ SL2)|intros c; apply Md|auto|].
    assert (Q : In (obs_says o) (all_said t2)) by (apply (Permutation_in _ (Permutation_sym P)); apply in_map; auto).
    apply in_map_iff in Q as (o' & Q & Ho'). exists o'. split; [auto|]. unfold obs_says in Q. injection Q as _ _ _ Q _. rewrite Q. auto.
  - intros c Hc N. apply (ends_early w2 L2 program2 path2 rest2 s2 Ex Ym C1). intros t' E'. rewrite BE in E'.
    rewrite (C11_camera_without_board_fails_assertion _ _ _ ins t0 (ru_t r) c Kn Ei Rf Hc) in E'; [discriminate E'|]. intros i Hi Ec. apply (N ins En). exists i. auto.
Qed.
Print Assumptions C60_what_the_second_run_starts_from.

(** *** The assumptions are met: the grid of AppExample.v, twice *)
Definition again_config : cfile :=
  [ ("number_camera", NInt 2); ("number_board", NInt 1); ("number_x_square", NInt 4); ("number_y_square", NInt 4); ("square_size", NInt 1); ("length_square", NInt 2); ("length_marker", NInt 1);
    ("distortion_model", NInt 0); ("ransac_threshold", NInt 1); ("number_iterations", NInt 1000); ("save_path", NStr "again");
    ("cam_params_path", NStr "out/calibrated_cameras_data.yml"); ("keypoints_path", NStr "out/detected_keypoints_data.yml") ].
Definition after_first (made : list string) (p : string) : bool :=
  existsb (String.eqb p) ("conf.yml" :: "out/calibrated_cameras_data.yml" :: "out/detected_keypoints_data.yml" :: made).
Definition again_world (k : smap Z (kpnode pt2)) (cams : list (Z * cam_rec)) : world :=
  mkWorld after_first (fun made p => after_first made (folder_of p)) (fun _ _ => true)
    (fun _ => again_config) (fun _ => k) (fun _ => cams) (fun _ => []) (fun _ => mkCont false (mkImg 0 0 (fun _ _ => 0%R)) (fun _ => ([], []))).
Example C60_example : exists svd i0 k cams p l,
  In ("out/detected_keypoints_data.yml", DKeypoints k) (files (fst (main (grid_world "out" "" "cams.yml") (grid_libs svd i0) ["calibrate"; "conf.yml"]))) /\
  In ("out/calibrated_cameras_data.yml", DCameras cams) (files (fst (main (grid_world "out" "" "cams.yml") (grid_libs svd i0) ["calibrate"; "conf.yml"]))) /\
  snd (main (again_world k cams) (grid_libs svd i0) ["calibrate"; "conf.yml"]) = Returned 0 /\
  In (p, DCameras l) (files (fst (main (again_world k cams) (grid_libs svd i0) ["calibrate"; "conf.yml"]))) /\ In 0%Z (map fst l) /\ In 1%Z (map fst l) /\ same_cameras cams l.
Proof.
  destruct PropGeom.C20_svd_exists as (svd & SO). set (i0 := I9 0 0 0 0 0 0 0 0 0). exists svd, i0. set (L := grid_libs svd i0).
  destruct (grid_setup "out" "" "cams.yml") as (B & made & C1 & HB & Em). set (s := grid_set "out" "" "cams.yml" B made) in *.
  destruct (grid_run svd i0 "out" "" "cams.yml" SO (or_introl eq_refl)) as (s' & es & ins & r & all & C1' & Ec & Rm & En & Ar & Ef & Tr & Fo).
  rewrite C1 in C1'. injection C1' as <-. change (folders es = ["out"]) in Fo. assert (N := all_names _ _ _ Ar). rewrite Ec in N. cbn in N. fold s in Tr, Ar, En.
  assert (Eins : ins = grid_ins) by (apply (grid_entering "out" "" "cams.yml" B made svd i0); exact En). 
  assert (K := proj1 Ar). destruct all as [|(p0, d0) [|(p1, d1) [|(p2, d2) [|(p3, d3) [|(p4, d4) [|f l]]]]]]; try discriminate N. injection N as -> -> -> -> ->.
  cbn [map snd] in K. destruct d0 as [cams| | | |]; try discriminate K. destruct d4 as [| | | |k]; try discriminate K. exists k, cams.
  fold L in Rm. rewrite Rm. cbn [fst]. rewrite Ef, Fo. 
  assert (C2 : exists Bb made2, snd (construct (again_world k cams) "conf.yml") = Some (mkSetup (read_config again_config) 2 [Bb] made2) /\ Bb = B /\ made2 = ["again"]).
  { clear -C1. eexists. eexists. split; [apply construct_ok; [reflexivity|reflexivity|reflexivity|apply small_all; repeat constructor|reflexivity]|]. split; [|reflexivity]. apply construct_boards in C1. cbn in C1. injection C1 as <-. reflexivity. }
  destruct C2 as (Bb & made2 & C2 & -> & ->). set (s2 := mkSetup (read_config again_config) 2 [B] ["again"]) in *.
  assert (RR : rerun (again_world k cams) s s2 k cams).
  { constructor; try reflexivity; cbn; [split; discriminate|split; [discriminate|split; [discriminate|]]]. apply yml_path_spec. split; reflexivity. }
  assert (GS : exact_scene L s two_rig ins) by (apply (grid_scene "out" "" "cams.yml" B made HB svd i0); exact En).
  assert (SW : sound_world (again_world k cams)). { constructor; intros; cbn; auto. }
  destruct (C60_saved_files_can_be_calibrated_again L s two_rig ins _ (again_world k cams) L "calibrate" "conf.yml" [] s2 "out/detected_keypoints_data.yml" k "out/calibrated_cameras_data.yml" cams GS Tr) as (es2 & t2 & ins2 & r2 & all2 & Rm2 & En2 & Cm2 & P2 & Ar2 & Ef2 & Tr2 & SC); auto.
  - intros c Hc. change (Z.of_nat (su_nc s)) with 2%Z in Hc. assert (D : c = 0%Z \/ c = 1%Z) by lia. subst ins. destruct D as [-> | ->]; eexists; (split; [|]); [left; reflexivity|reflexivity|right; right; left; reflexivity|reflexivity].
  - do 4 right. left. reflexivity.
  - left. reflexivity.
  - apply grid_libs_sound.
  - intros; apply ideal_pnp.
  - apply (es_angles _ _ _ _ GS).
  - left. rewrite Eins. apply grid_connected.
  - apply (es_undistort _ _ _ _ GS).
  - apply yml_path_spec. split; reflexivity.
  - cbn. lra.
  - cbn. lia.
  - assert (F2 : folders es2 = ["again"]).
    { assert (F := no_pictures (again_world k cams) L "calibrate" "conf.yml" [] s2 t2 r2 Cm2). rewrite Rm2 in F. cbn [fst] in F. apply F; [reflexivity|apply yml_path_spec; split; reflexivity|cbn; discriminate|cbn; discriminate]. }
    assert (N2 := all_names _ _ _ Ar2). cbn in N2. assert (K2 := proj1 Ar2).
    destruct all2 as [|(p0, d0) rest2]; [discriminate N2|]. injection N2 as -> N2. cbn [map snd] in K2. destruct d0 as [l| | | |]; try discriminate K2. exists "again/calibrated_cameras_data.yml", l.
    split; [cbn; auto 10|]. split; [cbn; auto 10|]. rewrite Rm2. cbn [fst snd]. split; [reflexivity|]. split; [rewrite Ef2, F2; left; reflexivity|].
    assert (SC' := SC _ l (or_introl eq_refl)). destruct (tr_cameras _ _ _ _ _ Tr _ cams (or_introl eq_refl)) as (_ & Kc & _). 
    split; [|split; [|exact SC']]; apply (proj1 SC'); apply Kc; subst ins; eexists; (split; [|]); [left; reflexivity|reflexivity|right; right; left; reflexivity|reflexivity].
Qed.
