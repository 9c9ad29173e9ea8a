(** C70: where the images are stored has no influence on the calibration. *)
From Coq Require Import List ZArith Lia Reals String Sorting.Sorted.
From Verif Require Import SMap GraphModel DataModel DataSpec DataProofs DetectModel RansacModel GeomModel ObjectsModel GroupModel StageSpec
  PipelineModel HandEyeModel CameraModel ResidualModel FileModel IntrinsicModel WorkflowModel LogModel PropResidual RigSpec RigExample PropGeom PropRig UnseenProofs PropUnseen StoredSpec.
Import ListNotations.
Close Scope R_scope.
Open Scope nat_scope.

(** ** The tables *)
Lemma bare_find k m : mfind k (bare m) = option_map no_paths (mfind k m).
Proof. induction m as [|(a, f) m IH]; cbn [bare map mfind fst snd]; [reflexivity|]. destruct (kcmp k a); auto. Qed.
Lemma bare_mset k f m : bare (mset k f m) = mset k (no_paths f) (bare m).
Proof. induction m as [|(a, g) m IH]; cbn [bare map mset fst snd]; [reflexivity|]. destruct (kcmp k a); cbn [map fst snd]; [reflexivity|reflexivity|]. f_equal. exact IH. Qed.
Definition alike_tables (t t' : tables pt2) : Prop := four_bare t t' /\ t_boards t = t_boards t'.
Lemma bare_same_frame k f f' m m' : no_paths f = no_paths f' -> bare m = bare m' -> bare (mset k f m) = bare (mset k f' m').
Proof. intros E F. rewrite !bare_mset, E, F. reflexivity. Qed.
Lemma insert_moved t t' i j u u' : alike_tables t t' -> moved_image i j -> insertNewBoard t i = Some u -> insertNewBoard t' j = Some u' -> alike_tables u u'.
Proof.
  intros ((Qo & Qc & Qf & Qm) & Qb) (M1 & M2 & M3 & M4 & M5) E E'. unfold insertNewBoard in E, E'. assert (NO : new_obs i = new_obs j) by (unfold new_obs; rewrite M1, M2, M3, M4, M5; reflexivity).
  rewrite NO, M1, M2, M3, Qo, Qc, Qb, Qm in E. destruct (mfind (i_cam j) (t_cams t')) as [c|]; [|discriminate E]. destruct (mfind (i_board j) (t_boards t')) as [b|]; [|discriminate E].
  assert (F : option_map no_paths (mfind (i_frame j) (t_frames t)) = option_map no_paths (mfind (i_frame j) (t_frames t'))) by (rewrite <- !bare_find, Qf; reflexivity).
  destruct (mfind (i_frame j) (t_frames t)) as [f|], (mfind (i_frame j) (t_frames t')) as [f'|]; try discriminate F; destruct (mfind (i_cam j, i_frame j) (t_camobs t')) as [co|]; injection E as <-; injection E' as <-;
    (split; [split; [reflexivity|]; split; [reflexivity|]; split; [|reflexivity]; cbn [t_frames]; apply bare_same_frame; [|exact Qf]|reflexivity]).
  1, 2: injection F as F1 F2 F3 F4 F5; unfold no_paths, frame_set_path, frame_insertNewBoard, frame_insertNewCamObs; cbn [f_idx f_cams f_camobs f_boards f_obs f_paths]; rewrite F1, F2, F3, F4, F5; reflexivity.
  all: reflexivity.
Qed.
Lemma insert_all_moved l l' : Forall2 moved_image l l' -> forall t t' u u', alike_tables t t' -> insert_all t l = Some u -> insert_all t' l' = Some u' -> alike_tables u u'.
Proof.
  induction 1 as [|i j l l' M _ IH]; cbn [insert_all]; intros t t' u u' Q E E'; [injection E as <-; injection E' as <-; exact Q|].
  destruct (insertNewBoard t i) as [v|] eqn:F; [|discriminate E]. destruct (insertNewBoard t' j) as [v'|] eqn:F'; [|discriminate E']. apply (IH v v' u u'); auto. eapply insert_moved; eauto.
Qed.
(** ** The keypoints *)
Definition no_path (e : Z * string * Z * bobs pt2) : Z * string * Z * bobs pt2 := (fst (fst (fst e)), EmptyString, snd (fst e), snd e).
Lemma entries_bare (t t' : tables pt2) c : t_obs t = t_obs t' -> bare (t_frames t) = bare (t_frames t') -> t_boards t = t_boards t' -> map no_path (saved_entries t c) = map no_path (saved_entries t' c).
Proof.
  intros Eo Ef Eb. assert (G : forall u : tables pt2, map no_path (saved_entries u c) = saved_entries (mkT (t_obs u) (t_cams u) (t_boards u) (bare (t_frames u)) (t_camobs u)) c).
  { intros u. unfold saved_entries. cbn [t_obs t_boards t_frames]. induction (t_frames u) as [|(k, f) m IH]; cbn [flat_map bare map fst snd]; [reflexivity|]. rewrite map_app. f_equal; [|exact IH].
    clear IH. induction (t_boards u) as [|(b, x) bs IHb]; cbn [flat_map map]; [reflexivity|]. rewrite map_app, IHb. f_equal. rewrite map_map. apply map_ext. intros o. reflexivity. }
  rewrite !G. unfold saved_entries. cbn [t_obs t_boards t_frames]. rewrite Eo, Ef, Eb. reflexivity.
Qed.
Lemma keypoints_bare (t t' : tables pt2) : t_obs t = t_obs t' -> t_cams t = t_cams t' -> bare (t_frames t) = bare (t_frames t') -> t_boards t = t_boards t' ->
  map but_paths (saveDetectedKeypoints t) = map but_paths (saveDetectedKeypoints t').
Proof.
  intros Eo Ec Ef Eb. unfold saveDetectedKeypoints. rewrite !map_map, Ec. apply map_ext. intros (c, x). assert (E := entries_bare t t' c Eo Ef Eb).
  assert (P : forall {B} (g : Z * string * Z * bobs pt2 -> B), (forall e, g (no_path e) = g e) -> map g (saved_entries t c) = map g (saved_entries t' c)).
  { intros B g H. transitivity (map g (map no_path (saved_entries t c))); [rewrite map_map; apply map_ext; intros e; rewrite H; reflexivity|]. rewrite E, map_map. apply map_ext. exact H. }
  unfold but_paths. cbn [fst snd k_width k_height k_frames k_boards k_pts k_ids]. rewrite !(P _ (fun e => fst (fst (fst e)))), !(P _ (fun e => snd (fst e))), !(P _ (fun e => o_pts (snd e))), !(P _ (fun e => o_ids (snd e))) by (intros (((f, p), b), o); reflexivity). reflexivity.
Qed.
(** ** C70. Two lists of detections that differ in the files of the images only: one calibration succeeds exactly when the other
    does, and everything that is reported and saved is the same, except for the names of the image files among the keypoints. *)
Theorem C70_image_files_have_no_influence : forall accepts svd lr uq pick g0 solve models thresh it env pose0 calib2 fixi bpts nc nb ins ins' t t',
  Forall (known nc nb) ins -> Forall2 moved_image ins ins' -> insert_all (init_tables nc nb) ins = Some t -> insert_all (init_tables nc nb) ins' = Some t' ->
  forall src p0 gp0,
  match calibrate_logged accepts bpts models svd lr uq pick g0 solve thresh it env pose0 calib2 fixi src t p0 gp0,
        calibrate_logged accepts bpts models svd lr uq pick g0 solve thresh it env pose0 calib2 fixi src t' p0 gp0 with
  | Some r, Some r' => same_but_paths models bpts r r'
  | None, None => True
  | _, _ => False
  end.
Proof.
  intros accepts svd lr uq pick g0 solve models thresh it env pose0 calib2 fixi bpts nc nb ins ins' t t' K M E E' src p0 gp0.
  assert (K' : Forall (known nc nb) ins'). { clear -K M. induction M as [|i j l l' (M1 & _ & M3 & _) _ IH]; [constructor|]. inversion K; subst. constructor; auto. unfold known in *. rewrite <- M1, <- M3. assumption. }
  assert (AD := detected nc nb ins t K E). assert (AD' := detected nc nb ins' t' K' E').
  assert (AT : alike_tables t t') by (apply (insert_all_moved ins ins' M (init_tables nc nb) (init_tables nc nb) t t'); auto; repeat split). destruct AT as (FS & Eb).
  assert (X := calibrate_logged_like2 svd lr uq pick g0 solve models thresh it env pose0 calib2 fixi bpts bpts nc nb nb ins ins' t t' AD AD' FS (fun i _ => eq_refl) accepts src p0 gp0).
  destruct (calibrate_logged accepts bpts models svd lr uq pick g0 solve thresh it env pose0 calib2 fixi src t p0 gp0) as [r|], (calibrate_logged accepts bpts models svd lr uq pick g0 solve thresh it env pose0 calib2 fixi src t' p0 gp0) as [r'|]; cbn [orel] in X; auto.
  destruct (like2_most models bpts bpts ins t t' (fun i _ => eq_refl) r r' X) as (M1 & M2 & M3 & M4 & M5). destruct X as (L & RL & RL'). constructor; auto.
  destruct (lk_t _ _ _ L) as (L1 & L2 & L3 & L4 & _). apply keypoints_bare; auto. rewrite (rl_boards _ _ RL), (rl_boards _ _ RL'). exact Eb.
Qed.
Print Assumptions C70_image_files_have_no_influence.
(** The rig of two cameras with its images elsewhere. *)
Definition elsewhere (i : insertion pt2) : insertion pt2 := mkIns (i_cam i) (i_frame i) (i_board i) (i_pts i) (i_ids i) "b/c.jpg"%string.
Example C70_example : exists t t', Forall (known 2 1) rig_ins /\ Forall2 moved_image rig_ins (map elsewhere rig_ins) /\ rig_ins <> map elsewhere rig_ins /\
  insert_all (init_tables 2 1) rig_ins = Some t /\ insert_all (init_tables 2 1) (map elsewhere rig_ins) = Some t' /\
  saveDetectedKeypoints t <> saveDetectedKeypoints t' /\ map but_paths (saveDetectedKeypoints t) = map but_paths (saveDetectedKeypoints t').
Proof.
  assert (K' : Forall (known 2 1) (map elsewhere rig_ins)) by (repeat constructor; cbn; lia).
  assert (M : Forall2 moved_image rig_ins (map elsewhere rig_ins)) by (repeat constructor).
  destruct (insert_all_from_init 2 1 rig_ins rig_known) as (t & Et & _), (insert_all_from_init 2 1 (map elsewhere rig_ins) K') as (t' & Et' & _). exists t, t'.
  split; [apply rig_known|]. split; [exact M|]. split; [intros Q; apply (f_equal (map i_path)) in Q; discriminate Q|]. split; [exact Et|]. split; [exact Et'|]. split.
  - intros Q. apply (f_equal (map (fun e => k_paths (snd e)))) in Q. cbn in Et, Et'. injection Et as <-. injection Et' as <-. cbn in Q. discriminate Q.
  - assert (AT : alike_tables t t') by (apply (insert_all_moved _ _ M (init_tables 2 1) (init_tables 2 1) t t'); auto; repeat split). destruct AT as ((A & B & C & D) & F). apply keypoints_bare; auto.
Qed.
Print Assumptions C70_example.
