(** C69: boards that no image shows have no influence on the calibration. *)
From Coq Require Import List ZArith Lia Reals Sorting.Sorted.
From Verif Require PropHandEye.
From Verif Require Import SMap GraphModel DataModel DataSpec DataProofs DetectModel DetectProofs RansacModel GeomModel ChainModel ChainCam ObjectsModel GroupModel StageModel StageSpec StageProofs
  PipelineModel HandEyeModel CameraModel ResidualModel FileModel IntrinsicModel GroupAll WorkflowModel LogModel EstimateAll PropResidual RigSpec RigExample PropGeom PropRig UnseenSpec UnseenProofs.
Import ListNotations.
Close Scope R_scope.
Open Scope nat_scope.

(** ** The tables *)
Definition four_same (t t' : tables pt2) : Prop := t_obs t = t_obs t' /\ t_cams t = t_cams t' /\ t_frames t = t_frames t' /\ t_camobs t = t_camobs t'.
Lemma insert_same ins : forall t t' u u', four_same t t' -> insert_all t ins = Some u -> insert_all t' ins = Some u' -> four_same u u'.
Proof.
  induction ins as [|i ins IH]; cbn [insert_all]; intros t t' u u' Q E E'; [injection E as <-; injection E' as <-; exact Q|].
  destruct (insertNewBoard t i) as [v|] eqn:F; [|discriminate E]. destruct (insertNewBoard t' i) as [v'|] eqn:F'; [|discriminate E']. apply (IH v v' u u'); auto.
  destruct Q as (Qo & Qc & Qf & Qm). unfold insertNewBoard in F, F'. rewrite Qo, Qc, Qf, Qm in F. destruct (mfind (i_cam i) (t_cams t')) as [c|]; [|discriminate F].
  destruct (mfind (i_board i) (t_boards t)) as [b|]; [|discriminate F]. destruct (mfind (i_board i) (t_boards t')) as [b'|]; [|discriminate F'].
  destruct (mfind (i_frame i) (t_frames t')) as [f|]; destruct (mfind (i_cam i, i_frame i) (t_camobs t')) as [co|]; injection F as <-; injection F' as <-; repeat split.
Qed.
Definition four_bare (t t' : tables pt2) : Prop := t_obs t = t_obs t' /\ t_cams t = t_cams t' /\ bare (t_frames t) = bare (t_frames t') /\ t_camobs t = t_camobs t'.
Lemma four_same_bare t t' : four_same t t' -> four_bare t t'.
Proof. intros (A & B & C & D). do 2 (split; [assumption|]). split; [rewrite C; reflexivity|assumption]. Qed.
Lemma tables_same nc nb nb' ins ins' t t' : after_detection nc nb ins t -> after_detection nc nb' ins' t' -> four_bare t t' -> same_seen t t'.
Proof.
  intros AD AD' (A & B & C & D). do 4 (split; [assumption|]).
  destruct (observed_boards_ok nc nb ins t AD) as (S1 & O1), (observed_boards_ok nc nb' ins' t' AD') as (S2 & O2).
  apply PropHandEye.SS_same; auto. intros b. rewrite O1, O2. unfold obs_at. rewrite A. reflexivity.
Qed.
Lemma detected nc nb (ins : list (insertion pt2)) t : Forall (known nc nb) ins -> insert_all (init_tables nc nb) ins = Some t -> after_detection nc nb ins t.
Proof. intros K E. split; [auto|]. exists t. split; [auto|constructor; auto]. Qed.
Lemma relabelled_after nc nb (ins : list (insertion pt2)) t u : after_detection nc nb ins t -> relabelled t u -> after_detection nc nb ins u.
Proof. intros (K & t0 & E & [A1 A2 A3 A4 A5]) [B1 B2 B3 B4 B5]. split; [auto|]. exists t0. split; [auto|]. constructor; congruence. Qed.
Lemma flat_map_more {B} (f : Z -> list B) nb : forall m, (forall b, (Z.of_nat nb <= b)%Z -> f b = []) -> nb <= m -> flat_map f (map Z.of_nat (seq 0 m)) = flat_map f (map Z.of_nat (seq 0 nb)).
Proof.
  intros m H L. replace m with (nb + (m - nb)) by lia. rewrite seq_app, map_app, flat_map_app, <- app_nil_r. f_equal.
  assert (G : forall l, (forall x, In x l -> nb <= x) -> flat_map f (map Z.of_nat l) = []).
  { intros l. induction l as [|x l IH]; intros G; cbn [map flat_map]; [reflexivity|]. rewrite H by (assert (X := G x (or_introl eq_refl)); lia). apply IH. intros y Hy. apply G. right. exact Hy. }
  apply G. intros x Hx. apply in_seq in Hx. lia.
Qed.
(** the keypoints that are saved *)
Lemma keys_flat_map {V B} (f : Z -> list B) (m : smap Z V) : flat_map (fun '(b, _) => f b) m = flat_map f (mkeys m).
Proof. induction m as [|(b, v) m IH]; cbn [flat_map mkeys map fst]; [reflexivity|]. rewrite IH. reflexivity. Qed.
Lemma same_keypoints (t t' : tables pt2) nb nb' : four_same t t' -> mkeys (t_boards t) = map Z.of_nat (seq 0 nb) -> mkeys (t_boards t') = map Z.of_nat (seq 0 nb') ->
  (forall o, In o (mvals (t_obs t)) -> (o_board o < Z.of_nat nb)%Z /\ (o_board o < Z.of_nat nb')%Z) -> saveDetectedKeypoints t = saveDetectedKeypoints t'.
Proof.
  intros (Qo & Qc & Qf & Qm) K K' H. unfold saveDetectedKeypoints. rewrite <- Qc. apply map_ext. intros (cam, c).
  assert (E : saved_entries t cam = saved_entries t' cam); [|rewrite E; reflexivity].
  unfold saved_entries. rewrite <- Qf, <- Qo. apply flat_map_ext. intros (k, fr). rewrite !keys_flat_map, K, K'.
  set (f := fun b => map _ _).
  assert (Z : forall b, (Z.of_nat (Nat.min nb nb') <= b)%Z -> f b = []).
  { intros b Hb. unfold f. replace (filter _ (mvals (t_obs t))) with (@nil (bobs pt2)); [reflexivity|]. symmetry. 
    assert (G : forall l, (forall o, In o l -> In o (mvals (t_obs t))) -> filter (fun o => (Z.eqb cam (o_cam o) && Z.eqb (f_idx fr) (o_frame o) && Z.eqb b (o_board o))%bool) l = []).
    { intros l. induction l as [|o l IH]; intros G; cbn [filter]; [reflexivity|]. destruct (Z.eqb_spec b (o_board o)) as [-> |_]; [destruct (H o (G o (or_introl eq_refl))); lia|].
      rewrite Bool.andb_false_r. apply IH. intros o' Ho. apply G. right. exact Ho. }
    apply G. auto. }
  rewrite (flat_map_more f (Nat.min nb nb') nb Z), (flat_map_more f (Nat.min nb nb') nb' Z) by lia. reflexivity.
Qed.

(** ** The calibration *)
Section Calibration.
Variables (svd : (nat -> nat -> R) -> quat) (lr : mat3 -> vec3) (uq : bool) (pick : dstate -> nat) (g0 : graph).
Variables (solve : list block -> params -> params) (models : Z -> Z) (thresh : R) (it : Z).
Variables (env : nat -> nat -> rs_env par6 vec3) (pose0 : nat -> nat -> par6).
Variable calib2 : list pose -> list pose -> option pose.
Variable fixi : Z.
Variables (bpts bpts' : Z -> list vec3) (nc nb nb' : nat) (ins ins' : list (insertion pt2)) (t t' : tables pt2).
Hypothesis AD : after_detection nc nb ins t.
Hypothesis AD' : after_detection nc nb' ins' t'.
Hypothesis FS : four_bare t t'.
Hypothesis Same : forall i, In i ins -> bpts (i_board i) = bpts' (i_board i).
Let S (b : Z) : Prop := exists i, In i ins /\ i_board i = b.
Let AS : forall b, S b -> bpts b = bpts' b.
Proof. intros b (i & Hi & <-). apply Same. exact Hi. Qed.
Let Q : same_seen t t' := tables_same nc nb nb' ins ins' t t' AD AD' FS.
Let Ho : obs_seen S t.
Proof.
  intros o H. apply In_nth_error in H as (n & H).
  destruct (ad_obs_ins nc nb ins t AD n o H) as (i & Hi & _ & _ & B). exists i. split; [exact (nth_error_In _ _ Hi)|auto].
Qed.
Notation like := (like S).
Lemma comps_seen r : relabelled t (ru_t r) -> forall bp c b,
  In c (connectedComponents (covis_graph g0 (observed_boards (ru_t r)) (counts (computeBoardsPairPose (board_views (ru_t r) bp))))) -> In b c -> S b.
Proof.
  intros RL bp c b Hc Hb. assert (AR := relabelled_after nc nb ins t (ru_t r) AD RL).
  destruct (comp_facts _ _ (good_proper _ _ (boards_table_good nc nb ins (ru_t r) AR bp)) g0 c Hc) as (_ & I & _).
  apply I in Hb. apply (observed_boards_ok nc nb ins (ru_t r) AR) in Hb as (n & o & On & <-). destruct (ad_obs_ins nc nb ins (ru_t r) AR n o On) as (i & Hi & _ & _ & B). exists i. split; [exact (nth_error_In _ _ Hi)|auto].
Qed.
Definition like2 (r r' : run) : Prop := like r r' /\ relabelled t (ru_t r) /\ relabelled t' (ru_t r').
Definition keeps (f f' : run -> option run) : Prop := (forall r r', like r r' -> orel like (f r) (f' r')) /\ (forall r u, f r = Some u -> ru_t u = ru_t r) /\ (forall r u, f' r = Some u -> ru_t u = ru_t r).
Lemma keeps_like2 f f' r r' : keeps f f' -> like2 r r' -> orel like2 (f r) (f' r').
Proof.
  intros (K1 & K2 & K3) (L & RL & RL'). assert (X := K1 r r' L). destruct (f r) as [u|] eqn:E, (f' r') as [u'|] eqn:E'; cbn [orel] in *; auto. split; [auto|]. rewrite (K2 r u E), (K3 r' u' E'). auto.
Qed.
Lemma keeps_bind f f' g g' : keeps f f' -> keeps g g' -> keeps (fun r => bind (f r) g) (fun r => bind (f' r) g').
Proof.
  intros (F1 & F2 & F3) (G1 & G2 & G3). split; [|split].
  - intros r r' L. apply (orel_bind like); auto.
  - intros r u E. destruct (f r) as [v|] eqn:Ef; [|discriminate E]. cbn [bind] in E. rewrite (G2 v u E). apply F2. exact Ef.
  - intros r u E. destruct (f' r) as [v|] eqn:Ef; [|discriminate E]. cbn [bind] in E. rewrite (G3 v u E). apply F3. exact Ef.
Qed.
Ltac stays := intros r u E; unfold estimate_objects_step, group_poses_step, refine_step, refine_intrinsic_step, refine_objects_step, new_groups, merged_objects, run_pairs, run_mergeGroups, bind, option_map in E;
  repeat match type of E with match ?c with _ => _ end = _ => destruct c; [|discriminate E] end; injection E as <-; reflexivity.
Lemma k_estimate c : keeps (estimate_objects_step models thresh it env pose0 c) (estimate_objects_step models thresh it env pose0 c).
Proof. split; [apply like_estimate; exact AS|split; stays]. Qed.
Lemma k_poses : keeps (group_poses_step svd lr uq) (group_poses_step svd lr uq).
Proof. split; [apply like_group_poses|split; stays]. Qed.
Lemma k_refine : keeps (refine_step solve bpts models) (refine_step solve bpts' models).
Proof. split; [apply like_refine; exact AS|split; stays]. Qed.
Lemma k_intrinsic : keeps (refine_intrinsic_step solve bpts models) (refine_intrinsic_step solve bpts' models).
Proof. split; [apply like_refine_intrinsic; exact AS|split; stays]. Qed.
Lemma k_objects : keeps (refine_objects_step solve bpts models) (refine_objects_step solve bpts' models).
Proof. split; [apply like_refine_objects; exact AS|split; stays]. Qed.
Lemma k_groups : keeps (new_groups svd lr uq pick g0) (new_groups svd lr uq pick g0).
Proof. split; [apply like_new_groups|split; stays]. Qed.
Lemma k_merged : keeps (merged_objects svd lr uq pick g0 bpts) (merged_objects svd lr uq pick g0 bpts').
Proof. split; [apply like_merged; exact AS|split; stays]. Qed.
Lemma k_pairs : keeps (run_pairs calib2) (run_pairs calib2).
Proof. split; [apply like_pairs|split; stays]. Qed.
Lemma k_mergeGroups : keeps (run_mergeGroups lr pick g0) (run_mergeGroups lr pick g0).
Proof. split; [apply like_mergeGroups|split; stays]. Qed.
Lemma k_id : keeps Some Some.
Proof. split; [intros r r' L; exact L|split; intros r u E; injection E as <-; reflexivity]. Qed.
Lemma k_final : keeps (run_final svd lr uq solve bpts models thresh it env pose0 fixi) (run_final svd lr uq solve bpts' models thresh it env pose0 fixi).
Proof.
  unfold run_final. apply keeps_bind; [apply k_estimate|]. apply (keeps_bind _ _ (fun r => bind _ _) (fun r => bind _ _)); [apply k_poses|].
  apply (keeps_bind _ _ (fun r => if Z.eqb fixi 0 then _ r else _) (fun r => if Z.eqb fixi 0 then _ r else _)); [apply k_refine|]. destruct (Z.eqb fixi 0); [apply k_intrinsic|apply k_id].
Qed.
Lemma k_merge3D c : keeps (run_merge3DObjects svd lr uq pick g0 solve bpts models thresh it env pose0 c) (run_merge3DObjects svd lr uq pick g0 solve bpts' models thresh it env pose0 c).
Proof.
  unfold run_merge3DObjects. apply keeps_bind; [apply k_estimate|]. apply keeps_bind; [apply k_poses|]. apply keeps_bind; [apply k_merged|]. apply keeps_bind; [apply k_estimate|]. apply keeps_bind; [apply k_poses|apply k_refine].
Qed.
Lemma k_camera_groups : keeps (run_calibrateCameraGroup svd lr uq pick g0 solve bpts models) (run_calibrateCameraGroup svd lr uq pick g0 solve bpts' models).
Proof. unfold run_calibrateCameraGroup. apply keeps_bind; [apply k_groups|]. apply keeps_bind; [apply k_poses|apply k_refine]. Qed.
Lemma new_objects_t bp r u : new_objects svd lr uq pick g0 bp r = Some u -> ru_t u = ru_t r.
Proof. intros E. unfold new_objects, bind in E. repeat match type of E with match ?c with _ => _ end = _ => destruct c; [|discriminate E] end. injection E as <-. reflexivity. Qed.
Lemma like2_new_objects r r' : like2 r r' -> orel like2 (new_objects svd lr uq pick g0 bpts r) (new_objects svd lr uq pick g0 bpts' r').
Proof.
  intros (L & RL & RL'). assert (X := like_new_objects S bpts bpts' AS svd lr uq pick g0 r r' L (comps_seen r RL _)).
  destruct (new_objects svd lr uq pick g0 bpts r) as [u|] eqn:E, (new_objects svd lr uq pick g0 bpts' r') as [u'|] eqn:E'; cbn [orel] in *; auto. split; [auto|].
  rewrite (new_objects_t _ r u E), (new_objects_t _ r' u' E'). auto.
Qed.
Lemma init_relabelled bp src t1 p0 gp0 r : initIntrinsic solve bp models thresh it env pose0 fixi src t1 p0 gp0 = Some r -> relabelled t1 (ru_t r).
Proof.
  intros E. assert (X := like_init (fun _ => True) bp bp (fun b _ => eq_refl) solve models thresh it env pose0 fixi src t1 t1 p0 gp0). rewrite E in X. cbn [orel] in X. apply X; [|intros o _; exact I]. repeat split.
Qed.
Lemma like2_init src p0 gp0 : orel like2 (initIntrinsic solve bpts models thresh it env pose0 fixi src t p0 gp0) (initIntrinsic solve bpts' models thresh it env pose0 fixi src t' p0 gp0).
Proof.
  assert (X := like_init S bpts bpts' AS solve models thresh it env pose0 fixi src t t' p0 gp0 Q Ho).
  destruct (initIntrinsic solve bpts models thresh it env pose0 fixi src t p0 gp0) as [r|] eqn:E, (initIntrinsic solve bpts' models thresh it env pose0 fixi src t' p0 gp0) as [r'|] eqn:E'; cbn [orel] in *; auto.
  split; [apply X|]. split; [exact (init_relabelled _ _ _ _ _ _ E)|exact (init_relabelled _ _ _ _ _ _ E')].
Qed.
Lemma calibrate_like2 src p0 gp0 :
  orel like2 (calibrate svd lr uq pick g0 solve bpts models thresh it env pose0 calib2 fixi src t p0 gp0)
             (calibrate svd lr uq pick g0 solve bpts' models thresh it env pose0 calib2 fixi src t' p0 gp0).
Proof.
  unfold calibrate. apply (orel_bind like2); [apply like2_init|]. intros r r' L.
  apply (orel_bind like2).
  { unfold run_calibrate3DObjects. apply (orel_bind like2); [apply like2_new_objects; exact L|]. intros r1 r1' L1. exact (keeps_like2 _ _ r1 r1' (keeps_bind _ _ _ _ (k_estimate 1) k_objects) L1). }
  clear r r' L. intros r r' L.
  apply (orel_bind like2); [apply keeps_like2; [apply k_camera_groups|exact L]|]. clear r r' L. intros r r' L.
  apply (orel_bind like2); [apply keeps_like2; [apply k_merge3D|exact L]|]. clear r r' L. intros r r' L.
  apply (orel_bind like2); [apply keeps_like2; [apply k_pairs|exact L]|]. clear r r' L. intros r r' L.
  apply (orel_bind like2); [apply keeps_like2; [apply k_mergeGroups|exact L]|]. clear r r' L. intros r r' L.
  apply (orel_bind like2); [apply keeps_like2; [apply k_merge3D|exact L]|]. clear r r' L. intros r r' L.
  apply (orel_bind like2); [apply keeps_like2; [apply k_mergeGroups|exact L]|]. clear r r' L. intros r r' L.
  apply keeps_like2; [apply k_final|exact L].
Qed.
(** with the checks of the logged numbers *)
Lemma k_logged ok ok' f f' : (forall r r', like r r' -> ok r = ok' r') -> keeps f f' -> keeps (fun r => logged ok (f r)) (fun r => logged ok' (f' r)).
Proof.
  intros H K. unfold logged. apply keeps_bind; [exact K|]. split; [|split].
  - intros r r' L. rewrite (H r r' L). destruct (ok' r'); cbn [orel]; auto.
  - intros r u E. destruct (ok r); [injection E as <-; reflexivity|discriminate E].
  - intros r u E. destruct (ok' r); [injection E as <-; reflexivity|discriminate E].
Qed.
Lemma same_s {B} (f : calib pt2 -> B) r r' : like r r' -> f (ru_s r) = f (ru_s r').
Proof. intros L. rewrite (lk_s _ _ _ L). reflexivity. Qed.
Lemma same_board_logs accepts r r' : like r r' -> computeReproErrAllBoard accepts bpts models (ru_t r) = computeReproErrAllBoard accepts bpts' models (ru_t r').
Proof.
  intros L. unfold computeReproErrAllBoard. destruct (lk_t _ _ _ L) as (<- & _). assert (H := lk_obs _ _ _ L). unfold obs_seen in H.
  induction (mvals (t_obs (ru_t r))) as [|o l IH]; cbn [forallb]; [reflexivity|]. rewrite IH by (intros o' X; apply H; right; exact X). f_equal. unfold board_repro. rewrite (AS _ (H o (or_introl eq_refl))). reflexivity.
Qed.
Lemma k_final_logged accepts : keeps (final_logged accepts bpts models svd lr uq solve thresh it env pose0 fixi) (final_logged accepts bpts' models svd lr uq solve thresh it env pose0 fixi).
Proof. unfold final_logged. apply k_logged; [intros r r' L; apply same_s, L|apply k_final]. Qed.
Lemma k_merge3D_logged accepts c : keeps (merge3DObjects_logged accepts bpts models svd lr uq pick g0 solve thresh it env pose0 c) (merge3DObjects_logged accepts bpts' models svd lr uq pick g0 solve thresh it env pose0 c).
Proof.
  unfold merge3DObjects_logged. apply keeps_bind; [apply k_estimate|]. apply keeps_bind; [apply k_logged; [intros r r' L; apply same_s, L|apply k_poses]|]. apply keeps_bind; [apply k_merged|]. apply keeps_bind; [apply k_estimate|].
  apply keeps_bind; [apply k_poses|]. apply k_logged; [intros r r' L; apply same_s, L|apply k_refine].
Qed.
Lemma calibrate_logged_like2 accepts src p0 gp0 :
  orel like2 (calibrate_logged accepts bpts models svd lr uq pick g0 solve thresh it env pose0 calib2 fixi src t p0 gp0)
             (calibrate_logged accepts bpts' models svd lr uq pick g0 solve thresh it env pose0 calib2 fixi src t' p0 gp0).
Proof.
  unfold calibrate_logged. apply (orel_bind like2).
  { unfold initIntrinsic_logged, logged. apply (orel_bind like2); [apply like2_init|]. intros r r' L. rewrite (same_board_logs accepts r r' (proj1 L)). destruct (computeReproErrAllBoard _ _ _ _); cbn [orel]; auto. }
  intros r r' L.
  apply (orel_bind like2).
  { unfold calibrate3DObjects_logged. apply (orel_bind like2); [apply like2_new_objects; exact L|]. intros r1 r1' L1.
    exact (keeps_like2 _ _ r1 r1' (keeps_bind _ _ _ _
      (k_logged (fun r => computeReproErrAllObject accepts models (ru_s r)) (fun r => computeReproErrAllObject accepts models (ru_s r)) _ _ (fun r2 r2' L2 => same_s (computeReproErrAllObject accepts models) r2 r2' L2) (k_estimate 1))
      (k_logged (fun r => computeReproErrAllObject accepts models (ru_s r)) (fun r => computeReproErrAllObject accepts models (ru_s r)) _ _ (fun r2 r2' L2 => same_s (computeReproErrAllObject accepts models) r2 r2' L2) k_objects)) L1). }
  clear r r' L. intros r r' L.
  apply (orel_bind like2); [apply keeps_like2; [apply k_camera_groups|exact L]|]. clear r r' L. intros r r' L.
  apply (orel_bind like2); [apply keeps_like2; [apply k_merge3D_logged|exact L]|]. clear r r' L. intros r r' L.
  apply (orel_bind like2); [apply keeps_like2; [apply k_pairs|exact L]|]. clear r r' L. intros r r' L.
  apply (orel_bind like2); [apply keeps_like2; [apply k_mergeGroups|exact L]|]. clear r r' L. intros r r' L.
  apply (orel_bind like2); [apply keeps_like2; [apply k_merge3D_logged|exact L]|]. clear r r' L. intros r r' L.
  apply (orel_bind like2); [apply keeps_like2; [apply k_mergeGroups|exact L]|]. clear r r' L. intros r r' L.
  apply keeps_like2; [apply k_final_logged|exact L].
Qed.
Lemma same_save o : (forall b, In b (mkeys (ob_boards o)) -> S b) -> save3DObj bpts o = save3DObj bpts' o.
Proof.
  intros H. unfold save3DObj. assert (E : forall (f : Z -> nat -> option (vec3 * Z * Z)) l, (forall b, In b l -> S b) -> flat_map (fun b => map (f b) (seq 0 (length (bpts b)))) l = flat_map (fun b => map (f b) (seq 0 (length (bpts' b)))) l).
  { intros f l. induction l as [|b l IH]; intros G; cbn [flat_map]; [reflexivity|]. rewrite (AS b (G b (or_introl eq_refl))), IH; [reflexivity|]. intros b' Hb. apply G. right. exact Hb. }
  rewrite (E (fun b k => option_map (fun p => (p, b, Z.of_nat k)) (nth_error (ob_pts o) (Z.to_nat (b2o o b (Z.of_nat k))))) _ H). reflexivity.
Qed.
Lemma board_keys m (l : list (insertion pt2)) u : after_detection nc m l u -> mkeys (t_boards u) = map Z.of_nat (seq 0 m).
Proof. intros (K & t0 & E & RL). rewrite (rl_boards _ _ RL). destruct (insert_all_from_init nc m l K) as (v & F & H & _). assert (v = t0) by congruence. subst v. exact (hd_board_keys _ _ _ _ H). Qed.
(** everything but the keypoints *)
Lemma like2_most r r' : like2 r r' ->
  saved_cameras models r = saved_cameras models r' /\
  map (fun e => (ob_id (snd e), save3DObj bpts (snd e))) (ca_objs (ru_s r)) = map (fun e => (ob_id (snd e), save3DObj bpts' (snd e))) (ca_objs (ru_s r')) /\
  saved_poses r = saved_poses r' /\ saveReprojectionErrorToFile models (ru_p r) (ru_s r) = saveReprojectionErrorToFile models (ru_p r') (ru_s r') /\ reported_error models r = reported_error models r'.
Proof.
  intros (L & _ & _). destruct (like_open _ _ _ L) as (u & u' & p & gp & prs & s & -> & -> & Lt & Lo & Lj). cbn [ru_t ru_s ru_p] in *. clear L.
  split; [|split; [|split; [reflexivity|split; reflexivity]]].
  - unfold saved_cameras, cameras_of. cbn [ru_t ru_p ru_s]. replace (t_cams u') with (t_cams u) by apply Lt. reflexivity.
  - apply map_ext_in. intros (k, o) H. cbn [snd]. rewrite (same_save o); [reflexivity|]. intros b. apply (Lj k o b H).
Qed.
Lemma like2_results r r' : ins = ins' -> t_frames t = t_frames t' -> like2 r r' -> same_results models bpts bpts' r r'.
Proof.
  intros Ei Ef L2. destruct (like2_most r r' L2) as (M1 & M2 & M3 & M4 & M5). constructor; auto. destruct L2 as (L & RL & RL').
  assert (BK := rl_boards _ _ RL). assert (BK' := rl_boards _ _ RL'). assert (FR := rl_frames _ _ RL). assert (FR' := rl_frames _ _ RL'). destruct (lk_t _ _ _ L) as (L1 & L2 & L3 & L4 & _). assert (Lo := lk_obs _ _ _ L).
  apply (same_keypoints (ru_t r) (ru_t r') nb nb'); [repeat split; auto; congruence|rewrite BK; apply (board_keys nb ins); auto|rewrite BK'; apply (board_keys nb' ins'); auto|].
  intros o H. destruct (Lo o H) as (i & Hi & <-). assert (K1 := proj1 (Forall_forall _ _) (proj1 AD) i Hi). assert (K2 : known nc nb' i) by (apply (proj1 (Forall_forall _ _) (proj1 AD') i); rewrite <- Ei; exact Hi). unfold known in K1, K2. lia.
Qed.
End Calibration.

(** ** C69. The same images are calibrated with two descriptions of the boards: different numbers of boards ([nb], [nb']),
    different corners ([bpts], [bpts']), but every board that was detected in some image is described alike.  Then one
    calibration succeeds exactly when the other does, and everything that is reported and saved is the same. *)
Theorem C69_unseen_boards_have_no_influence : forall svd lr uq pick g0 solve models thresh it env pose0 calib2 fixi bpts bpts' nc nb nb' ins t t',
  Forall (known nc nb) ins -> Forall (known nc nb') ins -> insert_all (init_tables nc nb) ins = Some t -> insert_all (init_tables nc nb') ins = Some t' ->
  (forall i, In i ins -> bpts (i_board i) = bpts' (i_board i)) ->
  forall src p0 gp0,
  match calibrate svd lr uq pick g0 solve bpts models thresh it env pose0 calib2 fixi src t p0 gp0,
        calibrate svd lr uq pick g0 solve bpts' models thresh it env pose0 calib2 fixi src t' p0 gp0 with
  | Some r, Some r' => same_results models bpts bpts' r r'
  | None, None => True
  | _, _ => False
  end.
Proof.
  intros svd lr uq pick g0 solve models thresh it env pose0 calib2 fixi bpts bpts' nc nb nb' ins t t' K K' E E' Same src p0 gp0.
  assert (AD := detected nc nb ins t K E). assert (AD' := detected nc nb' ins t' K' E'). assert (FS : four_same t t') by (apply (insert_same ins (init_tables nc nb) (init_tables nc nb') t t'); auto; repeat split).
  assert (X := calibrate_like2 svd lr uq pick g0 solve models thresh it env pose0 calib2 fixi bpts bpts' nc nb nb' ins ins t t' AD AD' (four_same_bare _ _ FS) Same src p0 gp0).
  destruct (calibrate svd lr uq pick g0 solve bpts models thresh it env pose0 calib2 fixi src t p0 gp0), (calibrate svd lr uq pick g0 solve bpts' models thresh it env pose0 calib2 fixi src t' p0 gp0); cbn [orel] in X; auto.
  exact (like2_results models bpts bpts' nc nb nb' ins ins t t' AD AD' Same _ _ eq_refl (proj1 (proj2 (proj2 FS))) X).
Qed.
Print Assumptions C69_unseen_boards_have_no_influence.
(** The same with the evaluations of the numbers that are only logged, which can themselves fail. *)
Theorem C69_also_with_the_logged_numbers : forall accepts svd lr uq pick g0 solve models thresh it env pose0 calib2 fixi bpts bpts' nc nb nb' ins t t',
  Forall (known nc nb) ins -> Forall (known nc nb') ins -> insert_all (init_tables nc nb) ins = Some t -> insert_all (init_tables nc nb') ins = Some t' ->
  (forall i, In i ins -> bpts (i_board i) = bpts' (i_board i)) ->
  forall src p0 gp0,
  match calibrate_logged accepts bpts models svd lr uq pick g0 solve thresh it env pose0 calib2 fixi src t p0 gp0,
        calibrate_logged accepts bpts' models svd lr uq pick g0 solve thresh it env pose0 calib2 fixi src t' p0 gp0 with
  | Some r, Some r' => same_results models bpts bpts' r r'
  | None, None => True
  | _, _ => False
  end.
Proof.
  intros accepts svd lr uq pick g0 solve models thresh it env pose0 calib2 fixi bpts bpts' nc nb nb' ins t t' K K' E E' Same src p0 gp0.
  assert (AD := detected nc nb ins t K E). assert (AD' := detected nc nb' ins t' K' E'). assert (FS : four_same t t') by (apply (insert_same ins (init_tables nc nb) (init_tables nc nb') t t'); auto; repeat split).
  assert (X := calibrate_logged_like2 svd lr uq pick g0 solve models thresh it env pose0 calib2 fixi bpts bpts' nc nb nb' ins ins t t' AD AD' (four_same_bare _ _ FS) Same accepts src p0 gp0).
  destruct (calibrate_logged accepts bpts models svd lr uq pick g0 solve thresh it env pose0 calib2 fixi src t p0 gp0), (calibrate_logged accepts bpts' models svd lr uq pick g0 solve thresh it env pose0 calib2 fixi src t' p0 gp0); cbn [orel] in X; auto.
  exact (like2_results models bpts bpts' nc nb nb' ins ins t t' AD AD' Same _ _ eq_refl (proj1 (proj2 (proj2 FS))) X).
Qed.
Print Assumptions C69_also_with_the_logged_numbers.
(** The rig of two cameras with its one board described alone, and described together with two more boards, without corners. *)
Definition more_pts (b : Z) : list vec3 := if Z.eqb b 0 then rig_pts b else [].
Example C69_example : exists svd t t' r r',
  Forall (known 2 1) rig_ins /\ Forall (known 2 3) rig_ins /\ insert_all (init_tables 2 1) rig_ins = Some t /\ insert_all (init_tables 2 3) rig_ins = Some t' /\
  (forall i, In i rig_ins -> rig_pts (i_board i) = more_pts (i_board i)) /\ rig_pts 1%Z <> more_pts 1%Z /\
  let cal := fun bp u => calibrate svd log0 true pick_first empty_graph (fun _ p => p) bp (rg_model two_rig) 1 1000 (fun _ _ => ideal_env log0) (fun _ _ => (vzero, vzero)) (fun _ _ => None) 0 (FromFile two_file) u
      (mkPar (fun _ => (vzero, vzero)) (fun _ => I9 0 0 0 0 0 0 0 0 0)%R) (fun _ => (vzero, vzero)) in
  cal rig_pts t = Some r /\ cal more_pts t' = Some r' /\ same_results (rg_model two_rig) rig_pts more_pts r r' /\ reported_error (rg_model two_rig) r' = Some 0%R.
Proof.
  destruct C20_svd_exists as (svd & SO). destruct (two_run svd true (fun _ p => p) (fun _ _ => (vzero, vzero)) (fun _ _ => None) 0%Z (mkPar (fun _ => (vzero, vzero)) (fun _ => I9 0 0 0 0 0 0 0 0 0)%R) (fun _ => (vzero, vzero)) SO ceres_idle)
    as (t & r & Et & Er & R0 & _). assert (K3 : Forall (known 2 3) rig_ins) by (repeat constructor; cbn; lia).
  destruct (insert_all_from_init 2 3 rig_ins K3) as (t' & Et' & _).
  assert (Same : forall i, In i rig_ins -> rig_pts (i_board i) = more_pts (i_board i)) by (intros i Hi; apply in_map_iff in Hi as (cf & <- & _); reflexivity).
  assert (X := C69_unseen_boards_have_no_influence svd log0 true pick_first empty_graph (fun _ p => p) (rg_model two_rig) 1%R 1000%Z (fun _ _ => ideal_env log0) (fun _ _ => (vzero, vzero)) (fun _ _ => None) 0%Z rig_pts more_pts 2 1 3 rig_ins t t'
    rig_known K3 Et Et' Same (FromFile two_file) (mkPar (fun _ => (vzero, vzero)) (fun _ => I9 0 0 0 0 0 0 0 0 0)%R) (fun _ => (vzero, vzero))).
  rewrite Er in X. destruct (calibrate _ _ _ _ _ _ more_pts _ _ _ _ _ _ _ _ t' _ _) as [r'|] eqn:Er'; [|destruct X].
  exists svd, t, t', r, r'. split; [apply rig_known|]. split; [exact K3|]. split; [auto|]. split; [auto|]. split; [auto|]. split; [intros F; discriminate F|]. cbv zeta. split; [exact Er|]. split; [exact Er'|]. split; [exact X|].
  rewrite <- (sr_reported _ _ _ _ _ X). exact R0.
Qed.
Print Assumptions C69_example.
