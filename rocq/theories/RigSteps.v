(** Noise-free detections: every step of the workflow keeps to the truth. *)
From Coq Require Import List ZArith QArith Lia Reals Lra Permutation Sorted Relations.
From Verif Require Import SMap GraphModel GraphSpec DataModel DataSpec DataProofs DetectModel DetectSpec DetectProofs RansacModel RansacSpec RansacProofs RansacExact
  GeomModel GeomSpec GeomProofs GeomMedian ChainModel ChainSpec ChainProofs ChainCam
  ObjectsModel ObjectsSpec ObjectsProofs ObjectsSave ObjectsBuild ObjectsMerge ObjectsObs
  GroupModel GroupSpec GroupProofs GroupMerge GroupObs GroupPose StageModel StageSpec StageProofs StageMain StageCams StageMerge
  PipelineModel PipelineSpec PipelineProofs StalePairs ObjectsMain EstimateAll HandEyeModel HandEyeSpec HandEyeProofs CameraModel ResidualModel ResidualSpec ResidualProofs ResidualMain ResidualGroup
  ResidualSolve ResidualAvg FileModel IntrinsicModel GroupAll PropChain PropObjects PropGroup PropStale HandEyePairs HandEyeMain PropHandEye ApartProofs PropResidual WorkflowModel WorkflowRigid WorkflowProofs WorkflowReach WorkflowWhole PropFile PropWorkflow RigSpec RigPnP RigOwn.
Import ListNotations.
Close Scope Q_scope.
Close Scope R_scope.
Open Scope nat_scope.

Lemma mapi_all {A B} (f : nat -> A -> option B) (h : A -> B) n l : (forall k x, In x l -> f k x = Some (h x)) -> collect (mapi f n l) = Some (map h l).
Proof.
  revert n. induction l as [|x l IH]; intros n H; [reflexivity|]. cbn [mapi map collect]. rewrite (H n x (or_introl eq_refl)), IH; auto. intros; apply H; right; auto.
Qed.
Lemma combine_kv {K V} (m : list (K * V)) : combine (map fst m) (map snd m) = m.
Proof. induction m as [|(k, v) m IH]; cbn; [auto|]. f_equal. auto. Qed.

(** a triple (board, corner, detected point) for each corner of the observations l *)
Definition triples (l : list (bobs pt2)) : list (Z * Z * pt2) :=
  flat_map (fun b => map (fun km : Z * pt2 => (o_board b, fst km, snd km)) (combine (o_ids b) (o_pts b))) l.
Lemma triples_pts l : (forall b, In b l -> length (o_ids b) = length (o_pts b)) -> map snd (triples l) = flat_map o_pts l.
Proof.
  induction l as [|b l IH]; intros H; cbn [triples flat_map]; [auto|]. rewrite map_app, map_map. cbn [snd]. f_equal; [|apply IH; intros; apply H; right; auto].
  assert (L := H b (or_introl eq_refl)). revert L. generalize (o_ids b) (o_pts b). clear. induction l as [|a l IH]; intros [|p l'] L; try discriminate L; cbn; auto. f_equal. auto.
Qed.
Lemma triples_ids {X} (g : Z -> Z -> X) (l : list (bobs pt2)) : (forall b, In b l -> length (o_ids b) = length (o_pts b)) ->
  map (fun e => g (fst (fst e)) (snd (fst e))) (triples l) = flat_map (fun b => map (g (o_board b)) (o_ids b)) l.
Proof.
  induction l as [|b l IH]; intros H; cbn [triples flat_map]; [auto|]. rewrite map_app, map_map. cbn [fst snd]. f_equal; [|apply IH; intros; apply H; right; auto].
  assert (L := H b (or_introl eq_refl)). revert L. generalize (o_ids b) (o_pts b). intros l1. induction l1 as [|a l1 IH1]; intros [|p l'] L; try discriminate L; cbn; auto. f_equal. auto.
Qed.
Lemma triples_In l e : In e (triples l) -> exists b i, In b l /\ o_board b = fst (fst e) /\ nth_error (o_ids b) i = Some (snd (fst e)) /\ nth_error (o_pts b) i = Some (snd e).
Proof.
  intros H. apply in_flat_map in H as (b & Hb & H). apply in_map_iff in H as ((k, m) & <- & H). cbn [fst snd]. exists b. apply In_nth_error in H as (i & H). exists i.
  split; [auto|]. split; [auto|]. revert i H. generalize (o_ids b) (o_pts b). clear. induction l as [|a l IH]; intros [|p l'] [|i] H; cbn in *; try discriminate H; auto. injection H as -> ->. auto.
Qed.
Lemma triples_NoDup (l : list (bobs pt2)) : NoDup (map o_board l) -> (forall b, In b l -> NoDup (o_ids b)) -> NoDup (flat_map (fun b => map (pair (o_board b)) (o_ids b)) l).
Proof.
  induction l as [|b l IH]; intros N H; cbn [flat_map]; [constructor|]. inversion N as [|? ? N1 N2]; subst.
  assert (D : forall x, In x (map (pair (o_board b)) (o_ids b)) -> ~ In x (flat_map (fun b => map (pair (o_board b)) (o_ids b)) l)).
  { intros x Hx Hy. apply in_map_iff in Hx as (k & <- & _). apply in_flat_map in Hy as (b' & Hb & Hy). apply in_map_iff in Hy as (k' & E & _). injection E as E _. apply N1. rewrite <- E. apply in_map. auto. }
  assert (Q : NoDup (map (pair (o_board b)) (o_ids b))).
  { assert (Hb := H b (or_introl eq_refl)). clear - Hb. induction Hb as [|k ks Hk Hb IHb]; cbn; constructor; auto. intros Hi. apply in_map_iff in Hi as (k' & E & Hi). injection E as ->. auto. }
  specialize (IH N2 (fun b Hb => H b (or_intror Hb))). clear - D Q IH. induction Q as [|x xs Hx Q IHQ]; cbn; auto.
  constructor; [|apply IHQ; intros; apply D; right; auto]. rewrite in_app_iff. intros [Hi|Hi]; [auto|]. apply (D x); auto. left; auto.
Qed.

Section Steps.
Variables (svd : (nat -> nat -> R) -> quat) (lr : mat3 -> vec3) (uq : bool) (pick : dstate -> nat) (g0 : graph).
Variables (solve : list block -> params -> params) (bpts : Z -> list vec3) (w : rig) (thresh : R) (it : Z).
Variables (env : nat -> nat -> rs_env par6 vec3) (pose0 : nat -> nat -> par6).
Hypothesis CE : ceres solve.
Hypothesis Hh : good_heap pick.
Hypothesis SO : svd_ok svd.
Hypothesis LO : log_ok lr.
Variables (nc nb : nat) (ins : list (insertion pt2)) (t : tables pt2).
Hypothesis Kn : Forall (known nc nb) ins.
Hypothesis Et : insert_all (init_tables nc nb) ins = Some t.
Hypothesis RG : rigid_rig w.
Hypothesis ED : exact_detections bpts w ins.
Hypothesis GP : general_position bpts w ins.
Hypothesis NT : no_tiny_angles lr w.
Hypothesis PN : forall c n, exact_pnp lr (env c n).
Hypothesis UN : forall c n, exact_undistort bpts w ins (env c n).
Hypothesis Tp : (0 < thresh)%R.
Hypothesis Hit : (0 < it)%Z.
Notation C := (rg_cam w).
Notation F := (rg_frame w).
Notation W := (rg_board w).
Notation models := (rg_model w).

Lemma rigid_C c : rigid (C c). Proof. apply RG. Qed.
Lemma rigid_F c : rigid (F c). Proof. apply RG. Qed.
Lemma rigid_W c : rigid (W c). Proof. apply RG. Qed.
Lemma rigid_world c f : rigid (world_at w c f). Proof. apply rigid_mul; auto using rigid_C, rigid_F. Qed.
Lemma rigid_board c f b : rigid (board_at w c f b). Proof. apply rigid_mul; auto using rigid_world, rigid_W. Qed.

(** ** The observations *)
Lemma obs_vals : mvals (t_obs t) = map new_obs ins.
Proof. destruct (insert_all_from_init nc nb ins Kn) as (t1 & E1 & H & _). assert (t1 = t) by congruence. subst t1. rewrite (hd_obs _ _ _ _ H). apply dense_vals. Qed.
Lemma obs_ins n bo : obs_at t n bo -> exists i, nth_error ins n = Some i /\ bo = new_obs i.
Proof. unfold obs_at. rewrite obs_vals, nth_error_map. destruct (nth_error ins n) as [i|]; [|intros H; discriminate H]. cbn [option_map]. intros H. injection H as <-. eauto. Qed.
Lemma obs_In bo : In bo (mvals (t_obs t)) -> exists i, In i ins /\ bo = new_obs i.
Proof. intros H. apply In_nth_error in H as (n & H). destruct (obs_ins n bo H) as (i & Hi & ->). eauto using nth_error_In. Qed.
Lemma obs_sighted bo j k m : In bo (mvals (t_obs t)) -> nth_error (o_ids bo) j = Some k -> nth_error (o_pts bo) j = Some m ->
  sighted ins (o_cam bo) (o_frame bo) (o_board bo) k m.
Proof. intros H Hk Hm. apply obs_In in H as (i & Hi & ->). exists i, j. auto 10. Qed.
Lemma sighted_image c f b k m q : sighted ins c f b k m -> corner bpts b k q ->
  (0 < vz (pact (board_at w c f b) q))%R /\ image (models c) (rg_intr w c) (board_at w c f b) q = Some m.
Proof.
  intros S (_ & Hq). destruct (ed_image _ _ _ ED _ _ _ _ _ S) as (q' & (_ & Hq') & Z & I). assert (q' = q) by congruence. subst. auto.
Qed.
Lemma own_image bo m q : In bo (mvals (t_obs t)) -> own_corner bpts bo m q ->
  image (models (o_cam bo)) (rg_intr w (o_cam bo)) (board_at w (o_cam bo) (o_frame bo) (o_board bo)) q = Some m.
Proof.
  intros H (i & k & Hm & Hk & Hq). apply (sighted_image _ _ _ (Z.of_nat k) m q); [eapply obs_sighted; eauto|]. split; [lia|]. rewrite Nat2Z.id. auto.
Qed.
Lemma obs_trimmed bo : In bo (mvals (t_obs t)) -> trimmed bpts bo.
Proof.
  intros H. assert (H0 := H). apply obs_In in H as (i & Hi & ->). destruct (ed_corners _ _ _ ED i Hi) as (_ & L & L4). cbn [new_obs o_pts o_ids o_valid o_board].
  split; [cbn [new_obs o_pts o_ids]; auto|]. split; [|split; [cbn [new_obs o_pts]; lia|reflexivity]]. cbn [new_obs o_ids o_board].
  apply Forall_forall. intros k Hk. apply In_nth_error in Hk as (j & Hk). destruct (nth_error (i_pts i) j) as [m|] eqn:Em.
  - destruct (ed_image _ _ _ ED (i_cam i) (i_frame i) (i_board i) k m) as (q & (K0 & Hq) & _); [exists i, j; auto 10|].
    assert (Z.to_nat k < length (bpts (i_board i))) by (apply nth_error_Some; congruence). lia.
  - apply nth_error_None in Em. assert (j < length (i_ids i)) by (apply nth_error_Some; congruence). lia.
Qed.
Lemma obs_valid bo : In bo (mvals (t_obs t)) -> o_valid bo = true.
Proof. intros H. apply obs_In in H as (i & _ & ->). reflexivity. Qed.
Lemma relabelled_refl : relabelled t t.
Proof. constructor; auto. Qed.
Lemma detected_after : after_detection nc nb ins t.
Proof. split; [auto|]. exists t. split; [auto|apply relabelled_refl]. Qed.
(** one observation per camera, frame and board *)
Lemma obs_once n n' bo bo' : obs_at t n bo -> obs_at t n' bo' -> o_cam bo = o_cam bo' -> o_frame bo = o_frame bo' -> o_board bo = o_board bo' -> n = n'.
Proof.
  intros H H' E1 E2 E3. apply obs_ins in H as (i & Hi & ->). apply obs_ins in H' as (i' & Hi' & ->). cbn [new_obs o_cam o_frame o_board] in *.
  apply (proj1 (NoDup_nth_error _) (ed_once _ _ _ ED)); [rewrite map_length; apply nth_error_Some; congruence|]. rewrite !nth_error_map, Hi, Hi'. cbn [option_map]. congruence.
Qed.

(** ** Pose estimation *)
Lemma cam_true p c : pa_intr p c = rg_intr w c -> cam_of models p c = mkCP (matrix_of (rg_intr w c)) (getDistortionVector (models c) (rg_intr w c)) (models c).
Proof. intros E. unfold cam_of, matrix_of. rewrite E. reflexivity. Qed.
Lemma board_estimate c n p p0 bo : pa_intr p (o_cam bo) = rg_intr w (o_cam bo) -> In bo (mvals (t_obs t)) ->
  boardobs_estimatePose (env c n) (cam_of models p (o_cam bo)) (bpts (o_board bo)) p0 thresh it bo =
  Some (bo, Proj2RT lr (board_at w (o_cam bo) (o_frame bo) (o_board bo))).
Proof.
  intros Ei Hb. destruct (obs_trimmed bo Hb) as (T1 & T2 & T3). rewrite (obs_valid bo Hb) in T3. assert (L4 : 4 <= length (o_pts bo)) by (apply T3; auto).
  unfold boardobs_estimatePose. destruct (zget_total (bpts (o_board bo)) (o_ids bo) T2) as (sc & Esc & Ls). rewrite Esc. rewrite (cam_true p _ Ei). cbn [cp_K cp_D cp_model].
  destruct (pnp_exact lr bpts w ins LO RG ED GP (env c n) (PN c n) (UN c n) (o_cam bo) (o_frame bo) (W (o_board bo)) sc (o_pts bo) (map (pair (o_board bo)) (o_ids bo)))
    with (best0 := p0) (thresh := thresh) (it := it) (prob := (99 / 100)%R) as (r & Er & Ein & Ep).
  - apply rigid_W.
  - lia.
  - rewrite map_length. auto.
  - auto.
  - apply obs_In in Hb as (i & Hi & ->). destruct (ed_corners _ _ _ ED i Hi) as (N & _). cbn [new_obs o_ids o_board]. clear - N. induction N; cbn; constructor; auto.
    intros Q. apply in_map_iff in Q as (k & E & Q). injection E as ->. auto.
  - intros j b k s m Hc Hs Hm. rewrite nth_error_map in Hc. destruct (nth_error (o_ids bo) j) as [k'|] eqn:Ek; [|discriminate Hc]. injection Hc as <- <-.
    split; [eapply obs_sighted; eauto|]. intros q (K0 & Hq). f_equal. apply collect_Some in Esc.
    assert (Q := f_equal (fun l => nth_error l j) Esc). cbn beta in Q. rewrite !nth_error_map, Ek, Hs in Q. cbn [option_map] in Q. injection Q as Q. apply zget_some in Q as (_ & Q). congruence.
  - auto.
  - auto.
  - rewrite Er, Ein, Ep. replace (RansacModel.pick (o_pts bo) (seq 0 (length (o_pts bo)))) with (Some (o_pts bo)) by (symmetry; apply pick_Some, sublist_seq).
    replace (RansacModel.pick (o_ids bo) (seq 0 (length (o_pts bo)))) with (Some (o_ids bo)) by (symmetry; apply pick_Some; rewrite T1; apply sublist_seq).
    rewrite seq_length. destruct (Nat.ltb_spec (length (o_pts bo)) 4); [lia|]. destruct bo; reflexivity.
Qed.
Lemma boards_estimated c p p0 : (forall a, pa_intr p a = rg_intr w a) ->
  estimatePoseAllBoards (env c) (cam_of models p) bpts p0 thresh it t = Some (t, map (fun bo => Proj2RT lr (board_at w (o_cam bo) (o_frame bo) (o_board bo))) (mvals (t_obs t))).
Proof.
  intros Ei. unfold estimatePoseAllBoards. rewrite (mapi_all _ (fun bo => (bo, Proj2RT lr (board_at w (o_cam bo) (o_frame bo) (o_board bo))))) by (intros; apply board_estimate; auto).
  rewrite !map_map. cbn [fst snd]. rewrite map_id. unfold mkeys, mvals. rewrite combine_kv. destruct t; reflexivity.
Qed.
(** an observation of a correctly built object *)
Lemma object_estimate c n p p0 o bs oo : pa_intr p (oo_cam oo) = rg_intr w (oo_cam oo) -> well_built bpts bs o -> gathers t o oo -> true_object bpts W o ->
  objectobs_estimatePose (env c n) (cam_of models p (oo_cam oo)) (ob_pts o) p0 thresh it (oo_ids oo) (oo_pts oo) =
  Some (Proj2RT lr (board_at w (oo_cam oo) (oo_frame oo) (ob_ref o))).
Proof.
  intros Ei WB Ga TO. destruct (gathers_lengths bpts t obs_trimmed o oo bs WB Ga) as (L & Rg). 
  assert (L4 : 4 <= length (oo_pts oo)) by (exact (gathers_enough bpts t obs_trimmed o oo Ga obs_valid)).
  unfold objectobs_estimatePose. destruct (zget_total (ob_pts o) (oo_ids oo) Rg) as (sc & Esc & Ls). rewrite Esc, (cam_true p _ Ei). cbn [cp_K cp_D cp_model].
  destruct (ga_content _ _ _ Ga) as (l & F2 & _ & Pts & Ids).
  assert (IN : forall b, In b l -> exists n, In n (oo_bobs oo) /\ obs_at t n b).
  { clear - F2. induction F2 as [|n b ns l H F2 IH]; intros b' Hb; [destruct Hb|]. destruct Hb as [<-|Hb]; [exists n; split; [left; auto|auto]|]. destruct (IH b' Hb) as (m & A & B). exists m. split; [right; auto|auto]. }
  assert (IN' : forall b, In b l -> In b (mvals (t_obs t)) /\ o_cam b = oo_cam oo /\ o_frame b = oo_frame oo /\ In (o_board b) (mkeys (ob_boards o))).
  { intros b Hb. destruct (IN b Hb) as (k & Hk & Ob). split; [eapply nth_error_In; eauto|]. apply (ga_bobs _ _ _ Ga) in Hk as (b' & Hb' & H). assert (b' = b) by (unfold obs_at in Ob; congruence). subst. auto. }
  assert (LE : forall b, In b l -> length (o_ids b) = length (o_pts b)) by (intros b Hb; destruct (obs_trimmed b) as (T & _); [apply IN'; auto|auto]).
  assert (NB : NoDup (map o_board l)).
  { assert (N := ga_nodup _ _ _ Ga). assert (All : forall n b, In n (oo_bobs oo) -> obs_at t n b -> o_cam b = oo_cam oo /\ o_frame b = oo_frame oo).
    { intros k b Hk Hb. apply (ga_bobs _ _ _ Ga) in Hk as (b' & Hb' & H). assert (b' = b) by (unfold obs_at in Hb; congruence). subst. tauto. }
    clear - F2 N All ED Kn Et. induction F2 as [|n b ns l H F2 IH]; cbn [map]; [constructor|]. inversion N as [|? ? N1 N2]; subst. constructor; [|apply IH; auto; intros; eapply All; eauto; right; auto].
    intros Hi. apply in_map_iff in Hi as (b' & Eb & Hb'). assert (Q : exists n', In n' ns /\ obs_at t n' b').
    { clear - F2 Hb'. induction F2 as [|m b ms l H F2 IH]; [destruct Hb'|]. destruct Hb' as [<-|Hb']; [exists m; split; [left; auto|auto]|]. destruct (IH Hb') as (x & A & B). exists x. split; [right; auto|auto]. }
    destruct Q as (n' & Hn' & Ob'). destruct (All n b (or_introl eq_refl) H) as (A1 & A2). destruct (All n' b' (or_intror Hn') Ob') as (B1 & B2).
    assert (n = n') by (apply (obs_once n n' b b'); auto; congruence). subst. auto. }
  set (T := triples l) in *. assert (TP : map snd T = oo_pts oo) by (rewrite Pts; apply triples_pts; auto).
  assert (TI : map (fun e => b2o o (fst (fst e)) (snd (fst e))) T = oo_ids oo) by (rewrite Ids; apply (triples_ids (b2o o)); auto).
  assert (TC : map (fun e : Z * Z * pt2 => (fst (fst e), snd (fst e))) T = flat_map (fun b => map (pair (o_board b)) (o_ids b)) l) by (apply (triples_ids pair); auto).
  destruct (pnp_exact lr bpts w ins LO RG ED GP (env c n) (PN c n) (UN c n) (oo_cam oo) (oo_frame oo) (W (ob_ref o)) sc (oo_pts oo) (map (fun e : Z * Z * pt2 => (fst (fst e), snd (fst e))) T))
    with (best0 := p0) (thresh := thresh) (it := it) (prob := (99 / 100)%R) as (r & Er & Ein & Ep).
  - apply rigid_W.
  - lia.
  - rewrite <- TP, !map_length. auto.
  - auto.
  - rewrite TC. apply triples_NoDup; auto. intros b Hb. destruct (IN' b Hb) as (Hb' & _). apply obs_In in Hb' as (i & Hi & ->). apply (ed_corners _ _ _ ED i Hi).
  - intros j b k s m Hc Hs Hm. rewrite <- TP, nth_error_map in Hm. rewrite nth_error_map in Hc. destruct (nth_error T j) as [((b', k'), m')|] eqn:ET; [|discriminate Hc].
    cbn [option_map fst snd] in Hc, Hm. injection Hc as -> ->. injection Hm as ->.
    destruct (triples_In l ((b, k), m) (nth_error_In _ _ ET)) as (bo & i & Hbo & Eb & Hk & Hm). cbn [fst snd] in *. destruct (IN' bo Hbo) as (Ho & C1 & C2 & C3). subst b.
    split; [rewrite <- C1, <- C2; eapply obs_sighted; eauto|]. intros q (K0 & Hq).
    destruct (TO (o_board bo) C3) as (_ & TO'). destruct (TO' (Z.to_nat k) q Hq) as (n' & x & Hn & Hx & Ex). rewrite Z2Nat.id in Hn by auto.
    apply collect_Some in Esc. assert (Q := f_equal (fun l => nth_error l j) Esc). cbn beta in Q. rewrite <- TI, map_map, !nth_error_map, ET, Hs in Q. cbn [option_map fst snd] in Q.
    injection Q as Q. unfold b2o in Q. rewrite Hn in Q. apply zget_some in Q as (_ & Q). rewrite Nat2Z.id in Q. assert (s = x) by congruence. subst s. auto.
  - auto.
  - auto.
  - rewrite Er. cbn [option_map]. rewrite Ep. reflexivity.
Qed.

(** ** States *)
(** the intrinsics and the objects are right *)
Record exact_o (r : run) : Prop := {
  xo_t : ru_t r = t;
  xo_intr : forall c, pa_intr (ru_p r) c = rg_intr w c;
  xo_objs : forall k o, In (k, o) (ca_objs (ru_s r)) -> true_object bpts W o;
  xo_boards : forall k o b P, In (k, o) (ca_objs (ru_s r)) -> mfind b (ob_poses o) = Some P -> pa_pose (ru_p r) (KBoard (ob_id o) b) = Proj2RT lr P
}.
(** and the groups *)
Record exact_g (r : run) : Prop := {
  xg_groups : forall k G, mfind k (ca_groups (ru_s r)) = Some G -> true_group C G;
  xg_cams : forall k G c P, In (k, G) (ca_groups (ru_s r)) -> mfind c (cg_poses G) = Some P -> pa_pose (ru_p r) (KCam (cg_id G) c) = Proj2RT lr P
}.
(** the poses of the object observations are right *)
Definition estimated (r : run) : Prop :=
  forall n oo o, nth_error (ot_all (ca_oobs (ru_s r))) n = Some oo -> mfind (oo_obj oo) (ca_objs (ru_s r)) = Some o ->
    pa_pose (ru_p r) (KObjObs n) = Proj2RT lr (board_at w (oo_cam oo) (oo_frame oo) (ob_ref o)).
(** the poses of the objects in the group observations are right *)
Definition posed (r : run) : Prop :=
  forall k f G n oo o, mfind k (ca_groups (ru_s r)) = Some G -> made_by (ot_all (ca_oobs (ru_s r))) G f n oo -> mfind (oo_obj oo) (ca_objs (ru_s r)) = Some o ->
    pa_pose (ru_p r) (KGroup (k, f) (oo_obj oo)) = Proj2RT lr (board_at w (cg_ref G) f (ob_ref o)).
(** the objects and their observations fit together *)
Definition gathered (s : calib pt2) : Prop :=
  (forall k o, In (k, o) (ca_objs s) -> exists bs, well_built bpts bs o) /\
  (forall oo, In oo (ot_all (ca_oobs s)) -> exists o, mfind (oo_obj oo) (ca_objs s) = Some o /\ gathers t o oo).

Lemma same_memory (k : pkey) ps p : (forall n, k <> KObjObs n) -> pa_pose (put_obj_obs ps p) k = pa_pose p k.
Proof. intros H. destruct k; cbn [put_obj_obs pa_pose]; auto. exfalso. eapply H; eauto. Qed.
Lemma estimate_exact c r : exact_o r -> gathered (ru_s r) ->
  exists r', estimate_objects_step models thresh it env pose0 c r = Some r' /\ ru_t r' = ru_t r /\ ru_s r' = ru_s r /\ ru_prs r' = ru_prs r /\
    exact_o r' /\ (exact_g r -> exact_g r') /\ estimated r'.
Proof.
  intros XO (WB & GA). unfold estimate_objects_step, estimatePoseAllObjects.
  set (h := fun oo : objobs pt2 => match mfind (oo_obj oo) (ca_objs (ru_s r)) with Some o => Proj2RT lr (board_at w (oo_cam oo) (oo_frame oo) (ob_ref o)) | None => (vzero, vzero) end).
  rewrite (mapi_all _ h).
  2:{ intros k oo H. destruct (GA oo H) as (o & Ho & Ga). destruct (WB _ o (mfind_In _ _ _ Ho)) as (bs & Wb). unfold h. rewrite Ho.
      apply (object_estimate c k (ru_p r) (pose0 c k) o bs oo); auto; [apply (xo_intr _ XO)|apply (xo_objs _ XO _ o (mfind_In _ _ _ Ho))]. }
  cbn [option_map]. eexists. split; [reflexivity|]. cbn [with_ps ru_t ru_s ru_prs]. split; [auto|]. split; [auto|]. split; [auto|]. split; [|split].
  - destruct XO as [A B D E]. constructor; cbn [with_ps ru_t ru_s ru_p]; auto.
  - intros [A B]. constructor; cbn [with_ps ru_t ru_s ru_p]; auto.
  - intros n oo o Hn Ho. cbn [with_ps ru_s ru_p] in *. cbn [put_obj_obs pa_pose].
    rewrite (nth_error_nth _ n _ (map_nth_error h n _ Hn)). unfold h. rewrite Ho. auto.
Qed.

(** ** Refinement *)
Lemma solve_each_exact {A} (problem : params -> A -> option (list block)) l p :
  (forall a, In a l -> exists bs, problem p a = Some bs /\ forall b, In b bs -> eval p b = Some (0, 0)%R) -> solve_each solve problem l p = Some p.
Proof.
  unfold solve_each. induction l as [|a l IH]; intros H; cbn [fold_left]; [auto|]. destruct (H a (or_introl eq_refl)) as (bs & E & Z). rewrite E. cbn [option_map].
  rewrite (ce_exact _ CE bs p); [apply IH; intros; apply H; right; auto|]. apply cost_zero. exists (map (fun _ => (0, 0)%R) bs). split.
  - apply collect_Some. rewrite map_map. apply map_ext_in. intros b Hb. rewrite (Z b Hb). auto.
  - apply Forall_forall. intros x Hx. apply in_map_iff in Hx as (b & <- & _). auto.
Qed.
Lemma eval_exact p b : (forall k, In k (pose_keys b) -> plain (pa_pose p k)) ->
  image (block_model b) (block_intr p b) (block_pose p b) (block_pt b) = Some (block_uv b) -> eval p b = Some (0, 0)%R.
Proof. intros H E. rewrite (eval_ok p b H), E. cbn [option_map]. unfold minus. f_equal. f_equal; ring. Qed.
Lemma matrix_true P : rigid P -> matrix (Proj2RT lr P) = P.
Proof. intros R. apply matrix_proj; auto. Qed.

(** cameras on their own *)
Lemma refine_cameras_exact obs cs p : (forall c, pa_intr p c = rg_intr w c) -> (forall n bo, obs_at t n bo -> pa_pose p (KBoardObs n) = Proj2RT lr (board_at w (o_cam bo) (o_frame bo) (o_board bo))) ->
  (forall c n bo, In n (obs c) -> obs_at t n bo -> o_cam bo = c) ->
  refineIntrinsicAndPoseAllCam solve bpts t models obs cs p = Some p.
Proof.
  intros Ei Ep Ec. apply solve_each_exact. intros c Hc. destruct (camera_problem_total bpts t models obs_trimmed c (obs c)) as (bs & E). exists bs. split; [auto|].
  intros b Hb. apply (camera_problem_In bpts t models obs_trimmed c (obs c) bs b E) in Hb as (n & bo & m & q & Hn & Ho & V & OC & ->). assert (Hcam := Ec c n bo Hn Ho).
  apply eval_exact; cbn [pose_keys block_model block_intr block_pose block_pt block_uv].
  - intros k [<-|[]]. rewrite (Ep n bo Ho). apply NT.
  - rewrite (Ep n bo Ho), Ei, matrix_true by apply rigid_board. rewrite <- Hcam. apply own_image; auto. eapply nth_error_In; eauto.
Qed.
(** objects on their own *)
Lemma object_chain c f a b : pmul (board_at w c f a) (pmul (pinv (W a)) (W b)) = board_at w c f b.
Proof. unfold board_at. rewrite <- !pmul_assoc. f_equal. rewrite pmul_assoc, pinv_r by apply rigid_W. apply pmul_id_l. Qed.
Lemma group_chain c d f b : pmul (pmul (C c) (pinv (C d))) (board_at w d f b) = board_at w c f b.
Proof. unfold board_at, world_at. rewrite !pmul_assoc. do 2 f_equal. rewrite <- pmul_assoc, pinv_l by apply rigid_C. apply pmul_id_r. Qed.
Lemma rigid_rel b d : rigid (pmul (pinv (W b)) (W d)).
Proof. apply rigid_mul; [apply rigid_inv|]; apply rigid_W. Qed.
Lemma rigid_crel c d : rigid (pmul (C c) (pinv (C d))).
Proof. apply rigid_mul; [|apply rigid_inv]; apply rigid_C. Qed.

Lemma refine_objects_exact r : exact_o r -> gathered (ru_s r) -> otables_ok (ca_oobs (ru_s r)) -> (forall k o, In (k, o) (ca_objs (ru_s r)) -> mfind (ob_id o) (ca_objs (ru_s r)) = Some o) -> estimated r ->
  refineAllObject3D solve bpts t models (ru_s r) (ru_p r) = Some (ru_p r).
Proof.
  intros XO (WB & GA) OT OI ES. apply solve_each_exact. intros o Ho. apply in_map_iff in Ho as ((k, o') & Eo & Ho). cbn [snd] in Eo. subst o'.
  destruct (object_problem_total bpts t models (ru_s r) obs_trimmed (ru_p r) o) as (bs & E). exists bs. split; [auto|]. intros b Hb.
  apply (gather_In _ _ _ b E) in Hb as (n & y & Hn & Ey & Hy). rewrite (ot_ok_objs _ OT) in Hn. apply where_In in Hn as (oo & Hoo & Eq). apply Z.eqb_eq in Eq. rewrite Hoo in Ey.
  apply (gather_In _ _ _ b Ey) in Hy as (j & y' & Hj & Ey' & Hy'). destruct (nth_error (mvals (t_obs t)) j) as [bo|] eqn:En; [|injection Ey' as <-; destruct Hy'].
  destruct (o_valid bo) eqn:V; [|injection Ey' as <-; destruct Hy']. assert (Hbo := nth_error_In _ _ En). destruct (obs_trimmed bo Hbo) as (T1 & _).
  apply (point_blocks_In _ _ _ _ _ b (eq_sym T1) Ey') in Hy' as (i & kk & x & m & H1 & H2 & H3 & ->).
  assert (OC : own_corner bpts bo m x) by (exists i, kk; auto). apply own_image in OC; auto.
  destruct (GA oo (nth_error_In _ _ Hoo)) as (o' & Ho' & Ga). assert (o' = o) by (rewrite Eq, (OI k o Ho) in Ho'; congruence). subst o'.
  apply (ga_bobs _ _ _ Ga) in Hj as (bo' & Hb' & C1 & C2 & C3). assert (bo' = bo) by congruence. subst bo'.
  destruct (xo_objs _ XO k o Ho (o_board bo) C3) as (HP & _). assert (HB := xo_boards _ XO k o (o_board bo) _ Ho HP). assert (HE := ES n oo o Hoo Ho').
  apply eval_exact; cbn [pose_keys block_model block_intr block_pose block_pt block_uv].
  - intros k' [<-|[<-|[]]]; [rewrite HE|rewrite HB]; apply NT.
  - rewrite HE, matrix_true by apply rigid_board. rewrite (xo_intr _ XO). rewrite <- OC. f_equal. rewrite <- C1, <- C2.
    destruct (Z.eqb_spec (ob_ref o) (o_board bo)) as [Er|Er]; cbn [negb].
    + rewrite pmul_id_r. rewrite Er. auto.
    + rewrite HB, matrix_true by apply rigid_rel. apply object_chain.
Qed.

(** camera groups *)
Lemma block_exact r G oo o bo m q : exact_o r -> exact_g r -> posed r -> reached svd lr uq pick g0 bpts t (ru_s r) ->
  forall k, In (k, G) (ca_groups (ru_s r)) -> detection_of t (ru_s r) G oo o bo -> own_corner bpts bo m q ->
  let p := ru_p r in
  plain (pa_pose p (KCam (cg_id G) (oo_cam oo))) /\ plain (pa_pose p (KGroup (cg_id G, oo_frame oo) (oo_obj oo))) /\ plain (pa_pose p (KBoard (ob_id o) (o_board bo))) /\
  image (models (oo_cam oo)) (rg_intr w (oo_cam oo))
    (pmul (if negb (Z.eqb (cg_ref G) (oo_cam oo)) then matrix (pa_pose p (KCam (cg_id G) (oo_cam oo))) else pid)
       (pmul (matrix (pa_pose p (KGroup (cg_id G, oo_frame oo) (oo_obj oo)))) (if negb (Z.eqb (ob_ref o) (o_board bo)) then matrix (pa_pose p (KBoard (ob_id o) (o_board bo))) else pid))) q = Some m.
Proof.
  intros XO XG PO Rd k HG (Hoo & Hc & Ho & j & Hj & Hb) OC p.
  destruct (reached_ok svd lr uq pick g0 Hh bpts nc nb ins t detected_after (trimmed_paired bpts t obs_trimmed) (ru_s r) Rd) as (bss & ol & css & gl & CO).
  destruct (proj2 (reached_gathers bpts svd lr uq pick g0 Hh nc nb ins t detected_after obs_trimmed (ru_s r) Rd) oo Hoo) as (o' & Ho' & Ga). assert (o' = o) by congruence. subst o'.
  apply (ga_bobs _ _ _ Ga) in Hj as (bo' & Hb' & C1 & C2 & C3). assert (bo' = bo) by congruence. subst bo'.
  assert (Eg := co_groups _ _ _ _ _ _ _ CO). assert (GK := co_groups_ok _ _ _ _ _ _ _ CO).
  assert (HG' := HG). rewrite Eg in HG'. assert (MG : mfind (cg_id G) (ca_groups (ru_s r)) = Some G) by (rewrite Eg; eapply dense_own_group; eauto).
  apply dense_In in HG' as (i & -> & HG'). destruct (nth_error_length_ex gl css i G (eq_sym (gk_len _ _ GK)) HG') as (cs & Hcs). assert (GR := gk_wb _ _ GK i cs G Hcs HG').
  assert (Hc' := Hc). rewrite (gr_cams _ _ GR) in Hc'. apply in_map_iff in Hc' as ((c0, P) & Ec & HP). cbn [fst] in Ec. subst c0. apply (gr_poses _ _ GR) in HP.
  assert (KC := xg_cams _ XG _ G (oo_cam oo) P HG HP). rewrite (xg_groups _ XG _ G MG (oo_cam oo) P HP) in KC. fold p in KC.
  assert (KG : pa_pose p (KGroup (cg_id G, oo_frame oo) (oo_obj oo)) = Proj2RT lr (board_at w (cg_ref G) (oo_frame oo) (ob_ref o))).
  { apply In_nth_error in Hoo as (n & Hn). apply (PO (cg_id G) (oo_frame oo) G n oo o MG); auto. split; auto. }
  apply mfind_In in Ho. destruct (xo_objs _ XO _ o Ho (o_board bo) C3) as (HP' & _). assert (KB := xo_boards _ XO _ o (o_board bo) _ Ho HP'). fold p in KB.
  rewrite KC, KG, KB. split; [apply NT|]. split; [apply NT|]. split; [apply NT|].
  rewrite !matrix_true by (auto using rigid_board, rigid_rel, rigid_crel).
  assert (E1 : pmul (board_at w (cg_ref G) (oo_frame oo) (ob_ref o)) (if negb (Z.eqb (ob_ref o) (o_board bo)) then pmul (pinv (W (ob_ref o))) (W (o_board bo)) else pid) = board_at w (cg_ref G) (oo_frame oo) (o_board bo)).
  { destruct (Z.eqb_spec (ob_ref o) (o_board bo)) as [Er|Er]; cbn [negb]; [rewrite pmul_id_r, Er; auto|apply object_chain]. }
  rewrite E1.
  assert (E2 : pmul (if negb (Z.eqb (cg_ref G) (oo_cam oo)) then pmul (C (oo_cam oo)) (pinv (C (cg_ref G))) else pid) (board_at w (cg_ref G) (oo_frame oo) (o_board bo)) = board_at w (oo_cam oo) (oo_frame oo) (o_board bo)).
  { destruct (Z.eqb_spec (cg_ref G) (oo_cam oo)) as [Er|Er]; cbn [negb]; [rewrite pmul_id_l, Er; auto|apply group_chain]. }
  rewrite E2, <- C1, <- C2. apply own_image; auto. eapply nth_error_In; eauto.
Qed.
Lemma refine_groups_exact r : exact_o r -> exact_g r -> posed r -> reached svd lr uq pick g0 bpts t (ru_s r) ->
  refineAllCameraGroupAndObjects solve bpts models (ru_s r) (ru_p r) = Some (ru_p r) /\
  refineAllCameraGroupAndObjectsAndIntrinsic solve bpts models (ru_s r) (ru_p r) = Some (ru_p r).
Proof.
  intros XO XG PO Rd.
  destruct (reached_ok svd lr uq pick g0 Hh bpts nc nb ins t detected_after (trimmed_paired bpts t obs_trimmed) (ru_s r) Rd) as (bss & ol & css & gl & CO).
  assert (FR : forall oo, In oo (ot_all (ca_oobs (ru_s r))) -> In (oo_frame oo) (mkeys (t_frames t))) by (eapply known_frames; [apply detected_after|apply (co_obs _ _ _ _ _ _ _ CO)]).
  assert (GV : forall G, In G (mvals (ca_groups (ru_s r))) -> In G gl) by (intros G H; rewrite (co_groups _ _ _ _ _ _ _ CO), dense_vals in H; auto).
  split; apply solve_each_exact; intros G HG; assert (Hk := HG); apply in_map_iff in Hk as ((k, G') & Eq & Hk); cbn [snd] in Eq; subst G'.
  - destruct (group_objects_total bpts t models bss ol css gl (ru_s r) CO obs_trimmed FR (ru_p r) G (GV G HG)) as (bs & E). exists bs. split; [auto|]. intros b Hb.
    destruct (C48_groups_use_their_detections svd lr uq pick g0 Hh bpts nc nb ins t detected_after obs_trimmed (ru_s r) Rd models (ru_p r) k G bs Hk) as (U & _).
    apply (U E b) in Hb as (oo & o & bo & m & q & D & OC & ->). destruct (block_exact r G oo o bo m q XO XG PO Rd k Hk D OC) as (P1 & P2 & P3 & I).
    apply eval_exact; cbn [pose_keys block_model block_intr block_pose block_pt block_uv]; [intros k' [<-|[<-|[<-|[]]]]; auto|]. rewrite (xo_intr _ XO). exact I.
  - destruct (group_all_total bpts t models bss ol css gl (ru_s r) CO obs_trimmed FR G (GV G HG)) as (bs & E). exists bs. split; [auto|]. intros b Hb.
    destruct (C48_groups_use_their_detections svd lr uq pick g0 Hh bpts nc nb ins t detected_after obs_trimmed (ru_s r) Rd models (ru_p r) k G bs Hk) as (_ & U).
    apply (U E b) in Hb as (oo & o & bo & m & q & D & OC & ->). destruct (block_exact r G oo o bo m q XO XG PO Rd k Hk D OC) as (P1 & P2 & P3 & I).
    apply eval_exact; cbn [pose_keys block_model block_intr block_pose block_pt block_uv]; [intros k' [<-|[<-|[<-|[]]]]; auto|]. rewrite (xo_intr _ XO). exact I.
Qed.

(** ** The steps of a run *)
Notation Good := (good svd lr uq pick g0 bpts t).
Record exact (r : run) : Prop := {
  xa_good : Good r;
  xa_o : exact_o r;
  xa_g : exact_g r;
  xa_so : sorted_objs (ca_objs (ru_s r));
  xa_sg : sorted_groups (ca_groups (ru_s r))
}.
Let Hp : paired t := trimmed_paired bpts t obs_trimmed.
Definition regp (gp : nat -> par6) (r : run) : run := mkRun (ru_t r) (ru_p r) gp (ru_prs r) (ru_s r).
Lemma exact_regp gp r : exact r -> exact (regp gp r).
Proof. intros [[A1 A2 A3 A4 A5] [B1 B2 B3 B4] [C1 C2] D E]. constructor; auto; constructor; auto. Qed.
Lemma good_gathered r : Good r -> gathered (ru_s r).
Proof.
  intros G. exact (reached_gathers bpts svd lr uq pick g0 Hh nc nb ins t detected_after obs_trimmed (ru_s r) (gd_reached _ _ _ _ _ _ _ _ G)).
Qed.
Lemma good_calib r : Good r -> exists bss ol css gl, calib_ok bpts t bss ol css gl (ru_s r).
Proof. intros G. exact (reached_ok svd lr uq pick g0 Hh bpts nc nb ins t detected_after Hp (ru_s r) (gd_reached _ _ _ _ _ _ _ _ G)). Qed.

Lemma estimate_step_exact c r : exact r -> exists r', estimate_objects_step models thresh it env pose0 c r = Some r' /\ ru_s r' = ru_s r /\ ru_prs r' = ru_prs r /\ exact r' /\ estimated r'.
Proof.
  intros X. destruct (estimate_exact c r (xa_o _ X) (good_gathered r (xa_good _ X))) as (r' & E & Q1 & Q2 & Q3 & XO & XG & ES). exists r'. split; [auto|]. split; [auto|]. split; [auto|]. split; [|auto].
  destruct (good_estimate svd lr uq pick g0 bpts models thresh it env pose0 t c r r' (xa_good _ X) E) as (G & _).
  constructor; [auto|auto|apply XG; apply X|rewrite Q2; apply X|rewrite Q2; apply X].
Qed.
(** pose of an object in a frame *)
Definition placed (s : calib pt2) (f j : Z) : pose := match mfind j (ca_objs s) with Some o => pmul (F f) (W (ob_ref o)) | None => F f end.
Lemma placed_rigid s f j : rigid (placed s f j).
Proof. unfold placed. destruct (mfind j (ca_objs s)); [apply rigid_mul; auto using rigid_F, rigid_W|apply rigid_F]. Qed.
Lemma placed_at s f j o c : mfind j (ca_objs s) = Some o -> pmul (C c) (placed s f j) = board_at w c f (ob_ref o).
Proof. intros H. unfold placed. rewrite H. unfold board_at, world_at. rewrite pmul_assoc. auto. Qed.
Lemma estimated_objects r : gathered (ru_s r) -> estimated r -> exact_objects (ot_all (ca_oobs (ru_s r))) C (placed (ru_s r)) (fun n => as_matrix (pa_pose (ru_p r) (KObjObs n))).
Proof.
  intros (_ & GA) ES. split; [apply rigid_C|]. split; [apply placed_rigid|]. intros n oo Hn. destruct (GA oo (nth_error_In _ _ Hn)) as (o & Ho & _).
  rewrite (ES n oo o Hn Ho), (placed_at _ _ _ o _ Ho). apply (matrix_true _ (rigid_board _ _ _)).
Qed.
Lemma group_poses_exact r : exact r -> estimated r -> exists r', group_poses_step svd lr uq r = Some r' /\ ru_s r' = ru_s r /\ ru_prs r' = ru_prs r /\ exact r' /\ estimated r' /\ posed r'.
Proof.
  intros X ES. assert (XG := xa_good _ X). assert (Rd := gd_reached _ _ _ _ _ _ _ _ XG). destruct (good_gathered r XG) as (WB & GA).
  unfold group_poses_step. set (s := ru_s r) in *. set (op := fun n => as_matrix (pa_pose (ru_p r) (KObjObs n))).
  set (R := computeAllObjPoseInCameraGroup svd lr uq (ot_all (ca_oobs s)) (ca_groups s) (ca_gobs s) op (ru_gp r)).
  set (Fn := fun (k : Z * Z) (o : Z) => match mfind (fst k) (ca_groups s) with Some G => Proj2RT lr (pmul (C (cg_ref G)) (placed s (snd k) o)) | None => (vzero, vzero) end).
  assert (V : forall k f G n oo, mfind k (ca_groups s) = Some G -> made_by (ot_all (ca_oobs s)) G f n oo ->
    exists m, mfind (k, f) (fst R) = Some m /\ mfind (oo_obj oo) m = Some (Some (Fn (k, f) (oo_obj oo)))).
  { intros k f G n oo HG M.
    destruct (C32_exact_object_poses pt2 svd lr uq pick g0 Hh SO LO bpts nc nb ins t detected_after Hp s Rd C (placed s) op (ru_gp r)
      (estimated_objects r (conj WB GA) ES) (xg_groups _ (xa_g _ X)) k f G n oo HG M) as (m & v & tr & E1 & E2 & _ & _ & E3).
    exists m. split; [exact E1|]. rewrite E2, E3. unfold Fn. cbn [fst snd]. rewrite HG. auto. }
  destruct (good_calib r XG) as (bss & ol & css & gl & CO). fold s in CO.
  destruct (C31_group_observations pt2 svd lr uq pick g0 Hh bpts nc nb ins t detected_after Hp s Rd) as (K1 & K2 & _).
  destruct (all_poses_shape svd lr uq (ot_all (ca_oobs s)) (ca_groups s) (ca_gobs s) op (ru_gp r)) as (SR & Sh). fold R in SR, Sh.
  assert (A : forall k om o v, In (k, om) (fst R) -> In (o, v) om -> v = Some (Fn k o)).
  { intros (k, f) om o v Hk Ho. destruct (Sh (k, f) om Hk) as (go & Hgo & Sm & Ids). assert (Io := Ids o v Ho).
    apply In_mfind in Hgo; [|apply (gto_sorted _ _ _ _ (co_gobs _ _ _ _ _ _ _ CO))].
    destruct (proj1 (K1 k f) (ex_intro _ go Hgo)) as (G & n & oo & HG & _). destruct (K2 k f G go HG Hgo) as (_ & _ & L & Nm & Id).
    apply In_nth_error in Io as (j & Hj). destruct (nth_error (go_nums go) j) as [n'|] eqn:En.
    2:{ apply nth_error_None in En. assert (j < length (go_ids go)) by (apply nth_error_Some; congruence). lia. }
    destruct (proj1 (Nm n') (nth_error_In _ _ En)) as (oo' & M'). assert (Q := Id j n' oo' En (proj1 M')). assert (o = oo_obj oo') by congruence. subst o.
    destruct (V k f G n' oo' HG M') as (m & E1 & E2). apply In_mfind in Hk; auto. assert (m = om) by congruence. subst m. apply In_mfind in Ho; auto. congruence. }
  destruct (put_group_total (fst R) Fn (ru_p r) A) as (p' & E & I & Q). rewrite E. cbn [option_map].
  assert (U : forall k, (forall n o, k <> KGroup n o) -> pa_pose p' k = pa_pose (ru_p r) k).
  { intros key Hk. destruct (Q key) as [Q'|(k & o & -> & _)]; [auto|]. exfalso. eapply Hk; eauto. }
  eexists. split; [reflexivity|]. cbn [ru_s ru_prs]. split; [auto|]. split; [auto|]. split; [|split].
  - destruct X as [X1 [A1 A2 A3 A4] [B1 B2] X4 X5]. constructor; auto.
    + apply (good_group_poses svd lr uq pick g0 bpts t r _ X1). unfold group_poses_step. fold s. fold op. fold R. rewrite E. reflexivity.
    + constructor; cbn [ru_t ru_s ru_p]; auto; [intros c; rewrite I; auto|]. intros k o b P H1 H2. rewrite U by (intros ? ? Z; discriminate Z). eauto.
    + constructor; cbn [ru_s ru_p]; auto. intros k G c P H1 H2. rewrite U by (intros ? ? Z; discriminate Z). eauto.
  - intros n oo o H1 H2. cbn [ru_s ru_p] in *. rewrite U by (intros ? ? Z; discriminate Z). eauto.
  - intros k f G n oo o HG M Ho. cbn [ru_s ru_p] in *. destruct (V k f G n oo HG M) as (m & E1 & E2).
    rewrite (put_group_written (fst R) Fn (ru_p r) p' (k, f) m (oo_obj oo) _ A E (mfind_In _ _ _ E1) (mfind_In _ _ _ E2)). unfold Fn. cbn [fst snd]. rewrite HG. rewrite (placed_at s f _ o _ Ho). auto.
Qed.
Lemma own_state r : exact r -> refine_calib bpts (boards_of (ru_p r)) (cams_of (ru_p r)) (ru_s r) = ru_s r.
Proof.
  intros X. destruct (good_calib r (xa_good _ X)) as (bss & ol & css & gl & CO).
  exact (refine_calib_own bpts bss ol (ru_p r) (ru_s r) (co_objs _ _ _ _ _ _ _ CO) (co_objects _ _ _ _ _ _ _ CO) (gd_represents _ _ _ _ _ _ _ _ (xa_good _ X)) (xa_so _ X) (xa_sg _ X)).
Qed.
Lemma refine_step_exact r : exact r -> posed r -> exists gp, refine_step solve bpts models r = Some (regp gp r).
Proof.
  intros X PO. unfold refine_step. rewrite (proj1 (refine_groups_exact r (xa_o _ X) (xa_g _ X) PO (gd_reached _ _ _ _ _ _ _ _ (xa_good _ X)))). cbn [option_map]. rewrite (own_state r X). eexists. reflexivity.
Qed.
Lemma refine_intrinsic_exact r : exact r -> posed r -> exists gp, refine_intrinsic_step solve bpts models r = Some (regp gp r).
Proof.
  intros X PO. unfold refine_intrinsic_step. rewrite (proj2 (refine_groups_exact r (xa_o _ X) (xa_g _ X) PO (gd_reached _ _ _ _ _ _ _ _ (xa_good _ X)))). cbn [option_map]. rewrite (own_state r X). eexists. reflexivity.
Qed.

(** ** Objects *)
(** the poses of the boards are right *)
Record exact_start (r : run) : Prop := {
  xs_t : ru_t r = t;
  xs_intr : forall c, pa_intr (ru_p r) c = rg_intr w c;
  xs_boards : forall n bo, obs_at t n bo -> pa_pose (ru_p r) (KBoardObs n) = Proj2RT lr (board_at w (o_cam bo) (o_frame bo) (o_board bo))
}.
Notation Objects := (good_objects svd lr uq pick g0 bpts t).
Lemma start_boards r : exact_start r -> exact_boards t W (world_at w) (fun n => as_matrix (pa_pose (ru_p r) (KBoardObs n))).
Proof.
  intros X. split; [apply rigid_W|]. split; [apply rigid_world|]. intros n bo H. rewrite (xs_boards _ X n bo H). apply (matrix_true _ (rigid_board _ _ _)).
Qed.
Lemma new_objects_exact r : exact_start r -> exists r' bp, new_objects svd lr uq pick g0 bpts r = Some r' /\ ru_prs r' = ru_prs r /\ exact_o r' /\ sorted_objs (ca_objs (ru_s r')) /\
  calibrate3DObjects svd lr uq pick g0 bpts t bp ob_poses = Some (ru_s r').
Proof.
  intros X. set (bp := fun n => as_matrix (pa_pose (ru_p r) (KBoardObs n))).
  destruct (C22_boards_are_chained_consistently pt2 svd lr uq pick g0 Hh SO LO bpts nc nb ins t detected_after W (world_at w) bp (start_boards r X)) as (objs & E & _ & TO).
  destruct (objects_part_start svd lr uq pick g0 Hh bpts nc nb ins t detected_after Hp bp ob_poses own_boards) as (s & ol & bss & Es & OK & Ec & _ & Ei).
  assert (objs = dense ol) by congruence. subst objs.
  assert (Q : new_objects svd lr uq pick g0 bpts r = Some (with_ps (put_boards lr (dense ol) (ru_p r)) (mkCal (dense ol) (ca_oobs s) [] empty_gtables) r)).
  { unfold new_objects. rewrite (xs_t _ X). fold bp. rewrite E. cbn [bind]. rewrite Ei. reflexivity. }
  eexists. exists bp. split; [exact Q|]. cbn [with_ps ru_prs ru_s ca_objs]. split; [auto|]. split; [|split].
  - constructor; cbn [with_ps ru_t ru_s ru_p ca_objs put_boards pa_intr pa_pose]; [apply X|apply X|auto|].
    intros k o b P H1 H2. rewrite (dense_own_obj bpts bss ol k o OK H1), H2. auto.
  - eapply objects_stage_sorted; eauto.
  - unfold calibrate3DObjects. rewrite E, Ei, (refine_own bpts bss ol OK). auto.
Qed.
Lemma objects_exact r : exact_start r -> exists r', run_calibrate3DObjects svd lr uq pick g0 solve bpts models thresh it env pose0 r = Some r' /\ ru_prs r' = ru_prs r /\
  exact_o r' /\ sorted_objs (ca_objs (ru_s r')) /\ gathered (ru_s r') /\ estimated r'.
Proof.
  intros X. unfold run_calibrate3DObjects. destruct (new_objects_exact r X) as (r1 & bp & E1 & P1 & X1 & S1 & C1). rewrite E1. cbn [bind].
  assert (G1 : gathered (ru_s r1)) by (exact (first_gathers bpts svd lr uq pick g0 Hh nc nb ins t detected_after obs_trimmed bp ob_poses (ru_s r1) own_boards C1)).
  destruct (estimate_exact 1 r1 X1 G1) as (r2 & E2 & T2 & S2 & P2 & X2 & _ & ES). rewrite E2. cbn [bind].
  destruct (objects_part_start svd lr uq pick g0 Hh bpts nc nb ins t detected_after Hp bp ob_poses own_boards) as (s & ol & bss & Es & OK & Ec & (Q1 & Q2 & Q3 & _) & _).
  assert (s = ru_s r1) by congruence. subst s. rewrite <- S2 in *.
  unfold refine_objects_step. rewrite (xo_t _ X2). rewrite (refine_objects_exact r2 X2 G1 Q3) by (auto; intros k o H; rewrite Q1 in *; eapply dense_own_obj; eauto). cbn [option_map].
  assert (RP : represents (ru_p r2) (ca_objs (ru_s r2)) []).
  { constructor; [|intros ? ? ? ? []]. intros k o b P H1 H2. rewrite (xo_boards _ X2 k o b P H1 H2). apply matrix_true.
    assert (Hb : In b (mkeys (ob_boards o))).
    { destruct (proj1 G1 k o H1) as (bs & Wb). apply (wb_boards _ _ _ Wb). apply (wb_poses _ _ _ Wb) in H2. apply (in_map fst) in H2. auto. }
    destruct (xo_objs _ X2 k o H1 b Hb) as (HP & _). assert (P = pmul (pinv (W (ob_ref o))) (W b)) by congruence. subst P. apply rigid_rel. }
  assert (RC : refine_calib bpts (boards_of (ru_p r2)) cg_poses (ru_s r2) = ru_s r2).
  { unfold refine_calib. rewrite regroup_own. rewrite Q1 in *. rewrite (refine_objects_own bpts _ _ (ru_p r2) Q2 RP S1). rewrite <- Q1. destruct (ru_s r2); reflexivity. }
  rewrite RC. eexists. split; [reflexivity|]. cbn [with_ps ru_prs ru_s]. split; [congruence|]. split; [|split; [auto|split; [auto|auto]]].
  destruct X2. constructor; auto.
Qed.

(** ** Which objects detections belong to *)
Lemma ins_obs i : In i ins -> exists n, obs_at t n (new_obs i).
Proof. intros H. apply In_nth_error in H as (n & H). exists n. unfold obs_at. rewrite obs_vals, nth_error_map, H. auto. Qed.
Lemma together_seen a b : boards_together ins a b -> a = b \/ seen_together t a b.
Proof.
  intros (i & j & Hi & Hj & <- & <- & E1 & E2). destruct (Z.eq_dec (i_board i) (i_board j)) as [E|N]; [auto|right]. split; [auto|].
  destruct (ins_obs i Hi) as (n & Hn), (ins_obs j Hj) as (m & Hm). exists n, m, (new_obs i), (new_obs j). auto 10.
Qed.
Lemma clos_sub {A} (R S : A -> A -> Prop) : (forall a b, R a b -> a = b \/ S a b) -> forall a b, clos_refl_trans A R a b -> clos_refl_trans A S a b.
Proof.
  intros H a b Q. induction Q as [a b Q|a|a b c _ IH1 _ IH2]; [|apply rt_refl|eapply rt_trans; eauto]. apply H in Q as [<-|Q]; [apply rt_refl|apply rt_step; auto].
Qed.
Lemma seen_object r : Objects r -> exists num : Z -> Z -> Prop,
  (forall i, In i ins -> exists oo, In oo (ot_all (ca_oobs (ru_s r))) /\ oo_cam oo = i_cam i /\ oo_frame oo = i_frame i /\ num (i_board i) (oo_obj oo)) /\
  (forall i j k l, In i ins -> In j ins -> clos_refl_trans Z (boards_together ins) (i_board i) (i_board j) -> num (i_board i) k -> num (i_board j) l -> k = l) /\
  (forall oo, In oo (ot_all (ca_oobs (ru_s r))) -> exists i, In i ins /\ i_cam i = oo_cam oo /\ i_frame i = oo_frame oo /\ num (i_board i) (oo_obj oo)) /\
  (forall i j k, In i ins -> In j ins -> num (i_board i) k -> num (i_board j) k -> clos_refl_trans Z (boards_together ins) (i_board i) (i_board j)).
Proof.
  intros GO. destruct (go_run _ _ _ _ _ _ _ _ GO) as (bp & rf & K & Ec).
  destruct (objects_part_start svd lr uq pick g0 Hh bpts nc nb ins t detected_after Hp bp rf K) as (s & ol & bss & Es & OK & Ec' & (_ & _ & _ & Ob & Cov) & _).
  assert (s = ru_s r) by congruence. subst s.
  destruct (objects_stage_main nc nb ins t detected_after svd lr uq pick g0 Hh bpts bp) as (ol' & bss' & Es' & OK' & Kb & Lk & _).
  assert (EO : ol' = ol) by (assert (Q : dense ol' = dense ol) by congruence; rewrite <- (dense_vals ol), <- (dense_vals ol'), Q; auto). subst ol'.
  assert (Known : forall i, In i ins -> In (i_board i) (map fst (concat bss'))).
  { intros x Hx. apply Kb. destruct (ins_obs x Hx) as (n & Hn). exists n, (new_obs x). auto. }
  exists (fun b k => exists i o, k = Z.of_nat i /\ nth_error ol i = Some o /\ In b (mkeys (ob_boards o))). split; [|split; [|split]].
  - intros i Hi. destruct (ins_obs i Hi) as (n & Hn). destruct (Cov n _ Hn) as (_ & oo & Hoo & In').
    { destruct (obs_trimmed _ (nth_error_In _ _ Hn)) as (_ & _ & T). specialize (proj1 T (obs_valid _ (nth_error_In _ _ Hn))). intros L Q. rewrite Q in L. cbn in L. lia. }
    exists oo. split; [auto|]. destruct (Ob oo Hoo) as (j & o & Ho & Ej & Ga). apply (ga_bobs _ _ _ Ga) in In' as (b & Hb & C1 & C2 & C3).
    assert (b = new_obs i) by (unfold obs_at in Hn; congruence). subst b. split; [auto|]. split; [auto|].
    apply retake_nth in Ho as (o0 & Ho0 & ->). exists j, o0. split; [auto|]. split; [auto|]. exact C3.
  - intros i j k l Hi Hj Q (a & oa & -> & Ha & Ia) (b & ob & -> & Hb & Ib). f_equal.
    destruct (nth_error_length_ex ol bss' a oa (eq_sym (ok_len _ _ _ OK')) Ha) as (bsa & Hbsa). destruct (nth_error_length_ex ol bss' b ob (eq_sym (ok_len _ _ _ OK')) Hb) as (bsb & Hbsb).
    assert (WA := ok_wb bpts bss' ol OK' a bsa oa Hbsa Ha). assert (WB := ok_wb bpts bss' ol OK' b bsb ob Hbsb Hb). apply (wb_boards _ _ _ WA) in Ia. apply (wb_boards _ _ _ WB) in Ib.
    destruct (proj2 (Lk (i_board i) (i_board j) (Known i Hi) (Known j Hj)) (clos_sub _ _ together_seen _ _ Q)) as (bs & Hbs & I1 & I2).
    apply In_nth_error in Hbs as (x & Hx). assert (N := ok_disjoint _ _ _ OK'). rewrite concat_map in N.
    assert (x = a) by (eapply NoDup_concat_unique; [exact N|rewrite nth_error_map, Hx; reflexivity|rewrite nth_error_map, Hbsa; reflexivity|exact I1|exact Ia]).
    assert (x = b) by (eapply NoDup_concat_unique; [exact N|rewrite nth_error_map, Hx; reflexivity|rewrite nth_error_map, Hbsb; reflexivity|exact I2|exact Ib]).
    congruence.
  - intros oo Hoo. destruct (Ob oo Hoo) as (j & o & Ho & Ej & Ga). assert (NE := ga_nonempty _ _ _ Ga). destruct (ga_content _ _ _ Ga) as (l & F2 & _ & Pts & _).
    assert (Q : exists m, In m (oo_bobs oo)) by (destruct F2 as [|m b ms l' Hm F2]; [rewrite Pts in NE; cbn in NE; congruence|exists m; left; auto]). destruct Q as (m & Hm).
    apply (ga_bobs _ _ _ Ga) in Hm as (b & Hb & C1 & C2 & C3). apply obs_ins in Hb as (i & Hi & ->). exists i. split; [eapply nth_error_In; eauto|]. split; [auto|]. split; [auto|].
    apply retake_nth in Ho as (o0 & Ho0 & ->). exists j, o0. split; [auto|]. split; [auto|]. exact C3.
  - intros i j k Hi Hj (a & oa & -> & Ha & Ia) (b & ob & Eb & Hb & Ib). apply Nat2Z.inj in Eb. subst b. assert (ob = oa) by congruence. subst ob.
    destruct (nth_error_length_ex ol bss' a oa (eq_sym (ok_len _ _ _ OK')) Ha) as (bsa & Hbsa).
    assert (WA := ok_wb bpts bss' ol OK' a bsa oa Hbsa Ha). apply (wb_boards _ _ _ WA) in Ia, Ib.
    apply (clos_sub (seen_together t)); [|apply (Lk _ _ (Known i Hi) (Known j Hj)); exists bsa; split; [eapply nth_error_In; eauto|auto]].
    intros x y (_ & n & m & o & o' & Hn & Hm & Q). right. apply obs_ins in Hn as (u & Hu & ->). apply obs_ins in Hm as (v & Hv & ->). exists u, v.
    split; [eapply nth_error_In; eauto|]. split; [eapply nth_error_In; eauto|]. cbn [new_obs o_board o_cam o_frame] in Q. tauto.
Qed.
(** ** Camera groups *)
Lemma saw_obs c : saw ins c <-> exists n b, obs_at t n b /\ o_cam b = c.
Proof.
  split.
  - intros (i & Hi & <-). destruct (ins_obs i Hi) as (n & Hn). exists n, (new_obs i). auto.
  - intros (n & b & Hn & <-). apply obs_ins in Hn as (i & Hi & ->). exists i. split; [eapply nth_error_In; eauto|auto].
Qed.
(** the groups hold the cameras that saw a board; one group: connected by common views *)
Lemma group_views r op groups : Objects r -> cameras_stage svd lr uq pick g0 t (ca_oobs (ru_s r)) op = Some groups ->
  (forall c, (exists k, member groups k c) <-> saw ins c) /\
  (forall k k' c d, member groups k c -> member groups k' d -> (k = k' <-> same_view ins c d)).
Proof.
  intros GO Eg. destruct (seen_object r GO) as (num & N1 & N2 & N3 & N4). destruct (go_run _ _ _ _ _ _ _ _ GO) as (bp & rf & K & Ec).
  destruct (C30_camera_groups_partition pt2 svd lr uq pick g0 Hh bpts nc nb ins t detected_after Hp bp rf (ru_s r) K Ec op) as (groups' & Eg' & Og & Mem & _ & Lk).
  assert (groups' = groups) by congruence. subst groups'. split; [intros c; rewrite saw_obs; apply Mem|].
  intros k k' c d M M'. rewrite (Lk c d k k' M M'). split; apply clos_sub.
  - intros a b (Nab & x & y & Hx & Hy & <- & <- & Ef & Eo). right. destruct (N3 x Hx) as (i & Hi & I1 & I2 & I3), (N3 y Hy) as (j & Hj & J1 & J2 & J3).
    exists i, j. split; [auto|]. split; [auto|]. split; [auto|]. split; [auto|]. split; [congruence|]. rewrite <- Eo in J3. exact (N4 i j _ Hi Hj I3 J3).
  - intros a b (i & j & Hi & Hj & <- & <- & Ef & Q). destruct (Z.eq_dec (i_cam i) (i_cam j)) as [E|N]; [auto|right]. split; [auto|].
    destruct (N1 i Hi) as (x & Hx & X1 & X2 & X3), (N1 j Hj) as (y & Hy & Y1 & Y2 & Y3). exists x, y. do 4 (split; [auto|]). split; [congruence|].
    exact (N2 i j _ _ Hi Hj Q X3 Y3).
Qed.
(** at most two cameras, or all of the same orientation (the order in which transformations
    are multiplied does not matter, see C23), or all connected directly with the first *)
Hypothesis Few : nc <= 2 \/ (forall a b, fst (C a) = fst (C b)) \/ shares_with_first ins.
Lemma below_length (l : list Z) : NoDup l -> (forall c, In c l -> (0 <= c < Z.of_nat nc)%Z) -> length l <= nc.
Proof.
  intros N H. rewrite <- (seq_length nc 0), <- (map_length Z.of_nat (seq 0 nc)). apply NoDup_incl_length; auto.
  intros c Hc. apply H in Hc. apply in_map_iff. exists (Z.to_nat c). split; [lia|]. apply in_seq. lia.
Qed.
Lemma first_camera : ins <> [] -> exists ref, saw ins ref /\ forall d, saw ins d -> (ref <= d)%Z.
Proof.
  unfold saw. generalize ins as l. intros l N. induction l as [|i l IH]; [congruence|]. destruct l as [|j l].
  - exists (i_cam i). split; [exists i; split; [left; auto|auto]|]. intros d (x & [<-|[]] & <-). lia.
  - destruct IH as (r & (x & Hx & <-) & M); [intros Q; discriminate Q|]. destruct (Z.le_ge_cases (i_cam i) (i_cam x)) as [L|L].
    + exists (i_cam i). split; [exists i; split; [left; auto|auto]|]. intros d (y & [<-|Hy] & <-); [lia|]. assert (i_cam x <= i_cam y)%Z by (apply M; eauto). lia.
    + exists (i_cam x). split; [exists x; split; [right; auto|auto]|]. intros d (y & [<-|Hy] & <-); [lia|]. apply M; eauto.
Qed.
Lemma few_cams r op groups : Objects r -> exact_objects (ot_all (ca_oobs (ru_s r))) C (placed (ru_s r)) op ->
  cameras_stage svd lr uq pick g0 t (ca_oobs (ru_s r)) op = Some groups -> forall k G, mfind k groups = Some G -> true_group C G.
Proof.
  intros GO EX Eg k G HGf. assert (HG := mfind_In _ _ _ HGf). destruct (go_run _ _ _ _ _ _ _ _ GO) as (bp & rf & K & Ec).
  destruct (C23_small_groups_are_right_partial pt2 svd lr uq pick g0 Hh SO LO bpts nc nb ins t detected_after Hp bp rf (ru_s r) K Ec C (placed (ru_s r)) op EX) as (gs & Eg' & TG).
  destruct (C23_direct_views_are_right_partial pt2 svd lr uq pick g0 Hh SO LO bpts nc nb ins t detected_after Hp bp rf (ru_s r) K Ec C (placed (ru_s r)) op EX) as (gs' & Eg'' & TD).
  destruct (C30_camera_groups_partition pt2 svd lr uq pick g0 Hh bpts nc nb ins t detected_after Hp bp rf (ru_s r) K Ec op) as (gs2 & Eg3 & Og & Mem & _ & Lk).
  assert (gs = groups) by congruence. assert (gs' = groups) by congruence. assert (gs2 = groups) by congruence. subst gs gs' gs2. clear Eg' Eg'' Eg3.
  destruct (Og k G HG) as (Ok1 & Ok2 & Ok3).
  assert (Sw : forall c, In c (cg_cams G) -> exists i, In i ins /\ i_cam i = c).
  { intros c Hc. destruct (proj1 (Mem c) (ex_intro _ k (ex_intro _ G (conj HGf Hc)))) as (n & o & Hn & <-). apply obs_ins in Hn as (i & Hi & ->). exists i. split; [eapply nth_error_In; eauto|auto]. }
  destruct Few as [L|[L|SF]]; [apply (TG k G HG); left|apply (TG k G HG); right; auto|].
  - enough (length (cg_cams G) <= nc) by lia. apply below_length; [auto|]. intros c Hc. destruct (Sw c Hc) as (i & Hi & <-). exact (proj1 (proj1 (Forall_forall _ _) Kn i Hi)).
  - intros c P HP. assert (Hc : In c (cg_cams G)) by (apply Ok3; eauto). destruct (seen_object r GO) as (num & N1 & N2 & _). destruct (group_views r op groups GO Eg) as (GS & GV).
    assert (CV : forall a b f, shares_in ins a b f -> exists o, common_view (ot_all (ca_oobs (ru_s r))) a b f o).
    { intros a b f (i & j & Hi & Hj & <- & <- & E1 & E2 & Q). destruct (N1 i Hi) as (x & Hx & X1 & X2 & X3), (N1 j Hj) as (y & Hy & Y1 & Y2 & Y3).
      exists (oo_obj x), x, y. split; [auto|]. split; [auto|]. split; [auto|]. split; [auto|]. split; [congruence|]. split; [congruence|]. split; [auto|].
      symmetry. exact (N2 i j _ _ Hi Hj Q X3 Y3). }
    assert (MR : member groups k (cg_ref G)) by (exists G; split; [auto|apply (go_member _ Ok2)]). assert (MC : member groups k c) by (exists G; auto).
    destruct (Z.eq_dec c (cg_ref G)) as [->|Nc].
    + assert (P = pid) by (assert (Q := go_id _ Ok2); congruence). subst P. rewrite pinv_r; auto. apply rigid_C.
    + apply (TD k G c P HG HP). destruct (SF (cg_ref G) c) as (f & f' & Nf & S1 & S2); auto.
      * apply GS. eauto.
      * intros d Sd Vd. apply GS in Sd as (kd & Md). assert (k = kd) by (apply (GV k kd _ d MR Md); auto). subst kd. destruct Md as (G' & HG' & Hd). assert (G' = G) by congruence. subst G'. apply (go_min _ Ok2 _ Hd).
      * apply GS. eauto.
      * apply (GV k k _ _ MR MC). auto.
      * destruct (CV _ _ _ S1) as (o & V1), (CV _ _ _ S2) as (o' & V2). exists f, o, f', o'. split; [congruence|auto].
Qed.
Lemma new_groups_exact r : Objects r -> exact_o r -> sorted_objs (ca_objs (ru_s r)) -> gathered (ru_s r) -> estimated r ->
  exists r', new_groups svd lr uq pick g0 r = Some r' /\ ru_prs r' = ru_prs r /\ exact r' /\ estimated r' /\ ca_oobs (ru_s r') = ca_oobs (ru_s r) /\
    cameras_stage svd lr uq pick g0 t (ca_oobs (ru_s r)) (fun n => as_matrix (pa_pose (ru_p r) (KObjObs n))) = Some (ca_groups (ru_s r')).
Proof.
  intros GO XO SOb GA ES. destruct (go_run _ _ _ _ _ _ _ _ GO) as (bp & rf & K & Ec).
  destruct (C30_camera_groups_partition pt2 svd lr uq pick g0 Hh bpts nc nb ins t detected_after Hp bp rf (ru_s r) K Ec (fun n => as_matrix (pa_pose (ru_p r) (KObjObs n)))) as (gs & Eg & _).
  assert (TG := few_cams r _ gs GO (estimated_objects r GA ES) Eg).
  set (op := fun n => as_matrix (pa_pose (ru_p r) (KObjObs n))) in *.
  assert (Q : exists r', new_groups svd lr uq pick g0 r = Some r' /\ r' = with_ps (put_cams lr gs (ru_p r)) (mkCal (ca_objs (ru_s r)) (ca_oobs (ru_s r)) gs (initAllCameraGroupObs (ca_oobs (ru_s r)) (mkeys (t_frames (ru_t r))) gs (ca_gobs (ru_s r)))) r).
  { eexists. split; [|reflexivity]. unfold new_groups. fold op. rewrite (xo_t _ XO), Eg. reflexivity. }
  destruct Q as (r' & Q & Er). destruct (new_groups_good svd lr uq pick g0 bpts Hh LO nc nb ins t detected_after obs_trimmed r r' GO Q) as (G' & P').
  destruct (good_calib r' G') as (bss & ol & css & gl & CO). assert (EG := co_groups _ _ _ _ _ _ _ CO).
  exists r'. split; [auto|]. split; [auto|]. split; [|split; [|rewrite Er; auto]].
  - constructor; [auto| | | |].
    + rewrite Er. destruct XO as [A B D E]. constructor; cbn [with_ps ru_t ru_s ru_p ca_objs put_cams pa_intr pa_pose]; auto.
    + constructor.
      * intros k G HG. apply (TG k G). rewrite Er in HG. exact HG.
      * intros k G c P HG HP. assert (HG' := HG). rewrite EG in HG'. apply (dense_own_group css gl k G (co_groups_ok _ _ _ _ _ _ _ CO)) in HG'. rewrite <- EG in HG'.
        rewrite Er in HG' |- *. cbn [with_ps ru_s ru_p ca_groups put_cams pa_pose] in *. rewrite HG', HP. auto.
    + rewrite Er. auto.
    + rewrite Er. eapply cameras_stage_sorted; eauto.
  - rewrite Er. intros n oo o H1 H2. cbn [with_ps ru_s ru_p ca_oobs ca_objs put_cams pa_pose] in *. eauto.
Qed.
Lemma groups_exact r : Objects r -> exact_o r -> sorted_objs (ca_objs (ru_s r)) -> gathered (ru_s r) -> estimated r ->
  exists r', run_calibrateCameraGroup svd lr uq pick g0 solve bpts models r = Some r' /\ ru_prs r' = ru_prs r /\ exact r' /\ ca_oobs (ru_s r') = ca_oobs (ru_s r) /\
    cameras_stage svd lr uq pick g0 t (ca_oobs (ru_s r)) (fun n => as_matrix (pa_pose (ru_p r) (KObjObs n))) = Some (ca_groups (ru_s r')).
Proof.
  intros GO XO SOb GA ES. unfold run_calibrateCameraGroup. destruct (new_groups_exact r GO XO SOb GA ES) as (r1 & E1 & P1 & X1 & ES1 & O1 & C1). rewrite E1. cbn [bind].
  destruct (group_poses_exact r1 X1 ES1) as (r2 & E2 & S2 & P2 & X2 & ES2 & PO2). rewrite E2. cbn [bind].
  destruct (refine_step_exact r2 X2 PO2) as (gp & E3). rewrite E3. eexists. split; [reflexivity|]. split; [cbn [regp ru_prs]; congruence|]. split; [apply exact_regp; auto|].
  cbn [regp ru_s]. rewrite S2. auto.
Qed.

(** ** Merging objects *)
(** the object observations are some list, any number of times; in the list there is one
    observation for an object in an image *)
Definition repeated (s : calib pt2) : Prop := exists l n, ot_all (ca_oobs s) = concat (repeat l n) /\ NoDup (map view_key l).
Lemma pass_repeated ol n : NoDup (map view_key (map snd (pass t (dense ol)))) /\ map snd (concat (repeat (pass t (dense ol)) n)) = concat (repeat (map snd (pass t (dense ol))) n).
Proof.
  split.
  - assert (N := pass_keys_NoDup t ol (ad_linked nc nb ins t detected_after) Hp). rewrite map_map in *. clear - N. induction (pass t (dense ol)) as [|e l IH]; cbn [map] in *; [constructor|]. inversion N as [|? ? N1 N2]; subst.
    constructor; [|auto]. intros H. apply N1. apply in_map_iff in H as (x & E & H). apply in_map_iff. exists x. split; [|auto]. unfold view_key in E. unfold okey. injection E as -> -> ->. auto.
  - induction n as [|n IH]; cbn [repeat concat map]; [auto|]. rewrite map_app, IH. auto.
Qed.
Lemma merged_objects_exact r : exact r -> posed r -> exists r', merged_objects svd lr uq pick g0 bpts r = Some r' /\ ru_prs r' = ru_prs r /\ exact r' /\ ca_groups (ru_s r') = ca_groups (ru_s r) /\ repeated (ru_s r').
Proof.
  intros X PO. assert (XG := xa_good _ X). assert (Rd := gd_reached _ _ _ _ _ _ _ _ XG). destruct (good_gathered r XG) as (WB & GA).
  set (gp := fun k o => as_matrix (pa_pose (ru_p r) (KGroup k o))).
  set (Xf := fun k : Z * Z => match mfind (fst k) (ca_groups (ru_s r)) with Some G => pmul (C (cg_ref G)) (F (snd k)) | None => F (snd k) end).
  destruct (good_calib r XG) as (bss & ol & css & gl & CO).
  destruct (C31_group_observations pt2 svd lr uq pick g0 Hh bpts nc nb ins t detected_after Hp (ru_s r) Rd) as (K1 & K2 & _).
  destruct (C22_merging_objects_is_consistent pt2 svd lr uq pick g0 Hh SO LO bpts nc nb ins t detected_after Hp (ru_s r) Rd W Xf gp) as (objs & E & TO).
  - apply rigid_W.
  - intros k. unfold Xf. destruct (mfind (fst k) (ca_groups (ru_s r))); [apply rigid_mul; [apply rigid_C|apply rigid_F]|apply rigid_F].
  - apply (xo_objs _ (xa_o _ X)).
  - intros (k, f) go j o Hk Hj Ho. destruct (proj1 (K1 k f) (ex_intro _ go Hk)) as (G & n & oo & HG & _). destruct (K2 k f G go HG Hk) as (_ & _ & L & Nm & Id).
    apply In_nth_error in Hj as (i & Hj). destruct (nth_error (go_nums go) i) as [n'|] eqn:En.
    2:{ apply nth_error_None in En. assert (i < length (go_ids go)) by (apply nth_error_Some; congruence). lia. }
    destruct (proj1 (Nm n') (nth_error_In _ _ En)) as (oo' & M'). assert (Q := Id i n' oo' En (proj1 M')). assert (j = oo_obj oo') by congruence. subst j.
    unfold gp, Xf. cbn [fst snd]. rewrite HG. rewrite (PO k f G n' oo' o HG M' Ho). apply (matrix_true _ (rigid_board _ _ _)).
  - destruct CO as [C1 OK OT Ob Cov C2 GK GT NU CA KE].
    assert (Objs : forall oo, In oo (ot_all (ca_oobs (ru_s r))) -> exists i o, nth_error ol i = Some o /\ oo_obj oo = Z.of_nat i)
      by (intros oo H; destruct (Ob oo H) as (i & o & H1 & H2 & _); eauto).
    destruct (merge_stage_main bpts bss ol OK (ca_oobs (ru_s r)) OT Objs gl _ (ca_gobs (ru_s r)) GT (known_frames nc nb ins t detected_after _ _ Ob) svd lr uq pick g0 Hh gp) as (ol' & bss' & E1' & OK' & _).
    rewrite <- C1 in E1'. assert (objs = dense ol') by congruence. subst objs.
    assert (Q : exists r', merged_objects svd lr uq pick g0 bpts r = Some r' /\ exists ot gt, r' = with_ps (put_boards lr (dense ol') (ru_p r)) (mkCal (dense ol') ot (ca_groups (ru_s r)) gt) r /\ ot = store_all (concat (repeat (pass t (dense ol')) (length (dense ol')))) empty_otables).
    { unfold merged_objects. fold gp. rewrite (xo_t _ (xa_o _ X)), E. cbn [bind]. rewrite merge_all by auto. cbn [bind]. eexists. split; [reflexivity|]. eexists. eexists. split; reflexivity. }
    destruct Q as (r' & Q & ot & gt & Er & Eot). exists r'. split; [auto|].
    destruct (merged_objects_good svd lr uq pick g0 bpts models it env pose0 Hh LO nc nb ins t detected_after obs_trimmed r r' XG Q) as (G' & S' & P'). split; [auto|]. split; [|split; [auto|]].
    2:{ rewrite Er. cbn [with_ps ru_s]. exists (map snd (pass t (dense ol'))), (length (dense ol')). cbn [ca_oobs]. rewrite Eot, store_all_list. cbn [empty_otables ot_all app].
        destruct (pass_repeated ol' (length (dense ol'))) as (N & Q'). split; [exact Q'|exact N]. }
    destruct X as [_ [A1 A2 A3 A4] [B1 B2] _ D]. constructor; [auto| | | |].
    + rewrite Er. constructor; cbn [with_ps ru_t ru_s ru_p ca_objs put_boards pa_intr pa_pose]; auto.
      intros k o b P H1 H2. rewrite (dense_own_obj bpts bss' ol' k o OK' H1), H2. auto.
    + rewrite Er. constructor; cbn [with_ps ru_t ru_s ru_p ca_groups put_boards pa_intr pa_pose]; auto.
    + rewrite Er. eapply merge_stage_sorted; eauto.
    + rewrite Er. auto.
Qed.
Lemma merge_exact c r : exact r -> exists r', run_merge3DObjects svd lr uq pick g0 solve bpts models thresh it env pose0 c r = Some r' /\ ru_prs r' = ru_prs r /\ exact r' /\ estimated r' /\ posed r' /\
  ca_groups (ru_s r') = ca_groups (ru_s r) /\ repeated (ru_s r').
Proof.
  intros X. unfold run_merge3DObjects. destruct (estimate_step_exact c r X) as (r1 & E1 & S1 & P1 & X1 & ES1). rewrite E1. cbn [bind].
  destruct (group_poses_exact r1 X1 ES1) as (r2 & E2 & S2 & P2 & X2 & ES2 & PO2). rewrite E2. cbn [bind].
  destruct (merged_objects_exact r2 X2 PO2) as (r3 & E3 & P3 & X3 & G3 & R3). rewrite E3. cbn [bind].
  destruct (estimate_step_exact (S c) r3 X3) as (r4 & E4 & S4 & P4 & X4 & ES4). rewrite E4. cbn [bind].
  destruct (group_poses_exact r4 X4 ES4) as (r5 & E5 & S5 & P5 & X5 & ES5 & PO5). rewrite E5. cbn [bind].
  destruct (refine_step_exact r5 X5 PO5) as (gp & E6). rewrite E6. eexists. split; [reflexivity|]. cbn [regp ru_prs ru_s]. split; [congruence|]. split; [apply exact_regp; auto|].
  split; [exact ES5|]. split; [exact PO5|]. split; [congruence|]. rewrite S5, S4. exact R3.
Qed.

(** ** Merging groups: nothing to merge *)
Definition alone (s : calib pt2) : Prop := exists G, ca_groups s = [(0%Z, G)].
Lemma no_pairs calib2 r : alone (ru_s r) -> ru_prs r = [] -> exists r', run_pairs calib2 r = Some r' /\ r' = r.
Proof.
  intros (G & EG) EP. unfold run_pairs, findPoseNoOverlapAllCamGroup. rewrite EG. cbn [distinct_pairs mkeys map fst flat_map Z.eqb app fold_left option_map].
  eexists. split; [reflexivity|]. rewrite <- EP. destruct r; reflexivity.
Qed.
Lemma merge_groups_general r : exact r -> pairs_of_groups t (ru_prs r) (ru_s r) -> true_pairs C (ca_groups (ru_s r)) (ru_prs r) -> (forall k P n, In (k, (P, n)) (ru_prs r) -> rigid P) ->
  length (ca_groups (ru_s r)) <= 2 \/ (forall a b A B, a <> b -> mfind a (ca_groups (ru_s r)) = Some A -> mfind b (ca_groups (ru_s r)) = Some B -> exists P n, mfind (a, b) (ru_prs r) = Some (P, n) /\ 2 <= n) ->
  ca_groups (ru_s r) <> [] ->
  (forall k k' G G', mfind k (ca_groups (ru_s r)) = Some G -> mfind k' (ca_groups (ru_s r)) = Some G' -> clos_refl_sym_trans Z (has_pair (ru_prs r)) k k') ->
  exists r', run_mergeGroups lr pick g0 r = Some r' /\ ru_prs r' = ru_prs r /\ exact r' /\ alone (ru_s r').
Proof.
  intros X PG TP RP L2 NE CN. assert (XG := xa_good _ X). assert (Rd := gd_reached _ _ _ _ _ _ _ _ XG). destruct (good_calib r XG) as (bss & ol & css & gl & CO).
  assert (PP := pairs_proper bpts t (ru_prs r) (ru_s r) bss ol css gl CO PG).
  assert (UP : pairs_usable (ru_prs r) (ru_s r)) by (apply proper_usable; auto).
  destruct (groups_merge_total pick g0 Hh bpts t (ru_prs r) (ru_s r) bss ol css gl CO PP) as (s' & Em); [apply pairs_both; intros a b H; apply (PG a b H)|].
  assert (ER : run_mergeGroups lr pick g0 r = Some (with_ps (put_cams lr (ca_groups s') (ru_p r)) s' r)) by (unfold run_mergeGroups; rewrite (xo_t _ (xa_o _ X)), Em; reflexivity).
  set (r' := with_ps (put_cams lr (ca_groups s') (ru_p r)) s' r) in *. exists r'. split; [auto|]. split; [reflexivity|].
  assert (G' : Good r') by (apply (good_merge_groups svd lr uq pick g0 bpts models it env pose0 Hh LO nc nb ins t detected_after obs_trimmed r r' XG); auto).
  destruct (good_calib r' G') as (bss' & ol' & css' & gl' & CO'). assert (EG' := co_groups _ _ _ _ _ _ _ CO'). assert (GK' := co_groups_ok _ _ _ _ _ _ _ CO').
  assert (EO : ca_objs s' = ca_objs (ru_s r)) by (unfold mergeGroups in Em; destruct (mergeCameraGroup _ _ _ _); [|discriminate Em]; injection Em as <-; reflexivity).
  assert (TG : forall k G, mfind k (ca_groups s') = Some G -> true_group C G).
  { destruct L2 as [L2|L2]; [apply (C23_merged_groups_partial pt2 svd lr uq pick g0 Hh bpts nc nb ins t detected_after Hp (ru_prs r) (ru_s r) s' Rd UP Em C rigid_C (xg_groups _ (xa_g _ X)) TP (or_introl L2))|].
    intros k G HG c P HP. destruct (merged_groups pt2 svd lr uq pick g0 Hh bpts nc nb ins t detected_after Hp (ru_prs r) (ru_s r) s' Rd UP Em) as (M & _).
    destruct (M k G HG) as (r0 & R & HR & ER0 & Mc). destruct (Mc c P HP) as (k0 & G0 & P0 & _ & _ & HG0 & HP0 & _).
    apply (C23_direct_pairs_are_right_partial pt2 svd lr uq pick g0 Hh bpts nc nb ins t detected_after Hp (ru_prs r) (ru_s r) s' Rd UP Em C rigid_C (xg_groups _ (xa_g _ X)) TP k G c P HG HP r0 R k0 G0); auto.
    - rewrite (co_groups _ _ _ _ _ _ _ CO) in HG0. apply mfind_In, dense_In in HG0 as (i & -> & HG0). destruct (nth_error_length_ex gl css i G0 (eq_sym (gk_len _ _ (co_groups_ok _ _ _ _ _ _ _ CO))) HG0) as (cs & Hcs).
      assert (Gr := gk_wb _ _ (co_groups_ok _ _ _ _ _ _ _ CO) i cs G0 Hcs HG0). rewrite (gr_cams _ _ Gr). apply (in_map fst _ (c, P0)). apply (gr_poses _ _ Gr). auto.
    - destruct (Z.eq_dec r0 k0) as [->|N]; [left; auto|right; eauto]. }
  split.
  - constructor; [auto| | | |].
    + destruct (xa_o _ X) as [A B D E]. constructor; cbn [r' with_ps ru_t ru_s ru_p put_cams pa_intr pa_pose]; auto; rewrite EO; auto.
    + constructor; [exact TG|]. intros k G c P HG HP. assert (HG' := HG). rewrite EG' in HG'. apply (dense_own_group css' gl' k G GK') in HG'. rewrite <- EG' in HG'.
      cbn [r' with_ps ru_s ru_p put_cams pa_pose] in *. rewrite HG', HP. auto.
    + cbn [r' with_ps ru_s]. rewrite EO. apply X.
    + cbn [r' with_ps ru_s]. eapply mergeGroups_sorted; eauto.
  - destruct (merged_groups pt2 svd lr uq pick g0 Hh bpts nc nb ins t detected_after Hp (ru_prs r) (ru_s r) s' Rd UP Em) as (M & CM & SM).
    assert (GK := co_groups_ok _ _ _ _ _ _ _ CO). assert (EG := co_groups _ _ _ _ _ _ _ CO).
    assert (RM : forall k G, mfind k (ca_groups (ru_s r)) = Some G -> In (cg_ref G) (cg_cams G)).
    { intros k G HG. rewrite EG in HG. apply mfind_In, dense_In in HG as (x & -> & HG). apply (go_member _ (gk_or _ _ GK x G HG)). }
    assert (U : forall i i' G G', nth_error gl' i = Some G -> nth_error gl' i' = Some G' -> i = i').
    { assert (V : forall i G, nth_error gl' i = Some G -> exists k R, mfind k (ca_groups (ru_s r)) = Some R /\ member (ca_groups (ru_s r)) k (cg_ref G) /\ member (ca_groups s') (Z.of_nat i) (cg_ref G)).
      { intros i G HG. assert (HG' := dense_nth gl' i G HG). rewrite <- EG' in HG'. destruct (M (Z.of_nat i) G HG') as (k & R & HR & Er & _).
        exists k, R. split; [auto|]. split.
        - exists R. split; [auto|]. rewrite <- Er. eauto.
        - exists G. split; [auto|]. apply (go_member _ (gk_or _ _ GK' i G HG)). }
      intros i i' Ga Gb H H'. destruct (V i Ga H) as (ka & Ra & A0 & A1 & A2), (V i' Gb H') as (kb & Rb & B0 & B1 & B2). apply Nat2Z.inj. apply (proj2 (SM _ _ _ _ _ _ A1 B1 A2 B2)). eauto. }
    assert (N : gl' <> []).
    { intros ->. destruct gl as [|G1 gl1]; [rewrite EG in NE; cbn in NE; congruence|]. assert (GO := gk_or _ _ GK 0 G1 eq_refl).
      destruct (nth_error_length_ex (G1 :: gl1) css 0 G1 (eq_sym (gk_len _ _ GK)) eq_refl) as (cs & Hcs). assert (GR := gk_wb _ _ GK 0 cs G1 Hcs eq_refl).
      destruct (co_cams _ _ _ _ _ _ _ CO (cg_ref G1)) as (n & b & Hn & Hb).
      { rewrite concat_map. apply in_concat. exists (map fst cs). split; [apply in_map; eapply nth_error_In; eauto|]. rewrite <- (gr_cams _ _ GR). apply GO. }
      destruct (obs_trimmed b (nth_error_In _ _ Hn)) as (_ & _ & T & _). specialize (T (obs_valid b (nth_error_In _ _ Hn))).
      destruct (CM 0%Z G1 (cg_ref G1)) as (k' & G2 & Q & _); [rewrite EG; reflexivity| |apply GO|].
      - exists n, b. split; [auto|]. split; [intros Q; rewrite Q in T; cbn in T; lia|]. rewrite Hb. apply GO.
      - cbn [r' with_ps ru_s] in EG'. rewrite EG' in Q. discriminate Q. }
    destruct gl' as [|G1 [|G2 gl']]; [congruence| |].
    + exists G1. exact EG'.
    + assert (Q := U 0 1 G1 G2 eq_refl eq_refl). discriminate Q.
Qed.
Lemma merge_groups_exact r : exact r -> alone (ru_s r) -> ru_prs r = [] -> exists r', run_mergeGroups lr pick g0 r = Some r' /\ ru_prs r' = [] /\ exact r' /\ alone (ru_s r').
Proof.
  intros X (G0 & EG) EP. rewrite <- EP. apply merge_groups_general; auto; try rewrite EP.
  - intros a b (P & n & H). discriminate H.
  - intros a b p n H. discriminate H.
  - intros k P n [].
  - left. rewrite EG. cbn. lia.
  - rewrite EG. intros H; discriminate H.
  - rewrite EG. intros k k' G G' H H'. apply mfind_In in H as [H|[]], H' as [H'|[]]. injection H as <- _. injection H' as <- _. apply rst_refl.
Qed.
(** merging a single group with the pairs of the groups it was made of *)
Lemma sees_corner G k s bss ol css gl : calib_ok bpts t bss ol css gl s -> mfind k (ca_groups s) = Some G -> group_sees t G.
Proof.
  intros CO HG. assert (GK := co_groups_ok _ _ _ _ _ _ _ CO). rewrite (co_groups _ _ _ _ _ _ _ CO) in HG. apply mfind_In, dense_In in HG as (x & -> & HG).
  assert (GO := gk_or _ _ GK x G HG). destruct (nth_error_length_ex gl css x G (eq_sym (gk_len _ _ GK)) HG) as (cs & Hcs). assert (GR := gk_wb _ _ GK x cs G Hcs HG).
  destruct (co_cams _ _ _ _ _ _ _ CO (cg_ref G)) as (n & b & Hn & Hb).
  { rewrite concat_map. apply in_concat. exists (map fst cs). split; [apply in_map; eapply nth_error_In; eauto|]. rewrite <- (gr_cams _ _ GR). apply GO. }
  destruct (obs_trimmed b (nth_error_In _ _ Hn)) as (_ & _ & T & _). specialize (T (obs_valid b (nth_error_In _ _ Hn))).
  exists n, b. split; [auto|]. split; [intros Q; rewrite Q in T; cbn in T; lia|]. rewrite Hb. apply GO.
Qed.
Lemma merge_again_exact r : exact r -> alone (ru_s r) -> (forall k P n, In (k, (P, n)) (ru_prs r) -> rigid P) ->
  (forall a b, has_pair (ru_prs r) a b -> a <> b /\ has_pair (ru_prs r) b a /\ (0 <= a)%Z /\ PropStale.linked (ru_prs r) a 0%Z) ->
  exists r', run_mergeGroups lr pick g0 r = Some r' /\ exact r' /\ alone (ru_s r').
Proof.
  intros X (G2 & EG) RP PG. assert (XG := xa_good _ X). assert (Rd := gd_reached _ _ _ _ _ _ _ _ XG). destruct (good_calib r XG) as (bss & ol & css & gl & CO).
  assert (HG2 : mfind 0%Z (ca_groups (ru_s r)) = Some G2) by (rewrite EG; reflexivity).
  destruct (merge_again svd lr uq pick g0 Hh bpts nc nb ins t detected_after Hp (ru_prs r) (ru_s r) G2 Rd EG (sees_corner G2 0%Z _ _ _ _ _ CO HG2) PG) as (s' & G3 & Em & UP & EG3 & E1 & _ & E3).
  assert (ER : run_mergeGroups lr pick g0 r = Some (with_ps (put_cams lr (ca_groups s') (ru_p r)) s' r)) by (unfold run_mergeGroups; rewrite (xo_t _ (xa_o _ X)), Em; reflexivity).
  set (r' := with_ps (put_cams lr (ca_groups s') (ru_p r)) s' r) in *. exists r'. split; [auto|].
  assert (G' : Good r') by (apply (good_merge_groups svd lr uq pick g0 bpts models it env pose0 Hh LO nc nb ins t detected_after obs_trimmed r r' XG); auto).
  destruct (good_calib r' G') as (bss' & ol' & css' & gl' & CO'). assert (EG' := co_groups _ _ _ _ _ _ _ CO'). assert (GK' := co_groups_ok _ _ _ _ _ _ _ CO').
  assert (EO : ca_objs s' = ca_objs (ru_s r)) by (unfold mergeGroups in Em; destruct (mergeCameraGroup _ _ _ _); [|discriminate Em]; injection Em as <-; reflexivity).
  assert (TG : forall k G, mfind k (ca_groups s') = Some G -> true_group C G).
  { intros k G HG. rewrite EG3 in HG. apply mfind_In in HG as [HG|[]]. injection HG as <- <-. intros c P HP. rewrite E3 in HP. rewrite E1. exact (xg_groups _ (xa_g _ X) 0%Z G2 HG2 c P HP). }
  split; [|exists G3; exact EG3]. constructor; [auto| | | |].
  - destruct (xa_o _ X) as [A B D E]. constructor; cbn [r' with_ps ru_t ru_s ru_p put_cams pa_intr pa_pose]; auto; rewrite EO; auto.
  - constructor; [exact TG|]. intros k G c P HG HP. assert (HG' := HG). rewrite EG' in HG'. apply (dense_own_group css' gl' k G GK') in HG'. rewrite <- EG' in HG'.
    cbn [r' with_ps ru_s ru_p put_cams pa_pose] in *. rewrite HG', HP. auto.
  - cbn [r' with_ps ru_s]. rewrite EO. apply X.
  - cbn [r' with_ps ru_s]. eapply mergeGroups_sorted; eauto.
Qed.

(** ** Groups without a common view *)
Lemma board_object r a : exact r -> exists o, forall i, In i ins -> i_board i = a ->
  exists oo, In oo (ot_all (ca_oobs (ru_s r))) /\ oo_cam oo = i_cam i /\ oo_frame oo = i_frame i /\ oo_obj oo = o.
Proof.
  intros X. destruct (good_calib r (xa_good _ X)) as (bss & ol & css & gl & CO). assert (OK := co_objects _ _ _ _ _ _ _ CO).
  assert (Ex : forall i, In i ins -> exists oo j o bs, In oo (ot_all (ca_oobs (ru_s r))) /\ oo_cam oo = i_cam i /\ oo_frame oo = i_frame i /\ oo_obj oo = Z.of_nat j /\
             nth_error ol j = Some o /\ nth_error bss j = Some bs /\ In (i_board i) (map fst bs)).
  { intros i Hi. destruct (ins_obs i Hi) as (n & Hn). assert (NE : o_pts (new_obs i) <> []).
    { destruct (obs_trimmed _ (nth_error_In _ _ Hn)) as (_ & _ & T). specialize (proj1 T (obs_valid _ (nth_error_In _ _ Hn))). intros L Q. rewrite Q in L. cbn in L. lia. }
    destruct (co_cover _ _ _ _ _ _ _ CO n _ Hn NE) as (_ & oo & Hoo & Hn').
    destruct (co_obs _ _ _ _ _ _ _ CO oo Hoo) as (j & o & Hj & Ej & Ga). destruct (proj1 (ga_bobs _ _ _ Ga n) Hn') as (b & Hb & C1 & C2 & C3).
    assert (b = new_obs i) by (unfold obs_at in Hn; congruence). subst b. cbn [new_obs o_cam o_frame o_board] in *.
    destruct (nth_error_length_ex ol bss j o (eq_sym (ok_len _ _ _ OK)) Hj) as (bs & Hbs). apply (wb_boards _ _ _ (ok_wb bpts bss ol OK j bs o Hbs Hj)) in C3.
    exists oo, j, o, bs. auto 10. }
  assert (D : (exists i, In i ins /\ i_board i = a) \/ (forall i, In i ins -> i_board i <> a)).
  { clear. induction ins as [|i l IH]; [right; intros i []|]. destruct (Z.eq_dec (i_board i) a) as [E|E]; [left; exists i; split; [left; auto|auto]|].
    destruct IH as [(j & Hj & Q)|N]; [left; exists j; split; [right; auto|auto]|right; intros j [<-|Hj]; auto]. }
  destruct D as [(i0 & H0 & E0)|N]; [|exists 0%Z; intros i Hi E; exfalso; exact (N i Hi E)].
  destruct (Ex i0 H0) as (oo0 & j0 & o0 & bs0 & _ & _ & _ & _ & _ & B0 & I0). exists (Z.of_nat j0). intros i Hi E.
  destruct (Ex i Hi) as (oo & j & o & bs & Hoo & Q1 & Q2 & Q3 & _ & B & I). exists oo. split; [auto|]. split; [auto|]. split; [auto|]. rewrite Q3. f_equal.
  assert (ND := ok_disjoint _ _ _ OK). rewrite concat_map in ND. rewrite E in I. rewrite E0 in I0.
  eapply NoDup_concat_unique; [exact ND|rewrite nth_error_map, B; reflexivity|rewrite nth_error_map, B0; reflexivity|exact I|exact I0].
Qed.
Lemma seen_by r oo : exact r -> In oo (ot_all (ca_oobs (ru_s r))) -> exists i, In i ins /\ i_cam i = oo_cam oo /\ i_frame i = oo_frame oo.
Proof.
  intros X Hoo. destruct (good_gathered r (xa_good _ X)) as (WB & GA). destruct (GA oo Hoo) as (o & Ho & Ga). assert (NE := ga_nonempty _ _ _ Ga). destruct (ga_content _ _ _ Ga) as (l & F2 & _ & Pts & _).
  assert (Q : exists m, In m (oo_bobs oo)) by (destruct F2 as [|m b ms l' Hm F2]; [rewrite Pts in NE; cbn in NE; congruence|exists m; left; auto]). destruct Q as (m & Hm).
  apply (ga_bobs _ _ _ Ga) in Hm as (b & Hb & C1 & C2 & C3). apply obs_ins in Hb as (i & Hi & ->). exists i. split; [eapply nth_error_In; eauto|]. auto.
Qed.
(** the groups hold the cameras that saw a board, connected cameras in one group *)
Definition by_views (groups : smap Z cgroup) : Prop :=
  (forall c, (exists k, member groups k c) <-> saw ins c) /\
  (forall k k' c d, member groups k c -> member groups k' d -> (k = k' <-> same_view ins c d)).
Lemma pairs_exact calib2 m r : exact r -> posed r -> repeated (ru_s r) -> by_views (ca_groups (ru_s r)) -> 4 <= m -> true_handeye m calib2 w ins ->
  (forall k k' G G', k <> k' -> mfind k (ca_groups (ru_s r)) = Some G -> mfind k' (ca_groups (ru_s r)) = Some G' ->
     exists c d, In c (cg_cams G) /\ In d (cg_cams G') /\ often_at_once m ins c d) ->
  exists r', run_pairs calib2 r = Some r' /\ ru_s r' = ru_s r /\ exact r' /\ true_pairs C (ca_groups (ru_s r)) (ru_prs r') /\ (forall k P n, In (k, (P, n)) (ru_prs r') -> rigid P) /\
    (forall a b, has_pair (ru_prs r') a b <-> a <> b /\ (exists A, mfind a (ca_groups (ru_s r)) = Some A) /\ exists B, mfind b (ca_groups (ru_s r)) = Some B) /\
    (forall a b A B, a <> b -> mfind a (ca_groups (ru_s r)) = Some A -> mfind b (ca_groups (ru_s r)) = Some B -> exists P n, mfind (a, b) (ru_prs r') = Some (P, n) /\ 2 <= n).
Proof.
  intros X PO (l & n & El & ND) (GS & GV) L4 TH OA. assert (XG := xa_good _ X). assert (Rd := gd_reached _ _ _ _ _ _ _ _ XG). destruct (good_calib r XG) as (bss & ol & css & gl & CO).
  assert (EG := co_groups _ _ _ _ _ _ _ CO). assert (GK := co_groups_ok _ _ _ _ _ _ _ CO).
  set (gp := fun k o => as_matrix (pa_pose (ru_p r) (KGroup k o))). set (all := ot_all (ca_oobs (ru_s r))) in *.
  assert (RM : forall k G, mfind k (ca_groups (ru_s r)) = Some G -> In (cg_ref G) (cg_cams G)).
  { intros k G HG. rewrite EG in HG. apply mfind_In, dense_In in HG as (x & -> & HG). apply (go_member _ (gk_or _ _ GK x G HG)). }
  assert (NC : forall k G, mfind k (ca_groups (ru_s r)) = Some G -> NoDup (cg_cams G)).
  { intros k G HG. rewrite EG in HG. apply mfind_In, dense_In in HG as (x & -> & HG). destruct (nth_error_length_ex gl css x G (eq_sym (gk_len _ _ GK)) HG) as (cs & Hcs).
    assert (GR := gk_wb _ _ GK x cs G Hcs HG). rewrite (gr_cams _ _ GR). apply GR. }
  assert (Apart : forall k1 k2 G1 G2 c d, k1 <> k2 -> mfind k1 (ca_groups (ru_s r)) = Some G1 -> mfind k2 (ca_groups (ru_s r)) = Some G2 -> In c (cg_cams G1) -> In d (cg_cams G2) -> ~ same_view ins c d).
  { intros k1 k2 G1 G2 c d N H1 H2 Hc Hd Q. apply N. apply (GV k1 k2 c d); auto; [exists G1|exists G2]; auto. }
  (* the pose of an object that a group sees *)
  assert (PS : forall k G o f, mfind k (ca_groups (ru_s r)) = Some G -> sees_in all G o f -> exists O, mfind o (ca_objs (ru_s r)) = Some O /\ gp (k, f) o = board_at w (cg_ref G) f (ob_ref O)).
  { intros k G o f HG (oo & Hoo & <- & Hc & <-). destruct (good_gathered r XG) as (WB & GA). destruct (GA oo Hoo) as (O & HO & _). exists O. split; [auto|].
    apply In_nth_error in Hoo as (j & Hj). unfold gp. rewrite (PO k (oo_frame oo) G j oo O HG); auto; [apply (matrix_true _ (rigid_board _ _ _))|]. split; [auto|]. split; auto. }
  (* all common frames are used, and are many *)
  assert (Main : forall k1 k2 G1 G2 o1 o2 F, k1 <> k2 -> mfind k1 (ca_groups (ru_s r)) = Some G1 -> mfind k2 (ca_groups (ru_s r)) = Some G2 ->
    mfind (k1, k2) (findPairObjectForNonOverlap (ru_s r)) = Some (o1, o2) -> StronglySorted Z.lt F ->
    (forall f, In f F <-> sees_in all G1 o1 f /\ sees_in all G2 o2 f) ->
    m <= length F /\ calib2 (map (fun f => gp (k1, f) o1) F) (map (fun f => gp (k2, f) o2) F) = Some (pmul (C (cg_ref G1)) (pinv (C (cg_ref G2))))).
  { intros k1 k2 G1 G2 o1 o2 F N H1 H2 Eo SF IF.
    assert (LF : m <= length F).
    { destruct (C35_chosen_pair pt2 svd lr uq pick g0 Hh bpts nc nb ins t detected_after Hp (ru_s r) Rd k1 k2 G1 G2 N H1 H2) as (o1' & o2' & Eo' & Mx & _).
      assert (o1' = o1) by congruence. assert (o2' = o2) by congruence. subst o1' o2'. destruct (OA k1 k2 G1 G2 N H1 H2) as (c & d & Hc & Hd & a & b & fs & Nf & BS & LF').
      assert (Lf : (m - 1) * (length (cg_cams G1) * length (cg_cams G2)) < length fs).
      { apply LF'; try (eapply NC; eauto); intros x Hx; (split; [apply GS|]).
        - exists k1, G1; auto.
        - apply (GV k1 k1 c x); [exists G1|exists G1|]; auto.
        - exists k2, G2; auto.
        - apply (GV k2 k2 d x); [exists G2|exists G2|]; auto. }
      destruct (board_object r a X) as (oa & Oa), (board_object r b X) as (ob & Ob).
      assert (SL : forall f, In f fs -> sees_in all G1 oa f /\ sees_in all G2 ob f).
      { intros f Hf. destruct (BS f Hf) as (i & j & Hi & Hj & I1 & I2 & J1 & J2 & I3 & J3). destruct (Oa i Hi I2) as (x & X1 & X2 & X3 & X4), (Ob j Hj J2) as (y & Y1 & Y2 & Y3 & Y4).
        split; [exists x|exists y]; (split; [auto|]); (split; [congruence|]); (split; [congruence|auto]). }
      assert (M := Mx oa ob). fold all in M. rewrite El in M, SL. rewrite !views_list in M.
      assert (n0 : fs <> [] -> 0 < n). { intros NE. destruct fs as [|f fs']; [congruence|]. destruct (SL f (or_introl eq_refl)) as ((x & Hx & _) & _). destruct n; [destruct Hx|lia]. }
      destruct fs as [|f0 fs'] eqn:Efs; [cbn [length] in Lf; lia|]. assert (Hn : 0 < n) by (apply n0; congruence). rewrite <- Efs in *. clear n0 Efs f0 fs'.
      assert (M' : views_together l G1 G2 oa ob <= views_together l G1 G2 o1 o2) by (apply (Nat.mul_le_mono_pos_l _ _ (n * n)); [nia|exact M]).
      assert (LO' : length fs <= views_together l G1 G2 oa ob).
      { apply views_lower; auto. intros f Hf. destruct (SL f Hf) as (S1 & S2). apply sees_repeat in S1; auto. apply sees_repeat in S2; auto. }
      assert (UP' : views_together l G1 G2 o1 o2 <= length (cg_cams G1) * length (cg_cams G2) * length F).
      { apply views_upper; auto. intros f S1 S2. apply IF. fold all. rewrite El. split; apply sees_repeat; auto. }
      clear - Lf LO' UP' M' L4. assert (A : length fs <= length (cg_cams G1) * length (cg_cams G2) * length F) by lia.
      set (p := length (cg_cams G1) * length (cg_cams G2)) in *. destruct (Nat.le_gt_cases m (length F)) as [Q|Q]; [auto|]. exfalso.
      assert (B : p * length F <= p * (m - 1)) by (apply Nat.mul_le_mono_l; lia). rewrite (Nat.mul_comm (m - 1)) in Lf. lia. }
    split; [auto|]. destruct F as [|f0 F'] eqn:EF; [cbn [length] in LF; lia|]. rewrite <- EF in *. assert (H0 : In f0 F) by (rewrite EF; left; auto). clear EF F'.
    destruct (PS k1 G1 o1 f0 H1 (proj1 (proj1 (IF f0) H0))) as (O1 & HO1 & _), (PS k2 G2 o2 f0 H2 (proj2 (proj1 (IF f0) H0))) as (O2 & HO2 & _).
    rewrite (map_ext_in (fun f => gp (k1, f) o1) (fun f => board_at w (cg_ref G1) f (ob_ref O1))), (map_ext_in (fun f => gp (k2, f) o2) (fun f => board_at w (cg_ref G2) f (ob_ref O2))).
    - apply TH; auto.
      + apply GS. exists k1, G1. eauto.
      + apply GS. exists k2, G2. eauto.
      + apply (Apart k1 k2 G1 G2); eauto.
      + intros f Hf. apply IF in Hf as ((x & Hx & X2 & X3 & _) & (y & Hy & Y2 & Y3 & _)). destruct (seen_by r x X Hx) as (i & Hi & I1 & I2), (seen_by r y X Hy) as (j & Hj & J1 & J2).
        exists i, j. split; [auto|]. split; [auto|]. split; [congruence|]. split; [congruence|]. rewrite I1, J1. apply (Apart k1 k2 G1 G2); auto.
    - intros f Hf. destruct (PS k2 G2 o2 f H2 (proj2 (proj1 (IF f) Hf))) as (O & HO & E). assert (O = O2) by congruence. subst O. auto.
    - intros f Hf. destruct (PS k1 G1 o1 f H1 (proj1 (proj1 (IF f) Hf))) as (O & HO & E). assert (O = O1) by congruence. subst O. auto. }
  destruct (pairs_defined svd lr uq pick g0 Hh bpts nc nb ins t detected_after Hp calib2 gp (ru_s r) Rd) as (prs & EP).
  { intros k1 k2 G1 G2 o1 o2 F N H1 H2 Eo SF IF _. destruct (Main k1 k2 G1 G2 o1 o2 F N H1 H2 Eo SF IF) as (_ & E). eauto. }
  exists (mkRun (ru_t r) (ru_p r) (ru_gp r) prs (ru_s r)). split; [unfold run_pairs; fold gp; rewrite EP; reflexivity|]. split; [reflexivity|]. cbn [ru_prs].
  destruct (C35_poses_stored pt2 svd lr uq pick g0 Hh bpts nc nb ins t detected_after Hp (ru_s r) Rd calib2 gp prs EP) as (KP & ST).
  assert (V : forall k1 k2 G1 G2, k1 <> k2 -> mfind k1 (ca_groups (ru_s r)) = Some G1 -> mfind k2 (ca_groups (ru_s r)) = Some G2 ->
    exists n, mfind (k1, k2) prs = Some (pmul (C (cg_ref G2)) (pinv (C (cg_ref G1))), n) /\ 2 <= n).
  { intros k1 k2 G1 G2 N H1 H2. destruct (ST k1 k2 G1 G2 N H1 H2) as (o1 & o2 & F & Eo & SF & IF & _ & Q). destruct (Main k1 k2 G1 G2 o1 o2 F N H1 H2 Eo SF IF) as (LF & E).
    destruct Q as (Y & EY & Q); [lia|]. exists (length F). rewrite Q. assert (Y = pmul (C (cg_ref G1)) (pinv (C (cg_ref G2)))) by congruence. subst Y.
    rewrite pinv_pmul, pinv_pinv by (auto using rigid_inv, rigid_C). split; [auto|lia]. }
  split; [|split; [|split; [|split]]].
  - destruct X as [[A1 A2 A3 A4 A5] [B1 B2 B3 B4] [C1 C2] D E]. constructor; [constructor; auto|constructor; auto|constructor; auto|auto|auto].
  - intros a b P q H. destruct (KP a b P q H) as (N & A & B & HA & HB). exists A, B. split; [auto|]. split; [auto|]. destruct (V a b A B N HA HB) as (q' & Q & _). congruence.
  - intros (a, b) P q H. apply In_mfind in H; [|eapply pairs_sorted; eauto]. destruct (KP a b P q H) as (N & A & B & HA & HB). destruct (V a b A B N HA HB) as (q' & Q & _).
    assert (P = pmul (C (cg_ref B)) (pinv (C (cg_ref A)))) by congruence. subst P. apply rigid_crel.
  - intros a b. split.
    + intros (P & q & H). destruct (KP a b P q H) as (N & A & B & HA & HB). eauto.
    + intros (N & (A & HA) & B & HB). destruct (V a b A B N HA HB) as (q' & Q & _). exists (pmul (C (cg_ref B)) (pinv (C (cg_ref A)))), q'. exact Q.
  - intros a b A B N HA HB. destruct (V a b A B N HA HB) as (q & Q & L). eauto.
Qed.

(** ** The end *)
Lemma final_exact fixi r : exact r -> alone (ru_s r) -> exists r', run_final svd lr uq solve bpts models thresh it env pose0 fixi r = Some r' /\ exact r' /\ estimated r' /\ posed r' /\ alone (ru_s r').
Proof.
  intros X A. unfold run_final. destruct (estimate_step_exact 6 r X) as (r1 & E1 & S1 & P1 & X1 & ES1). rewrite E1. cbn [bind].
  destruct (group_poses_exact r1 X1 ES1) as (r2 & E2 & S2 & P2 & X2 & ES2 & PO2). rewrite E2. cbn [bind].
  destruct (refine_step_exact r2 X2 PO2) as (gp & E3). rewrite E3. cbn [bind]. assert (X3 := exact_regp gp r2 X2). assert (PO3 : posed (regp gp r2)) by exact PO2. assert (ES3 : estimated (regp gp r2)) by exact ES2.
  assert (A3 : alone (ru_s (regp gp r2))) by (cbn [regp ru_s]; rewrite S2, S1; auto).
  destruct (Z.eqb fixi 0); [|eexists; split; [reflexivity|auto]].
  destruct (refine_intrinsic_exact (regp gp r2) X3 PO3) as (gp' & E4). rewrite E4. eexists. split; [reflexivity|]. split; [apply exact_regp; auto|]. split; [exact ES3|]. split; [exact PO3|exact A3].
Qed.
(** ** The beginning *)
(** the tables t1 hold the detections, from which the first pose estimation leaves t *)
Definition comes_from (p0 : params) (i : Z -> intr) (t1 : tables pt2) : Prop :=
  estimatePoseAllBoards (env 0) (cam_of models (mkPar (pa_pose p0) i)) bpts (pose0 0) thresh it t1 =
  Some (t, map (fun bo => Proj2RT lr (board_at w (o_cam bo) (o_frame bo) (o_board bo))) (mvals (t_obs t))).
Lemma comes_from_itself p0 i : (forall c, i c = rg_intr w c) -> comes_from p0 i t.
Proof. intros Eq. exact (boards_estimated 0 (mkPar (pa_pose p0) i) (pose0 0) Eq). Qed.
Lemma start_exact fixi src p0 gp0 i td : initializeCalibrationAllCam bpts models src td (pa_intr p0) = Some i -> (forall c, i c = rg_intr w c) -> comes_from p0 i td ->
  exists r, initIntrinsic solve bpts models thresh it env pose0 fixi src td p0 gp0 = Some r /\ exact_start r /\ ru_prs r = [].
Proof.
  intros Ei Eq Cf. unfold initIntrinsic. rewrite Ei. rewrite Cf.
  set (ps := map _ (mvals (t_obs t))). set (p := put_board_obs ps (mkPar (pa_pose p0) i)).
  assert (Ep : forall n bo, obs_at t n bo -> pa_pose p (KBoardObs n) = Proj2RT lr (board_at w (o_cam bo) (o_frame bo) (o_board bo))).
  { intros n bo H. cbn [p put_board_obs pa_pose]. unfold ps. rewrite (nth_error_nth _ n _ (map_nth_error _ n _ H)). auto. }
  assert (X : exact_start (mkRun t p gp0 [] empty_calib)) by (constructor; auto).
  destruct (Z.eqb fixi 0).
  - rewrite (refine_cameras_exact (obs_of_cam t) (mkeys (t_cams t)) p Eq Ep); [eexists; split; [reflexivity|auto]|].
    intros c n bo Hn Ho. unfold obs_of_cam in Hn. destruct (mfind c (t_cams t)) as [e|] eqn:Ee; [|destruct Hn]. 
    destruct (insert_all_from_init nc nb ins Kn) as (t1 & E1 & H & _). assert (t1 = t) by congruence. subst t1. rewrite (proj1 (hd_cam _ _ _ _ H c e Ee)), dense_vals in Hn.
    apply positions_In in Hn as (j & Hj & Q). apply obs_ins in Ho as (j' & Hj' & ->). assert (j' = j) by congruence. subst j'. apply Z.eqb_eq in Q. exact Q.
  - eexists. split; [reflexivity|auto].
Qed.

(** ** All cameras in one group *)
Lemma one_group r op groups gl : connected_rig ins -> Objects r -> cameras_stage svd lr uq pick g0 t (ca_oobs (ru_s r)) op = Some groups -> groups = dense gl -> exists G, groups = [(0%Z, G)].
Proof.
  intros (NE & CN) GO Eg Ed. destruct (group_views r op groups GO Eg) as (GS & GV). destruct (go_run _ _ _ _ _ _ _ _ GO) as (bp & rf & K & Ec).
  destruct (C30_camera_groups_partition pt2 svd lr uq pick g0 Hh bpts nc nb ins t detected_after Hp bp rf (ru_s r) K Ec op) as (groups' & Eg' & Og & _).
  assert (groups' = groups) by congruence. subst groups'.
  assert (All : forall k k' c c', member groups k c -> member groups k' c' -> k = k').
  { intros k k' c c' M M'. apply (GV k k' c c' M M'). destruct (proj1 (GS c) (ex_intro _ k M)) as (i & Hi & <-), (proj1 (GS c') (ex_intro _ k' M')) as (j & Hj & <-). apply CN; auto. }
  assert (Own : forall i G, nth_error gl i = Some G -> member groups (Z.of_nat i) (cg_ref G)).
  { intros i G H. assert (HG := dense_nth gl i G H). rewrite <- Ed in HG. exists G. split; [auto|]. destruct (Og _ _ (mfind_In _ _ _ HG)) as (_ & GOr & _); apply (go_member _ GOr). }
  destruct gl as [|G [|G' gl]].
  - exfalso. assert (Hi' : exists i, In i ins) by (clear - NE; destruct ins as [|i l]; [congruence|exists i; left; auto]). destruct Hi' as (i & Hi).
    destruct (proj2 (GS (i_cam i)) (ex_intro _ i (conj Hi eq_refl))) as (k & G & HG & _). rewrite Ed in HG. discriminate HG.
  - exists G. exact Ed.
  - assert (Q := All _ _ _ _ (Own 0 G eq_refl) (Own 1 G' eq_refl)). discriminate Q.
Qed.

(** ** The whole run *)
Lemma crossing (Q : Z -> Z -> Prop) (P : Z -> Prop) c d : clos_refl_trans Z Q c d -> P c -> ~ P d -> (forall x, P x \/ ~ P x) -> exists x y, Q x y /\ P x /\ ~ P y.
Proof.
  intros H. induction H as [c d H|c|c e d _ IH1 _ IH2]; intros Hc Hd Dc; [eauto|contradiction|]. destruct (Dc e) as [He|He]; [apply IH2; auto|apply IH1; auto].
Qed.
Lemma calibrate_exact calib2 fixi src p0 gp0 i t1 : related_cameras calib2 w ins ->
  initializeCalibrationAllCam bpts models src t1 (pa_intr p0) = Some i -> (forall c, i c = rg_intr w c) -> comes_from p0 i t1 ->
  exists r, calibrate svd lr uq pick g0 solve bpts models thresh it env pose0 calib2 fixi src t1 p0 gp0 = Some r /\ exact r /\ estimated r /\ posed r /\ alone (ru_s r).
Proof.
  intros CN Ei Eq Cf. unfold calibrate. destruct (start_exact fixi src p0 gp0 i t1 Ei Eq Cf) as (r0 & E0 & X0 & P0). rewrite E0. cbn [bind].
  destruct (objects_exact r0 X0) as (r1 & E1 & P1 & X1 & S1 & G1 & ES1). rewrite E1. cbn [bind].
  destruct (calibrate3DObjects_good svd lr uq pick g0 solve bpts models thresh it env pose0 CE Hh LO nc nb ins t detected_after obs_trimmed r0 r1 (xs_t _ X0) E1) as (GO & _).
  destruct (groups_exact r1 GO X1 S1 G1 ES1) as (r2 & E2 & P2 & X2 & O2 & C2). rewrite E2. cbn [bind].
  assert (BV : by_views (ca_groups (ru_s r2))) by exact (group_views r1 _ _ GO C2).
  destruct (merge_exact 2 r2 X2) as (r3 & E3 & P3 & X3 & _ & PO3 & G3 & R3). rewrite E3. cbn [bind]. rewrite <- G3 in BV.
  assert (P3' : ru_prs r3 = []) by congruence.
  assert (Alone : alone (ru_s r3) -> exists r, bind (run_pairs calib2 r3) (fun r => bind (run_mergeGroups lr pick g0 r) (fun r =>
      bind (run_merge3DObjects svd lr uq pick g0 solve bpts models thresh it env pose0 4 r) (fun r => bind (run_mergeGroups lr pick g0 r) (fun r => run_final svd lr uq solve bpts models thresh it env pose0 fixi r)))) = Some r /\ exact r /\ estimated r /\ posed r /\ alone (ru_s r)).
  { intros A3. destruct (no_pairs calib2 r3 A3 P3') as (r3' & E3' & Q). rewrite E3'. cbn [bind]. subst r3'.
    destruct (merge_groups_exact r3 X3 A3 P3') as (r4 & E4 & P4 & X4 & A4). rewrite E4. cbn [bind].
    destruct (merge_exact 4 r4 X4) as (r5 & E5 & P5 & X5 & _ & _ & G5 & _). rewrite E5. cbn [bind].
    assert (A5 : alone (ru_s r5)) by (destruct A4 as (G & Q); exists G; congruence). assert (P5' : ru_prs r5 = []) by congruence.
    destruct (merge_groups_exact r5 X5 A5 P5') as (r6 & E6 & P6 & X6 & A6). rewrite E6. cbn [bind].
    exact (final_exact fixi r6 X6 A6). }
  destruct (good_calib r3 (xa_good _ X3)) as (bss & ol & css & gl & CO). assert (EG := co_groups _ _ _ _ _ _ _ CO). assert (GK := co_groups_ok _ _ _ _ _ _ _ CO).
  destruct CN as [CN|(m & L4 & (NE & PA) & TH)].
  { apply Alone. rewrite G3 in EG. destruct (one_group r1 _ _ gl CN GO C2 EG) as (G & Q). exists G. congruence. }
  destruct BV as (GS & GV).
  assert (Own : forall k G, mfind k (ca_groups (ru_s r3)) = Some G -> member (ca_groups (ru_s r3)) k (cg_ref G)).
  { intros k G HG. exists G. split; [auto|]. rewrite EG in HG. apply mfind_In, dense_In in HG as (j & -> & HG). apply (go_member _ (gk_or _ _ GK j G HG)). }
  assert (Ng : gl <> []).
  { intros ->. assert (Hi' : exists i, In i ins) by (clear - NE; destruct ins as [|x l]; [congruence|exists x; left; auto]). destruct Hi' as (x & Hx).
    destruct (proj2 (GS (i_cam x)) (ex_intro _ x (conj Hx eq_refl))) as (k & G & HG & _). rewrite EG in HG. discriminate HG. }
  assert (H0 : exists G0, mfind 0%Z (ca_groups (ru_s r3)) = Some G0) by (destruct gl as [|G0 gl]; [congruence|exists G0; rewrite EG; reflexivity]). destruct H0 as (G0 & HG0).
  assert (Pos : forall k G, mfind k (ca_groups (ru_s r3)) = Some G -> (0 <= k)%Z) by (intros k G HG; rewrite EG in HG; apply mfind_In, dense_In in HG as (j & -> & _); lia).
  destruct (pairs_exact calib2 m r3 X3 PO3 R3 (conj GS GV) L4 TH) as (r3' & E3' & S3' & X3' & TP' & RP' & HP' & DP').
  { intros k k' G G' N H H'. destruct (PA (cg_ref G) (cg_ref G')) as (c & d & Vc & Vd & OA).
    - apply GS. eauto.
    - apply GS. eauto.
    - intros Q. apply N. apply (GV k k' _ _ (Own k G H) (Own k' G' H')). auto.
    - assert (Sc : saw ins c /\ saw ins d).
      { destruct OA as (a' & b' & fs & _ & BS & LF). assert (Lf := LF [] [] (NoDup_nil _) (NoDup_nil _) (fun x H => match H with end) (fun x H => match H with end)). destruct fs as [|f fs]; [exact (False_ind _ (Nat.nlt_0_r _ Lf))|]. destruct (BS f (or_introl eq_refl)) as (u & v & Hu & Hv & E1' & _ & E2' & _). split; [exists u|exists v]; auto. }
      destruct Sc as (Sc & Sd). apply GS in Sc as (kc & Mc). apply GS in Sd as (kd & Md).
      assert (k = kc) by (apply (GV k kc _ _ (Own k G H) Mc); auto). assert (k' = kd) by (apply (GV k' kd _ _ (Own k' G' H') Md); auto). subst kc kd.
      destruct Mc as (Gx & Q1 & Ic), Md as (Gy & Q2 & Id). assert (Gx = G) by congruence. assert (Gy = G') by congruence. subst Gx Gy. exists c, d. auto. }
  assert (Sy : forall a b, has_pair (ru_prs r3') a b -> has_pair (ru_prs r3') b a) by (intros a b; rewrite !HP'; intros (N & A & B); auto).
  rewrite E3'. cbn [bind].
  destruct (merge_groups_general r3' X3') as (r4 & E4 & P4 & X4 & A4); try rewrite S3'; auto.
  { intros a b H. split; [apply HP' in H; tauto|]. split; [auto|]. apply HP' in H as (_ & (A & HA) & _). exists A. split; [auto|]. eapply sees_corner; eauto. }
  { intros Q. rewrite Q in HG0. discriminate HG0. }
  { intros k k' G G' H H'. destruct (Z.eq_dec k k') as [->|N]; [apply rst_refl|apply rst_step, HP'; eauto]. }
  rewrite E4. cbn [bind].
  destruct (merge_exact 4 r4 X4) as (r5 & E5 & P5 & X5 & _ & _ & G5 & _). rewrite E5. cbn [bind].
  assert (A5 : alone (ru_s r5)) by (destruct A4 as (G & Q); exists G; congruence). assert (P5' : ru_prs r5 = ru_prs r3') by congruence.
  destruct (merge_again_exact r5 X5 A5) as (r6 & E6 & X6 & A6); try rewrite P5'; auto.
  { intros a b H. assert (Sb := Sy a b H). apply HP' in H as (N & (A & HA) & B & HB). split; [auto|]. split; [auto|]. split; [eapply Pos; eauto|].
    destruct (Z.eq_dec a 0) as [-> |Na]; [apply rt_refl|apply rt_step, HP'; eauto]. }
  rewrite E6. cbn [bind]. exact (final_exact fixi r6 X6 A6).
Qed.

(** ** The results *)
Lemma point_image r oo o i m : exact r -> In oo (ot_all (ca_oobs (ru_s r))) -> mfind (oo_obj oo) (ca_objs (ru_s r)) = Some o -> nth_error (oo_pts oo) i = Some m ->
  exists k x, nth_error (oo_ids oo) i = Some (Z.of_nat k) /\ nth_error (ob_pts o) k = Some x /\
    image (models (oo_cam oo)) (rg_intr w (oo_cam oo)) (board_at w (oo_cam oo) (oo_frame oo) (ob_ref o)) x = Some m.
Proof.
  intros X Hoo Ho Hm. destruct (good_gathered r (xa_good _ X)) as (WB & GA). destruct (GA oo Hoo) as (o' & Ho' & Ga). assert (o' = o) by congruence. subst o'.
  destruct (WB _ o (mfind_In _ _ _ Ho)) as (bs & Wb). destruct (gathers_lengths bpts t obs_trimmed o oo bs Wb Ga) as (L & Rg).
  destruct (nth_error (oo_ids oo) i) as [z|] eqn:Ez.
  2:{ apply nth_error_None in Ez. assert (i < length (oo_pts oo)) by (apply nth_error_Some; congruence). lia. }
  assert (Zr := proj1 (Forall_forall _ _) Rg z (nth_error_In _ _ Ez)). cbn beta in Zr.
  destruct (wb_corner bpts bs o z Wb Zr) as (b & k & q & P & Eo & Eb & Eq & EP & Ex). apply zget_some in Eo as (Z0 & Eo). apply zget_some in Eq as (K0 & Eq). apply zget_some in Ex as (_ & Ex).
  exists (Z.to_nat z), (pact P q). rewrite Z2Nat.id by auto. split; [auto|]. split; [auto|].
  destruct (proj1 (gathered_corner bpts t obs_trimmed o oo bs m b q Wb Ga)) as (n & bo & Hn & Hbo & Ebo & OC).
  { exists i, (Z.to_nat z), (Z.to_nat k). rewrite !Z2Nat.id by auto. auto. }
  apply own_image in OC; [|eapply nth_error_In; eauto]. apply (ga_bobs _ _ _ Ga) in Hn as (bo' & Hb' & C1 & C2 & C3). assert (bo' = bo) by congruence. subst bo'.
  destruct (xo_objs _ (xa_o _ X) _ o (mfind_In _ _ _ Ho) b) as (HP & _); [rewrite <- Ebo; auto|]. assert (P = pmul (pinv (W (ob_ref o))) (W b)) by congruence. subst P.
  rewrite <- image_mul, object_chain. rewrite <- Ebo, <- C1, <- C2. exact OC.
Qed.
Lemma own_group r oo : exact r -> In oo (ot_all (ca_oobs (ru_s r))) -> exists k G, mfind k (ca_groups (ru_s r)) = Some G /\ cg_id G = k /\ In (oo_cam oo) (cg_cams G).
Proof.
  intros X Hoo. destruct (good_gathered r (xa_good _ X)) as (WB & GA). destruct (GA oo Hoo) as (o & Ho & Ga). destruct (good_calib r (xa_good _ X)) as (bss & ol & css & gl & CO).
  assert (NE := ga_nonempty _ _ _ Ga). destruct (ga_content _ _ _ Ga) as (l & F2 & _ & Pts & _).
  assert (Q : exists n b, In n (oo_bobs oo) /\ nth_error (mvals (t_obs t)) n = Some b).
  { destruct F2 as [|n b ns l H F2]; [rewrite Pts in NE; cbn in NE; congruence|]. exists n, b. split; [left; auto|auto]. }
  destruct Q as (n & b & Hn & Hb). apply (ga_bobs _ _ _ Ga) in Hn as (b' & Hb' & C1 & _). assert (b' = b) by congruence. subst b'.
  assert (Hc : In (oo_cam oo) (map fst (concat css))).
  { rewrite <- C1. apply (co_kept _ _ _ _ _ _ _ CO n b Hb). destruct (obs_trimmed b (nth_error_In _ _ Hb)) as (_ & _ & T). specialize (proj1 T (obs_valid b (nth_error_In _ _ Hb))). intros L Q. rewrite Q in L. cbn in L. lia. }
  rewrite concat_map in Hc. apply in_concat in Hc as (cs & Hcs & Hc). apply in_map_iff in Hcs as (cs' & <- & Hcs). apply In_nth_error in Hcs as (i & Hcs). assert (GK := co_groups_ok _ _ _ _ _ _ _ CO).
  destruct (nth_error_length_ex css gl i cs' (gk_len _ _ GK) Hcs) as (G & HG). exists (Z.of_nat i), G. rewrite (co_groups _ _ _ _ _ _ _ CO), (dense_nth gl i G HG). split; [auto|].
  split; [exact (gk_ids _ _ GK i G HG)|]. rewrite (gr_cams _ _ (gk_wb _ _ GK i cs' G Hcs HG)). auto.
Qed.
Lemma zero_error r : ins <> [] -> exact r -> posed r -> reported_error models r = Some 0%R.
Proof.
  intros NE X PO. destruct (good_calib r (xa_good _ X)) as (bss & ol & css & gl & CO). unfold reported_error.
  apply (C42_zero_iff_exact svd lr uq pick g0 Hh bpts nc nb ins t detected_after obs_trimmed (ru_s r) (gd_reached _ _ _ _ _ _ _ _ (xa_good _ X))). split.
  - assert (Q : exists i, In i ins) by (clear - NE; destruct ins as [|i l]; [congruence|exists i; left; auto]). destruct Q as (i & Hi). destruct (ins_obs i Hi) as (n & Hn).
    destruct (co_cover _ _ _ _ _ _ _ CO n _ Hn) as (_ & oo & Hoo & _); [|intros Q; rewrite Q in Hoo; destruct Hoo].
    destruct (obs_trimmed _ (nth_error_In _ _ Hn)) as (_ & _ & T). specialize (proj1 T (obs_valid _ (nth_error_In _ _ Hn))). intros L Q. rewrite Q in L. cbn in L. lia.
  - intros oo Hoo. destruct (own_group r oo X Hoo) as (k & G & HG & Ek & Hc). destruct (proj2 (good_gathered r (xa_good _ X)) oo Hoo) as (o & Ho & Ga).
    exists k, G, o. split; [apply mfind_In; auto|]. split; [auto|]. split; [auto|]. intros i m Hm. destruct (point_image r oo o i m X Hoo Ho Hm) as (kk & x & H1 & H2 & H3).
    exists kk, x. split; [auto|]. split; [auto|]. rewrite (xo_intr _ (xa_o _ X)).
    apply In_nth_error in Hoo as (n & Hn). rewrite Ek, (PO k (oo_frame oo) G n oo o HG (conj Hn (conj eq_refl Hc)) Ho).
    assert (HG' := HG). rewrite (co_groups _ _ _ _ _ _ _ CO) in HG'. assert (HI := mfind_In _ _ _ HG'). apply dense_In in HI as (j & -> & Hj). assert (GK := co_groups_ok _ _ _ _ _ _ _ CO).
    destruct (nth_error_length_ex gl css j G (eq_sym (gk_len _ _ GK)) Hj) as (cs & Hcs). assert (GR := gk_wb _ _ GK j cs G Hcs Hj).
    assert (HP : exists P, mfind (oo_cam oo) (cg_poses G) = Some P).
    { rewrite (gr_cams _ _ GR) in Hc. apply in_map_iff in Hc as ((c', P) & E & Hc). cbn [fst] in E. subst c'. exists P. apply (gr_poses _ _ GR). auto. }
    destruct HP as (P & HP). assert (QC := xg_cams _ (xa_g _ X) _ G _ P (mfind_In _ _ _ HG) HP). rewrite Ek in QC. rewrite QC.
    assert (P = pmul (C (oo_cam oo)) (pinv (C (cg_ref G)))) by (exact (xg_groups _ (xa_g _ X) _ G HG _ P HP)). subst P.
    rewrite matrix_true by apply rigid_crel. rewrite matrix_true by apply rigid_board. rewrite group_chain. exact H3.
Qed.

Lemma obs_nonempty n b : obs_at t n b -> o_pts b <> [].
Proof.
  intros Hn. destruct (obs_trimmed _ (nth_error_In _ _ Hn)) as (_ & _ & T). specialize (proj1 T (obs_valid _ (nth_error_In _ _ Hn))). intros L Q. rewrite Q in L. cbn in L. lia.
Qed.
Lemma results_cameras r : exact r -> alone (ru_s r) -> true_cameras w ins (saved_cameras models r).
Proof.
  intros X (G & EG). assert (Rd := gd_reached _ _ _ _ _ _ _ _ (xa_good _ X)). destruct (good_calib r (xa_good _ X)) as (bss & ol & css & gl & CO).
  assert (CK : mkeys (cameras_of models r) = map Z.of_nat (seq 0 nc)).
  { unfold mkeys, cameras_of. rewrite map_map. rewrite (xo_t _ (xa_o _ X)). destruct (insert_all_from_init nc nb ins Kn) as (t1 & E1 & H & _). assert (t1 = t) by congruence. subst t1.
    rewrite <- (hd_cam_keys _ _ _ _ H). unfold mkeys. apply map_ext. intros (c, e). reflexivity. }
  destruct (C36_contents_of_the_file svd lr uq pick g0 Hh bpts nc nb ins t detected_after Hp (ru_s r) Rd (cameras_of models r) CK) as (N & F1 & _).
  assert (F2 := C36_one_group_is_complete svd lr uq pick g0 Hh bpts nc nb ins t detected_after Hp (ru_s r) Rd (cameras_of models r) CK).
  fold (saved_cameras models r) in N, F1, F2.
  assert (HG : mfind 0%Z (ca_groups (ru_s r)) = Some G) by (rewrite EG; reflexivity).
  assert (Eg := co_groups _ _ _ _ _ _ _ CO). rewrite EG in Eg. destruct gl as [|G' [|]]; try discriminate Eg. cbn in Eg. injection Eg as <-. assert (GK := co_groups_ok _ _ _ _ _ _ _ CO).
  assert (GO := gk_or _ _ GK 0 G eq_refl). destruct (nth_error_length_ex [G] css 0 G (eq_sym (gk_len _ _ GK)) eq_refl) as (cs & Hcs). assert (GR := gk_wb _ _ GK 0 cs G Hcs eq_refl).
  assert (LC : css = [cs]) by (assert (L := gk_len _ _ GK); destruct css as [|cs' [|]]; try discriminate L; cbn in Hcs; congruence).
  assert (MB : forall c, In c (cg_cams G) <-> saw ins c).
  { intros c. rewrite (gr_cams _ _ GR), saw_obs. split.
    - intros H. apply (co_cams _ _ _ _ _ _ _ CO). rewrite LC. cbn. rewrite app_nil_r. auto.
    - intros (n & b & Hn & <-). assert (Q := co_kept _ _ _ _ _ _ _ CO n b Hn (obs_nonempty n b Hn)). rewrite LC in Q. cbn in Q. rewrite app_nil_r in Q. auto. }
  split; [auto|]. split.
  - intros c. split.
    + intros H. apply in_map_iff in H as ((c', k) & E & H). cbn [fst] in E. subst c'. destruct (F1 c k H) as (G1 & _ & _ & HG1 & Hc & _). assert (G1 = G) by congruence. subst G1. apply MB. auto.
    + intros S. apply saw_obs in S as (n & b & Hn & <-). destruct (F2 ltac:(rewrite EG; reflexivity) n b Hn (obs_nonempty n b Hn)) as (k & H). apply (in_map fst) in H. auto.
  - exists (cg_ref G). split; [apply MB, GO|]. split; [intros c S; apply MB in S; apply (go_min _ GO); auto|].
    intros c k H. destruct (records_of models r c k H) as (EK & ED' & ET). rewrite (xo_intr _ (xa_o _ X)) in EK, ED'. split; [unfold getIntrinsics; congruence|]. split; [auto|].
    destruct (F1 c k H) as (G1 & kk & P & HG1 & _ & _ & HP & PR & _). assert (G1 = G) by congruence. subst G1.
    assert (EP : P = pmul (C c) (pinv (C (cg_ref G)))) by (exact (xg_groups _ (xa_g _ X) _ G HG _ P HP)). destruct PR as (_ & _ & _ & _ & _ & _ & _ & ->).
    rewrite EP, pinv_pmul by (try apply rigid_inv; apply rigid_C). rewrite pinv_pinv by apply rigid_C. auto.
Qed.
Lemma results_points r : exact r -> (forall i, In i ins -> exists k o, In (k, o) (ca_objs (ru_s r)) /\ In (i_board i) (mkeys (ob_boards o))) /\
  (forall k o, In (k, o) (ca_objs (ru_s r)) -> true_points bpts w o).
Proof.
  intros X. destruct (good_gathered r (xa_good _ X)) as (WB & GA). destruct (good_calib r (xa_good _ X)) as (bss & ol & css & gl & CO). split.
  - intros i Hi. destruct (ins_obs i Hi) as (n & Hn). destruct (co_cover _ _ _ _ _ _ _ CO n _ Hn (obs_nonempty n _ Hn)) as (_ & oo & Hoo & Hn').
    destruct (GA oo Hoo) as (o & Ho & Ga). destruct (proj1 (ga_bobs _ _ _ Ga n) Hn') as (b & Hb & _ & _ & C3). assert (b = new_obs i) by (unfold obs_at in Hn; congruence). subst b.
    exists (oo_obj oo), o. split; [apply mfind_In; auto|exact C3].
  - intros k o Ho. destruct (WB k o Ho) as (bs & Wb). destruct (save_main bpts bs o Wb) as (cols & E & _ & _ & K1 & K2). exists cols. split; [auto|]. split.
    + intros b j q Hb (J0 & Hq). assert (Lj : Z.to_nat j < length (bpts b)) by (apply nth_error_Some; congruence).
      assert (Q : (0 <= j < Z.of_nat (length (bpts b)))%Z) by lia. apply (conj Hb) in Q. apply K1 in Q. apply in_map_iff in Q as (((x, b'), j') & Eq & Q). cbn [fst snd] in Eq. injection Eq as -> ->. eauto.
    + intros x b j H. destruct (K2 x b j H) as (n & P & q & _ & _ & HP & Hq & ->). assert (Q := proj1 (K1 b j) (in_map _ _ _ H)). cbn [fst snd] in Q. destruct Q as (Hb & J0).
      exists q. split; [split; [lia|auto]|]. destruct (xo_objs _ (xa_o _ X) k o Ho b Hb) as (HP' & _). assert (P = pmul (pinv (W (ob_ref o))) (W b)) by congruence. subst P.
      rewrite <- pact_mul, pmul_assoc, pinv_r, pmul_id_l by apply rigid_W. auto.
Qed.
Lemma results_poses r : exact r -> estimated r -> forall id ps, In (id, ps) (saved_poses r) -> exists o, In (id, o) (ca_objs (ru_s r)) /\ true_poses lr w ins o ps.
Proof.
  intros X ES id ps H. destruct (good_gathered r (xa_good _ X)) as (WB & GA). destruct (good_calib r (xa_good _ X)) as (bss & ol & css & gl & CO).
  unfold saved_poses, save3DObjPose in H. apply in_map_iff in H as ((k, o) & Eq & Ho). injection Eq as Eid Eps. subst id ps.
  assert (Ho' := Ho). rewrite (co_objs _ _ _ _ _ _ _ CO) in Ho'. apply (dense_own_obj bpts bss ol k o (co_objects _ _ _ _ _ _ _ CO)) in Ho'. rewrite <- (co_objs _ _ _ _ _ _ _ CO) in Ho'.
  exists o. split; [apply mfind_In; auto|]. set (ns := table_of (ob_id o) (ot_objs (ca_oobs (ru_s r)))).
  assert (NS : forall n, In n ns <-> exists oo, nth_error (ot_all (ca_oobs (ru_s r))) n = Some oo /\ oo_obj oo = ob_id o).
  { intros n. unfold ns. rewrite (ot_ok_objs _ (co_tables _ _ _ _ _ _ _ CO)), where_In. split; intros (oo & H1 & H2); exists oo; (split; [auto|]); apply Z.eqb_eq; auto. }
  set (cf := fun n => match nth_error (ot_all (ca_oobs (ru_s r))) n with Some oo => (oo_cam oo, oo_frame oo) | None => (0, 0)%Z end).
  exists (map cf ns). split.
  - rewrite map_map. apply map_ext_in. intros n Hn. apply NS in Hn as (oo & Hoo & Eo). unfold cf. rewrite Hoo. cbn [fst snd]. apply (ES n oo o Hoo). rewrite Eo. auto.
  - intros c f. split.
    + intros H. apply in_map_iff in H as (n & E & Hn). apply NS in Hn as (oo & Hoo & Eo). unfold cf in E. rewrite Hoo in E. injection E as <- <-.
      destruct (GA oo (nth_error_In _ _ Hoo)) as (o' & Ho1 & Ga). assert (o' = o) by congruence. subst o'.
      assert (NE := ga_nonempty _ _ _ Ga). destruct (ga_content _ _ _ Ga) as (l & F2 & _ & Pts & _).
      assert (Q : exists m, In m (oo_bobs oo)) by (destruct F2 as [|m b ms l' Hm F2]; [rewrite Pts in NE; cbn in NE; congruence|exists m; left; auto]). destruct Q as (m & Hm).
      apply (ga_bobs _ _ _ Ga) in Hm as (b & Hb & C1 & C2 & C3). apply obs_ins in Hb as (i & Hi & ->). exists i. split; [eapply nth_error_In; eauto|]. auto.
    + intros (i & Hi & <- & <- & Hb). destruct (ins_obs i Hi) as (m & Hm). destruct (co_cover _ _ _ _ _ _ _ CO m _ Hm (obs_nonempty m _ Hm)) as (_ & oo & Hoo & Hm').
      destruct (co_obs _ _ _ _ _ _ _ CO oo Hoo) as (j & o' & Hj & Ej & Ga). destruct (proj1 (ga_bobs _ _ _ Ga m) Hm') as (b & Hb' & C1 & C2 & C3). assert (b = new_obs i) by (unfold obs_at in Hm; congruence). subst b.
      cbn [new_obs o_cam o_frame o_board] in *. apply In_nth_error in Hoo as (n & Hn). apply in_map_iff. exists n. split; [unfold cf; rewrite Hn; congruence|]. apply NS. exists oo. split; [auto|].
      rewrite (co_objs _ _ _ _ _ _ _ CO) in Ho. apply dense_In in Ho as (jo & _ & Hjo). assert (OK := co_objects _ _ _ _ _ _ _ CO).
      rewrite Ej, (ok_ids _ _ _ OK jo o Hjo). f_equal.
      destruct (nth_error_length_ex ol bss j o' (eq_sym (ok_len _ _ _ OK)) Hj) as (bsa & Ha). destruct (nth_error_length_ex ol bss jo o (eq_sym (ok_len _ _ _ OK)) Hjo) as (bsb & Hbb).
      apply (wb_boards _ _ _ (ok_wb bpts bss ol OK j bsa o' Ha Hj)) in C3. apply (wb_boards _ _ _ (ok_wb bpts bss ol OK jo bsb o Hbb Hjo)) in Hb.
      assert (ND := ok_disjoint _ _ _ OK). rewrite concat_map in ND. eapply NoDup_concat_unique; [exact ND|rewrite nth_error_map, Ha; reflexivity|rewrite nth_error_map, Hbb; reflexivity|exact C3|exact Hb].
Qed.
Lemma results_poses_all r : exact r -> estimated r -> Forall2 (fun e f => fst f = fst e /\ true_poses lr w ins (snd e) (snd f)) (ca_objs (ru_s r)) (saved_poses r).
Proof.
  intros X ES. destruct (good_calib r (xa_good _ X)) as (bss & ol & css & gl & CO).
  assert (K : forall k o, In (k, o) (ca_objs (ru_s r)) -> ob_id o = k).
  { intros k o H. rewrite (co_objs _ _ _ _ _ _ _ CO) in H. apply dense_In in H as (i & -> & H). exact (ok_ids _ _ _ (co_objects _ _ _ _ _ _ _ CO) i o H). }
  assert (U : forall k o o', In (k, o) (ca_objs (ru_s r)) -> In (k, o') (ca_objs (ru_s r)) -> o' = o).
  { intros k o o' H H'. rewrite (co_objs _ _ _ _ _ _ _ CO) in H, H'. apply dense_In in H as (i & -> & H). apply dense_In in H' as (i' & E & H'). apply Nat2Z.inj in E. congruence. }
  assert (T := results_poses r X ES). unfold saved_poses, save3DObjPose in *.
  assert (G : forall l, (forall e, In e l -> In e (ca_objs (ru_s r))) -> Forall2 (fun e f => fst f = fst e /\ true_poses lr w ins (snd e) (snd f)) l
     (map (fun '(_, o) => (ob_id o, map (fun n => pa_pose (ru_p r) (KObjObs n)) (table_of (ob_id o) (ot_objs (ca_oobs (ru_s r)))))) l)).
  { induction l as [|(k, o) l IH]; intros Hl; cbn [map]; constructor; [|apply IH; intros; apply Hl; right; auto]. cbn [fst snd]. assert (Ho := Hl _ (or_introl eq_refl)).
    rewrite (K k o Ho). split; [auto|]. destruct (T k (map (fun n => pa_pose (ru_p r) (KObjObs n)) (table_of k (ot_objs (ca_oobs (ru_s r)))))) as (o' & Ho' & TP).
    - apply in_map_iff. exists (k, o). rewrite (K k o Ho). auto.
    - rewrite <- (U k o o' Ho Ho'). auto. }
  apply G. auto.
Qed.
End Steps.
