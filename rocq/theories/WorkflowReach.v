(** Every state of a run is reached, its poses are rigid, and the optimiser's parameters
    hold them. *)
From Coq Require Import List ZArith QArith Lia Reals Lra Permutation Sorted.
From Verif Require Import SMap GraphModel GraphSpec DataModel DataSpec DataProofs DetectModel DetectSpec DetectProofs RansacModel RansacSpec RansacProofs
  GeomModel GeomSpec GeomProofs GeomMedian ChainModel ChainSpec ChainProofs ChainCam
  ObjectsModel ObjectsSpec ObjectsProofs ObjectsSave ObjectsBuild ObjectsMerge ObjectsObs
  GroupModel GroupSpec GroupProofs GroupMerge GroupObs StageModel StageSpec StageProofs StageMain StageCams StageMerge
  PipelineModel PipelineSpec PipelineProofs ObjectsMain EstimateAll HandEyeModel HandEyeProofs CameraModel ResidualModel ResidualSpec ResidualProofs ResidualMain ResidualGroup
  ResidualSolve FileModel IntrinsicModel GroupAll PropHandEye PropStale PropResidual WorkflowModel WorkflowRigid WorkflowProofs.
Import ListNotations.
Close Scope Q_scope.
Close Scope R_scope.
Open Scope nat_scope.

(** ** Points of an object are already those of its poses *)
Lemma with_own_poses bpts bs o : well_built bpts bs o -> with_poses (ob_poses o) bs = bs.
Proof.
  intros W. unfold with_poses. assert (H : forall b P, In (b, P) bs -> mfind b (ob_poses o) = Some P) by (intros; apply (wb_poses _ _ _ W); auto).
  clear W. induction bs as [|(b, P) bs IH]; cbn [map]; auto. f_equal; [|apply IH; intros; apply H; right; auto].
  rewrite (H b P); auto. left; auto.
Qed.
Lemma update_own bpts bs o : well_built bpts bs o -> updateObjectPts bpts o (ob_poses o) = o.
Proof.
  intros W. assert (U := update_ok bpts bs o (ob_poses o) W eq_refl). rewrite (with_own_poses bpts bs o W) in U.
  assert (E : ob_pts (updateObjectPts bpts o (ob_poses o)) = ob_pts o) by (rewrite (wb_pts _ _ _ U), (wb_pts _ _ _ W); auto).
  unfold updateObjectPts in *. cbn [ob_pts] in E. rewrite E. destruct o; reflexivity.
Qed.
Lemma refine_own bpts bss ol : objects_ok bpts bss ol -> refine_objects bpts ob_poses (dense ol) = dense ol.
Proof.
  intros OK. unfold refine_objects. transitivity (map (fun e : Z * obj3d => e) (dense ol)); [|apply map_id].
  apply map_ext_in. intros (k, o) H. apply dense_In in H as (i & -> & Ho).
  destruct (nth_error_length_ex ol bss i o (eq_sym (ok_len _ _ _ OK)) Ho) as (bs & Hbs).
  rewrite (update_own bpts bs o); auto. eapply ok_wb; eauto.
Qed.
Lemma regroup_own gs : refine_groups cg_poses gs = gs.
Proof. unfold refine_groups. transitivity (map (fun e : Z * cgroup => e) gs); [|apply map_id]. apply map_ext. intros (k, []). reflexivity. Qed.
Lemma own_boards : keeps_boards ob_poses.
Proof. intros o. auto. Qed.
Lemma own_cams : keeps_cams cg_poses.
Proof. intros o. auto. Qed.

(** ** Poses and parameters *)
Lemma represents_split p objs groups : represents p objs groups <-> represents p objs [] /\ represents p [] groups.
Proof.
  split.
  - intros [A B]. split; constructor; auto; intros k o b P [].
  - intros ([A _] & [_ B]). constructor; auto.
Qed.
Lemma matrix_proj lr P : log_ok lr -> rigid P -> matrix (Proj2RT lr P) = P.
Proof. intros L R. apply (through_rigid lr P L R). Qed.
(** only poses of the keys that are not of boards and cameras differ *)
Definition same_placed (p p' : params) : Prop := forall k, match k with KBoard _ _ | KCam _ _ => pa_pose p' k = pa_pose p k | _ => True end.
Lemma represents_same p p' objs groups : same_placed p p' -> represents p objs groups -> represents p' objs groups.
Proof.
  intros S [A B]. constructor.
  - intros k o b P H E. rewrite (S (KBoard (ob_id o) b)). eauto.
  - intros k G c P H E. rewrite (S (KCam (cg_id G) c)). eauto.
Qed.
Lemma put_boards_represents lr objs groups p : log_ok lr -> rigid_objs objs -> (forall k o, In (k, o) objs -> mfind (ob_id o) objs = Some o) ->
  represents p [] groups -> represents (put_boards lr objs p) objs groups.
Proof.
  intros L Ro Hm R. apply represents_split. split.
  - constructor; [|intros k G c P []]. intros k o b P H E. cbn [put_boards pa_pose]. rewrite (Hm k o H), E. apply matrix_proj; auto. apply mfind_In in E. eapply Ro; eauto.
  - constructor; [intros k G c P []|]. intros k G c P H E. cbn [put_boards pa_pose]. apply (rp_cams _ _ _ R k G c P H E).
Qed.
Lemma put_cams_represents lr objs groups p : log_ok lr -> rigid_groups groups -> (forall k o, In (k, o) groups -> mfind (cg_id o) groups = Some o) ->
  represents p objs [] -> represents (put_cams lr groups p) objs groups.
Proof.
  intros L Ro Hm R. apply represents_split. split.
  - constructor; [|intros k G c P []]. intros k G c P H E. cbn [put_cams pa_pose]. apply (rp_boards _ _ _ R k G c P H E).
  - constructor; [intros k G c P []|]. intros k o b P H E. cbn [put_cams pa_pose]. rewrite (Hm k o H), E. apply matrix_proj; auto. apply mfind_In in E. eapply Ro; eauto.
Qed.
Lemma dense_own_obj bpts bss ol k o : objects_ok bpts bss ol -> In (k, o) (dense ol) -> mfind (ob_id o) (dense ol) = Some o.
Proof. intros OK H. apply dense_In in H as (i & -> & H). rewrite (ok_ids _ _ _ OK i o H). apply dense_nth; auto. Qed.
Lemma dense_own_group css gl k G : groups_ok css gl -> In (k, G) (dense gl) -> mfind (cg_id G) (dense gl) = Some G.
Proof. intros OK H. apply dense_In in H as (i & -> & H). rewrite (gk_ids _ _ OK i G H). apply dense_nth; auto. Qed.
Lemma put_group_same m : forall p p', put_group_poses m p = Some p' -> same_placed p p' /\ forall k, (forall n o, k <> KGroup n o) -> pa_pose p' k = pa_pose p k.
Proof.
  assert (G : forall m (acc : option params) p', 
    fold_left (fun acc '(k, om) => fold_left (fun acc '(o, v) => match acc, v with Some p, Some P => Some (put_pose (KGroup k o) P p) | _, _ => None end) om acc) m acc = Some p' ->
    exists p, acc = Some p /\ forall k, (forall n o, k <> KGroup n o) -> pa_pose p' k = pa_pose p k).
  { clear m. induction m as [|(k, om) m IH]; intros acc p' E; cbn [fold_left] in E; [eauto|]. apply IH in E as (p1 & E & H1). clear IH m.
    enough (Q : exists p, acc = Some p /\ forall k, (forall n o, k <> KGroup n o) -> pa_pose p1 k = pa_pose p k).
    { destruct Q as (p & Ep & Q). exists p. split; [auto|]. intros k' Hk. rewrite H1, Q; auto. }
    clear H1 p'. revert acc E. induction om as [|(o, v) om IH]; intros acc E; cbn [fold_left] in E; [eauto|]. apply IH in E as (p2 & E & H2).
    destruct acc as [p|]; [|discriminate E]. destruct v as [P|]; [|discriminate E]. injection E as <-. exists p. split; [auto|].
    intros k' Hk. rewrite H2 by auto. cbn [put_pose pa_pose]. destruct (pkey_dec k' (KGroup k o)) as [Q|Q]; auto. exfalso. eapply Hk; eauto. }
  intros p p' E. apply G in E as (q & [= <-] & H). split; [|auto]. intros [n|n|o b|g c|k o]; auto; apply H; intros n o'; discriminate.
Qed.

Section Run.
Variables (svd : (nat -> nat -> R) -> quat) (lr : mat3 -> vec3) (uq : bool) (pick : dstate -> nat) (g0 : graph).
Variables (solve : list block -> params -> params) (bpts : Z -> list vec3) (models : Z -> Z) (thresh : R) (it : Z).
Variables (env : nat -> nat -> rs_env par6 vec3) (pose0 : nat -> nat -> par6).
Variable calib2 : list pose -> list pose -> option pose.
Variable fix_intrinsic : Z.
Hypothesis CE : ceres solve.
Hypothesis Hh : good_heap pick.
Hypothesis LO : log_ok lr.
Variables (nc nb : nat) (ins : list (insertion pt2)) (t : tables pt2).
Hypothesis AD : after_detection nc nb ins t.
Hypothesis TR : forall o, In o (mvals (t_obs t)) -> trimmed bpts o.

Record good (r : run) : Prop := {
  gd_t : ru_t r = t;
  gd_reached : reached svd lr uq pick g0 bpts t (ru_s r);
  gd_represents : represents (ru_p r) (ca_objs (ru_s r)) (ca_groups (ru_s r));
  gd_objs : rigid_objs (ca_objs (ru_s r));
  gd_groups : rigid_groups (ca_groups (ru_s r))
}.
Let Hp : paired t := trimmed_paired bpts t TR.

Lemma good_estimate c r r' : good r -> estimate_objects_step models thresh it env pose0 c r = Some r' -> good r' /\ ru_s r' = ru_s r /\ ru_prs r' = ru_prs r.
Proof.
  intros [A B C D E] H. apply omap_Some in H as (ps & _ & ->). split; [|split; reflexivity]. constructor; cbn [with_ps ru_t ru_s ru_p]; auto.
  eapply represents_same; [|eauto]. intros []; cbn; auto.
Qed.
Lemma good_group_poses r r' : good r -> group_poses_step svd lr uq r = Some r' -> good r' /\ ru_s r' = ru_s r /\ ru_prs r' = ru_prs r.
Proof.
  intros [A B C D E] H. apply omap_Some in H as (p & H & ->). split; [|split; reflexivity]. constructor; cbn [with_ps ru_t ru_s ru_p]; auto.
  eapply represents_same; [|eauto]. eapply put_group_same; eauto.
Qed.
Lemma good_refine r r' : good r -> refine_step solve bpts models r = Some r' -> good r' /\
  ca_groups (ru_s r') = refine_groups (cams_of (ru_p r')) (ca_groups (ru_s r)) /\ ca_oobs (ru_s r') = ca_oobs (ru_s r) /\ ca_gobs (ru_s r') = ca_gobs (ru_s r) /\ ru_prs r' = ru_prs r.
Proof.
  intros [A B C D E] H. apply omap_Some in H as (p & H & ->). split; [|split; [reflexivity|split; [reflexivity|split; reflexivity]]].
  destruct (C47_refinement_keeps_the_calibration_consistent svd lr uq pick g0 Hh bpts nc nb ins t AD TR (ru_s r) B models solve (ru_p r) p CE C
    (or_intror (or_intror (or_introl H)))) as (R1 & R2 & _).
  constructor; cbn [ru_t ru_s ru_p]; auto; cbn [refine_calib ca_objs ca_groups]; [apply refine_objs_rigid|apply refine_groups_rigid].
Qed.
Lemma good_refine_all r r' : good r -> refine_intrinsic_step solve bpts models r = Some r' -> good r' /\ ru_prs r' = ru_prs r.
Proof.
  intros [A B C D E] H. apply omap_Some in H as (p & H & ->). split; [|reflexivity].
  destruct (C47_refinement_keeps_the_calibration_consistent svd lr uq pick g0 Hh bpts nc nb ins t AD TR (ru_s r) B models solve (ru_p r) p CE C
    (or_intror (or_intror (or_intror H)))) as (R1 & R2 & _).
  constructor; cbn [ru_t ru_s ru_p]; auto; cbn [refine_calib ca_objs ca_groups]; [apply refine_objs_rigid|apply refine_groups_rigid].
Qed.

(** ** The first two stages *)
(** refinement of objects on their own leaves the reference boards *)
Lemma objects_reference bss ol s p p' o : objects_ok bpts bss ol -> ca_objs s = dense ol -> refineAllObject3D solve bpts t models s p = Some p' -> In o ol ->
  pa_pose p' (KBoard (ob_id o) (ob_ref o)) = pa_pose p (KBoard (ob_id o) (ob_ref o)).
Proof.
  intros OK E R Ho. eapply solve_each_pose; [exact CE| |exact R]. intros o' q bs b Ho' Eb Hb. rewrite E, dense_vals in Ho'.
  apply (gather_In _ _ _ b Eb) in Hb as (n & y & _ & Ey & Hy). destruct (nth_error (ot_all (ca_oobs s)) n) as [oo|]; [|injection Ey as <-; destruct Hy].
  apply (gather_In _ _ _ b Ey) in Hy as (k & y' & _ & Ey' & Hy').
  destruct (nth_error (mvals (t_obs t)) k) as [bo|]; [|injection Ey' as <-; destruct Hy'].
  destruct (o_valid bo) eqn:V; [|injection Ey' as <-; destruct Hy']. destruct (point_blocks_shape _ _ _ _ _ _ Ey' Hy') as (x & m & ->).
  cbn [live_keys In]. intros [Q|Q]; [discriminate Q|].
  destruct (Z.eqb_spec (ob_ref o') (o_board bo)) as [Er|Er]; cbn [negb] in Q; [destruct Q|]. destruct Q as [Q|[]]. injection Q as Q1 Q2.
  apply In_nth_error in Ho as (i & Hi), Ho' as (j & Hj). rewrite (ok_ids _ _ _ OK i o Hi), (ok_ids _ _ _ OK j o' Hj) in Q1. apply Nat2Z.inj in Q1. subst j.
  assert (o = o') by congruence. subst. congruence.
Qed.
(** new poses of the boards, the reference board unchanged *)
Definition patched (p : params) (o : obj3d) : smap Z pose :=
  map (fun e : Z * pose => (fst e, if Z.eqb (fst e) (ob_ref o) then match mfind (fst e) (ob_poses o) with Some P => P | None => pid end
                                   else matrix (pa_pose p (KBoard (ob_id o) (fst e))))) (ob_poses o).
Lemma mfind_map (f : Z -> pose) (m : smap Z pose) k : mfind k (map (fun e : Z * pose => (fst e, f (fst e))) m) = option_map (fun _ => f k) (mfind k m).
Proof. induction m as [|(b, x) m IH]; cbn [map mfind fst]; auto. destruct (kcmp k b) eqn:E; auto. apply kcmp_eq in E. subst. auto. Qed.
Lemma patched_keeps p : keeps_boards (patched p).
Proof.
  intros o. split; [unfold patched, mkeys; rewrite map_map; apply map_ext; auto|]. unfold patched.
  rewrite (mfind_map (fun b => if Z.eqb b (ob_ref o) then match mfind b (ob_poses o) with Some P => P | None => pid end else matrix (pa_pose p (KBoard (ob_id o) b)))).
  rewrite Z.eqb_refl. destruct (mfind (ob_ref o) (ob_poses o)); auto.
Qed.
Lemma boards_patched p o : (forall P, mfind (ob_ref o) (ob_poses o) = Some P -> matrix (pa_pose p (KBoard (ob_id o) (ob_ref o))) = P) -> boards_of p o = patched p o.
Proof.
  intros H. unfold boards_of, patched. apply map_ext_in. intros (b, P) Hb. cbn [fst]. f_equal. destruct (Z.eqb_spec b (ob_ref o)) as [->|N]; [|reflexivity].
  destruct (mfind (ob_ref o) (ob_poses o)) as [Q|] eqn:EQ; [apply H; auto|].
  exfalso. apply mfind_None in EQ. apply EQ. apply in_map_iff. exists (ob_ref o, P). auto.
Qed.
Lemma boards_of_represents p bss ol : objects_ok bpts bss ol -> represents p (refine_objects bpts (boards_of p) (dense ol)) [].
Proof.
  intros OK. constructor; [|intros k G c P []]. intros k o b P H E. apply in_map_iff in H as ((k0, o0) & Eq & H). injection Eq as <- <-.
  cbn [updateObjectPts ob_id ob_poses] in E |- *. unfold boards_of in E.
  replace (map (fun '(b0, _) => (b0, RVecT2Proj (fst (pa_pose p (KBoard (ob_id o0) b0))) (snd (pa_pose p (KBoard (ob_id o0) b0))))) (ob_poses o0))
    with (map (fun e : Z * pose => (fst e, matrix (pa_pose p (KBoard (ob_id o0) (fst e))))) (ob_poses o0)) in E by (apply map_ext; intros (x, y); reflexivity).
  rewrite (mfind_map (fun b => matrix (pa_pose p (KBoard (ob_id o0) b)))) in E. destruct (mfind b (ob_poses o0)); [|discriminate E]. injection E as E. auto.
Qed.

(** state after calibrate3DObjects *)
Record good_objects (r : run) : Prop := {
  go_t : ru_t r = t;
  go_run : exists bp rf, keeps_boards rf /\ calibrate3DObjects svd lr uq pick g0 bpts t bp rf = Some (ru_s r);
  go_represents : represents (ru_p r) (ca_objs (ru_s r)) [];
  go_objs : rigid_objs (ca_objs (ru_s r))
}.
Lemma new_objects_good r r' : ru_t r = t -> new_objects svd lr uq pick g0 bpts r = Some r' -> good_objects r' /\ ru_prs r' = ru_prs r.
Proof.
  intros Et E. unfold new_objects in E. rewrite Et in E. apply bind_Some in E as (objs & E1 & E). apply bind_Some in E as (ot & E2 & E). injection E as <-.
  split; [|reflexivity].
  destruct (objects_part_start svd lr uq pick g0 Hh bpts nc nb ins t AD Hp (fun n => as_matrix (pa_pose (ru_p r) (KBoardObs n))) ob_poses own_boards)
    as (s & ol & bss & Es & OK & Ec & _ & _). assert (objs = dense ol) by congruence. subst objs.
  constructor; cbn [with_ps ru_t ru_s ru_p ca_objs]; auto.
  - exists (fun n => as_matrix (pa_pose (ru_p r) (KBoardObs n))), ob_poses. split; [apply own_boards|]. unfold calibrate3DObjects. rewrite E1, E2, (refine_own bpts bss ol OK). auto.
  - apply put_boards_represents; auto; [eapply objects_stage_rigid; eauto|intros k o H; eapply dense_own_obj; eauto|]. constructor; intros k o b P [].
  - eapply objects_stage_rigid; eauto.
Qed.
Lemma estimate_good_objects c r r' : good_objects r -> estimate_objects_step models thresh it env pose0 c r = Some r' -> good_objects r' /\ ru_s r' = ru_s r /\ ru_prs r' = ru_prs r.
Proof.
  intros [A B C D] H. apply omap_Some in H as (ps & _ & ->). split; [|split; reflexivity]. constructor; cbn [with_ps ru_t ru_s ru_p]; auto.
  eapply represents_same; [|eauto]. intros []; cbn; auto.
Qed.
(** the objects-only state in detail *)
Lemma start_parts bp rf s : keeps_boards rf -> calibrate3DObjects svd lr uq pick g0 bpts t bp rf = Some s ->
  exists bss ol, ca_objs s = dense ol /\ objects_ok bpts bss ol /\ ca_groups s = [] /\ ca_gobs s = empty_gtables.
Proof.
  intros K E. destruct (objects_part_start svd lr uq pick g0 Hh bpts nc nb ins t AD Hp bp rf K) as (s' & ol & bss & Es & OK & Ec & (P1 & P2 & _) & _).
  assert (s' = s) by congruence. subst s'. exists (refit rf bss ol), (retake bpts rf ol). split; [auto|]. split; [auto|].
  unfold calibrate3DObjects in E. rewrite Es in E. destruct (initAll3DObjectObs t (dense ol) empty_otables); [|discriminate E]. injection E as <-. auto.
Qed.
Lemma refine_good_objects rf0 bp0 r r' : good_objects r -> keeps_boards rf0 -> calibrate3DObjects svd lr uq pick g0 bpts t bp0 rf0 = Some (ru_s r) ->
  (forall o, rf0 o = ob_poses o) ->
  refine_objects_step solve bpts models r = Some r' -> good_objects r' /\ ru_prs r' = ru_prs r.
Proof.
  intros [A B C D] K0 E0 Own H. apply omap_Some in H as (p & H & ->). split; [|reflexivity]. rewrite A in H.
  destruct (start_parts bp0 rf0 (ru_s r) K0 E0) as (bss & ol & E1 & OK & E2 & E3).
  assert (RO : forall o, In o ol -> boards_of p o = patched p o).
  { intros o Ho. apply boards_patched. intros P EP. rewrite (objects_reference bss ol (ru_s r) (ru_p r) p o OK E1 H Ho).
    apply In_nth_error in Ho as (i & Ho). eapply (rp_boards _ _ _ C); eauto. rewrite E1. apply dense_In. eauto. }
  assert (ES : refine_objects bpts (boards_of p) (dense ol) = refine_objects bpts (patched p) (dense ol)).
  { unfold refine_objects. apply map_ext_in. intros (k, o) Ho. apply dense_snd in Ho. rewrite RO; auto. }
  constructor; cbn [with_ps ru_t ru_s ru_p]; auto.
  - exists bp0, (patched p). split; [apply patched_keeps|]. unfold refine_calib. rewrite E1, E2, E3, ES.
    unfold calibrate3DObjects in E0 |- *. destruct (objects_stage svd lr uq pick g0 bpts t bp0) as [objs|] eqn:Eo; [|discriminate E0].
    destruct (initAll3DObjectObs t objs empty_otables) as [ot|]; [|discriminate E0]. injection E0 as E0. rewrite <- E0 in *. cbn [ca_objs ca_oobs ca_groups ca_gobs] in *.
    destruct (objects_part_start svd lr uq pick g0 Hh bpts nc nb ins t AD Hp bp0 ob_poses own_boards) as (s' & ol' & bss' & Es' & OK' & _).
    assert (objs = dense ol') by congruence. subst objs.
    assert (EO : refine_objects bpts rf0 (dense ol') = dense ol').
    { rewrite <- (refine_own bpts bss' ol' OK') at 2. unfold refine_objects. apply map_ext. intros (k, o). rewrite Own. auto. }
    rewrite EO in E1. rewrite E1. reflexivity.
  - unfold refine_calib. cbn [ca_objs]. rewrite E1. eapply boards_of_represents; eauto.
  - unfold refine_calib. cbn [ca_objs]. apply refine_objs_rigid.
Qed.
Lemma calibrate3DObjects_good r r' : ru_t r = t -> run_calibrate3DObjects svd lr uq pick g0 solve bpts models thresh it env pose0 r = Some r' ->
  good_objects r' /\ ru_prs r' = ru_prs r.
Proof.
  intros Et E. apply bind_Some in E as (r1 & E1 & E). apply bind_Some in E as (r2 & E2 & E).
  destruct (new_objects_good r r1 Et E1) as (G1 & P1). destruct (estimate_good_objects 1 r1 r2 G1 E2) as (G2 & S2 & P2).
  assert (Q : exists bp, calibrate3DObjects svd lr uq pick g0 bpts t bp ob_poses = Some (ru_s r2)).
  { rewrite S2. unfold new_objects in E1. rewrite Et in E1. apply bind_Some in E1 as (objs & E1 & E1'). apply bind_Some in E1' as (ot & E1' & E1''). injection E1'' as <-.
    exists (fun n => as_matrix (pa_pose (ru_p r) (KBoardObs n))).
    destruct (objects_part_start svd lr uq pick g0 Hh bpts nc nb ins t AD Hp (fun n => as_matrix (pa_pose (ru_p r) (KBoardObs n))) ob_poses own_boards)
      as (s & ol & bss & Es & OK & Ec & _ & _). assert (objs = dense ol) by congruence. subst objs.
    unfold calibrate3DObjects. rewrite E1, E1', (refine_own bpts bss ol OK). auto. }
  destruct Q as (bp & Q). destruct (refine_good_objects ob_poses bp r2 r' G2 own_boards Q (fun _ => eq_refl) E) as (G3 & P3). split; [auto|congruence].
Qed.

Lemma new_groups_good r r' : good_objects r -> new_groups svd lr uq pick g0 r = Some r' -> good r' /\ ru_prs r' = ru_prs r.
Proof.
  intros [A (bp & rf & K & B) C D] E. unfold new_groups in E. rewrite A in E. apply bind_Some in E as (gs & E1 & E). injection E as <-. split; [|reflexivity].
  destruct (start_parts bp rf (ru_s r) K B) as (bss & ol & F1 & OK & F2 & F3).
  assert (RC : calibrateCameraGroup svd lr uq pick g0 bpts t (fun n => as_matrix (pa_pose (ru_p r) (KObjObs n))) ob_poses cg_poses (ru_s r) =
    Some (mkCal (ca_objs (ru_s r)) (ca_oobs (ru_s r)) gs (initAllCameraGroupObs (ca_oobs (ru_s r)) (mkeys (t_frames t)) gs (ca_gobs (ru_s r))))).
  { unfold calibrateCameraGroup. rewrite E1, regroup_own. rewrite F1, (refine_own bpts bss ol OK). auto. }
  assert (Rd : reached svd lr uq pick g0 bpts t (mkCal (ca_objs (ru_s r)) (ca_oobs (ru_s r)) gs (initAllCameraGroupObs (ca_oobs (ru_s r)) (mkeys (t_frames t)) gs (ca_gobs (ru_s r)))))
    by (exact (rd_start svd lr uq pick g0 bpts t bp rf _ ob_poses cg_poses _ _ K own_boards own_cams B RC)).
  destruct (reached_ok svd lr uq pick g0 Hh bpts nc nb ins t AD Hp _ Rd) as (bss' & ol' & css & gl & CO).
  assert (EG := co_groups _ _ _ _ _ _ _ CO). cbn [ca_groups] in EG.
  assert (RG : rigid_groups gs) by (eapply cameras_stage_rigid; eauto).
  constructor; cbn [with_ps ru_t ru_s ru_p ca_objs ca_groups]; [auto|exact Rd| |auto|auto].
  apply put_cams_represents; auto. intros k G H. rewrite EG in *. eapply dense_own_group; eauto. apply (co_groups_ok _ _ _ _ _ _ _ CO).
Qed.
Lemma calibrateCameraGroup_good r r' : good_objects r -> run_calibrateCameraGroup svd lr uq pick g0 solve bpts models r = Some r' -> good r' /\ ru_prs r' = ru_prs r.
Proof.
  intros G E. apply bind_Some in E as (r1 & E1 & E). apply bind_Some in E as (r2 & E2 & E).
  destruct (new_groups_good r r1 G E1) as (G1 & P1). destruct (good_group_poses r1 r2 G1 E2) as (G2 & _ & P2). destruct (good_refine r2 r' G2 E) as (G3 & _ & _ & _ & P3).
  split; [auto|congruence].
Qed.

(** ** Merging *)
Lemma merged_objects_good r r' : good r -> merged_objects svd lr uq pick g0 bpts r = Some r' -> good r' /\ ca_groups (ru_s r') = ca_groups (ru_s r) /\ ru_prs r' = ru_prs r.
Proof.
  intros [A B C D F] E. unfold merged_objects in E. rewrite A in E. apply bind_Some in E as (objs & E1 & E). apply bind_Some in E as (ot & E2 & E). injection E as <-.
  split; [|split; reflexivity]. set (gp := fun k o => as_matrix (pa_pose (ru_p r) (KGroup k o))) in *.
  destruct (reached_ok svd lr uq pick g0 Hh bpts nc nb ins t AD Hp _ B) as (bss & ol & css & gl & CO).
  destruct CO as [C1 OK OT Ob Cov C2 GK GT NU CA KE].
  assert (Objs : forall oo, In oo (ot_all (ca_oobs (ru_s r))) -> exists i o, nth_error ol i = Some o /\ oo_obj oo = Z.of_nat i)
    by (intros oo H; destruct (Ob oo H) as (i & o & H1 & H2 & _); eauto).
  destruct (merge_stage_main bpts bss ol OK (ca_oobs (ru_s r)) OT Objs gl _ (ca_gobs (ru_s r)) GT (known_frames nc nb ins t AD _ _ Ob) svd lr uq pick g0 Hh gp) as (ol' & bss' & E1' & OK' & _).
  rewrite <- C1 in E1'.
  assert (objs = dense ol') by congruence. subst objs.
  assert (RM : merge3DObjects svd lr uq pick g0 bpts t gp ob_poses cg_poses (ru_s r) =
    Some (mkCal (dense ol') ot (ca_groups (ru_s r)) (mergeAllCameraGroupObs ot (mkeys (t_frames t)) (ca_groups (ru_s r)) (ca_gobs (ru_s r))))).
  { unfold merge3DObjects. rewrite E1, E2, regroup_own, (refine_own bpts bss' ol' OK'). auto. }
  assert (Rd := rd_merge svd lr uq pick g0 bpts t gp ob_poses cg_poses _ _ own_boards own_cams B RM).
  assert (Ro : rigid_objs (dense ol')) by (eapply merge_stage_rigid; eauto).
  constructor; cbn [with_ps ru_t ru_s ru_p ca_objs ca_groups]; auto.
  apply put_boards_represents; auto; [intros k o H; eapply dense_own_obj; eauto|]. apply represents_split in C. tauto.
Qed.
Lemma merge_good c r r' : good r -> run_merge3DObjects svd lr uq pick g0 solve bpts models thresh it env pose0 c r = Some r' ->
  good r' /\ (exists q, ca_groups (ru_s r') = refine_groups (cams_of q) (ca_groups (ru_s r))) /\ ru_prs r' = ru_prs r.
Proof.
  intros G E. apply bind_Some in E as (r1 & E1 & E). apply bind_Some in E as (r2 & E2 & E). apply bind_Some in E as (r3 & E3 & E).
  apply bind_Some in E as (r4 & E4 & E). apply bind_Some in E as (r5 & E5 & E).
  destruct (good_estimate c r r1 G E1) as (G1 & S1 & P1). destruct (good_group_poses r1 r2 G1 E2) as (G2 & S2 & P2).
  destruct (merged_objects_good r2 r3 G2 E3) as (G3 & S3 & P3). destruct (good_estimate (S c) r3 r4 G3 E4) as (G4 & S4 & P4).
  destruct (good_group_poses r4 r5 G4 E5) as (G5 & S5 & P5). destruct (good_refine r5 r' G5 E) as (G6 & S6 & _ & _ & P6).
  split; [auto|]. split; [|congruence]. exists (ru_p r'). congruence.
Qed.
End Run.
