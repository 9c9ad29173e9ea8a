(** Every pose the calibration keeps is a rigid transformation. *)
From Coq Require Import List ZArith QArith Lia Reals Lra.
From Verif Require Import SMap GraphModel DataModel DetectModel RansacModel GeomModel GeomSpec GeomProofs GeomMedian ChainModel ChainSpec ChainProofs
  ObjectsModel GroupModel StageModel PipelineModel HandEyeModel HandEyeProofs DetectProofs ObjectsMerge CameraModel ResidualModel ResidualSpec WorkflowModel.
Import ListNotations.
Close Scope Q_scope.
Close Scope R_scope.
Open Scope nat_scope.

Definition all_rigid {K} (m : list (K * pose)) : Prop := forall k P, In (k, P) m -> rigid P.
Definition rigid_objs (objs : smap Z obj3d) : Prop := forall k o, In (k, o) objs -> all_rigid (ob_poses o).
Definition rigid_groups (gs : smap Z cgroup) : Prop := forall k G, In (k, G) gs -> all_rigid (cg_poses G).

Lemma rvec_rigid r t : rigid (RVecT2Proj r t).
Proof. unfold rigid, RVecT2Proj. cbn. apply exp_rot_rotation. Qed.
Lemma average_rigid svd lr uq ps P : average_pose svd lr uq ps = Some P -> rigid P.
Proof.
  unfold average_pose. destruct (getAverageRotation svd lr uq (map fst (map (Proj2RT lr) ps))); [|intros H; discriminate H].
  intros [= <-]. apply rvec_rigid.
Qed.
Lemma collect_In {A} (l : list (option A)) r x : collect l = Some r -> In x r -> In (Some x) l.
Proof. intros E H. apply collect_Some in E. subst l. apply in_map. auto. Qed.
Lemma inter_rigid svd lr uq t tr : initInterTransform svd lr uq t = Some tr -> all_rigid tr.
Proof.
  intros E k P H. apply (collect_In _ _ _ E) in H. apply in_map_iff in H as ((k', ps) & H & _).
  destruct (average_pose svd lr uq ps) as [Q|] eqn:EA; [|discriminate H]. injection H as <- <-. eapply average_rigid; eauto.
Qed.
Lemma chain_rigid' step tr l P : (forall a b, rigid a -> rigid b -> rigid (step a b)) -> all_rigid tr -> chain_transform step tr l = Some P -> rigid P.
Proof.
  intros St Tr. unfold chain_transform. assert (G : forall es T, (forall Q, T = Some Q -> rigid Q) ->
    fold_left (fun acc e => match acc, mfind e tr with Some t, Some c => Some (step t c) | _, _ => None end) es T = Some P -> rigid P).
  { induction es as [|e es IH]; intros T HT E; cbn [fold_left] in E; [auto|]. apply IH in E; auto. intros Q EQ.
    destruct T as [T|]; [|discriminate EQ]. destruct (mfind e tr) as [c|] eqn:Ec; [|discriminate EQ]. injection EQ as <-. apply St; [apply HT; auto|].
    apply mfind_In in Ec. eapply Tr; eauto. }
  apply G. intros Q [= <-]. apply rigid_id.
Qed.
Lemma component_rigid step pick g tr comp ps : (forall a b, rigid a -> rigid b -> rigid (step a b)) -> all_rigid tr ->
  component_poses step pick g tr comp = Some ps -> all_rigid ps.
Proof.
  intros St Tr E k P H. apply (collect_In _ _ _ E) in H. apply in_map_iff in H as (m & H & _). unfold path_pose in H.
  destruct (shortestPathBetween pick (length (vnames g)) g (min_of comp) m) as [l| | |] eqn:El; try discriminate H.
  destruct (chain_transform step tr l) as [Q|] eqn:EQ; [|discriminate H]. injection H as <- <-. eapply chain_rigid'; eauto.
Qed.
Lemma step_inv_rigid a b : rigid a -> rigid b -> rigid (step_inv a b).
Proof. intros A B. apply rigid_mul; auto. apply rigid_inv. auto. Qed.
Lemma step_fwd_rigid a b : rigid a -> rigid b -> rigid (step_fwd a b).
Proof. apply rigid_mul. Qed.

Lemma mset_rigid (m : smap Z pose) k P : all_rigid m -> rigid P -> all_rigid (mset k P m).
Proof.
  intros H HP. induction m as [|(k', Q) m IH]; cbn [mset].
  - intros k0 Q [E|[]]. injection E as <- <-. auto.
  - destruct (kcmp k k').
    + intros k0 Q0 [E|E]; [injection E as <- <-; auto|]. apply (H k0). right. auto.
    + intros k0 Q0 [E|E]; [injection E as <- <-; auto|]. apply (H k0). auto.
    + intros k0 Q0 [E|E]; [apply (H k0); left; auto|]. apply (IH (fun k P X => H k P (or_intror X)) k0). auto.
Qed.
Lemma push_corners_poses b l : forall st, ob_poses (fst (fold_left (push_corner b) l st)) = ob_poses (fst st).
Proof. induction l as [|x l IH]; intros (o, n); cbn [fold_left]; auto. rewrite IH. reflexivity. Qed.
Lemma place_boards_rigid bpts l : all_rigid l -> forall st, all_rigid (ob_poses (fst st)) -> all_rigid (ob_poses (fst (fold_left (place_board bpts) l st))).
Proof.
  induction l as [|(b, P) l IH]; intros Hl (o, n) Ho; cbn [fold_left]; auto. apply IH; [intros k Q H; apply (Hl k); right; auto|].
  unfold place_board. rewrite push_corners_poses. cbn [fst ob_poses]. apply mset_rigid; auto. apply (Hl b). left. auto.
Qed.
Lemma place_cameras_rigid l : all_rigid l -> forall G, all_rigid (cg_poses G) -> all_rigid (cg_poses (fold_left place_camera l G)).
Proof.
  induction l as [|(b, P) l IH]; intros Hl G HG; cbn [fold_left]; auto. apply IH; [intros k Q H; apply (Hl k); right; auto|].
  unfold place_camera. cbn [fst snd cg_poses]. apply mset_rigid; auto. apply (Hl b). left. auto.
Qed.
Lemma dense_snd {V} (l : list V) k v : In (k, v) (dense l) -> In v l.
Proof. intros H. apply dense_In in H as (i & _ & H). eapply nth_error_In; eauto. Qed.

Lemma init3DObjects_rigid bpts pick g tr objs : all_rigid tr -> init3DObjects bpts pick g tr = Some objs -> rigid_objs objs.
Proof.
  intros Tr E. unfold init3DObjects in E. destruct (collect _) as [l|] eqn:Ec; [|discriminate E]. injection E as <-.
  intros k o H. apply dense_snd in H. apply (collect_In _ _ _ Ec) in H. apply in_map_iff in H as ((i, c) & H & _). unfold init_object in H.
  destruct (component_poses step_inv pick g tr c) as [ps|] eqn:Ep; [|discriminate H]. injection H as <-.
  apply place_boards_rigid; [|intros ? ? []]. eapply component_rigid; eauto. apply step_inv_rigid.
Qed.
Lemma initCameraGroup_rigid pick g tr gs : all_rigid tr -> initCameraGroup pick g tr = Some gs -> rigid_groups gs.
Proof.
  intros Tr E. unfold initCameraGroup in E. destruct (collect _) as [l|] eqn:Ec; [|discriminate E]. injection E as <-.
  intros k o H. apply dense_snd in H. apply (collect_In _ _ _ Ec) in H. apply in_map_iff in H as ((i, c) & H & _). unfold init_group in H.
  destruct (component_poses step_fwd pick g tr c) as [ps|] eqn:Ep; [|discriminate H]. injection H as <-.
  apply place_cameras_rigid; [|intros ? ? []]. eapply component_rigid; eauto. apply step_fwd_rigid.
Qed.
Lemma concat_rigid {K} (ll : list (list (K * pose))) : (forall l, In l ll -> all_rigid l) -> all_rigid (concat ll).
Proof. intros H k P HP. apply in_concat in HP as (l & Hl & HP). eapply H; eauto. Qed.
Lemma mergeObjects_rigid bpts pick g tr objs objs' : all_rigid tr -> rigid_objs objs -> mergeObjects bpts pick g tr objs = Some objs' -> rigid_objs objs'.
Proof.
  intros Tr Ro E. unfold mergeObjects in E. destruct (collect _) as [l|] eqn:Ec; [|discriminate E]. injection E as <-.
  intros k o H. apply dense_snd in H. apply (collect_In _ _ _ Ec) in H. apply in_map_iff in H as ((i, c) & H & _). unfold merge_component in H.
  destruct (component_poses step_inv pick g tr c) as [ps|] eqn:Ep; [|discriminate H]. destruct (mfind (min_of c) objs) as [r|]; [|discriminate H].
  destruct (collect _) as [ll|] eqn:Ell in H; [|discriminate H]. injection H as <-.
  apply place_boards_rigid; [|intros ? ? []]. apply concat_rigid. intros lb Hlb. apply (collect_In _ _ _ Ell) in Hlb. apply in_map_iff in Hlb as ((k', o') & Hlb & Ho').
  destruct (find (fun p : Z * pose => Z.eqb (fst p) (ob_id o')) ps) as [pT|] eqn:Ef; [|injection Hlb as <-; intros ? ? []].
  intros b P HP. unfold moved_boards in Hlb. apply (collect_In _ _ _ Hlb) in HP. apply in_map_iff in HP as (b' & HP & _).
  destruct (mfind b' (ob_poses o')) as [Q|] eqn:EQ; [|discriminate HP]. injection HP as <- <-. apply rigid_mul.
  - destruct pT as (kT, T). apply find_some in Ef as (Ef & _). assert (A := component_rigid step_inv pick g tr c ps step_inv_rigid Tr Ep). eapply A; eauto.
  - apply mfind_In in EQ. eapply Ro; eauto.
Qed.
Lemma mergeCameraGroup_rigid pick g tr gs gs' : all_rigid tr -> rigid_groups gs -> mergeCameraGroup pick g tr gs = Some gs' -> rigid_groups gs'.
Proof.
  intros Tr Ro E. unfold mergeCameraGroup in E. destruct (collect _) as [l|] eqn:Ec; [|discriminate E]. injection E as <-.
  intros k o H. apply dense_snd in H. apply (collect_In _ _ _ Ec) in H. apply in_map_iff in H as ((i, c) & H & _). unfold merge_group in H.
  destruct (component_poses step_fwd pick g tr c) as [ps|] eqn:Ep; [|discriminate H]. destruct (mfind (min_of c) gs) as [r|]; [|discriminate H].
  destruct (collect _) as [ll|] eqn:Ell in H; [|discriminate H]. injection H as <-.
  apply place_cameras_rigid; [|intros ? ? []]. apply concat_rigid. intros lb Hlb. apply (collect_In _ _ _ Ell) in Hlb. apply in_map_iff in Hlb as ((k', o') & Hlb & Ho').
  destruct (find (fun p : Z * pose => Z.eqb (fst p) (cg_id o')) ps) as [pT|] eqn:Ef; [|injection Hlb as <-; intros ? ? []].
  intros b P HP. unfold moved_cameras in Hlb. apply (collect_In _ _ _ Hlb) in HP. apply in_map_iff in HP as (b' & HP & _).
  destruct (mfind b' (cg_poses o')) as [Q|] eqn:EQ; [|discriminate HP]. injection HP as <- <-. apply rigid_mul.
  - apply mfind_In in EQ. eapply Ro; eauto.
  - destruct pT as (kT, T). apply find_some in Ef as (Ef & _). assert (A := component_rigid step_fwd pick g tr c ps step_fwd_rigid Tr Ep). eapply A; eauto.
Qed.

Lemma boards_of_rigid p o : all_rigid (boards_of p o).
Proof. intros k P H. apply in_map_iff in H as ((b, Q) & H & _). injection H as <- <-. apply rvec_rigid. Qed.
Lemma cams_of_rigid p G : all_rigid (cams_of p G).
Proof. intros k P H. apply in_map_iff in H as ((b, Q) & H & _). injection H as <- <-. apply rvec_rigid. Qed.
Lemma refine_objs_rigid bpts p objs : rigid_objs (refine_objects bpts (boards_of p) objs).
Proof. intros k o H. apply in_map_iff in H as ((k', o') & H & _). injection H as <- <-. apply boards_of_rigid. Qed.
Lemma refine_groups_rigid p gs : rigid_groups (refine_groups (cams_of p) gs).
Proof. intros k o H. apply in_map_iff in H as ((k', o') & H & _). injection H as <- <-. apply cams_of_rigid. Qed.

Lemma objects_stage_rigid {pt} svd lr uq pick g0 bpts (t : tables pt) bp objs : objects_stage svd lr uq pick g0 bpts t bp = Some objs -> rigid_objs objs.
Proof.
  unfold objects_stage. destruct (initInterTransform _ _ _ _) as [tr|] eqn:E; [|intros H; discriminate H].
  apply init3DObjects_rigid. eapply inter_rigid; eauto.
Qed.
Lemma cameras_stage_rigid {pt} svd lr uq pick g0 (t : tables pt) ot op gs : cameras_stage svd lr uq pick g0 t ot op = Some gs -> rigid_groups gs.
Proof.
  unfold cameras_stage. destruct (initInterTransform _ _ _ _) as [tr|] eqn:E; [|intros H; discriminate H].
  apply initCameraGroup_rigid. eapply inter_rigid; eauto.
Qed.
Lemma merge_stage_rigid {pt} svd lr uq pick g0 bpts objs (ot : otables pt) gt gp objs' : rigid_objs objs ->
  merge_stage svd lr uq pick g0 bpts objs ot gt gp = Some objs' -> rigid_objs objs'.
Proof.
  intros Ro. unfold merge_stage. destruct (initInterTransform _ _ _ _) as [tr|] eqn:E; [|intros H; discriminate H].
  apply mergeObjects_rigid; auto. eapply inter_rigid; eauto.
Qed.
Lemma mergeGroups_rigid {pt} pick g0 (t : tables pt) prs s s' : (forall k P n, In (k, (P, n)) prs -> rigid P) -> rigid_groups (ca_groups s) ->
  mergeGroups pick g0 t prs s = Some s' -> rigid_groups (ca_groups s').
Proof.
  intros Rp Rg. unfold mergeGroups. destruct (mergeCameraGroup _ _ _ _) as [gs|] eqn:E; [|intros H; discriminate H]. intros [= <-]. cbn [ca_groups].
  eapply mergeCameraGroup_rigid; eauto. intros k P H. apply in_map_iff in H as ((k', (P', n)) & H & Hp). injection H as <- <-. eapply Rp; eauto.
Qed.
