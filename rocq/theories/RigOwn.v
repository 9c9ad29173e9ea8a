(** The pose maps of objects and groups are maps; refinement that changes no parameter
    changes no object and no group. *)
From Coq Require Import List ZArith QArith Lia Reals Sorted.
From Verif Require Import SMap GraphModel DataModel DetectModel DetectProofs GeomModel ChainModel ObjectsModel ObjectsSpec ObjectsMerge GroupModel GroupSpec GroupPose GroupAll StageModel
  PipelineModel PipelineSpec PipelineProofs CameraModel ResidualModel ResidualSpec WorkflowModel WorkflowRigid WorkflowReach.
Import ListNotations.
Close Scope Q_scope.
Close Scope R_scope.
Open Scope nat_scope.

Definition sorted_objs (objs : smap Z obj3d) : Prop := forall k o, In (k, o) objs -> msorted (ob_poses o).
Definition sorted_groups (gs : smap Z cgroup) : Prop := forall k G, In (k, G) gs -> msorted (cg_poses G).

Lemma place_boards_sorted bpts l : forall st, msorted (ob_poses (fst st)) -> msorted (ob_poses (fst (fold_left (place_board bpts) l st))).
Proof.
  induction l as [|(b, P) l IH]; intros (o, n) Ho; cbn [fold_left]; auto. apply IH. unfold place_board. rewrite push_corners_poses. cbn [fst ob_poses]. apply mset_sorted. auto.
Qed.
Lemma place_cameras_sorted l : forall G, msorted (cg_poses G) -> msorted (cg_poses (fold_left place_camera l G)).
Proof. induction l as [|(b, P) l IH]; intros G HG; cbn [fold_left]; auto. apply IH. unfold place_camera. cbn [fst snd cg_poses]. apply mset_sorted. auto. Qed.
Lemma msorted_nil {V} : msorted (@nil (Z * V)).
Proof. constructor. Qed.

Lemma objects_stage_sorted {pt} svd lr uq pick g0 bpts (t : tables pt) bp objs : objects_stage svd lr uq pick g0 bpts t bp = Some objs -> sorted_objs objs.
Proof.
  unfold objects_stage. destruct (initInterTransform _ _ _ _) as [tr|] eqn:E; [|intros H; discriminate H]. intros E'. unfold init3DObjects in E'.
  destruct (collect _) as [l|] eqn:Ec; [|discriminate E']. injection E' as <-.
  intros k o H. apply dense_snd in H. apply (collect_In _ _ _ Ec) in H. apply in_map_iff in H as ((i, c) & H & _). unfold init_object in H.
  destruct (component_poses step_inv pick _ tr c) as [ps|] eqn:Ep; [|discriminate H]. injection H as <-. apply place_boards_sorted. apply msorted_nil.
Qed.
Lemma cameras_stage_sorted {pt} svd lr uq pick g0 (t : tables pt) ot op gs : cameras_stage svd lr uq pick g0 t ot op = Some gs -> sorted_groups gs.
Proof.
  unfold cameras_stage. destruct (initInterTransform _ _ _ _) as [tr|] eqn:E; [|intros H; discriminate H]. intros E'. unfold initCameraGroup in E'.
  destruct (collect _) as [l|] eqn:Ec; [|discriminate E']. injection E' as <-.
  intros k o H. apply dense_snd in H. apply (collect_In _ _ _ Ec) in H. apply in_map_iff in H as ((i, c) & H & _). unfold init_group in H.
  destruct (component_poses step_fwd pick _ tr c) as [ps|] eqn:Ep; [|discriminate H]. injection H as <-. apply place_cameras_sorted. apply msorted_nil.
Qed.
Lemma merge_stage_sorted {pt} svd lr uq pick g0 bpts objs (ot : otables pt) gt gp objs' :
  merge_stage svd lr uq pick g0 bpts objs ot gt gp = Some objs' -> sorted_objs objs'.
Proof.
  unfold merge_stage. destruct (initInterTransform _ _ _ _) as [tr|] eqn:E0; [|intros H; discriminate H]. intros E. unfold mergeObjects in E. destruct (collect _) as [l|] eqn:Ec; [|discriminate E]. injection E as <-.
  intros k o H. apply dense_snd in H. apply (collect_In _ _ _ Ec) in H. apply in_map_iff in H as ((i, c) & H & _). unfold merge_component in H.
  destruct (component_poses step_inv pick _ tr c) as [ps|] eqn:Ep; [|discriminate H]. destruct (mfind (min_of c) objs) as [r|]; [|discriminate H].
  destruct (collect _) as [ll|] eqn:Ell in H; [|discriminate H]. injection H as <-. apply place_boards_sorted. apply msorted_nil.
Qed.
Lemma mergeGroups_sorted {pt} pick g0 (t : tables pt) prs s s' : mergeGroups pick g0 t prs s = Some s' -> sorted_groups (ca_groups s').
Proof.
  unfold mergeGroups. destruct (mergeCameraGroup _ _ _ _) as [gs|] eqn:E; [|intros H; discriminate H]. intros [= <-]. cbn [ca_groups].
  unfold mergeCameraGroup in E. destruct (collect _) as [l|] eqn:Ec; [|discriminate E]. injection E as <-.
  intros k o H. apply dense_snd in H. apply (collect_In _ _ _ Ec) in H. apply in_map_iff in H as ((i, c) & H & _). unfold merge_group in H.
  destruct (component_poses step_fwd pick _ _ c) as [ps|] eqn:Ep; [|discriminate H]. destruct (mfind (min_of c) _) as [r|]; [|discriminate H].
  destruct (collect _) as [ll|] eqn:Ell in H; [|discriminate H]. injection H as <-. apply place_cameras_sorted. apply msorted_nil.
Qed.

Lemma boards_of_own p o : msorted (ob_poses o) -> (forall b P, mfind b (ob_poses o) = Some P -> matrix (pa_pose p (KBoard (ob_id o) b)) = P) -> boards_of p o = ob_poses o.
Proof.
  intros S H. unfold boards_of. transitivity (map (fun e : Z * pose => e) (ob_poses o)); [|apply map_id]. apply map_ext_in. intros (b, P) Hb. f_equal. apply (H b P). apply In_mfind; auto.
Qed.
Lemma cams_of_own p G : msorted (cg_poses G) -> (forall b P, mfind b (cg_poses G) = Some P -> matrix (pa_pose p (KCam (cg_id G) b)) = P) -> cams_of p G = cg_poses G.
Proof.
  intros S H. unfold cams_of. transitivity (map (fun e : Z * pose => e) (cg_poses G)); [|apply map_id]. apply map_ext_in. intros (b, P) Hb. f_equal. apply (H b P). apply In_mfind; auto.
Qed.
Lemma refine_objects_own bpts bss ol p : objects_ok bpts bss ol -> represents p (dense ol) [] -> sorted_objs (dense ol) -> refine_objects bpts (boards_of p) (dense ol) = dense ol.
Proof.
  intros OK R S. rewrite <- (refine_own bpts bss ol OK) at 2. unfold refine_objects. apply map_ext_in. intros (k, o) H. rewrite boards_of_own; [auto|eapply S; eauto|].
  intros b P E. eapply (rp_boards _ _ _ R); eauto.
Qed.
Lemma refine_groups_own gs p : represents p [] gs -> sorted_groups gs -> refine_groups (cams_of p) gs = gs.
Proof.
  intros R S. rewrite <- (regroup_own gs) at 2. unfold refine_groups. apply map_ext_in. intros (k, o) H. rewrite cams_of_own; [auto|eapply S; eauto|].
  intros b P E. eapply (rp_cams _ _ _ R); eauto.
Qed.
Lemma refine_calib_own {pt} bpts bss ol p (s : calib pt) : ca_objs s = dense ol -> objects_ok bpts bss ol -> represents p (ca_objs s) (ca_groups s) -> sorted_objs (ca_objs s) -> sorted_groups (ca_groups s) ->
  refine_calib bpts (boards_of p) (cams_of p) s = s.
Proof.
  intros E OK R SO SG. apply represents_split in R as (R1 & R2). unfold refine_calib. rewrite E in *. rewrite (refine_objects_own bpts bss ol p OK R1 SO), (refine_groups_own _ p R2 SG).
  rewrite <- E. destruct s; reflexivity.
Qed.

(** ** Poses of the objects in the group observations *)
Lemma put_group_total m Fn : forall p, (forall k om o v, In (k, om) m -> In (o, v) om -> v = Some (Fn k o)) ->
  exists p', put_group_poses m p = Some p' /\ pa_intr p' = pa_intr p /\
    forall key, pa_pose p' key = pa_pose p key \/ exists k o, key = KGroup k o /\ pa_pose p' key = Fn k o.
Proof.
  unfold put_group_poses.
  assert (G : forall om k p, (forall o v, In (o, v) om -> v = Some (Fn k o)) -> exists p',
    fold_left (fun acc '(o, v) => match acc, v with Some p, Some P => Some (put_pose (KGroup k o) P p) | _, _ => None end) om (Some p) = Some p' /\ pa_intr p' = pa_intr p /\
    forall key, pa_pose p' key = pa_pose p key \/ exists o, key = KGroup k o /\ pa_pose p' key = Fn k o).
  { induction om as [|(o, v) om IH]; intros k p H; cbn [fold_left]; [exists p; auto|]. rewrite (H o v (or_introl eq_refl)).
    destruct (IH k (put_pose (KGroup k o) (Fn k o) p) (fun o v Hi => H o v (or_intror Hi))) as (p' & E & I & Q). exists p'. split; [auto|]. split; [auto|]. intros key.
    destruct (Q key) as [Q'|Q']; [|right; auto]. rewrite Q'. cbn [put_pose pa_pose]. destruct (pkey_dec key (KGroup k o)) as [->|]; [right; eauto|left; auto]. }
  induction m as [|(k, om) m IH]; intros p H; cbn [fold_left]; [exists p; auto|]. destruct (G om k p) as (p1 & E & I & Q); [intros o v Hi; apply (H k om o v); [left; auto|auto]|].
  rewrite E. destruct (IH p1) as (p' & E' & I' & Q'); [intros k0 om0 o v H1 H2; apply (H k0 om0 o v); [right; auto|auto]|]. exists p'. split; [auto|]. split; [congruence|].
  intros key. destruct (Q' key) as [K|(k0 & o0 & -> & K)]; [|right; eauto]. rewrite K. destruct (Q key) as [K'|(o0 & -> & K')]; [left; auto|right; eauto].
Qed.
(** and all keys of the map are written *)
Lemma put_group_written m Fn p p' k om o v : (forall k om o v, In (k, om) m -> In (o, v) om -> v = Some (Fn k o)) -> put_group_poses m p = Some p' ->
  In (k, om) m -> In (o, v) om -> pa_pose p' (KGroup k o) = Fn k o.
Proof.
  intros H E Hk Ho.
  assert (S : forall m p, (forall k om o v, In (k, om) m -> In (o, v) om -> v = Some (Fn k o)) -> pa_pose p (KGroup k o) = Fn k o -> forall p', put_group_poses m p = Some p' -> pa_pose p' (KGroup k o) = Fn k o).
  { intros m0 p0 H0 K0 p1 E1. destruct (put_group_total m0 Fn p0 H0) as (p2 & E2 & _ & Q). assert (p2 = p1) by congruence. subst p2.
    destruct (Q (KGroup k o)) as [Q'|(k0 & o0 & Eq & Q')]; [congruence|]. injection Eq as <- <-. auto. }
  revert p E. induction m as [|(k1, om1) m IH]; intros p E; [destruct Hk|]. change ((k1, om1) :: m) with ([(k1, om1)] ++ m) in E. unfold put_group_poses in E. rewrite fold_left_app in E.
  fold (put_group_poses [(k1, om1)] p) in E.
  destruct (put_group_total [(k1, om1)] Fn p) as (p1 & E1 & _ & _). { intros k0 om0 o0 v0 [Eq|[]] Hi. injection Eq as <- <-. apply (H k1 om1 o0 v0); [left; auto|auto]. }
  rewrite E1 in E. destruct Hk as [Hk|Hk].
  - injection Hk as -> ->. apply (S m p1); [intros k0 om0 o0 v0 Hi; apply (H k0 om0 o0 v0); right; auto| |exact E].
    clear - H E1 Ho S. unfold put_group_poses in E1. cbn [fold_left] in E1.
    assert (Hv : forall o v, In (o, v) om -> v = Some (Fn k o)) by (intros o0 v0 Hi; apply (H k om o0 v0); [left; auto|auto]). clear H S.
    apply in_split in Ho as (l1 & l2 & ->). rewrite fold_left_app in E1. cbn [fold_left] in E1.
    rewrite (Hv o v) in E1 by (apply in_app_iff; right; left; auto).
    match type of E1 with fold_left ?f l2 (match ?a with Some p => _ | None => None end) = _ => destruct a as [q|] end.
    2:{ exfalso. clear - E1. induction l2 as [|(a, b) l2 IH]; cbn [fold_left] in E1; [discriminate E1|auto]. }
    assert (K : pa_pose (put_pose (KGroup k o) (Fn k o) q) (KGroup k o) = Fn k o) by (cbn [put_pose pa_pose]; destruct (pkey_dec (KGroup k o) (KGroup k o)); congruence).
    assert (Hv2 : forall o v, In (o, v) l2 -> v = Some (Fn k o)) by (intros o0 v0 Hi; apply Hv; apply in_app_iff; right; right; auto). clear Hv.
    revert E1 K. generalize (put_pose (KGroup k o) (Fn k o) q). clear q l1. induction l2 as [|(o1, v1) l2 IH]; intros q E1 K; cbn [fold_left] in E1; [injection E1 as <-; auto|].
    rewrite (Hv2 o1 v1 (or_introl eq_refl)) in E1. apply (IH (fun o v Hi => Hv2 o v (or_intror Hi)) _ E1). cbn [put_pose pa_pose].
    destruct (pkey_dec (KGroup k o) (KGroup k o1)) as [Q|Q]; [injection Q as <-; auto|auto].
  - apply (IH (fun k0 om0 o0 v0 Hi => H k0 om0 o0 v0 (or_intror Hi)) Hk p1). exact E.
Qed.

Lemma mset_In {K V} `{KeyOrd K} (k : K) (v : V) m e : In e (mset k v m) -> e = (k, v) \/ In e m.
Proof.
  induction m as [|(a, b) m IH]; cbn [mset]; [intros [<-|[]]; auto|]. destruct (kcmp k a); intros [<-|Hi]; auto; [right; right; auto|right; left; auto|].
  destruct (IH Hi); auto. right. right. auto.
Qed.
Lemma objects_pose_sorted svd lr uq ref ids view : msorted (fst (computeObjectsPose svd lr uq ref ids view)).
Proof.
  unfold computeObjectsPose.
  assert (G : forall l s, msorted (fst s) -> msorted (fst (fold_left (fun (st : smap Z (option (vec3 * vec3)) * (nat -> option (vec3 * vec3))) '(o, js) =>
    let p := group_pose svd lr uq ref view js in (mset o p (fst st), fun j : nat => if existsb (Nat.eqb j) js then p else snd st j)) l s))).
  { induction l as [|(o, js) l IH]; intros s S; cbn [fold_left]; auto. apply IH. cbn [fst]. apply mset_sorted. auto. }
  apply G. apply msorted_nil.
Qed.
(** keys of the poses computed *)
Lemma all_poses_shape {pt} svd lr uq (all : list (objobs pt)) groups gt op pg :
  let r := computeAllObjPoseInCameraGroup svd lr uq all groups gt op pg in
  msorted (fst r) /\ forall k om, In (k, om) (fst r) -> exists go, In (k, go) (gt_obs gt) /\ msorted om /\ forall o v, In (o, v) om -> In o (go_ids go).
Proof.
  intros r. subst r. unfold computeAllObjPoseInCameraGroup.
  set (good := fun (L : list (Z * Z * gobs_t)) (m : smap (Z * Z) (smap Z (option (vec3 * vec3)))) => msorted m /\ forall k om, In (k, om) m -> exists go, In (k, go) L /\ msorted om /\ forall o v, In (o, v) om -> In o (go_ids go)).
  assert (G : forall L' L st, (forall e, In e L -> In e L') -> good L' (fst st) ->
    good L' (fst (fold_left (fun st '(k, go) => let r := pose_one svd lr uq all groups (snd st) go in (mset k (fst r) (fst st), snd r)) L st))).
  { intros L'. induction L as [|(k, go) L IH]; intros st HL (S & I); cbn [fold_left]; [split; auto|]. apply IH; [intros e He; apply HL; right; auto|]. cbn [fst]. split; [apply mset_sorted; auto|].
    intros k1 om Hi. apply mset_In in Hi as [Eq|Hi]; [|apply I; auto]. injection Eq as -> ->. exists go. split; [apply HL; left; auto|]. unfold pose_one. cbn [fst]. split; [apply objects_pose_sorted|].
    intros o v Hi. apply In_mfind in Hi; [|apply objects_pose_sorted]. 
    match type of Hi with mfind o (fst (computeObjectsPose _ _ _ ?ref ?ids ?view)) = _ => destruct (computeObjectsPose_ok svd lr uq ref ids view) as (A & _) end.
    rewrite A in Hi. destruct (in_dec Z.eq_dec o (go_ids go)); [auto|discriminate Hi]. }
  apply G; [auto|]. split; [apply SSorted_nil|intros k om []].
Qed.
