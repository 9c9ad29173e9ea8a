(** The stages run to completion and their results have the right structure. *)
From Coq Require Import List ZArith QArith Lia Reals Permutation Sorted Relations.
From Verif Require Import SMap GraphModel GraphSpec GraphComp GraphDijkstra GraphPath DataModel DataSpec DataProofs DetectModel DetectProofs
  GeomModel GeomSpec GeomProofs GeomQuat GeomMedian
  ChainModel ChainSpec ChainProofs ChainCam ObjectsModel ObjectsSpec ObjectsProofs ObjectsSave ObjectsBuild ObjectsMerge ObjectsObs
  GroupModel GroupSpec GroupProofs StageModel StageSpec StageProofs.
Import ListNotations.
Close Scope Q_scope.
Close Scope R_scope.
Open Scope nat_scope.

Lemma average_rotation_total svd lr uq rs : rs <> [] -> exists r, getAverageRotation svd lr uq rs = Some r.
Proof.
  intros N. unfold getAverageRotation. destruct uq; [|eauto].
  destruct (collect_total (fun r => quat_of_rot (exp_rot r)) rs) as (qs & E & _).
  { intros r _. destruct (quat_of_rot_main (exp_rot r) (exp_rot_rotation r)) as (q & E & _). eauto. }
  rewrite E. apply collect_Some in E. destruct qs as [|q qs]; [|eauto]. destruct rs; [congruence|discriminate].
Qed.
Lemma average_pose_total svd lr uq ps : ps <> [] -> exists P, average_pose svd lr uq ps = Some P /\ rigid P.
Proof.
  intros N. unfold average_pose. destruct (average_rotation_total svd lr uq (map fst (map (Proj2RT lr) ps))) as (r & E).
  { destruct ps; [congruence|discriminate]. }
  rewrite E. eexists. split; [reflexivity|]. apply exp_rot_rotation.
Qed.
Lemma transforms_total svd lr uq t : msorted t -> (forall k ps, In (k, ps) t -> ps <> []) ->
  exists tr, initInterTransform svd lr uq t = Some tr /\ mkeys tr = mkeys t /\ forall k P, mfind k tr = Some P -> rigid P.
Proof.
  intros S N. destruct (collect_total (fun '(k, ps) => option_map (pair k) (average_pose svd lr uq ps)) t) as (tr & E & _).
  { intros [k ps] H. destruct (average_pose_total svd lr uq ps (N _ _ H)) as (P & -> & _). cbn. eauto. }
  exists tr. split; [exact E|]. destruct (initInterTransform_find svd lr uq t tr S E) as (K & F). split; auto.
  intros k P H. rewrite F in H. destruct (mfind k t) as [ps|] eqn:Ek; [|discriminate]. apply mfind_In in Ek.
  destruct (average_pose_total svd lr uq ps (N _ _ Ek)) as (Q & E2 & R). congruence.
Qed.
Lemma path_pose_rigid step observed es tr pick g0 a b T : (forall t c, rigid t -> rigid c -> rigid (step t c)) ->
  (forall k P, mfind k tr = Some P -> rigid P) ->
  path_pose step pick (covis_graph g0 observed es) tr a b = Some T -> rigid T.
Proof.
  intros Hs Ht H. unfold path_pose in H. destruct (shortestPathBetween _ _ _ _ _); try discriminate.
  eapply chain_rigid; eauto.
Qed.

Section Boards.
Context {pt : Type}.
Variables (nc nb : nat) (ins : list (insertion pt)) (t : tables pt).
Hypothesis AD : after_detection nc nb ins t.
Variables (svd : (nat -> nat -> R) -> quat) (lr : mat3 -> vec3) (uq : bool) (pick : dstate -> nat) (g0 : graph).
Hypothesis Hpick : good_heap pick.
Variables (bpts : Z -> list vec3) (bp : nat -> pose).
Notation pairs := (computeBoardsPairPose (board_views t bp)).
Notation g := (covis_graph g0 (observed_boards t) (counts pairs)).

Lemma connected_seen a b : connected (counts pairs) a b <-> clos_refl_trans Z (seen_together t) a b.
Proof.
  unfold connected. split; induction 1.
  - apply rt_step. apply (boards_covisible nc nb ins t AD bp). auto.
  - apply rt_refl.
  - eapply rt_trans; eauto.
  - apply rt_step. apply (boards_covisible nc nb ins t AD bp). auto.
  - apply rt_refl.
  - eapply rt_trans; eauto.
Qed.

Lemma objects_stage_main : exists ol bss, objects_stage svd lr uq pick g0 bpts t bp = Some (dense ol) /\ objects_ok bpts bss ol /\
  (forall b, In b (map fst (concat bss)) <-> exists n o, obs_at t n o /\ o_board o = b) /\
  (forall a b, In a (map fst (concat bss)) -> In b (map fst (concat bss)) ->
     ((exists bs, In bs bss /\ In a (map fst bs) /\ In b (map fst bs)) <-> clos_refl_trans Z (seen_together t) a b)) /\
  (forall i bs o b P, nth_error bss i = Some bs -> nth_error ol i = Some o -> In (b, P) bs -> rigid P) /\
  forall tr, initInterTransform svd lr uq pairs = Some tr -> 
    forall i bs o b P, nth_error bss i = Some bs -> nth_error ol i = Some o -> In (b, P) bs ->
      path_pose step_inv pick g tr (ob_ref o) b = Some P /\ exists c, In c (connectedComponents g) /\ In b c /\ ob_ref o = min_of c.
Proof.
  assert (GT := boards_table_good nc nb ins t AD bp). assert (PP := good_proper _ _ GT).
  destruct (observed_boards_ok nc nb ins t AD) as (So & O).
  destruct (transforms_total svd lr uq pairs (gt_sorted _ _ GT) (gt_nonempty _ _ GT)) as (tr & E & K & R).
  assert (Keys : mkeys tr = mkeys (counts pairs)) by (rewrite counts_keys; auto).
  destruct (init3DObjects_ok (observed_boards t) (counts pairs) tr bpts PP So Keys (good_both _ _ (boards_table_good nc nb ins t AD bp)) pick Hpick g0) as (ol & bss & EO & OK & MB & MR & MP).
  exists ol, bss. split; [unfold objects_stage; rewrite E; auto|]. split; [auto|].
  destruct (comps_partition (observed_boards t) (counts pairs) PP g0) as (ND & CO & CC).
  split; [|split; [|split]].
  - intros b. rewrite concat_map, MB, CO, O. tauto.
  - intros a b Ha Hb. rewrite concat_map, MB, CO in Ha, Hb. rewrite <- connected_seen, <- (CC a b Ha Hb), <- MB. split.
    + intros (bs & H1 & H2 & H3). exists (map fst bs). split; [apply in_map; auto|auto].
    + intros (c & Hc & H2 & H3). apply in_map_iff in Hc as (bs & <- & Hbs). eauto.
  - intros i bs o b P Hb Ho Hin. assert (Hc : exists c, nth_error (connectedComponents g) i = Some c).
    { exists (map fst bs). rewrite <- MB, nth_error_map, Hb. auto. }
    destruct Hc as (c & Hc). specialize (MP i c bs b P Hc Hb Hin). eapply path_pose_rigid; [| |exact MP]; auto.
    intros x y Hx Hy. apply rigid_mul; auto. apply rigid_inv; auto.
  - intros tr' E' i bs o b P Hb Ho Hin. assert (tr' = tr) by congruence. subst tr'.
    assert (Hc : nth_error (connectedComponents g) i = Some (map fst bs)) by (rewrite <- MB, nth_error_map, Hb; auto).
    destruct (MR i _ o Hc Ho) as (-> & _). split; [apply (MP i _ bs b P Hc Hb Hin)|].
    exists (map fst bs). split; [eapply nth_error_In; eauto|]. split; auto. apply (in_map fst) in Hin; auto.
Qed.

(** noise-free boards *)
Variables (W : Z -> pose) (X : Z -> Z -> pose).
Hypothesis EX : exact_boards t W X bp.
Hypothesis Hsvd : svd_ok svd.
Hypothesis Hlr : log_ok lr.
Lemma board_transforms_exact : exists tr, initInterTransform svd lr uq pairs = Some tr /\
  forall a b p, mfind (a, b) tr = Some p -> p = pmul (pinv (W b)) (W a).
Proof.
  assert (GT := boards_table_good nc nb ins t AD bp).
  destruct (initInterTransform_exact svd lr uq pairs (fun k => pmul (pinv (W (snd k))) (W (fst k))) Hsvd Hlr) as (tr & E & K & F).
  - intros [a b] ps Hin. split; [eapply gt_nonempty; eauto|]. cbn [fst snd].
    destruct EX as (HW & HX & _). split; [apply rigid_mul; auto; apply rigid_inv; auto|].
    intros p Hp. apply In_mfind in Hin; [|apply GT]. rewrite boards_table in Hin. destruct (Z.eqb a b); [discriminate|].
    apply as_vector_Some in Hin as (<- & _). apply together_In in Hp as (v & p1 & p2 & Hv & H1 & H2 & ->).
    destruct (exact_boards_views nc nb ins t AD W X bp EX v Hv) as (Y & RY & HY). rewrite (HY _ _ H1), (HY _ _ H2).
    unfold rel_board. rewrite pinv_pmul by auto. rewrite <- pmul_assoc, (pmul_assoc (pinv Y)), pinv_l, pmul_id_l by auto. auto.
  - exists tr. split; auto. intros a b p H. rewrite F in H. destruct (mfind (a, b) pairs); [|discriminate]. injection H as <-. auto.
Qed.
Lemma objects_stage_exact : exists ol bss, objects_stage svd lr uq pick g0 bpts t bp = Some (dense ol) /\ objects_ok bpts bss ol /\
  forall i bs o b P, nth_error bss i = Some bs -> nth_error ol i = Some o -> In (b, P) bs -> P = pmul (pinv (W (ob_ref o))) (W b).
Proof.
  destruct objects_stage_main as (ol & bss & E & OK & _ & _ & _ & H). exists ol, bss. split; [auto|]. split; [auto|].
  destruct board_transforms_exact as (tr & Et & F). intros i bs o b P Hb Ho Hin.
  destruct (H tr Et i bs o b P Hb Ho Hin) as (HP & c & Hc & Hbc & Hr).
  assert (GT := boards_table_good nc nb ins t AD bp). assert (PP := good_proper _ _ GT).
  destruct (initInterTransform_find svd lr uq pairs tr (gt_sorted _ _ GT) Et) as (K & _).
  assert (Keys : mkeys tr = mkeys (counts pairs)) by (rewrite counts_keys; auto).
  rewrite Hr in HP |- *. rewrite (component_exact_inv (observed_boards t) (counts pairs) tr PP Keys (good_both _ _ (boards_table_good nc nb ins t AD bp)) pick Hpick g0 W c b) in HP; auto.
  - congruence.
  - apply EX.
Qed.
End Boards.
