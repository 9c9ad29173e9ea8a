(** C23 (merged groups), C30, C31, C32: camera groups at any time. *)
From Coq Require Import String List ZArith QArith Lia Reals Lra Permutation Sorted Relations.
From Verif Require Import SMap GraphModel GraphSpec GraphDijkstra GraphPath DataModel DataSpec DataProofs DetectModel DetectSpec
  GeomModel GeomSpec GeomProofs GeomMedian ChainModel ChainSpec ChainProofs ChainCam
  ObjectsModel ObjectsSpec ObjectsProofs ObjectsBuild ObjectsMerge ObjectsObs GroupModel GroupSpec GroupProofs GroupMerge GroupObs GroupPose
  StageModel StageSpec StageProofs StageMain StageCams StageMerge PipelineModel PipelineSpec PipelineProofs StalePairs ChainPairs GroupAll PropObjects PropChain.
Import ListNotations.
Close Scope Q_scope.
Close Scope R_scope.
Open Scope nat_scope.

(** the pairs of camera groups are pairs of present groups with object observations, or
    indices that no longer exist *)
Definition pairs_usable {pt} (prs : smap (Z * Z) (pose * nat)) (s : calib pt) : Prop :=
  usable_pairs (observed_groups (ca_groups s) (ca_gobs s)) (length (ca_groups s)) (map (fun '(k, (_, n)) => (k, n)) prs).

(** ** C23 for merged groups *)
(** the relative pose of each pair is the true one *)
Definition true_pairs (C : Z -> pose) (groups : smap Z cgroup) (prs : smap (Z * Z) (pose * nat)) : Prop :=
  forall a b p n, mfind (a, b) prs = Some (p, n) ->
    exists A B, mfind a groups = Some A /\ mfind b groups = Some B /\ p = pmul (C (cg_ref B)) (pinv (C (cg_ref A))).
Lemma steps_in_order (C : Z -> pose) (D : Z -> pose) prs l ps : (forall a b p n, mfind (a, b) prs = Some (p, n) -> p = pmul (D b) (pinv (D a))) ->
  group_steps prs l ps -> fold_left pmul ps pid = in_path_order D l.
Proof.
  intros H F. unfold in_path_order. f_equal. unfold group_steps in F. induction F as [|[a b] p es ps' (n & A) F IH]; cbn; auto. rewrite IH. f_equal. eauto.
Qed.
Theorem C23_merged_groups_partial :
  forall (pt : Type) svd lr uq pick g0, good_heap pick ->
  forall (bpts : Z -> list vec3) nc nb (ins : list (insertion pt)) t, after_detection nc nb ins t -> paired t ->
  forall prs s s', reached svd lr uq pick g0 bpts t s -> pairs_usable prs s -> mergeGroups pick g0 t prs s = Some s' ->
  forall C, (forall c, rigid (C c)) -> (forall k G, mfind k (ca_groups s) = Some G -> true_group C G) -> true_pairs C (ca_groups s) prs ->
  length (ca_groups s) <= 2 \/ (forall a b, fst (C a) = fst (C b)) ->
  forall k G, mfind k (ca_groups s') = Some G -> true_group C G.
Proof.
  intros pt svd lr uq pick g0 Hh bpts nc nb ins t AD Hp prs s s' Rd UP EM C RC TG TP Sm k' G' HG' c P' HP'.
  destruct (merged_groups pt svd lr uq pick g0 Hh bpts nc nb ins t AD Hp prs s s' Rd UP EM) as (M & _ & _).
  destruct (M k' G' HG') as (r & R & HR & ER & Mc). destruct (Mc c P' HP') as (k & G & P & l & ps & HG & HP & SE & ND & Co & GS & -> & _).
  set (D := fun k => C (match mfind k (ca_groups s) with Some G => cg_ref G | None => 0%Z end)).
  assert (ED : forall k G, mfind k (ca_groups s) = Some G -> D k = C (cg_ref G)) by (intros k0 G0 H; unfold D; rewrite H; auto).
  rewrite (steps_in_order C D prs l ps) by (auto; intros a b p n H; destruct (TP a b p n H) as (A & B & HA & HB & ->); rewrite (ED a A HA), (ED b B HB); auto).
  assert (EO : in_path_order D l = pmul (D k) (pinv (D r))).
  { destruct Sm as [Sm|Sm].
    - apply in_path_order_short; auto; [intros x; apply RC|]. 
      assert (Sub : forall x, In x l -> In x (mkeys (ca_groups s))).
      { clear -SE Co HR TP. destruct SE as (SE & _). revert r R HR SE. induction l as [|x l IH]; intros r R HR SE y Hy; [destruct Hy|]. cbn in SE. injection SE as ->.
        destruct Hy as [<-|Hy]; [apply mfind_Some_key; eauto|]. destruct l as [|z l]; [destruct Hy|]. destruct Co as ((p & n & E) & Co).
        destruct (TP r z p n E) as (A & B & _ & HB & _). apply (IH Co z B HB eq_refl). auto. }
      assert (Q := NoDup_incl_length ND Sub). unfold mkeys in Q. rewrite map_length in Q. lia.
    - apply in_path_order_same_turn; [intros x; apply RC|intros x y; apply Sm|auto]. }
  rewrite EO, (ED k G HG), (ED r R HR), ER. rewrite (TG k G HG c P HP).
  rewrite <- pmul_assoc, (pmul_assoc (pinv (C (cg_ref G)))), pinv_l, pmul_id_l by auto. auto.
Qed.
Print Assumptions C23_merged_groups_partial.
(** And right for the cameras of every group with a relative pose to the reference group from
    two or more frames (every stored pose is from four or more, C35), whatever the orientations and the number of
    groups: the weight of such an edge is truncated to 0 (C04), so the chain is the two groups. *)
Theorem C23_direct_pairs_are_right_partial :
  forall (pt : Type) svd lr uq pick g0, good_heap pick ->
  forall (bpts : Z -> list vec3) nc nb (ins : list (insertion pt)) t, after_detection nc nb ins t -> paired t ->
  forall prs s s', reached svd lr uq pick g0 bpts t s -> pairs_usable prs s -> mergeGroups pick g0 t prs s = Some s' ->
  forall C, (forall c, rigid (C c)) -> (forall k G, mfind k (ca_groups s) = Some G -> true_group C G) -> true_pairs C (ca_groups s) prs ->
  forall k' G' c P', mfind k' (ca_groups s') = Some G' -> mfind c (cg_poses G') = Some P' ->
  forall r R k G, mfind r (ca_groups s) = Some R -> cg_ref R = cg_ref G' -> mfind k (ca_groups s) = Some G -> In c (cg_cams G) ->
  r = k \/ (exists p n, mfind (r, k) prs = Some (p, n) /\ 2 <= n) -> P' = pmul (C c) (pinv (C (cg_ref G'))).
Proof.
  intros pt svd lr uq pick g0 Hh bpts nc nb ins t AD Hp prs s s' Rd UP EM C RC TG TP k' G' c P' HG' HP' r R k G HR ER HG Hc Dir.
  destruct (merged_groups pt svd lr uq pick g0 Hh bpts nc nb ins t AD Hp prs s s' Rd UP EM) as (M & _ & _).
  destruct (M k' G' HG') as (r0 & R0 & HR0 & ER0 & Mc). destruct (Mc c P' HP') as (k0 & G0 & P & l & ps & HG0 & HP & SE & ND & Co & GS & -> & Dr).
  destruct (reached_ok svd lr uq pick g0 Hh bpts nc nb ins t AD Hp s Rd) as (bss & ol & css & gl & CO). assert (GK := co_groups_ok _ _ _ _ _ _ _ CO). assert (EG := co_groups _ _ _ _ _ _ _ CO).
  assert (RM : forall k G, mfind k (ca_groups s) = Some G -> member (dense gl) k (cg_ref G)).
  { intros x A HA. exists A. rewrite <- EG. split; [auto|]. rewrite EG in HA. apply mfind_In, dense_In in HA as (i & -> & HA). apply (go_member _ (gk_or _ _ GK i A HA)). }
  assert (r0 = r) by (apply (member_unique css gl r0 r (cg_ref R) GK); [rewrite ER, <- ER0|]; auto). subst r0. assert (R0 = R) by congruence. subst R0.
  assert (Hc0 : In c (cg_cams G0)).
  { rewrite EG in HG0. apply mfind_In, dense_In in HG0 as (i & -> & HG0). destruct (nth_error_length_ex gl css i G0 (eq_sym (gk_len _ _ GK)) HG0) as (cs & Hcs). assert (Gr := gk_wb _ _ GK i cs G0 Hcs HG0).
    rewrite (gr_cams _ _ Gr). apply (in_map fst _ (c, P)). apply (gr_poses _ _ Gr). auto. }
  assert (k0 = k) by (apply (member_unique css gl k0 k c GK); rewrite <- EG; [exists G0|exists G]; auto). subst k0. assert (G0 = G) by congruence. subst G0. clear HG0 HR0.
  assert (EO : fold_left pmul ps pid = pmul (C (cg_ref G)) (pinv (C (cg_ref R)))).
  { destruct (Z.eq_dec r k) as [->|N].
    - assert (G = R) by congruence. subst G. rewrite pinv_r by auto. destruct SE as (S1 & S2). destruct l as [|x l]; [discriminate S1|]. cbn in S1. injection S1 as ->.
      destruct l as [|y l]; [inversion GS; subst; reflexivity|exfalso]. cbn [rev] in S2. inversion ND as [|x' l' Nk _]; subst. apply Nk. apply in_rev.
      destruct (rev (y :: l)) as [|z zs] eqn:Ez; [apply (f_equal (@length Z)) in Ez; rewrite rev_length in Ez; discriminate Ez|]. cbn [rev] in Ez, S2. rewrite Ez in S2. cbn in S2. injection S2 as ->. left; auto.
    - destruct Dir as [->|(p & n & E & L2)]; [congruence|]. rewrite (Dr p n N E L2). destruct (TP r k p n E) as (A & B & HA & HB & ->). assert (A = R) by congruence. assert (B = G) by congruence. subst. auto. }
  rewrite EO, ER0. rewrite (TG k G HG c P HP).
  rewrite <- pmul_assoc, (pmul_assoc (pinv (C (cg_ref G)))), pinv_l, pmul_id_l by auto. auto.
Qed.
Print Assumptions C23_direct_pairs_are_right_partial.

(** ** C30 *)
(** At any time: the groups share no camera; all cameras of groups have observations;
    every camera with an observation with at least one corner is in a group. *)
Theorem C30_groups_at_any_time :
  forall (pt : Type) svd lr uq pick g0, good_heap pick ->
  forall (bpts : Z -> list vec3) nc nb (ins : list (insertion pt)) t, after_detection nc nb ins t -> paired t ->
  forall s, reached svd lr uq pick g0 bpts t s ->
    (forall k G, mfind k (ca_groups s) = Some G -> NoDup (cg_cams G) /\ group_origin G /\ forall c, In c (cg_cams G) <-> exists P, mfind c (cg_poses G) = Some P) /\
    (forall c k k', member (ca_groups s) k c -> member (ca_groups s) k' c -> k = k') /\
    (forall c k, member (ca_groups s) k c -> exists n o, obs_at t n o /\ o_cam o = c) /\
    (forall n o, obs_at t n o -> o_pts o <> [] -> exists k, member (ca_groups s) k (o_cam o)).
Proof.
  intros pt svd lr uq pick g0 Hh bpts nc nb ins t AD Hp s Rd.
  destruct (reached_ok svd lr uq pick g0 Hh bpts nc nb ins t AD Hp s Rd) as (bss & ol & css & gl & [E1 OK OT Ob Cov E2 GK GT NU CA KE]). rewrite E2.
  split; [|split; [|split]].
  - intros k G HG. apply mfind_In, dense_In in HG as (i & -> & HG). destruct (nth_error_length_ex gl css i G (eq_sym (gk_len css gl GK)) HG) as (cs & Hcs).
    assert (GR := gk_wb css gl GK i cs G Hcs HG). split; [rewrite (gr_cams _ _ GR); apply GR|]. split; [eapply gk_or; eauto|].
    intros c. rewrite (gr_cams _ _ GR), in_map_iff. split.
    + intros ((x & P) & <- & H). exists P. apply (gr_poses _ _ GR). auto.
    + intros (P & H). apply (gr_poses _ _ GR) in H. exists (c, P). auto.
  - intros c k k'. eapply member_unique; eauto.
  - intros c k M. apply CA. apply (members_concat css gl c GK). eauto.
  - intros n o Hn Hpt. apply (members_concat css gl _ GK). eauto.
Qed.
Print Assumptions C30_groups_at_any_time.
(** Merging: two cameras are in one group afterwards iff their groups are linked by a
    chain of group pairs with a relative pose; no camera of a group that has seen a corner
    is lost. *)
Theorem C30_merging_groups :
  forall (pt : Type) svd lr uq pick g0, good_heap pick ->
  forall (bpts : Z -> list vec3) nc nb (ins : list (insertion pt)) t, after_detection nc nb ins t -> paired t ->
  forall prs s s', reached svd lr uq pick g0 bpts t s -> pairs_usable prs s -> mergeGroups pick g0 t prs s = Some s' ->
    (forall k G c, mfind k (ca_groups s) = Some G -> group_sees t G -> In c (cg_cams G) -> exists k', member (ca_groups s') k' c) /\
    (forall a b k l k' l', member (ca_groups s) k a -> member (ca_groups s) l b -> member (ca_groups s') k' a -> member (ca_groups s') l' b ->
       (k' = l' <-> clos_refl_sym_trans Z (has_pair prs) k l)).
Proof.
  intros pt svd lr uq pick g0 Hh bpts nc nb ins t AD Hp prs s s' Rd UP EM.
  destruct (merged_groups pt svd lr uq pick g0 Hh bpts nc nb ins t AD Hp prs s s' Rd UP EM) as (_ & A & B). split; auto.
Qed.
Print Assumptions C30_merging_groups.

(** ** C31 *)
(** object observation number n is one of frame f by a camera of G *)
Definition made_by {pt} (all : list (objobs pt)) (G : cgroup) (f : Z) (n : nat) (oo : objobs pt) : Prop :=
  nth_error all n = Some oo /\ oo_frame oo = f /\ In (oo_cam oo) (cg_cams G).
Theorem C31_group_observations :
  forall (pt : Type) svd lr uq pick g0, good_heap pick ->
  forall (bpts : Z -> list vec3) nc nb (ins : list (insertion pt)) t, after_detection nc nb ins t -> paired t ->
  forall s, reached svd lr uq pick g0 bpts t s ->
    (forall k f, (exists go, mfind (k, f) (gt_obs (ca_gobs s)) = Some go) <->
       exists G n oo, mfind k (ca_groups s) = Some G /\ made_by (ot_all (ca_oobs s)) G f n oo) /\
    (forall k f G go, mfind k (ca_groups s) = Some G -> mfind (k, f) (gt_obs (ca_gobs s)) = Some go ->
       go_group go = k /\ NoDup (go_nums go) /\ length (go_ids go) = length (go_nums go) /\
       (forall n, In n (go_nums go) <-> exists oo, made_by (ot_all (ca_oobs s)) G f n oo) /\
       (forall j n oo, nth_error (go_nums go) j = Some n -> nth_error (ot_all (ca_oobs s)) n = Some oo -> nth_error (go_ids go) j = Some (oo_obj oo))) /\
    (forall f k, In k (ptable f (gt_frames (ca_gobs s))) <-> snd k = f /\ exists go, mfind k (gt_obs (ca_gobs s)) = Some go).
Proof.
  intros pt svd lr uq pick g0 Hh bpts nc nb ins t AD Hp s Rd.
  destruct (reached_ok svd lr uq pick g0 Hh bpts nc nb ins t AD Hp s Rd) as (bss & ol & css & gl & [E1 OK OT Ob Cov E2 GK GT NU CA KE]). rewrite E2.
  assert (Fr := known_frames nc nb ins t AD (ca_oobs s) ol Ob).
  split; [|split].
  - intros k f. rewrite <- mfind_Some_key, (gto_keys _ _ _ _ GT). split.
    + intros (i & G & -> & HG & _ & oo & Ho & Sb). apply seen_by_iff in Sb as (F & C). apply In_nth_error in Ho as (n & Hn). exists G, n, oo.
      split; [apply dense_nth; auto|]. split; auto.
    + intros (G & n & oo & HG & Hn & F & C). apply mfind_In, dense_In in HG as (i & -> & HG). exists i, G. split; auto. split; auto.
      apply nth_error_In in Hn. split; [rewrite <- F; auto|]. exists oo. split; auto. apply seen_by_iff. auto.
  - intros k f G go HG Hk. apply mfind_In, dense_In in HG as (i & -> & HG). destruct (gto_obs _ _ _ _ GT i f G go HG Hk) as (A & B & C).
    split; auto. split; [rewrite B; apply where_NoDup|]. split; [apply (f_equal (@length _)) in C; rewrite !map_length in C; auto|]. split.
    + intros n. rewrite B, where_In. unfold made_by. split; intros (oo & H1 & H2); exists oo; (split; [auto|]); apply seen_by_iff; auto.
    + intros j n oo Hj Hn. assert (Q : nth_error (map Some (go_ids go)) j = Some (Some (oo_obj oo))) by (rewrite C, nth_error_map, Hj; cbn; rewrite Hn; auto).
      rewrite nth_error_map in Q. destruct (nth_error (go_ids go) j); [cbn in Q; congruence|discriminate].
  - intros f k. rewrite (gto_frames _ _ _ _ GT). rewrite mfind_Some_key. tauto.
Qed.
Print Assumptions C31_group_observations.

(** ** C32 *)
(** pose in the group of object observation n: from the camera to the group's reference
    camera; rotation vector and translation *)
Definition seen_from {pt} lr (all : list (objobs pt)) (op : nat -> pose) (G : cgroup) (n : nat) (v : vec3 * vec3) : Prop :=
  exists oo P, nth_error all n = Some oo /\ mfind (oo_cam oo) (cg_poses G) = Some P /\
    v = (lr (fst (pmul (pinv P) (op n))), snd (pmul (pinv P) (op n))).
Lemma shown_spec {pt} lr (all : list (objobs pt)) op css gl i G f n oo : groups_ok css gl -> nth_error gl i = Some G -> made_by all G f n oo ->
  fst (shown lr all op G n) = oo_cam oo /\ seen_from lr all op G n (snd (shown lr all op G n)).
Proof.
  intros GK HG (Hn & _ & Hc). destruct (nth_error_length_ex gl css i G (eq_sym (gk_len css gl GK)) HG) as (cs & Hcs).
  assert (GR := gk_wb css gl GK i cs G Hcs HG). rewrite (gr_cams _ _ GR) in Hc. apply in_map_iff in Hc as ((c & P) & Ec & Hc). cbn in Ec. subst c.
  apply (gr_poses _ _ GR) in Hc. unfold shown, in_group, pose_in_group. rewrite Hn, Hc. cbn. split; auto. exists oo, P. auto.
Qed.
(** For every group, frame and object seen by the group in that frame, whatever the
    memory held before: L lists the object observations concerned, v their poses in the
    group.  If the reference camera made one, the pose is that of its last one, otherwise
    mean translation and average rotation; all observations get this pose. *)
Theorem C32_object_poses_in_groups :
  forall (pt : Type) svd lr uq pick g0, good_heap pick ->
  forall (bpts : Z -> list vec3) nc nb (ins : list (insertion pt)) t, after_detection nc nb ins t -> paired t ->
  forall s, reached svd lr uq pick g0 bpts t s -> forall op pg,
  let r := computeAllObjPoseInCameraGroup svd lr uq (ot_all (ca_oobs s)) (ca_groups s) (ca_gobs s) op pg in
  forall k f G o n0 oo0, mfind k (ca_groups s) = Some G -> made_by (ot_all (ca_oobs s)) G f n0 oo0 -> oo_obj oo0 = o ->
  exists (L : list nat) (v : nat -> vec3 * vec3) m p, L <> [] /\ StronglySorted lt L /\
    (forall n, In n L <-> exists oo, made_by (ot_all (ca_oobs s)) G f n oo /\ oo_obj oo = o) /\
    (forall n, In n L -> seen_from lr (ot_all (ca_oobs s)) op G n (v n)) /\
    mfind (k, f) (fst r) = Some m /\ mfind o m = Some p /\
    (forall l n l' oo, L = l ++ n :: l' -> nth_error (ot_all (ca_oobs s)) n = Some oo -> oo_cam oo = cg_ref G ->
       (forall n' oo', In n' l' -> nth_error (ot_all (ca_oobs s)) n' = Some oo' -> oo_cam oo' <> cg_ref G) -> p = Some (v n)) /\
    ((forall n oo, In n L -> nth_error (ot_all (ca_oobs s)) n = Some oo -> oo_cam oo <> cg_ref G) ->
       p = option_map (fun r => (r, V3 (mean (map (fun n => vx (snd (v n))) L)) (mean (map (fun n => vy (snd (v n))) L)) (mean (map (fun n => vz (snd (v n))) L))))
             (getAverageRotation svd lr uq (map (fun n => fst (v n)) L))) /\
    (forall q n, p = Some q -> In n L -> snd r n = q).
Proof.
  intros pt svd lr uq pick g0 Hh bpts nc nb ins t AD Hp s Rd op pg r k f G o n0 oo0 HG M0 Eo. subst r.
  destruct (reached_ok svd lr uq pick g0 Hh bpts nc nb ins t AD Hp s Rd) as (bss & ol & css & gl & CO).
  assert (E2 := co_groups _ _ _ _ _ _ _ CO). assert (GK := co_groups_ok _ _ _ _ _ _ _ CO). assert (GT := co_gobs _ _ _ _ _ _ _ CO).
  destruct (C31_group_observations pt svd lr uq pick g0 Hh bpts nc nb ins t AD Hp s Rd) as (K & In31 & _).
  destruct (proj2 (K k f) (ex_intro _ G (ex_intro _ n0 (ex_intro _ oo0 (conj HG M0))))) as (go & Hk).
  destruct (In31 k f G go HG Hk) as (_ & _ & _ & IN & IDS).
  rewrite E2 in *. assert (HG' := HG). apply mfind_In, dense_In in HG as (i & -> & HG).
  assert (Ho : In o (go_ids go)).
  { assert (H0 := proj2 (IN n0) (ex_intro _ oo0 M0)). apply In_nth_error in H0 as (j0 & H0). destruct M0 as (Hn & _). subst o. eapply nth_error_In. eapply IDS; eauto. }
  destruct (group_pose_all svd lr uq (ot_all (ca_oobs s)) _ css gl (ca_gobs s) GK GT op i G f go pg o HG Hk Ho) as (NE & (m & Em & Eo') & Af).
  set (all := ot_all (ca_oobs s)) in *. set (L := filter (of_object all o) (go_nums go)) in *.
  assert (LI : forall n, In n L <-> exists oo, made_by all G f n oo /\ oo_obj oo = o).
  { intros n. unfold L. rewrite filter_In, IN. unfold of_object. split.
    - intros ((oo & M) & Q). destruct M as (Hn & R). rewrite Hn in Q. apply Z.eqb_eq in Q. exists oo. split; auto. split; auto.
    - intros (oo & M & Q). split; [eauto|]. destruct M as (Hn & _). rewrite Hn. apply Z.eqb_eq. auto. }
  assert (SH : forall n oo, In n L -> nth_error all n = Some oo -> fst (shown lr all op G n) = oo_cam oo).
  { intros n oo Hn Hoo. apply LI in Hn as (oo' & M & _). assert (oo' = oo) by (destruct M; congruence). subst. eapply shown_spec; eauto. }
  exists L, (fun n => snd (shown lr all op G n)), m, (group_pose svd lr uq (cg_ref G) (shown lr all op G) L).
  split; [auto|]. split; [|split; [auto|split; [|split; [auto|split; [auto|split; [|split]]]]]].
  - unfold L. apply filter_sorted. destruct (gto_obs _ _ _ _ GT i f G go HG Hk) as (_ & -> & _). apply where_from_sorted.
  - intros n Hn. apply LI in Hn as (oo & M & _). eapply shown_spec; eauto.
  - intros l n l' oo EL Hn Hr Lst. rewrite group_pose_spec. assert (LS := last_spec (cg_ref G) (shown lr all op G) L). destruct (last_of_ref (cg_ref G) (shown lr all op G) L) as [p|].
    + destruct LS as (l1 & j & r1 & E1 & F1 & <- & F2). f_equal.
      assert (SO : StronglySorted lt L) by (unfold L; apply filter_sorted; destruct (gto_obs _ _ _ _ GT i f G go HG Hk) as (_ & -> & _); apply where_from_sorted).
      assert (EQ : j = n); [|subst; auto]. 
      assert (In n L) by (rewrite EL; apply in_or_app; right; left; auto). assert (HJ : In j L) by (rewrite E1; apply in_or_app; right; left; auto).
      destruct (Nat.lt_trichotomy j n) as [Q|[Q|Q]]; auto; exfalso.
      * (* n after j *) assert (I : In n r1).
        { rewrite E1 in H, SO. apply in_app_iff in H as [H|[->|H]]; [|lia|auto]. exfalso.
          clear -SO H Q. induction l1 as [|a l1 IH]; [destruct H|]. cbn in SO. inversion SO as [|? ? S1 F]; subst. destruct H as [->|H]; [|auto]. rewrite Forall_forall in F.
          assert (n < j) by (apply F; apply in_or_app; right; left; auto). lia. }
        apply (F2 n I). rewrite (SH n oo H Hn). auto.
      * assert (I : In j l').
        { rewrite EL in HJ, SO. apply in_app_iff in HJ as [HJ|[->|HJ]]; [|lia|auto]. exfalso.
          clear -SO HJ Q. induction l as [|a l IH]; [destruct HJ|]. cbn in SO. inversion SO as [|? ? S1 F]; subst. destruct HJ as [->|HJ]; [|auto]. rewrite Forall_forall in F.
          assert (j < n) by (apply F; apply in_or_app; right; left; auto). lia. }
        destruct (proj1 (LI j) HJ) as (ooj & (Hj & _) & _). apply (Lst j ooj I Hj). rewrite <- (SH j ooj HJ Hj). auto.
    + exfalso. apply (LS n); [rewrite EL; apply in_or_app; right; left; auto|]. rewrite (SH n oo); auto. rewrite EL. apply in_or_app; right; left; auto.
  - intros NR. rewrite group_pose_spec. assert (LS := last_spec (cg_ref G) (shown lr all op G) L). destruct (last_of_ref (cg_ref G) (shown lr all op G) L) as [p|]; [|reflexivity].
    exfalso. destruct LS as (l1 & j & r1 & E1 & F1 & _). assert (HJ : In j L) by (rewrite E1; apply in_or_app; right; left; auto).
    destruct (proj1 (LI j) HJ) as (ooj & (Hj & _) & _). apply (NR j ooj HJ Hj). rewrite <- (SH j ooj HJ Hj). auto.
  - intros q n Hq Hn. eapply Af; eauto.
Qed.
Print Assumptions C32_object_poses_in_groups.

(** With exact object poses and right groups every object gets its true pose relative to
    the reference camera. *)
Theorem C32_exact_object_poses :
  forall (pt : Type) svd lr uq pick g0, good_heap pick -> svd_ok svd -> log_ok lr ->
  forall (bpts : Z -> list vec3) nc nb (ins : list (insertion pt)) t, after_detection nc nb ins t -> paired t ->
  forall s, reached svd lr uq pick g0 bpts t s ->
  forall C Y op pg, exact_objects (ot_all (ca_oobs s)) C Y op -> (forall k G, mfind k (ca_groups s) = Some G -> true_group C G) ->
  let r := computeAllObjPoseInCameraGroup svd lr uq (ot_all (ca_oobs s)) (ca_groups s) (ca_gobs s) op pg in
  forall k f G n oo, mfind k (ca_groups s) = Some G -> made_by (ot_all (ca_oobs s)) G f n oo ->
  exists m w tr, mfind (k, f) (fst r) = Some m /\ mfind (oo_obj oo) m = Some (Some (w, tr)) /\ snd r n = (w, tr) /\
    (exp_rot w, tr) = pmul (C (cg_ref G)) (Y f (oo_obj oo)) /\ (w, tr) = Proj2RT lr (pmul (C (cg_ref G)) (Y f (oo_obj oo))).
Proof.
  intros pt svd lr uq pick g0 Hh Hs Hl bpts nc nb ins t AD Hp s Rd C Y op pg (RC & RY & EX) TG r k f G n oo HG M. subst r.
  destruct (reached_ok svd lr uq pick g0 Hh bpts nc nb ins t AD Hp s Rd) as (bss & ol & css & gl & CO).
  assert (E2 := co_groups _ _ _ _ _ _ _ CO). assert (GK := co_groups_ok _ _ _ _ _ _ _ CO). assert (GT := co_gobs _ _ _ _ _ _ _ CO).
  destruct (C31_group_observations pt svd lr uq pick g0 Hh bpts nc nb ins t AD Hp s Rd) as (K & In31 & _).
  destruct (proj2 (K k f) (ex_intro _ G (ex_intro _ n (ex_intro _ oo (conj HG M))))) as (go & Hk).
  destruct (In31 k f G go HG Hk) as (_ & _ & _ & IN & IDS). assert (T := TG k G HG).
  rewrite E2 in *. apply mfind_In, dense_In in HG as (i & -> & HG).
  assert (Hn : In n (go_nums go)) by (apply IN; eauto).
  assert (Ho : In (oo_obj oo) (go_ids go)).
  { assert (Hn' := Hn). apply In_nth_error in Hn' as (j & Hj). destruct M as (M & _). eapply nth_error_In. eapply IDS; eauto. }
  destruct (group_pose_all svd lr uq (ot_all (ca_oobs s)) _ css gl (ca_gobs s) GK GT op i G f go pg (oo_obj oo) HG Hk Ho) as (NE & (m & Em & Eo') & Af).
  set (all := ot_all (ca_oobs s)) in *. set (L := filter (of_object all (oo_obj oo)) (go_nums go)) in *.
  set (Q := pmul (C (cg_ref G)) (Y f (oo_obj oo))) in *.
  assert (RQ : rigid Q) by (apply rigid_mul; auto).
  assert (V : forall x, In x L -> snd (shown lr all op G x) = (lr (fst Q), snd Q)).
  { intros x Hx. unfold L in Hx. apply filter_In in Hx as (Hx & Qo). apply IN in Hx as (oo' & M').
    destruct (shown_spec lr all op css gl i G f x oo' GK HG M') as (_ & (oo2 & P & H1 & H2 & ->)). destruct M' as (H1' & H3 & _). assert (oo2 = oo') by congruence. subst oo2.
    unfold of_object in Qo. rewrite H1 in Qo. apply Z.eqb_eq in Qo.
    assert (E : pmul (pinv P) (op x) = Q); [|rewrite E; auto]. rewrite (T (oo_cam oo') P H2), (EX x oo' H1), H3, Qo. unfold Q.
    rewrite pinv_pmul, pinv_pinv by auto using rigid_inv. rewrite <- pmul_assoc, (pmul_assoc (pinv (C (oo_cam oo')))), pinv_l, pmul_id_l by auto. auto. }
  assert (Ew := group_pose_exact svd lr uq (cg_ref G) (shown lr all op G) L (fst Q) (snd Q) Hs Hl NE RQ V).
  exists m, (lr (fst Q)), (snd Q). split; [auto|]. split; [rewrite Eo'; f_equal; auto|]. split.
  - eapply Af; eauto. unfold L. apply filter_In. split; auto. unfold of_object. destruct M as (M & _). rewrite M. apply Z.eqb_refl.
  - split; [|reflexivity]. rewrite (Hl _ RQ). destruct Q; auto.
Qed.
Print Assumptions C32_exact_object_poses.

(** ** Examples *)
(** cameras 0, 1, 2 see boards 0, 1, 2, never the same one: three groups *)
Definition apart_ins : list (insertion pt2) :=
  [mkIns 0%Z 0%Z 0%Z five_corners five_ids EmptyString; mkIns 1%Z 0%Z 1%Z five_corners five_ids EmptyString;
   mkIns 2%Z 0%Z 2%Z five_corners five_ids EmptyString].
Definition apart_t : tables pt2 := run_of 3 3 apart_ins.
Example apart_after : after_detection 3 3 apart_ins apart_t.
Proof. apply run_after. unfold apart_ins. repeat constructor; cbn; lia. Qed.
Example apart_paired : paired apart_t.
Proof. intros b H. vm_compute in H. repeat (destruct H as [<-|H]; [reflexivity|]). destruct H. Qed.
Definition link (C : Z -> pose) (a b : Z) : (Z * Z) * (pose * nat) := ((a, b), (pmul (C b) (pinv (C a)), 4)).
(** the state after calibrateCameraGroup *)
Definition start_of svd lr uq (t : tables pt2) : option (calib pt2) :=
  match calibrate3DObjects svd lr uq pick_first empty_graph grid t (fun _ => pid) ob_poses with
  | Some s => calibrateCameraGroup svd lr uq pick_first empty_graph grid t (fun _ => pid) ob_poses cg_poses s
  | None => None
  end.
Lemma start_reached svd lr uq t s : start_of svd lr uq t = Some s -> reached svd lr uq pick_first empty_graph grid t s.
Proof.
  unfold start_of. destruct (calibrate3DObjects svd lr uq pick_first empty_graph grid t (fun _ => pid) ob_poses) as [s0|] eqn:E0; [|discriminate].
  intros E. eapply rd_start; eauto using keep_boards, keep_cams.
Qed.
Definition single (i c : Z) : Z * cgroup := (i, mkGrp i c [c] [(c, c)] [(c, pid)]).
Lemma apart_start svd lr uq : exists s, start_of svd lr uq apart_t = Some s /\ ca_groups s = [single 0 0; single 1 1; single 2 2] /\
  observed_groups (ca_groups s) (ca_gobs s) = [0; 1; 2]%Z.
Proof. eexists. split; [vm_compute; reflexivity|]. split; vm_compute; reflexivity. Qed.
Definition chain_pairs (p01 p10 p12 p21 : pose) : smap (Z * Z) (pose * nat) :=
  [((0, 1)%Z, (p01, 4)); ((1, 0)%Z, (p10, 4)); ((1, 2)%Z, (p12, 4)); ((2, 1)%Z, (p21, 4))].
Lemma chain_usable svd lr uq s p01 p10 p12 p21 : start_of svd lr uq apart_t = Some s -> pairs_usable (chain_pairs p01 p10 p12 p21) s.
Proof.
  intros E. destruct (apart_start svd lr uq) as (s' & E' & Eg & Eo). assert (s' = s) by congruence. subst s'.
  unfold pairs_usable. rewrite Eo, Eg. unfold covisible, chain_pairs. constructor; cbn; unfold covisible; cbn; intros.
  - intros H. repeat match goal with H : _ \/ _ |- _ => destruct H as [H|H] | H : (_, _) = (_, _) |- _ => injection H; clear H; intros; subst; try lia | H : False |- _ => destruct H end.
  - left. repeat match goal with H : _ \/ _ |- _ => destruct H as [H|H] | H : (_, _) = (_, _) |- _ => injection H; clear H; intros; subst | H : False |- _ => destruct H end; auto.
Qed.
Lemma chain_merged svd lr uq s p01 p10 p12 p21 : start_of svd lr uq apart_t = Some s ->
  exists s' G, mergeGroups pick_first empty_graph apart_t (chain_pairs p01 p10 p12 p21) s = Some s' /\ mfind 0%Z (ca_groups s') = Some G /\
    cg_ref G = 0%Z /\ mfind 2%Z (cg_poses G) = Some (pmul pid (pmul (pmul pid p01) p12)).
Proof.
  intros E. vm_compute in E. injection E as <-. eexists. eexists. split; [vm_compute; reflexivity|]. split; [reflexivity|]. split; [reflexivity|]. reflexivity.
Qed.
Lemma singles_true (C : Z -> pose) s : (forall c, rigid (C c)) -> ca_groups s = [single 0 0; single 1 1; single 2 2] ->
  forall k G, mfind k (@ca_groups pt2 s) = Some G -> true_group C G.
Proof.
  intros RC Eg k0 G0 H c P Hc. rewrite Eg in H. unfold single in H. cbn in H.
  repeat (match type of H with match ?x with _ => _ end = _ => destruct x end); try discriminate; injection H as <-; cbn in Hc |- *;
    match type of Hc with match ?x with _ => _ end = _ => destruct x eqn:Ex; try discriminate end; injection Hc as <-; apply Z.compare_eq in Ex; subst c; rewrite pinv_r by auto; auto.
Qed.
Theorem C23_merged_groups_refuted : forall svd lr uq,
  exists (nc nb : nat) (ins : list (insertion pt2)) t s prs s' C k G, after_detection nc nb ins t /\ paired t /\
    reached svd lr uq pick_first empty_graph grid t s /\ pairs_usable prs s /\ mergeGroups pick_first empty_graph t prs s = Some s' /\
    (forall c, rigid (C c)) /\ (forall k G, mfind k (ca_groups s) = Some G -> true_group C G) /\ true_pairs C (ca_groups s) prs /\
    mfind k (ca_groups s') = Some G /\ ~ true_group C G.
Proof.
  intros svd lr uq. destruct (apart_start svd lr uq) as (s & E & Eg & _).
  set (C := three_C). set (prs := chain_pairs (pmul (C 1%Z) (pinv (C 0%Z))) (pmul (C 0%Z) (pinv (C 1%Z))) (pmul (C 2%Z) (pinv (C 1%Z))) (pmul (C 1%Z) (pinv (C 2%Z)))).
  destruct (chain_merged svd lr uq s (pmul (C 1%Z) (pinv (C 0%Z))) (pmul (C 0%Z) (pinv (C 1%Z))) (pmul (C 2%Z) (pinv (C 1%Z))) (pmul (C 1%Z) (pinv (C 2%Z))) E) as (s' & G & EM & HG & Er & HP).
  exists 3, 3, apart_ins, apart_t, s, prs, s', C, 0%Z, G. split; [apply apart_after|]. split; [apply apart_paired|]. split; [apply start_reached; auto|].
  split; [eapply chain_usable; eauto|]. split; [auto|]. split; [apply three_rigid|]. split; [|split; [|split; [auto|]]].
  - apply singles_true; [apply three_rigid|exact Eg].
  - rewrite Eg. intros a b p n H. apply mfind_In in H. unfold prs, chain_pairs in H. cbn in H.
    repeat (destruct H as [H|H]; [injection H as <- <- <- _; unfold single; eexists; eexists; split; [reflexivity|]; split; [reflexivity|]; reflexivity|]). destruct H.
  - intros T. specialize (T 2%Z _ HP). rewrite Er in T. rewrite !pmul_id_l in T. unfold C, three_C, pmul, pinv in T. cbn in T. injection T. intros. lra.
Qed.
Print Assumptions C23_merged_groups_refuted.
(** the same cameras, turned differently, with all six relative poses: right *)
Definition all_pairs (C : Z -> pose) : smap (Z * Z) (pose * nat) := [link C 0 1; link C 0 2; link C 1 0; link C 1 2; link C 2 0; link C 2 1].
Example C23_direct_example : forall svd lr uq,
  exists s s' G, reached svd lr uq pick_first empty_graph grid apart_t s /\ pairs_usable (all_pairs three_C) s /\ true_pairs three_C (ca_groups s) (all_pairs three_C) /\
    mergeGroups pick_first empty_graph apart_t (all_pairs three_C) s = Some s' /\ mfind 0%Z (ca_groups s') = Some G /\ cg_cams G = [0; 1; 2]%Z /\
    mfind 2%Z (cg_poses G) = Some (pmul (three_C 2) (pinv (three_C 0))).
Proof.
  intros svd lr uq. destruct (apart_start svd lr uq) as (s & E & Eg & Eo). assert (Rd := start_reached svd lr uq apart_t s E).
  assert (UP : pairs_usable (all_pairs three_C) s).
  { unfold pairs_usable. rewrite Eo, Eg. unfold covisible, all_pairs, link. constructor; cbn; unfold covisible; cbn; intros.
    - intros H. repeat match goal with H : _ \/ _ |- _ => destruct H as [H|H] | H : (_, _) = (_, _) |- _ => injection H; clear H; intros; subst; try lia | H : False |- _ => destruct H end.
    - left. repeat match goal with H : _ \/ _ |- _ => destruct H as [H|H] | H : (_, _) = (_, _) |- _ => injection H; clear H; intros; subst | H : False |- _ => destruct H end; auto. }
  assert (TP : true_pairs three_C (ca_groups s) (all_pairs three_C)).
  { rewrite Eg. intros a b p n H. apply mfind_In in H. unfold all_pairs, link in H. cbn [In] in H.
    repeat (destruct H as [H|H]; [injection H as <- <- <- _; unfold single; eexists; eexists; split; [reflexivity|]; split; [reflexivity|]; reflexivity|]). destruct H. }
  assert (EM : exists s' G P, mergeGroups pick_first empty_graph apart_t (all_pairs three_C) s = Some s' /\ mfind 0%Z (ca_groups s') = Some G /\ cg_ref G = 0%Z /\ cg_cams G = [0; 1; 2]%Z /\ mfind 2%Z (cg_poses G) = Some P).
  { unfold all_pairs, link. generalize (pmul (three_C 1) (pinv (three_C 0))), (pmul (three_C 2) (pinv (three_C 0))), (pmul (three_C 0) (pinv (three_C 1))), (pmul (three_C 2) (pinv (three_C 1))), (pmul (three_C 0) (pinv (three_C 2))), (pmul (three_C 1) (pinv (three_C 2))).
    intros p1 p2 p3 p4 p5 p6. vm_compute in E. injection E as <-. eexists. eexists. eexists. split; [vm_compute; reflexivity|]. do 3 (split; [reflexivity|]). reflexivity. }
  destruct EM as (s' & G & P & EM & HG & Er & Ec & HP).
  exists s, s', G. do 6 (split; [auto|]). rewrite HP. f_equal. rewrite <- Er.
  apply (C23_direct_pairs_are_right_partial pt2 svd lr uq pick_first empty_graph pick_first_good grid 3 3 apart_ins apart_t apart_after apart_paired (all_pairs three_C) s s' Rd UP EM three_C three_rigid
    (singles_true three_C s three_rigid Eg) TP 0%Z G 2%Z P HG HP 0%Z (snd (single 0 0)) 2%Z (snd (single 2 2))); try rewrite Eg; auto.
  - cbn. auto.
  - right. eexists. exists 4. split; [reflexivity|lia].
Qed.
(** three parallel cameras: merging along the chain 0 - 1 - 2 is right *)
Example C23_parallel_example : forall svd lr uq, let C := fun c => (mid, V3 (IZR c) 0 0)%R in
  exists s s' G, reached svd lr uq pick_first empty_graph grid apart_t s /\
    mergeGroups pick_first empty_graph apart_t (chain_pairs (pmul (C 1%Z) (pinv (C 0%Z))) (pmul (C 0%Z) (pinv (C 1%Z))) (pmul (C 2%Z) (pinv (C 1%Z))) (pmul (C 1%Z) (pinv (C 2%Z)))) s = Some s' /\
    mfind 0%Z (ca_groups s') = Some G /\ In 2%Z (cg_cams G) /\ true_group C G.
Proof.
  intros svd lr uq C. destruct (apart_start svd lr uq) as (s & E & Eg & _). assert (RC : forall c, rigid (C c)) by (intros c; apply rot_id).
  destruct (chain_merged svd lr uq s (pmul (C 1%Z) (pinv (C 0%Z))) (pmul (C 0%Z) (pinv (C 1%Z))) (pmul (C 2%Z) (pinv (C 1%Z))) (pmul (C 1%Z) (pinv (C 2%Z))) E) as (s' & G & EM & HG & Er & HP).
  assert (Rd := start_reached svd lr uq apart_t s E). assert (UP := chain_usable svd lr uq s (pmul (C 1%Z) (pinv (C 0%Z))) (pmul (C 0%Z) (pinv (C 1%Z))) (pmul (C 2%Z) (pinv (C 1%Z))) (pmul (C 1%Z) (pinv (C 2%Z))) E).
  exists s, s', G. split; [auto|]. split; [auto|]. split; [auto|]. split.
  - assert (Rd' : reached svd lr uq pick_first empty_graph grid apart_t s') by (eapply rd_groups; eauto).
    destruct (C30_groups_at_any_time pt2 svd lr uq pick_first empty_graph pick_first_good grid 3 3 apart_ins apart_t apart_after apart_paired s' Rd') as (A & _).
    apply (A 0%Z G HG). eauto.
  - eapply (C23_merged_groups_partial pt2 svd lr uq pick_first empty_graph pick_first_good grid 3 3 apart_ins apart_t apart_after apart_paired); eauto.
    + apply singles_true; auto.
    + rewrite Eg. intros a b p n H. apply mfind_In in H. unfold chain_pairs in H. cbn [In] in H.
      repeat (destruct H as [H|H]; [injection H as <- <- <- _; unfold single; eexists; eexists; split; [reflexivity|]; split; [reflexivity|]; reflexivity|]). destruct H.
Qed.
(** camera 1, turned, sees object 1 in frame 0 *)
Example C32_example : forall svd lr uq pg, svd_ok svd -> log_ok lr ->
  exists s op m w tr, reached svd lr uq pick_first empty_graph grid apart_t s /\
    let r := computeAllObjPoseInCameraGroup svd lr uq (ot_all (ca_oobs s)) (ca_groups s) (ca_gobs s) op pg in
    mfind (1, 0)%Z (fst r) = Some m /\ mfind 1%Z m = Some (Some (w, tr)) /\ (exp_rot w, tr) = (turn, V3 0 0 0)%R.
Proof.
  intros svd lr uq pg Hs Hl. destruct (apart_start svd lr uq) as (s & E & Eg & _). assert (Rd := start_reached svd lr uq apart_t s E).
  assert (All : map (fun oo => (oo_cam oo, oo_frame oo, oo_obj oo)) (ot_all (ca_oobs s)) = [(0, 0, 0); (1, 0, 1); (2, 0, 2)]%Z) by (vm_compute in E; injection E as <-; reflexivity).
  assert (H1 : exists oo, nth_error (ot_all (ca_oobs s)) 1 = Some oo /\ oo_cam oo = 1%Z /\ oo_frame oo = 0%Z /\ oo_obj oo = 1%Z).
  { clear E Rd Eg. revert All. generalize (ot_all (ca_oobs s)). intros L All.
    destruct L as [|a [|b l]]; [discriminate|discriminate|]. cbn [map] in All. injection All as _ _ _ B1 B2 B3 _. exists b. split; [reflexivity|]. auto. }
  destruct H1 as (oo & Hoo & C1 & F1 & O1).
  exists s, (fun n => three_C (Z.of_nat n)).
  destruct (C32_exact_object_poses pt2 svd lr uq pick_first empty_graph pick_first_good Hs Hl grid 3 3 apart_ins apart_t apart_after apart_paired s Rd
    three_C (fun _ _ => pid) (fun n => three_C (Z.of_nat n)) pg) with (k := 1%Z) (f := 0%Z) (G := snd (single 1 1)) (n := 1) (oo := oo) as (m & w & tr & A & B & _ & D & _).
  - split; [apply three_rigid|]. split; [intros f o; apply rot_id|]. intros n o Hn.
    assert (Q : nth_error [(0, 0, 0); (1, 0, 1); (2, 0, 2)]%Z n = Some (oo_cam o, oo_frame o, oo_obj o)) by (rewrite <- All, nth_error_map, Hn; auto).
    rewrite pmul_id_r. destruct n as [|[|[|n]]]; cbn in Q; try (injection Q as <- _ _; reflexivity). destruct n; discriminate.
  - apply singles_true; auto. apply three_rigid.
  - rewrite Eg. reflexivity.
  - split; [auto|]. split; [auto|]. rewrite C1. cbn. auto.
  - rewrite O1 in B. exists m, w, tr. split; [auto|]. cbv zeta. split; [exact A|]. split; [auto|]. rewrite D, pmul_id_r. reflexivity.
Qed.
