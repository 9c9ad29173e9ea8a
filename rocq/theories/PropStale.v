(** C44: the second merge of the camera groups (calibrate.cpp 46-54). *)
From Coq Require Import String List ZArith QArith Lia Reals Lra Permutation Sorted Relations.
From Verif Require Import SMap GraphModel GraphSpec GraphDijkstra GraphPath DataModel DataSpec DataProofs DetectModel DetectSpec
  GeomModel GeomSpec GeomProofs GeomMedian ChainModel ChainSpec ChainProofs ChainCam
  ObjectsModel ObjectsSpec ObjectsProofs ObjectsBuild ObjectsMerge ObjectsObs GroupModel GroupSpec GroupProofs GroupMerge GroupObs GroupPose
  StageModel StageSpec StageProofs StageMain StageCams StageMerge PipelineModel PipelineSpec PipelineProofs StalePairs ChainPairs GroupAll PropObjects PropChain PropGroup.
Import ListNotations.
Close Scope Q_scope.
Close Scope R_scope.
Open Scope nat_scope.

Section Twice.
Context {pt : Type}.
Variables (svd : (nat -> nat -> R) -> quat) (lr : mat3 -> vec3) (uq : bool) (pick : dstate -> nat) (g0 : graph).
Variables (bpts : Z -> list vec3) (t : tables pt).
(** calibrate.cpp 46-54: groups, objects, and groups again with the same pairs *)
Definition merge_twice (prs : smap (Z * Z) (pose * nat)) gp rf rg (s : calib pt) : option (calib pt) :=
  match mergeGroups pick g0 t prs s with
  | Some s1 => match merge3DObjects svd lr uq pick g0 bpts t gp rf rg s1 with
               | Some s2 => mergeGroups pick g0 t prs s2
               | None => None
               end
  | None => None
  end.
End Twice.


(** the pairs are pairs of different present groups that have seen a corner, in both orders *)
Definition pairs_of_groups {pt} (t : tables pt) (prs : smap (Z * Z) (pose * nat)) (s : calib pt) : Prop :=
  forall a b, has_pair prs a b -> a <> b /\ has_pair prs b a /\ exists A, mfind a (ca_groups s) = Some A /\ group_sees t A.
(** ... in one of the orders at least *)
Definition pairs_within {pt} (t : tables pt) (prs : smap (Z * Z) (pose * nat)) (s : calib pt) : Prop :=
  forall a b, has_pair prs a b -> a <> b /\ (exists A, mfind a (ca_groups s) = Some A /\ group_sees t A) /\
    exists B, mfind b (ca_groups s) = Some B /\ group_sees t B.
Definition linked (prs : smap (Z * Z) (pose * nat)) : Z -> Z -> Prop := clos_refl_trans Z (has_pair prs).

Section Facts.
Context {pt : Type}.
Variables (svd : (nat -> nat -> R) -> quat) (lr : mat3 -> vec3) (uq : bool) (pick : dstate -> nat) (g0 : graph).
Hypothesis Hh : good_heap pick.
Variables (bpts : Z -> list vec3) (nc nb : nat) (ins : list (insertion pt)) (t : tables pt).
Hypothesis AD : after_detection nc nb ins t.
Hypothesis Hp : paired t.
Notation edges prs := (map (fun '(k, (_, n)) => (k, n)) prs).
Lemma observed_sees s bss ol css gl : calib_ok bpts t bss ol css gl s ->
  forall k, In k (observed_groups (ca_groups s) (ca_gobs s)) <-> exists G, mfind k (ca_groups s) = Some G /\ group_sees t G.
Proof.
  intros CO k. assert (GK := co_groups_ok _ _ _ _ _ _ _ CO). assert (E2 := co_groups _ _ _ _ _ _ _ CO).
  destruct (observed_groups_ok css gl (ca_gobs s) GK) as (_ & IO). rewrite E2. rewrite IO. split.
  - intros (i & G & -> & HG & N). exists G. split; [apply dense_nth; auto|]. apply (co_nums _ _ _ _ _ _ _ CO i G HG). auto.
  - intros (G & HG & Se). apply mfind_In, dense_In in HG as (i & -> & HG). exists i, G. split; auto. split; auto. apply (co_nums _ _ _ _ _ _ _ CO i G HG). auto.
Qed.
Lemma pairs_within_proper prs s bss ol css gl : calib_ok bpts t bss ol css gl s -> pairs_within t prs s ->
  proper_pairs (observed_groups (ca_groups s) (ca_gobs s)) (edges prs).
Proof.
  intros CO PG. destruct (observed_groups_ok css gl (ca_gobs s) (co_groups_ok _ _ _ _ _ _ _ CO)) as (So & _).
  rewrite (co_groups _ _ _ _ _ _ _ CO) in *. constructor.
  - apply sorted_lt_NoDup. auto.
  - intros a [H|H]; apply mfind_edges in H; destruct (PG a a H) as (N & _); auto.
  - intros a b H. assert (A : exists A, mfind a (ca_groups s) = Some A /\ group_sees t A) by (destruct H as [H|H]; apply mfind_edges in H; apply PG in H; tauto).
    assert (Q := proj2 (observed_sees s bss ol css gl CO a)). rewrite (co_groups _ _ _ _ _ _ _ CO) in Q. apply Q.
    rewrite (co_groups _ _ _ _ _ _ _ CO) in A. auto.
Qed.
Lemma groups_within prs s : pairs_of_groups t prs s -> pairs_within t prs s.
Proof. intros PG a b H. split; [apply (PG a b H)|]. split; [apply (PG a b H)|]. apply (PG b a). apply (PG a b H). Qed.
Lemma pairs_proper prs s bss ol css gl : calib_ok bpts t bss ol css gl s -> pairs_of_groups t prs s ->
  proper_pairs (observed_groups (ca_groups s) (ca_gobs s)) (edges prs).
Proof. intros CO PG. eapply pairs_within_proper; eauto. apply groups_within. auto. Qed.

Lemma same_list (ll : list (list Z)) l l' x : NoDup (concat ll) -> In l ll -> In l' ll -> In x l -> In x l' -> l = l'.
Proof.
  intros N H H' A B. apply In_nth_error in H as (i & H), H' as (j & H'). assert (i = j) by (eapply NoDup_concat_unique; eauto). congruence.
Qed.
Lemma single_component obs (es : smap (Z * Z) nat) : proper_pairs obs es -> In 0%Z obs -> (forall x, In x obs -> (0 <= x)%Z /\ connected es x 0%Z) ->
  exists c, connectedComponents (covis_graph g0 obs es) = [c] /\ min_of c = 0%Z /\ forall x, In x c <-> In x obs.
Proof.
  intros PP H0 L. destruct (comps_partition obs es PP g0) as (ND & I & C). set (cs := connectedComponents (covis_graph g0 obs es)) in *.
  assert (NE : forall c, In c cs -> c <> [] /\ forall x, In x c -> In x obs) by (intros c Hc; destruct (comp_facts obs es PP g0 c Hc) as (A & B & _); auto).
  assert (H0' := proj2 (I 0%Z) H0). apply in_concat in H0' as (c0 & Hc0 & H0c).
  assert (ALL : forall c, In c cs -> c = c0).
  { intros c Hc. destruct (NE c Hc) as (N & Sub). destruct c as [|x c]; [congruence|].
    destruct (proj2 (C x 0%Z (Sub x (or_introl eq_refl)) H0)) as (d & Hd & Xd & Od); [apply L; apply Sub; left; auto|].
    transitivity d; [apply (same_list cs (x :: c) d x); auto; left; auto|apply (same_list cs d c0 0%Z); auto]. }
  destruct cs as [|c1 cs]; [destruct Hc0|]. assert (c1 = c0) by (apply ALL; left; auto). subst c1.
  assert (cs = []).
  { destruct cs as [|c2 cs]; auto. assert (c2 = c0) by (apply ALL; right; left; auto). subst c2. exfalso. cbn in ND.
    destruct (NE c0 Hc0) as (N & _). destruct c0 as [|x c0]; [congruence|]. cbn in ND. inversion ND as [|? ? Nx]; subst. apply Nx. apply in_or_app. right. left. auto. }
  subst cs. exists c0. split; auto. assert (IO : forall x, In x c0 <-> In x obs) by (intros x; rewrite <- I; cbn; rewrite app_nil_r; tauto). split; auto.
  destruct (NE c0 Hc0) as (N & Sub). destruct (min_of_spec c0 N) as (A & B). specialize (B 0%Z H0c). apply Sub in A. apply L in A. lia.
Qed.
Lemma pairs_both prs : (forall a b, has_pair prs a b -> has_pair prs b a) -> both_orders (edges prs).
Proof. intros S a b H. apply mfind_edges in H. apply mfind_edges. auto. Qed.
Lemma connected_linked prs a b : (forall a b, has_pair prs a b -> has_pair prs b a) -> connected (edges prs) a b <-> linked prs a b.
Proof. intros S. unfold connected, linked. apply rt_iff. intros x y. rewrite covisible_both by (apply pairs_both; auto). apply mfind_edges. Qed.

Lemma second_merge prs gp rf rg s : keeps_boards rf -> keeps_cams rg -> reached svd lr uq pick g0 bpts t s -> pairs_of_groups t prs s ->
  (exists G, mfind 0%Z (ca_groups s) = Some G /\ group_sees t G) ->
  (forall k G, mfind k (ca_groups s) = Some G -> group_sees t G -> linked prs k 0%Z) ->
  exists s1 s2 s3 G2 G3, mergeGroups pick g0 t prs s = Some s1 /\ merge3DObjects svd lr uq pick g0 bpts t gp rf rg s1 = Some s2 /\
    mergeGroups pick g0 t prs s2 = Some s3 /\ ca_groups s2 = [(0%Z, G2)] /\ ca_groups s3 = [(0%Z, G3)] /\
    cg_ref G3 = cg_ref G2 /\ Permutation (cg_cams G3) (cg_cams G2) /\ (forall c, mfind c (cg_poses G3) = mfind c (cg_poses G2)) /\
    (forall k G c, mfind k (ca_groups s) = Some G -> group_sees t G -> In c (cg_cams G) -> In c (cg_cams G3)) /\
    reached svd lr uq pick g0 bpts t s3.
Proof.
  intros KB KC Rd PG (Z0 & HZ0 & SZ0) LK.
  destruct (reached_ok svd lr uq pick g0 Hh bpts nc nb ins t AD Hp s Rd) as (bss & ol & css & gl & CO).
  assert (Sy : forall a b, has_pair prs a b -> has_pair prs b a) by (intros a b H; apply (PG a b H)). assert (Bo := pairs_both prs Sy).
  assert (PP := pairs_proper prs s bss ol css gl CO PG). set (obs := observed_groups (ca_groups s) (ca_gobs s)) in *.
  destruct (groups_merge_total pick g0 Hh bpts t prs s bss ol css gl CO PP Bo) as (s1 & E1).
  assert (UP : pairs_usable prs s) by (apply proper_usable; auto).
  assert (Rd1 : reached svd lr uq pick g0 bpts t s1) by (eapply rd_groups; eauto).
  destruct (groups_keep_ok pick g0 Hh bpts nc nb ins t AD prs s s1 bss ol css gl CO UP E1) as (css1 & gl1 & CO1 & _ & _ & PV & L1 & _ & _ & _).
  fold obs in PV, L1. set (V := vertices obs (edges prs)) in *. 
  assert (IV : forall x, In x V <-> In x obs).
  { intros x. unfold V. rewrite vertices_In by apply PP. split; [|auto]. intros [H|(b & H)]; auto. eapply PP; eauto. }
  assert (OS := observed_sees s bss ol css gl CO). fold obs in OS.
  assert (Pos : forall x, In x obs -> (0 <= x)%Z).
  { intros x Hx. apply OS in Hx as (G & HG & _). rewrite (co_groups _ _ _ _ _ _ _ CO) in HG. apply mfind_In, dense_In in HG as (i & -> & _). lia. }
  destruct (single_component V (edges prs) PV) as (c & Ec & _).
  { apply IV, OS. eauto. } { intros x Hx. apply IV in Hx. split; auto. apply connected_linked; auto. apply OS in Hx as (G & HG & Se). eauto. }
  rewrite Ec in L1. cbn [length] in L1.
  destruct (merge_keeps_ok svd lr uq pick g0 Hh bpts nc nb ins t AD Hp gp rf rg s1 bss ol css1 gl1 KB KC) as (s2 & bss2 & ol2 & css2 & gl2 & ol0 & E2 & CO2 & EC2 & _).
  { auto. }
  assert (Rd2 : reached svd lr uq pick g0 bpts t s2) by (eapply rd_merge; eauto).
  assert (GK1 := co_groups_ok _ _ _ _ _ _ _ CO1). assert (GK2 := co_groups_ok _ _ _ _ _ _ _ CO2).
  assert (LG : length gl2 = 1). { rewrite <- (gk_len _ _ GK2), <- (map_length (map fst) css2), EC2, map_length, (gk_len _ _ GK1). auto. }
  destruct gl2 as [|G2 [|? ?]]; cbn in LG; try lia. clear LG.
  destruct css2 as [|cs2 [|? ?]]; [discriminate (gk_len _ _ GK2)| |discriminate (gk_len _ _ GK2)].
  assert (Eg2 : ca_groups s2 = [(0%Z, G2)]) by (rewrite (co_groups _ _ _ _ _ _ _ CO2); reflexivity).
  assert (GR2 : grouped cs2 G2) by (apply (gk_wb _ _ GK2 0); auto).
  (* every camera of a seeing group is in G2 *)
  assert (CAM : forall k G c, mfind k (ca_groups s) = Some G -> group_sees t G -> In c (cg_cams G) -> In c (cg_cams G2)).
  { intros k G c0 HG Se Hc0. destruct (merged_groups pt svd lr uq pick g0 Hh bpts nc nb ins t AD Hp prs s s1 Rd UP E1) as (_ & M & _).
    destruct (M k G c0 HG Se Hc0) as (k' & Mk). rewrite (co_groups _ _ _ _ _ _ _ CO1) in Mk.
    assert (Q : In c0 (map fst (concat css1))) by (apply (members_concat css1 gl1 c0 GK1); eauto).
    rewrite concat_map, <- EC2 in Q. cbn in Q. rewrite app_nil_r in Q. rewrite (gr_cams _ _ GR2). auto. }
  assert (Se2 : group_sees t G2).
  { destruct SZ0 as (n & b & Hn & Hb & Hc0). exists n, b. split; auto. split; auto. apply (CAM 0%Z Z0); auto. exists n, b. auto. }
  assert (OS2 := observed_sees s2 bss2 ol2 [cs2] [G2] CO2). set (obs2 := observed_groups (ca_groups s2) (ca_gobs s2)) in *.
  assert (O2 : forall x, In x obs2 <-> x = 0%Z).
  { intros x. rewrite OS2, Eg2. split.
    - intros (G & HG & _). apply mfind_In in HG. destruct HG as [HG|[]]. congruence.
    - intros ->. exists G2. auto. }
  destruct (observed_groups_ok [cs2] [G2] (ca_gobs s2) GK2) as (So2 & _). rewrite <- (co_groups _ _ _ _ _ _ _ CO2) in So2. fold obs2 in So2.
  assert (ND2 := sorted_lt_NoDup _ So2). destruct PP as [P1 P3 P4].
  assert (PV2 := proper_vertices obs2 (edges prs) ND2 P3).
  assert (IV2 : forall x, In x (vertices obs2 (edges prs)) -> In x obs \/ x = 0%Z).
  { intros x Hx. apply vertices_In in Hx; auto. destruct Hx as [Hx|(b & Hx)]; [right; apply O2; auto|left; eapply P4; eauto]. }
  destruct (single_component (vertices obs2 (edges prs)) (edges prs) PV2) as (c2 & Ec2 & Mn2 & Ic2).
  { apply vertices_In; auto. left. apply O2. auto. }
  { intros x Hx. apply IV2 in Hx as [Hx| ->]; [|split; [lia|apply rt_refl]]. split; auto. apply connected_linked; auto. apply OS in Hx as (G & HG & Se). eauto. }
  destruct (mergeCameraGroup_ok [cs2] [G2] GK2 (vertices obs2 (edges prs)) (edges prs) (map (fun '(k, (P, _)) => (k, P)) prs) PV2) with (pick := pick) (g0 := g0)
    as (gl3 & css3 & E3 & _).
  { auto. }
  { intros c' Hc'. destruct (component_total (vertices obs2 (edges prs)) (edges prs) (map (fun '(k, (P, _)) => (k, P)) prs) PV2) with (pick := pick) (g0 := g0) (step := step_fwd) (c := c') as (ps & Eps & _); auto; [|eauto].
    unfold mkeys. rewrite !map_map. apply map_ext. intros [k [P n]]. auto. }
  { rewrite Ec2. cbn. repeat constructor. }
  { rewrite Ec2. intros c' [<-|[]]. rewrite Mn2. exists G2. reflexivity. }
  assert (E3' : exists s3, mergeGroups pick g0 t prs s2 = Some s3).
  { unfold mergeGroups. fold obs2. rewrite (mergeCameraGroup_vertices pick g0 obs2) by auto. rewrite (co_groups _ _ _ _ _ _ _ CO2), E3. eauto. }
  destruct E3' as (s3 & E3').
  assert (UP2 : pairs_usable prs s2).
  { constructor; auto. intros a b H. apply P4 in H. apply Pos in H. destruct (Z.eq_dec a 0%Z) as [->|]; [left; apply O2; auto|right; rewrite Eg2; cbn [length]; lia]. }
  destruct (groups_keep_ok pick g0 Hh bpts nc nb ins t AD prs s2 s3 bss2 ol2 [cs2] [G2] CO2 UP2 E3') as (css3' & gl3' & CO3 & _ & _ & _ & L3 & _ & _ & Mg).
  fold obs2 in L3, Mg. rewrite Ec2 in L3, Mg. cbn [length] in L3. destruct gl3' as [|G3 [|? ?]]; cbn in L3; try lia. clear L3.
  assert (GK3 := co_groups_ok _ _ _ _ _ _ _ CO3).
  destruct css3' as [|cs3 [|? ?]]; [discriminate (gk_len _ _ GK3)| |discriminate (gk_len _ _ GK3)].
  assert (Eg3 : ca_groups s3 = [(0%Z, G3)]) by (rewrite (co_groups _ _ _ _ _ _ _ CO3); reflexivity).
  assert (GR3 : grouped cs3 G3) by (apply (gk_wb _ _ GK3 0); auto).
  assert (Same : forall (b : Z) (Q : pose), In (b, Q) cs3 <-> In (b, Q) cs2).
  { intros b Q. rewrite (Mg 0 c2 cs3 eq_refl eq_refl b Q). unfold gmerged_in. rewrite Mn2.
    assert (Or : path_pose step_fwd pick (covis_graph g0 (vertices obs2 (edges prs)) (edges prs)) (map (fun '(k, (P, _)) => (k, P)) prs) 0 0 = Some pid).
    { rewrite <- Mn2 at 1 2. apply component_origin; auto. rewrite Ec2. left. auto. }
    split.
    - intros (j & bs & T & P & J1 & J2 & J3 & J4 & ->). destruct j as [|j]; [|cbn in J2; destruct j; discriminate]. cbn in J2. injection J2 as <-.
      change (Z.of_nat 0) with 0%Z in J4. rewrite Or in J4. injection J4 as <-. rewrite pmul_id_r. auto.
    - intros H. exists 0, cs2, pid, Q. split; [apply Ic2; apply vertices_In; auto; left; apply O2; auto|]. split; auto. split; auto. split; auto. rewrite pmul_id_r. auto. }
  exists s1, s2, s3, G2, G3. do 5 (split; [auto|]).
  assert (CI : forall c0, In c0 (cg_cams G3) <-> In c0 (cg_cams G2)).
  { intros c0. rewrite (gr_cams _ _ GR3), (gr_cams _ _ GR2), !in_map_iff. split; intros ((x & Q) & <- & H); exists (x, Q); (split; [auto|]); apply Same; auto. }
  assert (N3 : NoDup (cg_cams G3)) by (rewrite (gr_cams _ _ GR3); apply GR3). assert (N2 : NoDup (cg_cams G2)) by (rewrite (gr_cams _ _ GR2); apply GR2).
  split; [|split; [|split; [|split]]].
  - assert (O3 := gk_or _ _ GK3 0 G3 eq_refl). assert (O2' := gk_or _ _ GK2 0 G2 eq_refl).
    apply Z.le_antisymm; [apply (go_min _ O3); apply CI, O2'|apply (go_min _ O2'); apply CI, O3].
  - apply NoDup_Permutation; auto.
  - intros c0. destruct (mfind c0 (cg_poses G2)) as [P|] eqn:EP.
    + apply (gr_poses _ _ GR3), Same, (gr_poses _ _ GR2). auto.
    + destruct (mfind c0 (cg_poses G3)) as [P|] eqn:EP3; auto. apply (gr_poses _ _ GR3), Same, (gr_poses _ _ GR2) in EP3. congruence.
  - intros k G c0 HG Se Hc0. apply CI. eauto.
  - eapply rd_groups; eauto.
Qed.
End Facts.

(** ** C44 *)
(** If all camera groups that have seen a corner are linked, group 0 among them: merging
    the groups, the objects, and the groups again is defined and leaves one group, with
    all cameras; the second merge changes neither its cameras nor their poses. *)
Theorem C44_second_merge_partial :
  forall (pt : Type) svd lr uq pick g0, good_heap pick ->
  forall (bpts : Z -> list vec3) nc nb (ins : list (insertion pt)) t, after_detection nc nb ins t -> paired t ->
  forall prs gp rf rg s, keeps_boards rf -> keeps_cams rg -> reached svd lr uq pick g0 bpts t s -> pairs_of_groups t prs s ->
  (exists G, mfind 0%Z (ca_groups s) = Some G /\ group_sees t G) ->
  (forall k G, mfind k (ca_groups s) = Some G -> group_sees t G -> linked prs k 0%Z) ->
  exists s1 s2 s3 G2 G3, mergeGroups pick g0 t prs s = Some s1 /\ merge3DObjects svd lr uq pick g0 bpts t gp rf rg s1 = Some s2 /\
    mergeGroups pick g0 t prs s2 = Some s3 /\ ca_groups s2 = [(0%Z, G2)] /\ ca_groups s3 = [(0%Z, G3)] /\
    cg_ref G3 = cg_ref G2 /\ Permutation (cg_cams G3) (cg_cams G2) /\ (forall c, mfind c (cg_poses G3) = mfind c (cg_poses G2)) /\
    (forall k G c, mfind k (ca_groups s) = Some G -> group_sees t G -> In c (cg_cams G) -> In c (cg_cams G3)).
Proof.
  intros pt svd lr uq pick g0 Hh bpts nc nb ins t AD Hp prs gp rf rg s KB KC Rd PG H0 LK.
  destruct (second_merge svd lr uq pick g0 Hh bpts nc nb ins t AD Hp prs gp rf rg s KB KC Rd PG H0 LK) as (s1 & s2 & s3 & G2 & G3 & A1 & A2 & A3 & A4 & A5 & A6 & A7 & A8 & A9 & _).
  exists s1, s2, s3, G2, G3. auto 12.
Qed.
Print Assumptions C44_second_merge_partial.

(** ** Examples *)
(** one link 0 - 1, in both orders *)
Definition one_link (p q : pose) : smap (Z * Z) (pose * nat) := [((0, 1)%Z, (p, 4)); ((1, 0)%Z, (q, 4))].
Lemma apart_sees svd lr uq s : start_of svd lr uq apart_t = Some s -> forall k G, mfind k (ca_groups s) = Some G ->
  (k = 0 \/ k = 1 \/ k = 2)%Z /\ G = snd (single k k) /\ group_sees apart_t G.
Proof.
  intros E k G H. destruct (apart_start svd lr uq) as (s' & E' & Eg & _). assert (s' = s) by congruence. subst s'. rewrite Eg in H. apply mfind_In in H. clear E E' Eg.
  destruct H as [H|[H|[H|[]]]]; injection H as <- <-; (split; [auto|]); (split; [auto|]).
  - exists 0. eexists. split; [vm_compute; reflexivity|]. split; [discriminate|left; reflexivity].
  - exists 1. eexists. split; [vm_compute; reflexivity|]. split; [discriminate|left; reflexivity].
  - exists 2. eexists. split; [vm_compute; reflexivity|]. split; [discriminate|left; reflexivity].
Qed.
Lemma one_link_pairs p q a b : has_pair (one_link p q) a b <-> (a = 0 /\ b = 1 \/ a = 1 /\ b = 0)%Z.
Proof.
  split.
  - intros (P & n & H). apply mfind_In in H. destruct H as [H|[H|[]]]; injection H; intros; subst; auto.
  - intros [(-> & ->)|(-> & ->)]; eexists; eexists; reflexivity.
Qed.

(** cameras of the groups before and after merging the objects are the same *)
Lemma merge_members {pt} svd lr uq pick g0 (Hh : good_heap pick) bpts nc nb (ins : list (insertion pt)) t (AD : after_detection nc nb ins t) (Hp : paired t) gp rf rg s :
  keeps_boards rf -> keeps_cams rg -> reached svd lr uq pick g0 bpts t s ->
  exists s', merge3DObjects svd lr uq pick g0 bpts t gp rf rg s = Some s' /\ reached svd lr uq pick g0 bpts t s' /\
    forall k c, member (ca_groups s') k c <-> member (ca_groups s) k c.
Proof.
  intros KB KC Rd. destruct (reached_ok svd lr uq pick g0 Hh bpts nc nb ins t AD Hp s Rd) as (bss & ol & css & gl & CO).
  destruct (merge_keeps_ok svd lr uq pick g0 Hh bpts nc nb ins t AD Hp gp rf rg s bss ol css gl KB KC CO) as (s2 & bss2 & ol2 & css2 & gl2 & ol0 & E2 & CO2 & EC2 & _).
  exists s2. split; [auto|]. split; [eapply rd_merge; eauto|]. intros k c.
  rewrite (co_groups _ _ _ _ _ _ _ CO), (co_groups _ _ _ _ _ _ _ CO2), (member_nth css gl), (member_nth css2 gl2) by (eapply co_groups_ok; eauto).
  assert (Q : forall i, option_map (map fst) (nth_error css2 i) = option_map (map fst) (nth_error css i)) by (intros i; rewrite <- !nth_error_map, EC2; auto).
  split; intros (i & cs & -> & Hi & Hc); specialize (Q i); rewrite Hi in Q; cbn in Q.
  - destruct (nth_error css i) as [cs'|] eqn:E; [|discriminate]. cbn in Q. exists i, cs'. split; auto. split; auto. congruence.
  - destruct (nth_error css2 i) as [cs'|] eqn:E; [|discriminate]. cbn in Q. exists i, cs'. split; auto. split; auto. congruence.
Qed.
Lemma sees_member {pt} (t : tables pt) (groups : smap Z cgroup) k c n b : member groups k c -> obs_at t n b -> o_cam b = c -> o_pts b <> [] ->
  exists G, mfind k groups = Some G /\ group_sees t G.
Proof. intros (G & HG & Hc) Hn E Hb. exists G. split; auto. exists n, b. subst. auto. Qed.
Lemma apart_obs c : (0 <= c < 3)%Z -> exists n b, obs_at apart_t n b /\ o_cam b = c /\ o_pts b <> [].
Proof.
  intros H. assert (c = 0 \/ c = 1 \/ c = 2)%Z as [-> |[-> | ->]] by lia.
  - exists 0. eexists. split; [vm_compute; reflexivity|]. split; [reflexivity|discriminate].
  - exists 1. eexists. split; [vm_compute; reflexivity|]. split; [reflexivity|discriminate].
  - exists 2. eexists. split; [vm_compute; reflexivity|]. split; [reflexivity|discriminate].
Qed.
Lemma one_link_merged svd lr uq s p q : start_of svd lr uq apart_t = Some s ->
  exists s', mergeGroups pick_first empty_graph apart_t (one_link p q) s = Some s' /\ member (ca_groups s') 0 0 /\ member (ca_groups s') 0 1 /\ member (ca_groups s') 1 2.
Proof.
  intros E. vm_compute in E. injection E as <-. eexists. split; [vm_compute; reflexivity|].
  split; [eexists; split; [reflexivity|left; reflexivity]|]. split; [eexists; split; [reflexivity|right; left; reflexivity]|]. eexists; split; [reflexivity|left; reflexivity].
Qed.
(** Cameras 0, 1, 2 in three groups, of which 0 and 1 are linked.  After the first merge
    {0, 1} and {2} remain; the second puts all three into one group. *)
Theorem C44_unrelated_groups_refuted : forall svd lr uq p q gp, exists (ins : list (insertion pt2)) t s prs rf rg s1 s2 s3 k l a b,
  after_detection 3 3 ins t /\ paired t /\ keeps_boards rf /\ keeps_cams rg /\
  reached svd lr uq pick_first empty_graph grid t s /\ prs = one_link p q /\ pairs_of_groups t prs s /\
  mergeGroups pick_first empty_graph t prs s = Some s1 /\ merge3DObjects svd lr uq pick_first empty_graph grid t gp rf rg s1 = Some s2 /\
  mergeGroups pick_first empty_graph t prs s2 = Some s3 /\
  member (ca_groups s) k a /\ member (ca_groups s) l b /\ ~ linked prs k l /\
  exists m, member (ca_groups s3) m a /\ member (ca_groups s3) m b.
Proof.
  intros svd lr uq p q gp. destruct (apart_start svd lr uq) as (s & E & Eg & _). assert (Rd := start_reached svd lr uq apart_t s E).
  assert (PG : pairs_of_groups apart_t (one_link p q) s).
  { intros a b H. apply one_link_pairs in H. split; [lia|]. split; [apply one_link_pairs; lia|].
    assert (A : exists A, mfind a (ca_groups s) = Some A) by (rewrite Eg; destruct H as [(-> & _)|(-> & _)]; eexists; reflexivity).
    destruct A as (A & HA). exists A. split; auto. eapply apart_sees; eauto. }
  destruct (one_link_merged svd lr uq s p q E) as (s1 & E1 & M0 & M1 & M2).
  assert (UP : pairs_usable (one_link p q) s).
  { destruct (reached_ok svd lr uq pick_first empty_graph pick_first_good grid 3 3 apart_ins apart_t apart_after apart_paired s Rd) as (bss & ol & css & gl & CO).
    apply proper_usable. eapply pairs_proper; eauto. }
  assert (Rd1 : reached svd lr uq pick_first empty_graph grid apart_t s1) by (eapply rd_groups; eauto).
  destruct (merge_members svd lr uq pick_first empty_graph pick_first_good grid 3 3 apart_ins apart_t apart_after apart_paired gp ob_poses cg_poses s1 keep_boards keep_cams Rd1) as (s2 & E2 & Rd2 & MM).
  destruct (reached_ok svd lr uq pick_first empty_graph pick_first_good grid 3 3 apart_ins apart_t apart_after apart_paired s2 Rd2) as (bss2 & ol2 & css2 & gl2 & CO2).
  assert (PG2 : pairs_of_groups apart_t (one_link p q) s2).
  { intros a b H. apply one_link_pairs in H. split; [lia|]. split; [apply one_link_pairs; lia|].
    destruct (apart_obs 0) as (n0 & b0 & O1 & O2 & O3); [lia|]. destruct (apart_obs 2) as (n2 & b2 & O4 & O5 & O6); [lia|].
    destruct H as [(-> & _)|(-> & _)]; [apply (sees_member apart_t (ca_groups s2) 0%Z 0%Z n0 b0)|apply (sees_member apart_t (ca_groups s2) 1%Z 2%Z n2 b2)]; auto; apply MM; auto. }
  assert (PP2 := pairs_proper grid apart_t (one_link p q) s2 bss2 ol2 css2 gl2 CO2 PG2).
  destruct (groups_merge_total pick_first empty_graph pick_first_good grid apart_t (one_link p q) s2 bss2 ol2 css2 gl2 CO2 PP2) as (s3 & E3); [apply pairs_both; intros a b H; apply (PG2 a b H)|].
  destruct (C30_merging_groups pt2 svd lr uq pick_first empty_graph pick_first_good grid 3 3 apart_ins apart_t apart_after apart_paired (one_link p q) s2 s3 Rd2 (proper_usable _ _ _ PP2) E3) as (Kp & Lk).
  assert (N0 := proj2 (MM 0%Z 0%Z) M0). assert (N2 := proj2 (MM 1%Z 2%Z) M2).
  assert (S0 : exists m, member (ca_groups s3) m 0%Z).
  { destruct (apart_obs 0) as (n0 & b0 & O1 & O2 & O3); [lia|]. destruct (sees_member apart_t (ca_groups s2) 0%Z 0%Z n0 b0) as (G & HG & Se); auto. destruct N0 as (G' & HG' & Hc). assert (G' = G) by congruence. subst. eapply Kp; eauto. }
  assert (S2 : exists m, member (ca_groups s3) m 2%Z).
  { destruct (apart_obs 2) as (n0 & b0 & O1 & O2 & O3); [lia|]. destruct (sees_member apart_t (ca_groups s2) 1%Z 2%Z n0 b0) as (G & HG & Se); auto. destruct N2 as (G' & HG' & Hc). assert (G' = G) by congruence. subst. eapply Kp; eauto. }
  destruct S0 as (m & Hm), S2 as (m' & Hm').
  assert (m = m') by (apply (Lk 0%Z 2%Z 0%Z 1%Z m m' N0 N2 Hm Hm'); apply rst_step; apply one_link_pairs; auto). subst m'.
  exists apart_ins, apart_t, s, (one_link p q), ob_poses, cg_poses, s1, s2, s3, 0%Z, 2%Z, 0%Z, 2%Z.
  split; [apply apart_after|]. split; [apply apart_paired|]. split; [apply keep_boards|]. split; [apply keep_cams|]. do 6 (split; [auto|]).
  split; [rewrite Eg; eexists; split; [reflexivity|left; reflexivity]|]. split; [rewrite Eg; eexists; split; [reflexivity|left; reflexivity]|]. split; [|eauto].
  intros L. assert (Q : forall x y, linked (one_link p q) x y -> (x < 2)%Z -> (y < 2)%Z).
  { clear. intros x y L. induction L as [x y H|x|x y z L1 IH1 L2 IH2]; intros; auto. apply one_link_pairs in H. lia. }
  specialize (Q _ _ L). lia.
Qed.
Print Assumptions C44_unrelated_groups_refuted.

(** Four groups, linked in pairs 0 - 1 and 2 - 3: after the first merge groups 0 and 1
    remain, and the second merge follows a null pointer (group 2 is gone). *)
Definition four_ins : list (insertion pt2) :=
  [mkIns 0%Z 0%Z 0%Z five_corners five_ids EmptyString; mkIns 1%Z 0%Z 1%Z five_corners five_ids EmptyString;
   mkIns 2%Z 0%Z 2%Z five_corners five_ids EmptyString; mkIns 3%Z 0%Z 3%Z five_corners five_ids EmptyString].
Definition four_t : tables pt2 := run_of 4 4 four_ins.
Example four_after : after_detection 4 4 four_ins four_t.
Proof. apply run_after. unfold four_ins. repeat constructor; cbn; lia. Qed.
Example four_paired : paired four_t.
Proof. intros b H. vm_compute in H. repeat (destruct H as [<-|H]; [reflexivity|]). destruct H. Qed.
Definition two_links (p : pose) : smap (Z * Z) (pose * nat) :=
  [((0, 1)%Z, (p, 4)); ((1, 0)%Z, (pinv p, 4)); ((2, 3)%Z, (p, 4)); ((3, 2)%Z, (pinv p, 4))].
Lemma two_links_pairs p a b : has_pair (two_links p) a b <-> (a = 0 /\ b = 1 \/ a = 1 /\ b = 0 \/ a = 2 /\ b = 3 \/ a = 3 /\ b = 2)%Z.
Proof.
  split.
  - intros (P & n & H). apply mfind_In in H. destruct H as [H|[H|[H|[H|[]]]]]; injection H; intros; subst; auto.
  - intros [(-> & ->)|[(-> & ->)|[(-> & ->)|(-> & ->)]]]; eexists; eexists; reflexivity.
Qed.
Lemma four_obs c : (0 <= c < 4)%Z -> exists n b, obs_at four_t n b /\ o_cam b = c /\ o_pts b <> [].
Proof.
  intros H. assert (c = 0 \/ c = 1 \/ c = 2 \/ c = 3)%Z as [-> |[-> |[-> | ->]]] by lia.
  - exists 0. eexists. split; [vm_compute; reflexivity|]. split; [reflexivity|discriminate].
  - exists 1. eexists. split; [vm_compute; reflexivity|]. split; [reflexivity|discriminate].
  - exists 2. eexists. split; [vm_compute; reflexivity|]. split; [reflexivity|discriminate].
  - exists 3. eexists. split; [vm_compute; reflexivity|]. split; [reflexivity|discriminate].
Qed.
Lemma four_merged svd lr uq p : exists s s1, start_of svd lr uq four_t = Some s /\ (forall c, (0 <= c < 4)%Z -> member (ca_groups s) c c) /\
  mergeGroups pick_first empty_graph four_t (two_links p) s = Some s1 /\ member (ca_groups s1) 0 0 /\ member (ca_groups s1) 1 2 /\ mkeys (ca_groups s1) = [0; 1]%Z.
Proof.
  eexists. eexists. split; [vm_compute; reflexivity|]. split.
  - intros c H. assert (c = 0 \/ c = 1 \/ c = 2 \/ c = 3)%Z as [-> |[-> |[-> | ->]]] by lia; (eexists; split; [reflexivity|left; reflexivity]).
  - split; [vm_compute; reflexivity|]. split; [eexists; split; [reflexivity|left; reflexivity]|]. split; [eexists; split; [reflexivity|left; reflexivity]|]. reflexivity.
Qed.
Theorem C44_second_merge_crash_refuted : forall svd lr uq p gp, exists (ins : list (insertion pt2)) t s prs rf rg s1 s2,
  after_detection 4 4 ins t /\ paired t /\ keeps_boards rf /\ keeps_cams rg /\
  reached svd lr uq pick_first empty_graph grid t s /\ prs = two_links p /\ pairs_of_groups t prs s /\
  mergeGroups pick_first empty_graph t prs s = Some s1 /\ merge3DObjects svd lr uq pick_first empty_graph grid t gp rf rg s1 = Some s2 /\
  reached svd lr uq pick_first empty_graph grid t s2 /\
  mergeGroups pick_first empty_graph t prs s2 = None.
Proof.
  intros svd lr uq p gp. destruct (four_merged svd lr uq p) as (s & s1 & E & MS & E1 & M0 & M2 & K1). assert (Rd := start_reached svd lr uq four_t s E).
  assert (PG : pairs_of_groups four_t (two_links p) s).
  { intros a b H. apply two_links_pairs in H. split; [lia|]. split; [apply two_links_pairs; lia|].
    destruct (four_obs a) as (n & o & O1 & O2 & O3); [lia|]. apply (sees_member four_t (ca_groups s) a a n o); auto. apply MS. lia. }
  assert (UP : pairs_usable (two_links p) s).
  { destruct (reached_ok svd lr uq pick_first empty_graph pick_first_good grid 4 4 four_ins four_t four_after four_paired s Rd) as (bss & ol & css & gl & CO).
    apply proper_usable. eapply pairs_proper; eauto. }
  assert (Rd1 : reached svd lr uq pick_first empty_graph grid four_t s1) by (eapply rd_groups; eauto).
  destruct (merge_members svd lr uq pick_first empty_graph pick_first_good grid 4 4 four_ins four_t four_after four_paired gp ob_poses cg_poses s1 keep_boards keep_cams Rd1) as (s2 & E2 & Rd2 & MM).
  exists four_ins, four_t, s, (two_links p), ob_poses, cg_poses, s1, s2.
  split; [apply four_after|]. split; [apply four_paired|]. split; [apply keep_boards|]. split; [apply keep_cams|]. do 6 (split; [auto|]).
  destruct (mergeGroups pick_first empty_graph four_t (two_links p) s2) as [s3|] eqn:E3; auto. exfalso.
  destruct (reached_ok svd lr uq pick_first empty_graph pick_first_good grid 4 4 four_ins four_t four_after four_paired s2 Rd2) as (bss2 & ol2 & css2 & gl2 & CO2).
  assert (K2 : mkeys (ca_groups s2) = [0; 1]%Z).
  { unfold merge3DObjects in E2. destruct (merge_stage _ _ _ _ _ _ _ _ _ _); [|discriminate]. destruct (mergeAllObjectObs _ _); [|discriminate]. injection E2 as <-.
    cbn [ca_groups]. unfold refine_groups, mkeys. rewrite map_map. rewrite <- K1. unfold mkeys. apply map_ext. intros [k G]. auto. }
  assert (OB : observed_groups (ca_groups s2) (ca_gobs s2) = [0; 1]%Z).
  { assert (Q := observed_groups_ok css2 gl2 (ca_gobs s2) (co_groups_ok _ _ _ _ _ _ _ CO2)). destruct Q as (So & _). rewrite <- (co_groups _ _ _ _ _ _ _ CO2) in So.
    assert (OS := observed_sees grid four_t s2 bss2 ol2 css2 gl2 CO2).
    set (l := observed_groups (ca_groups s2) (ca_gobs s2)) in *.
    assert (I : forall k, In k l <-> In k [0; 1]%Z).
    { intros k. rewrite OS, <- K2. split.
      - intros (G & HG & _). apply mfind_Some_key. eauto.
      - intros H. rewrite K2 in H. destruct (four_obs 0) as (n0 & b0 & O1 & O2 & O3); [lia|]. destruct (four_obs 2) as (n2 & b2 & O4 & O5 & O6); [lia|].
        destruct H as [<-|[<-|[]]]; [apply (sees_member four_t (ca_groups s2) 0%Z 0%Z n0 b0)|apply (sees_member four_t (ca_groups s2) 1%Z 2%Z n2 b2)]; auto; apply MM; auto. }
    clear -So I. destruct l as [|x [|y [|z l]]].
    - destruct (proj2 (I 0%Z)). cbn. auto.
    - assert (A := proj2 (I 0%Z)). assert (B := proj2 (I 1%Z)). cbn in A, B. destruct A as [A|[]]; auto. destruct B as [B|[]]; auto. congruence.
    - assert (A := proj1 (I x)). assert (B := proj1 (I y)). cbn in A, B. inversion So as [|? ? ? F]; subst. inversion F as [|? ? L1 ?]; subst.
      destruct A as [<-|[<-|[]]]; auto; destruct B as [<-|[<-|[]]]; auto; lia.
    - exfalso. assert (A := proj1 (I x)). assert (B := proj1 (I y)). assert (D := proj1 (I z)). cbn in A, B, D.
      inversion So as [|? ? S1 F]; subst. inversion F as [|? ? L1 ?]; subst. inversion S1 as [|? ? S2 F2]; subst. inversion F2 as [|? ? L2 ?]; subst.
      destruct A as [<-|[<-|[]]]; auto; destruct B as [<-|[<-|[]]]; auto; destruct D as [<-|[<-|[]]]; auto; lia. }
  unfold mergeGroups in E3. rewrite OB in E3.
  destruct (mergeCameraGroup pick_first _ _ (ca_groups s2)) as [gs|] eqn:EM; [|discriminate].
  destruct (merged_known pick_first _ _ (ca_groups s2) gs [2; 3]%Z EM) as (r & Hr); [vm_compute; auto|].
  assert (Q : In 2%Z (mkeys (ca_groups s2))) by (apply mfind_Some_key; exists r; exact Hr). rewrite K2 in Q. destruct Q as [Q|[Q|[]]]; discriminate.
Qed.
Print Assumptions C44_second_merge_crash_refuted.

(** three groups linked 0 - 1 - 2: the hypotheses of C44_second_merge_partial are met *)
Example C44_linked_example : forall svd lr uq p01 p10 p12 p21, exists s, start_of svd lr uq apart_t = Some s /\
  reached svd lr uq pick_first empty_graph grid apart_t s /\ pairs_of_groups apart_t (chain_pairs p01 p10 p12 p21) s /\
  (exists G, mfind 0%Z (ca_groups s) = Some G /\ group_sees apart_t G) /\
  (forall k G, mfind k (ca_groups s) = Some G -> group_sees apart_t G -> linked (chain_pairs p01 p10 p12 p21) k 0%Z).
Proof.
  intros svd lr uq p01 p10 p12 p21. destruct (apart_start svd lr uq) as (s & E & Eg & _). exists s. split; [auto|]. split; [apply start_reached; auto|].
  assert (HP : forall a b, has_pair (chain_pairs p01 p10 p12 p21) a b <-> (a = 0 /\ b = 1 \/ a = 1 /\ b = 0 \/ a = 1 /\ b = 2 \/ a = 2 /\ b = 1)%Z).
  { intros a b. split.
    - intros (P & n & H). apply mfind_In in H. destruct H as [H|[H|[H|[H|[]]]]]; injection H; intros; subst; auto.
    - intros [(-> & ->)|[(-> & ->)|[(-> & ->)|(-> & ->)]]]; eexists; eexists; reflexivity. }
  split; [|split].
  - intros a b H. apply HP in H. split; [lia|]. split; [apply HP; lia|].
    assert (A : exists A, mfind a (ca_groups s) = Some A) by (rewrite Eg; assert (a = 0 \/ a = 1 \/ a = 2)%Z as [-> |[-> | ->]] by lia; eexists; reflexivity).
    destruct A as (A & HA). exists A. split; auto. eapply apart_sees; eauto.
  - assert (A : exists A, mfind 0%Z (ca_groups s) = Some A) by (rewrite Eg; eexists; reflexivity). destruct A as (A & HA). exists A. split; auto. eapply apart_sees; eauto.
  - intros k G HG _. destruct (apart_sees svd lr uq s E k G HG) as ([-> |[-> | ->]] & _).
    + apply rt_refl. + apply rt_step, HP. auto. + eapply rt_trans; apply rt_step, HP; [right; right; right; split; reflexivity|auto].
Qed.
