(** Groups of cameras without a common view: counting views, hand-eye pairs, and merging a
    single group again (for C64). *)
From Coq Require Import String List ZArith QArith Lia Reals Lra Permutation Sorted Relations.
From Verif Require Import SMap GraphModel GraphSpec GraphDijkstra GraphPath DataModel DataSpec DataProofs DetectModel DetectSpec
  GeomModel GeomSpec GeomProofs GeomMedian ChainModel ChainSpec ChainProofs ChainCam
  ObjectsModel ObjectsSpec ObjectsProofs ObjectsBuild ObjectsMerge ObjectsObs GroupModel GroupSpec GroupProofs GroupMerge GroupObs GroupPose
  StageModel StageSpec StageProofs StageMain StageCams StageMerge PipelineModel PipelineSpec PipelineProofs StalePairs ChainPairs GroupAll
  HandEyeModel HandEyeSpec HandEyeProofs HandEyePairs HandEyeMain PropObjects PropChain PropGroup PropStale PropHandEye.
Import ListNotations.
Close Scope Q_scope.
Close Scope R_scope.
Open Scope nat_scope.

(** ** Counting pairs *)
Section Count.
Context {A : Type}.
Variable p : A * A -> bool.
Definition cnt (l m : list A) : nat := length (filter p (list_prod l m)).
Lemma cnt_app_l l l' m : cnt (l ++ l') m = cnt l m + cnt l' m.
Proof.
  unfold cnt. induction l as [|x l IH]; cbn [list_prod app]; [reflexivity|]. rewrite !filter_app, !app_length, IH. lia.
Qed.
Lemma cnt_app_r l m m' : cnt l (m ++ m') = cnt l m + cnt l m'.
Proof.
  unfold cnt. induction l as [|x l IH]; cbn [list_prod app]; [reflexivity|]. rewrite map_app, !filter_app, !app_length, IH. lia.
Qed.
Lemma cnt_nil_r l : cnt l [] = 0.
Proof. unfold cnt. induction l as [|x l IH]; cbn [list_prod app map]; auto. Qed.
Lemma cnt_repeat l n : cnt (concat (repeat l n)) (concat (repeat l n)) = n * n * cnt l l.
Proof.
  assert (R : forall k m, cnt m (concat (repeat l k)) = k * cnt m l).
  { induction k as [|k IH]; intros m; cbn [repeat concat]; [rewrite cnt_nil_r; auto|]. rewrite cnt_app_r, IH. lia. }
  rewrite R. assert (Q : forall k, cnt (concat (repeat l k)) l = k * cnt l l).
  { induction k as [|k IH]; cbn [repeat concat]; [reflexivity|]. rewrite cnt_app_l, IH. lia. }
  rewrite Q. lia.
Qed.
End Count.

Lemma list_prod_NoDup {A B} (l : list A) (m : list B) : NoDup l -> NoDup m -> NoDup (list_prod l m).
Proof.
  intros N M. induction N as [|x l Hx N IH]; cbn [list_prod]; [constructor|]. 
  assert (Q : NoDup (map (fun y : B => (x, y)) m)) by (apply FinFun.Injective_map_NoDup; auto; intros a b E; congruence).
  assert (D : forall e, In e (map (fun y : B => (x, y)) m) -> ~ In e (list_prod l m)).
  { intros e He He'. apply in_map_iff in He as (y & <- & _). apply in_prod_iff in He' as (H & _). auto. }
  clear - Q D IH. induction Q as [|e es He Q IHQ]; cbn [app]; [auto|]. constructor; [|apply IHQ; intros; apply D; right; auto].
  rewrite in_app_iff. intros [H|H]; [auto|]. apply (D e); auto. left. auto.
Qed.

Section Views.
Context {pt : Type}.
Notation oobs := (objobs pt).
Definition view_key (x : oobs) : Z * Z * Z := (oo_obj x, oo_cam x, oo_frame x).
Variable l : list oobs.
Hypothesis ND : NoDup (map view_key l).
Variables (G1 G2 : cgroup).
Lemma views_list n o1 o2 : views_together (concat (repeat l n)) G1 G2 o1 o2 = n * n * views_together l G1 G2 o1 o2.
Proof. unfold views_together. apply (cnt_repeat _ l n). Qed.
Lemma views_In o1 o2 x y :
  In (x, y) (filter (fun '(x, y) => Z.eqb (oo_frame x) (oo_frame y) &&
                                 (existsb (Z.eqb (oo_cam x)) (cg_cams G1) && Z.eqb (oo_obj x) o1) &&
                                 (existsb (Z.eqb (oo_cam y)) (cg_cams G2) && Z.eqb (oo_obj y) o2))%bool (list_prod l l)) <->
  In x l /\ In y l /\ oo_frame x = oo_frame y /\ In (oo_cam x) (cg_cams G1) /\ oo_obj x = o1 /\ In (oo_cam y) (cg_cams G2) /\ oo_obj y = o2.
Proof.
  assert (EX : forall c l, existsb (Z.eqb c) l = true <-> In c l).
  { intros c m. rewrite existsb_exists. split; [intros (d & H & E); apply Z.eqb_eq in E; subst; auto|intros H; exists c; rewrite Z.eqb_refl; auto]. }
  rewrite filter_In, in_prod_iff, !Bool.andb_true_iff, !EX, !Z.eqb_eq. tauto.
Qed.
Lemma views_upper o1 o2 F : (forall f, sees_in l G1 o1 f -> sees_in l G2 o2 f -> In f F) ->
  views_together l G1 G2 o1 o2 <= length (cg_cams G1) * length (cg_cams G2) * length F.
Proof.
  intros HF. unfold views_together. set (q := filter _ _). rewrite <- (map_length (fun xy : oobs * oobs => ((oo_cam (fst xy), oo_cam (snd xy)), oo_frame (fst xy))) q).
  rewrite <- !prod_length. apply NoDup_incl_length.
  - assert (Q : NoDup q).
    { unfold q. apply NoDup_filter, list_prod_NoDup; apply (NoDup_map_inv view_key); auto. }
    assert (U : forall x y, In x l -> In y l -> view_key x = view_key y -> x = y).
    { clear - ND. induction l as [|a m IH]; intros x y Hx Hy E; [destruct Hx|]. cbn in ND. inversion ND as [|? ? N1 N2]; subst. destruct Hx as [<-|Hx], Hy as [<-|Hy]; auto.
      - exfalso. apply N1. rewrite E. apply in_map. auto.
      - exfalso. apply N1. rewrite <- E. apply in_map. auto. }
    assert (I : forall a b, In a q -> In b q -> (oo_cam (fst a), oo_cam (snd a), oo_frame (fst a)) = (oo_cam (fst b), oo_cam (snd b), oo_frame (fst b)) -> a = b).
    { intros (a, a') (b, b') Ha Hb E. apply views_In in Ha as (A1 & A2 & A3 & A4 & A5 & A6 & A7), Hb as (B1 & B2 & B3 & B4 & B5 & B6 & B7). cbn [fst snd] in E. injection E as E1 E2 E3.
      f_equal; apply U; auto; unfold view_key; congruence. }
    clear - Q I. induction Q as [|a m Ha Q IH]; cbn [map]; constructor.
    + intros H. apply in_map_iff in H as (b & E & Hb). assert (b = a) by (apply I; [right; auto|left; auto|auto]). subst b. auto.
    + apply IH. intros a' b' H1 H2. apply I; right; auto.
  - intros e He. apply in_map_iff in He as ((x, y) & <- & H). apply views_In in H as (H1 & H2 & H3 & H4 & H5 & H6 & H7). cbn [fst snd].
    apply in_prod; [apply in_prod; auto|]. apply HF; [exists x; auto|exists y; auto].
Qed.
Lemma views_lower o1 o2 F : NoDup F -> (forall f, In f F -> sees_in l G1 o1 f /\ sees_in l G2 o2 f) -> length F <= views_together l G1 G2 o1 o2.
Proof.
  intros N HF. unfold views_together. set (q := filter _ _). rewrite <- (map_length (fun xy : oobs * oobs => oo_frame (fst xy)) q). apply NoDup_incl_length; auto.
  intros f Hf. destruct (HF f Hf) as ((x & X1 & X2 & X3 & X4) & (y & Y1 & Y2 & Y3 & Y4)). apply in_map_iff. exists (x, y). split; [auto|]. apply views_In. repeat (split; [congruence || auto|]). auto.
Qed.
End Views.
Lemma sees_repeat {pt} (l : list (objobs pt)) n G o f : 0 < n -> sees_in (concat (repeat l n)) G o f <-> sees_in l G o f.
Proof.
  intros Hn. unfold sees_in. assert (Q : forall x, In x (concat (repeat l n)) <-> In x l).
  { intros x. rewrite in_concat. split; [intros (m & Hm & Hx); apply repeat_spec in Hm; subst; auto|]. intros H. exists l. split; auto. destruct n; [lia|]. left. auto. }
  split; intros (x & Hx & H); exists x; (split; [apply Q; auto|auto]).
Qed.

(** ** Hand-eye pairs *)
Section Pairs.
Context {pt : Type}.
Variables (svd : (nat -> nat -> R) -> quat) (lr : mat3 -> vec3) (uq : bool) (pick : dstate -> nat) (g0 : graph).
Hypothesis Hh : good_heap pick.
Variables (bpts : Z -> list vec3) (nc nb : nat) (ins : list (insertion pt)) (t : tables pt).
Hypothesis AD : after_detection nc nb ins t.
Hypothesis Hp : paired t.
Lemma pairs_defined calib2 gp s : reached svd lr uq pick g0 bpts t s ->
  (forall k1 k2 G1 G2 o1 o2 F, k1 <> k2 -> mfind k1 (ca_groups s) = Some G1 -> mfind k2 (ca_groups s) = Some G2 ->
     mfind (k1, k2) (findPairObjectForNonOverlap s) = Some (o1, o2) -> StronglySorted Z.lt F ->
     (forall f, In f F <-> sees_in (ot_all (ca_oobs s)) G1 o1 f /\ sees_in (ot_all (ca_oobs s)) G2 o2 f) -> 3 < length F ->
     exists X, calib2 (map (fun f => gp (k1, f) o1) F) (map (fun f => gp (k2, f) o2) F) = Some X) ->
  exists prs, findPoseNoOverlapAllCamGroup calib2 gp (findPairObjectForNonOverlap s) s = Some prs.
Proof.
  intros Rd C2.
  assert (V : forall k, In k (distinct_pairs (ca_groups s)) -> exists v, initNonOverlapPair calib2 (ca_gobs s) gp (findPairObjectForNonOverlap s) (fst k) (snd k) = Some v).
  { intros (k1, k2) Hk. apply distinct_pairs_In in Hk as (K1 & K2 & N). apply mfind_Some_key in K1 as (G1 & H1), K2 as (G2 & H2). cbn [fst snd].
    destruct (C35_chosen_pair pt svd lr uq pick g0 Hh bpts nc nb ins t AD Hp s Rd k1 k2 G1 G2 N H1 H2) as (o1 & o2 & Eo & _).
    unfold initNonOverlapPair. rewrite Eo, common_poses_map.
    destruct (reached_ok svd lr uq pick g0 Hh bpts nc nb ins t AD Hp s Rd) as (bss & ol & css & gl & [E1 OK OT Ob Cov E2 GK GT NU CA KE]).
    assert (H1' := H1). assert (H2' := H2). rewrite E2 in H1', H2'. apply mfind_In, dense_In in H1' as (i1 & -> & H1'). apply mfind_In, dense_In in H2' as (i2 & -> & H2').
    assert (Fr : forall oo, In oo (ot_all (ca_oobs s)) -> In (oo_frame oo) (mkeys (t_frames t))) by (eapply known_frames; eauto).
    destruct (frames_seen (ot_all (ca_oobs s)) (mkeys (t_frames t)) gl (ca_gobs s) GT Fr i1 i2 G1 G2 o1 o2 H1' H2') as (SF & IF).
    set (F := filter (both_seen (ca_gobs s) (Z.of_nat i1) (Z.of_nat i2) o1 o2) (common_frames (ca_gobs s) (Z.of_nat i1) (Z.of_nat i2))) in *.
    rewrite !map_length, !map_map. cbn [fst snd]. destruct (Nat.leb (length F) 3) eqn:L; [eauto|]. apply Nat.leb_gt in L.
    destruct (C2 _ _ G1 G2 o1 o2 F N H1 H2 Eo SF IF L) as (X & ->). eauto. }
  unfold findPoseNoOverlapAllCamGroup. revert V. generalize (distinct_pairs (ca_groups s)) as l. generalize (@nil (Z * Z * (pose * nat))) as m.
  intros m l. revert m. induction l as [|k l IH]; intros m V; cbn [fold_left]; [eauto|]. destruct (V k (or_introl eq_refl)) as ([v|] & ->); apply IH; intros; apply V; right; auto.
Qed.

Lemma pairs_sorted calib2 gp objs (s : calib pt) prs : findPoseNoOverlapAllCamGroup calib2 gp objs s = Some prs -> msorted prs.
Proof.
  unfold findPoseNoOverlapAllCamGroup. assert (S0 : msorted (@nil (Z * Z * (pose * nat)))) by constructor. revert S0. generalize (@nil (Z * Z * (pose * nat))) as m.
  generalize (distinct_pairs (ca_groups s)) as l. induction l as [|k l IH]; intros m Sm; cbn [fold_left]; [intros E; injection E as <-; auto|].
  destruct (initNonOverlapPair calib2 (ca_gobs s) gp objs (fst k) (snd k)) as [[v|]|].
  - apply IH. apply mset_sorted. auto.
  - apply IH. auto.
  - intros E. exfalso. clear - E. induction l as [|k l IH]; [discriminate E|auto].
Qed.

(** ** A single group is merged again *)
Notation edges prs := (map (fun '(k, (_, n)) => (k, n)) prs).
Lemma merge_again prs s2 G2 : reached svd lr uq pick g0 bpts t s2 -> ca_groups s2 = [(0%Z, G2)] -> group_sees t G2 ->
  (forall a b, has_pair prs a b -> a <> b /\ has_pair prs b a /\ (0 <= a)%Z /\ linked prs a 0%Z) ->
  exists s3 G3, mergeGroups pick g0 t prs s2 = Some s3 /\ pairs_usable prs s2 /\ ca_groups s3 = [(0%Z, G3)] /\
    cg_ref G3 = cg_ref G2 /\ Permutation (cg_cams G3) (cg_cams G2) /\ (forall c, mfind c (cg_poses G3) = mfind c (cg_poses G2)).
Proof.
  intros Rd2 Eg2 Se2 PG.
  destruct (reached_ok svd lr uq pick g0 Hh bpts nc nb ins t AD Hp s2 Rd2) as (bss2 & ol2 & css2 & gl2 & CO2).
  assert (Sy : forall a b, has_pair prs a b -> has_pair prs b a) by (intros a b H; apply (PG a b H)). assert (Bo := pairs_both prs Sy).
  assert (GK2 := co_groups_ok _ _ _ _ _ _ _ CO2). assert (Q2 := co_groups _ _ _ _ _ _ _ CO2). rewrite Eg2 in Q2. destruct gl2 as [|G2' [|? ?]]; try discriminate Q2. cbn in Q2. injection Q2 as <-.
  destruct css2 as [|cs2 [|? ?]]; [discriminate (gk_len _ _ GK2)| |discriminate (gk_len _ _ GK2)].
  assert (GR2 : grouped cs2 G2) by (apply (gk_wb _ _ GK2 0); auto).
  assert (OS2 := observed_sees bpts t s2 bss2 ol2 [cs2] [G2] CO2). set (obs2 := observed_groups (ca_groups s2) (ca_gobs s2)) in *.
  assert (O2 : forall x, In x obs2 <-> x = 0%Z).
  { intros x. rewrite OS2, Eg2. split.
    - intros (G & HG & _). apply mfind_In in HG. destruct HG as [HG|[]]. congruence.
    - intros ->. exists G2. auto. }
  destruct (observed_groups_ok [cs2] [G2] (ca_gobs s2) GK2) as (So2 & _). rewrite <- (co_groups _ _ _ _ _ _ _ CO2) in So2. fold obs2 in So2.
  assert (ND2 := sorted_lt_NoDup _ So2).
  assert (P3 : forall a, ~ covisible (edges prs) a a). { intros a [H|H]; apply mfind_edges in H; destruct (PG a a H); auto. }
  assert (P4 : forall a b, covisible (edges prs) a b -> (0 <= a)%Z /\ linked prs a 0%Z).
  { intros a b [H|H]; apply mfind_edges in H; [apply (PG a b H)|]. apply Sy in H. apply (PG a b H). }
  assert (PV2 := proper_vertices obs2 (edges prs) ND2 P3).
  destruct (single_component g0 bpts (vertices obs2 (edges prs)) (edges prs) PV2) as (c2 & Ec2 & Mn2 & Ic2).
  { apply vertices_In; auto. left. apply O2. auto. }
  { intros x Hx. apply vertices_In in Hx; auto. destruct Hx as [Hx|(b & Hx)]; [apply O2 in Hx; subst x; split; [lia|apply rt_refl]|].
    destruct (P4 x b Hx) as (X1 & X2). split; auto. apply connected_linked; auto. }
  destruct (mergeCameraGroup_ok [cs2] [G2] GK2 (vertices obs2 (edges prs)) (edges prs) (map (fun '(k, (P, _)) => (k, P)) prs) PV2) with (pick := pick) (g0 := g0)
    as (gl3 & css3 & E3 & _).
  { auto. }
  { intros c' Hc'. destruct (component_total (vertices obs2 (edges prs)) (edges prs) (map (fun '(k, (P, _)) => (k, P)) prs) PV2) with (pick := pick) (g0 := g0) (step := step_fwd) (c := c') as (ps & Eps & _); auto; [|eauto].
    unfold mkeys. rewrite !map_map. apply map_ext. intros [k [P n]]. auto. }
  { rewrite Ec2. cbn. repeat constructor. }
  { rewrite Ec2. intros c' [<-|[]]. rewrite Mn2. exists G2. reflexivity. }
  assert (E3' : exists s3, mergeGroups pick g0 t prs s2 = Some s3).
  { unfold mergeGroups. fold obs2. rewrite (mergeCameraGroup_vertices pick g0 obs2) by auto. rewrite (co_groups _ _ _ _ _ _ _ CO2), E3. eauto. }
  destruct E3' as (s3 & E3').
  assert (UP2 : pairs_usable prs s2).
  { constructor; auto. intros a b H. apply P4 in H as (H & _). destruct (Z.eq_dec a 0%Z) as [->|]; [left; apply O2; auto|right; rewrite Eg2; cbn [length]; lia]. }
  destruct (groups_keep_ok pick g0 Hh bpts nc nb ins t AD prs s2 s3 bss2 ol2 [cs2] [G2] CO2 UP2 E3') as (css3' & gl3' & CO3 & _ & _ & _ & L3 & _ & _ & Mg).
  fold obs2 in L3, Mg. rewrite Ec2 in L3, Mg. cbn [length] in L3. destruct gl3' as [|G3 [|? ?]]; cbn in L3; try lia. clear L3.
  assert (GK3 := co_groups_ok _ _ _ _ _ _ _ CO3).
  destruct css3' as [|cs3 [|? ?]]; [discriminate (gk_len _ _ GK3)| |discriminate (gk_len _ _ GK3)].
  assert (Eg3 : ca_groups s3 = [(0%Z, G3)]) by (rewrite (co_groups _ _ _ _ _ _ _ CO3); reflexivity).
  assert (GR3 : grouped cs3 G3) by (apply (gk_wb _ _ GK3 0); auto).
  assert (Same : forall (b : Z) (Q : pose), In (b, Q) cs3 <-> In (b, Q) cs2).
  { intros b Q. rewrite (Mg 0 c2 cs3 eq_refl eq_refl b Q). unfold gmerged_in. rewrite Mn2.
    assert (Or : path_pose step_fwd pick (covis_graph g0 (vertices obs2 (edges prs)) (edges prs)) (map (fun '(k, (P, _)) => (k, P)) prs) 0 0 = Some pid).
    { rewrite <- Mn2 at 1 2. apply component_origin; auto. rewrite Ec2. left. auto. }
    split.
    - intros (j & bs & T & P & J1 & J2 & J3 & J4 & ->). destruct j as [|j]; [|cbn in J2; destruct j; discriminate]. cbn in J2. injection J2 as <-.
      change (Z.of_nat 0) with 0%Z in J4. rewrite Or in J4. injection J4 as <-. rewrite pmul_id_r. auto.
    - intros H. exists 0, cs2, pid, Q. split; [apply Ic2; apply vertices_In; auto; left; apply O2; auto|]. split; auto. split; auto. split; auto. rewrite pmul_id_r. auto. }
  exists s3, G3. do 3 (split; [auto|]).
  assert (CI : forall c0, In c0 (cg_cams G3) <-> In c0 (cg_cams G2)).
  { intros c0. rewrite (gr_cams _ _ GR3), (gr_cams _ _ GR2), !in_map_iff. split; intros ((x & Q) & <- & H); exists (x, Q); (split; [auto|]); apply Same; auto. }
  assert (N3 : NoDup (cg_cams G3)) by (rewrite (gr_cams _ _ GR3); apply GR3). assert (N2 : NoDup (cg_cams G2)) by (rewrite (gr_cams _ _ GR2); apply GR2).
  split; [|split].
  - assert (O3 := gk_or _ _ GK3 0 G3 eq_refl). assert (O2' := gk_or _ _ GK2 0 G2 eq_refl).
    apply Z.le_antisymm; [apply (go_min _ O3); apply CI, O2'|apply (go_min _ O2'); apply CI, O3].
  - apply NoDup_Permutation; auto.
  - intros c0. destruct (mfind c0 (cg_poses G2)) as [P|] eqn:EP.
    + apply (gr_poses _ _ GR3), Same, (gr_poses _ _ GR2). auto.
    + destruct (mfind c0 (cg_poses G3)) as [P|] eqn:EP3; auto. apply (gr_poses _ _ GR3), Same, (gr_poses _ _ GR2) in EP3. congruence.
Qed.
End Pairs.
