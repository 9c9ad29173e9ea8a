(** Merging of 3D objects seen together by a camera group. *)
From Coq Require Import List ZArith QArith Lia Reals Permutation Sorted Relations.
From Verif Require Import SMap GraphModel GraphSpec GraphDijkstra DataModel DataSpec DetectModel GeomModel GeomSpec GeomProofs ChainModel ChainSpec ChainProofs ChainCam
  ObjectsModel ObjectsSpec ObjectsProofs ObjectsSave ObjectsBuild ObjectsMerge ObjectsObs
  GroupModel GroupSpec StageModel StageSpec StageProofs StageMain StageCams.
Import ListNotations.
Close Scope Q_scope.
Close Scope R_scope.
Open Scope nat_scope.

Lemma existsb_Zeqb c l : existsb (Z.eqb c) l = true <-> In c l.
Proof.
  rewrite existsb_exists. split; [intros (x & H & E); apply Z.eqb_eq in E; subst; auto|].
  intros H. exists c. split; auto. apply Z.eqb_refl.
Qed.
Lemma seen_by_iff {pt} G f (oo : objobs pt) : seen_by G f oo = true <-> oo_frame oo = f /\ In (oo_cam oo) (cg_cams G).
Proof. unfold seen_by. rewrite andb_true_iff, Z.eqb_eq, existsb_Zeqb. tauto. Qed.

Section M.
Context {pt : Type}.
Variables (bpts : Z -> list vec3) (bss : list (list (Z * pose))) (ol : list obj3d).
Hypothesis OK : objects_ok bpts bss ol.
Variable ot : otables pt.
Hypothesis OT : otables_ok ot.
Notation all := (ot_all ot).
Hypothesis Objs : forall oo, In oo all -> exists i o, nth_error ol i = Some o /\ oo_obj oo = Z.of_nat i.
Variables (gl : list cgroup) (frames : list Z) (gt : gtables).
Hypothesis GT : gtables_ok all frames gl gt.
Hypothesis Fr : forall oo, In oo all -> In (oo_frame oo) frames.

Lemma observed_objects_ok : StronglySorted Z.lt (observed_objects ot (dense ol)) /\
  forall j, In j (observed_objects ot (dense ol)) <-> exists oo, In oo all /\ oo_obj oo = j.
Proof.
  assert (KEY : forall e, In e (dense ol) -> ob_id (snd e) = fst e).
  { intros [k o] H. apply dense_In in H as (i & -> & H). apply (ok_ids _ _ _ OK). auto. }
  assert (E : observed_objects ot (dense ol) = map fst (filter (fun e => Nat.ltb 0 (length (table_of (fst e) (ot_objs ot)))) (dense ol))).
  { unfold observed_objects. apply map_ext_in. intros e He. apply filter_In in He as (He & _). auto. }
  rewrite E. split.
  - apply filter_keys_sorted. fold (mkeys (dense ol)). rewrite DataProofs.mkeys_dense. apply seq_sorted.
  - intros j. rewrite in_map_iff. split.
    + intros ([k o] & <- & H). apply filter_In in H as (H & L). cbn [fst] in *. rewrite (ot_ok_objs _ OT) in L.
      apply length_pos in L as (n & Hn). apply where_In in Hn as (x & Hx & P). exists x. split; [eapply nth_error_In; eauto|apply Z.eqb_eq; auto].
    + intros (oo & Ho & <-). destruct (Objs oo Ho) as (i & o & Hi & E2). exists (Z.of_nat i, o). split; auto.
      apply filter_In. split; [apply dense_In; eauto|]. cbn [fst]. rewrite (ot_ok_objs _ OT). apply length_pos.
      apply In_nth_error in Ho as (n & Hn). exists n. apply where_In. exists oo. split; auto. apply Z.eqb_eq. auto.
Qed.

Lemma gobs_ids k go : mfind k (gt_obs gt) = Some go -> exists i f G, k = (Z.of_nat i, f) /\ nth_error gl i = Some G /\
  flat_map (fun n => match nth_error all n with Some oo => [oo_obj oo] | None => [] end) (go_nums go) = go_ids go /\
  forall o, In o (go_ids go) <-> exists oo, In oo all /\ seen_by G f oo = true /\ oo_obj oo = o.
Proof.
  destruct k as [gi f]. intros H. assert (K : In (gi, f) (mkeys (gt_obs gt))) by (apply mfind_Some_key; eauto).
  apply (gto_keys _ _ _ _ GT) in K as (i & G & -> & HG & _). exists i, f, G. split; [auto|]. split; [auto|].
  destruct (gto_obs _ _ _ _ GT i f G go HG H) as (_ & N & M).
  assert (EQ : flat_map (fun n => match nth_error all n with Some oo => [oo_obj oo] | None => [] end) (go_nums go) = go_ids go).
  { revert M. generalize (go_ids go) as ids. generalize (go_nums go) as ns. induction ns as [|n ns IH]; intros [|d ids] M; cbn in *; try discriminate; auto.
    injection M as M1 M2. destruct (nth_error all n); cbn in M1; [|discriminate]. injection M1 as ->. cbn. f_equal. auto. }
  split; auto. intros o. rewrite <- EQ, N, in_flat_map. split.
  - intros (n & Hn & Ho). apply where_In in Hn as (x & Hx & P). rewrite Hx in Ho. destruct Ho as [<-|[]].
    exists x. split; [eapply nth_error_In; eauto|]. auto.
  - intros (oo & Ho & P & <-). apply In_nth_error in Ho as (n & Hn). exists n. split; [apply where_In; eauto|]. rewrite Hn. left. auto.
Qed.
Lemma group_view_entry gp n ids P : In (n, ids, P) (group_views ot gt gp) -> exists k go, mfind k (gt_obs gt) = Some go /\
  n = length (go_ids go) /\ ids = go_ids go /\ P = gp k.
Proof.
  intros H. unfold group_views in H. apply in_map_iff in H as ([k go] & E & H). cbn [fst snd] in E.
  apply In_mfind in H; [|apply GT]. exists k, go. split; auto. destruct (gobs_ids k go H) as (i & f & G & _ & _ & EQ & _). rewrite EQ in E.
  injection E as <- <- <-. auto.
Qed.
Lemma group_view_In gp k go : mfind k (gt_obs gt) = Some go -> In (length (go_ids go), go_ids go, gp k) (group_views ot gt gp).
Proof.
  intros H. destruct (gobs_ids k go H) as (i & f & G & _ & _ & EQ & _). unfold group_views. apply in_map_iff. exists (k, go).
  split; [cbn [fst snd]; rewrite EQ; auto|]. apply mfind_In; auto.
Qed.
Lemma views_ogated gp : ogated (group_views ot gt gp).
Proof. intros n ids P H. apply group_view_entry in H as (k & go & _ & -> & -> & _). auto. Qed.
Lemma objects_table_good gp : good_table (observed_objects ot (dense ol)) (computeObjectsPairPose (group_views ot gt gp)).
Proof.
  destruct observed_objects_ok as (S & O). apply objects_good; [apply views_ogated|apply sorted_lt_NoDup; auto|].
  intros n ids P o H Hin. apply group_view_entry in H as (k & go & Hk & -> & -> & ->).
  destruct (gobs_ids k go Hk) as (i & f & G & _ & _ & _ & I). apply I in Hin as (oo & Ho & _ & E). apply O. eauto.
Qed.
Lemma objects_covisible gp a b : covisible (counts (computeObjectsPairPose (group_views ot gt gp))) a b <-> seen_by_group all gl a b.
Proof.
  rewrite (covisible_both _ a b (good_both _ _ (objects_table_good gp))). rewrite counts_keys, mfind_Some_key, objects_table by apply views_ogated. unfold seen_by_group.
  destruct (Z.eqb_spec a b) as [->|N]; [split; [intros (v & H); discriminate|intros (H & _); congruence]|]. split.
  - intros (v & H). apply as_vector_Some in H as (<- & NE). split; auto.
    destruct (obj_together (group_views ot gt gp) a b) as [|p l] eqn:E; [congruence|].
    assert (I : In p (obj_together (group_views ot gt gp) a b)) by (rewrite E; left; auto). apply obj_together_In in I as (n & ids & P & H & Ha & Hb & _).
    apply group_view_entry in H as (k & go & Hk & -> & -> & ->). destruct (gobs_ids k go Hk) as (i & f & G & _ & HG & _ & I).
    destruct (proj1 (I a) Ha) as (x & Hx & Px & Ex). destruct (proj1 (I b) Hb) as (y & Hy & Py & Ey).
    apply (proj1 (seen_by_iff G f x)) in Px. apply (proj1 (seen_by_iff G f y)) in Py. destruct Px as (Fx & Cx). destruct Py as (Fy & Cy).
    exists G, f, x, y. split; [eapply nth_error_In; eauto|]. auto 10.
  - intros (_ & G & f & x & y & HG & Hx & Hy & <- & <- & Fx & Fy & Cx & Cy). apply In_nth_error in HG as (i & HG).
    assert (Sx : seen_by G f x = true) by (apply seen_by_iff; auto). assert (Sy : seen_by G f y = true) by (apply seen_by_iff; auto).
    assert (K : In (Z.of_nat i, f) (mkeys (gt_obs gt))).
    { apply (gto_keys _ _ _ _ GT). exists i, G. split; [auto|]. split; [auto|]. split; [rewrite <- Fx; auto|]. eauto. }
    apply mfind_Some_key in K as (go & Hgo). destruct (gobs_ids _ go Hgo) as (i2 & f2 & G2 & EK & HG2 & _ & I). injection EK as Ei Ef.
    apply Nat2Z.inj in Ei. subst i2. rewrite <- Ef in I. assert (EG : G2 = G) by congruence. rewrite EG in I.
    assert (J : In (rel_board (gp (Z.of_nat i, f) (oo_obj x)) (gp (Z.of_nat i, f) (oo_obj y))) (obj_together (group_views ot gt gp) (oo_obj x) (oo_obj y))).
    { apply obj_together_In. exists (length (go_ids go)), (go_ids go), (gp (Z.of_nat i, f)). split; [apply group_view_In; auto|].
      split; [apply I; eauto|]. split; [apply I; eauto|]. auto. }
    destruct (obj_together (group_views ot gt gp) (oo_obj x) (oo_obj y)); [destruct J|]. eexists. reflexivity.
Qed.

Variables (svd : (nat -> nat -> R) -> quat) (lr : mat3 -> vec3) (uq : bool) (pick : dstate -> nat) (g0 : graph).
Hypothesis Hpick : good_heap pick.
Variable gp : Z * Z -> Z -> pose.
Notation pairs := (computeObjectsPairPose (group_views ot gt gp)).
Notation g := (covis_graph g0 (observed_objects ot (dense ol)) (counts pairs)).
Lemma connected_group a b : connected (counts pairs) a b <-> clos_refl_trans Z (seen_by_group all gl) a b.
Proof.
  unfold connected. split; induction 1; try apply rt_refl; try (eapply rt_trans; eassumption).
  - apply rt_step. apply (objects_covisible gp). auto.
  - apply rt_step. apply (objects_covisible gp). auto.
Qed.

(** board b belongs to object number j *)
Definition in_object (j : nat) (b : Z) : Prop := exists bs, nth_error bss j = Some bs /\ In b (map fst bs).
Lemma merge_stage_main : exists ol' bss', merge_stage svd lr uq pick g0 bpts (dense ol) ot gt gp = Some (dense ol') /\ objects_ok bpts bss' ol' /\
  (forall b, In b (map fst (concat bss')) <-> exists j oo, in_object j b /\ In oo all /\ oo_obj oo = Z.of_nat j) /\
  (forall i j a b, in_object i a -> in_object j b -> In a (map fst (concat bss')) -> In b (map fst (concat bss')) ->
     ((exists bs, In bs bss' /\ In a (map fst bs) /\ In b (map fst bs)) <-> clos_refl_trans Z (seen_by_group all gl) (Z.of_nat i) (Z.of_nat j))) /\
  forall tr, initInterTransform svd lr uq pairs = Some tr ->
    forall bs', In bs' bss' -> exists c, In c (connectedComponents g) /\ forall b Q, In (b, Q) bs' -> merged_in bss (observed_objects ot (dense ol)) (counts pairs) tr pick g0 c b Q.
Proof.
  assert (TG := objects_table_good gp). assert (PP := good_proper _ _ TG).
  destruct observed_objects_ok as (So & O).
  destruct (transforms_total svd lr uq pairs (gt_sorted _ _ TG) (gt_nonempty _ _ TG)) as (tr & E & K & R).
  assert (Keys : mkeys tr = mkeys (counts pairs)) by (rewrite counts_keys; auto).
  assert (Known : forall j, In j (observed_objects ot (dense ol)) -> exists o, mfind j (dense ol) = Some o).
  { intros j Hj. apply O in Hj as (oo & Ho & <-). destruct (Objs oo Ho) as (i & o & Hi & ->). exists o. rewrite dense_find. auto. }
  destruct (mergeObjects_ok bpts bss ol OK (observed_objects ot (dense ol)) (counts pairs) tr PP So Known Keys (good_both _ _ TG) pick Hpick g0) as (ol' & bss' & EO & OK' & LN & MB).
  exists ol', bss'. split; [unfold merge_stage; rewrite E; auto|]. split; [auto|].
  destruct (comps_partition (observed_objects ot (dense ol)) (counts pairs) PP g0) as (ND & CO & CC).
  assert (LB : length bss' = length (connectedComponents g)) by (rewrite <- LN; eapply ok_len; eauto).
  assert (MEM : forall bs', In bs' bss' -> exists c, In c (connectedComponents g) /\ forall b Q, In (b, Q) bs' <-> merged_in bss (observed_objects ot (dense ol)) (counts pairs) tr pick g0 c b Q).
  { intros bs' H. apply In_nth_error in H as (i & Hi). destruct (nth_error_length_ex bss' (connectedComponents g) i bs' LB Hi) as (c & Hc).
    exists c. split; [eapply nth_error_In; eauto|]. intros b Q. apply (MB i c bs'); auto. }
  assert (MEC : forall c, In c (connectedComponents g) -> exists bs', In bs' bss' /\ forall b Q, In (b, Q) bs' <-> merged_in bss (observed_objects ot (dense ol)) (counts pairs) tr pick g0 c b Q).
  { intros c H. apply In_nth_error in H as (i & Hi). destruct (nth_error_length_ex (connectedComponents g) bss' i c (eq_sym LB) Hi) as (bs' & Hc).
    exists bs'. split; [eapply nth_error_In; eauto|]. intros b Q. apply (MB i c bs'); auto. }
  assert (POSE : forall c j, In c (connectedComponents g) -> In (Z.of_nat j) c -> exists T, path_pose step_inv pick g tr (min_of c) (Z.of_nat j) = Some T).
  { intros c j Hc Hj. destruct (comp_path (observed_objects ot (dense ol)) (counts pairs) tr PP pick Hpick g0 step_inv c (Z.of_nat j) Hc Hj) as (l & Rl & ->).
    apply chain_total. eapply route_consecutive; eauto. exact (good_both _ _ TG). }
  assert (BRD : forall c b, In c (connectedComponents g) -> 
     ((exists Q, merged_in bss (observed_objects ot (dense ol)) (counts pairs) tr pick g0 c b Q) <-> exists j, In (Z.of_nat j) c /\ in_object j b)).
  { intros c b Hc. split.
    - intros (Q & j & bs & T & P & Hj & Hbs & Hin & _). exists j. split; auto. exists bs. split; auto. apply (in_map fst) in Hin. auto.
    - intros (j & Hj & bs & Hbs & Hin). apply in_map_iff in Hin as ([b' P] & Eb & Hin). cbn in Eb. subst b'. destruct (POSE c j Hc Hj) as (T & HT).
      exists (pmul T P), j, bs, T, P. auto. }
  split; [|split].
  - intros b. rewrite in_map_iff. split.
    + intros ([b' Q] & Eb & H). cbn in Eb. subst b'. apply in_concat in H as (bs' & Hbs & H). destruct (MEM bs' Hbs) as (c & Hc & M).
      apply M in H. destruct (proj1 (BRD c b Hc) (ex_intro _ Q H)) as (j & Hj & I).
      assert (Z1 : In (Z.of_nat j) (concat (connectedComponents g))) by (apply in_concat; eauto). apply CO, O in Z1 as (oo & Ho & Eo). eauto.
    + intros (j & oo & I & Ho & Eo). assert (Z1 : In (Z.of_nat j) (concat (connectedComponents g))) by (apply CO, O; eauto).
      apply in_concat in Z1 as (c & Hc & Hj). destruct (proj2 (BRD c b Hc)) as (Q & HQ); [eauto|]. destruct (MEC c Hc) as (bs' & Hbs & M).
      exists (b, Q). split; auto. apply in_concat. exists bs'. split; auto. apply M. auto.
  - intros i j a b Ia Ib Ha Hb.
    assert (UNI : forall x y k l, in_object k x -> in_object l y -> x = y -> k = l).
    { intros x y k l (bs1 & N1 & M1) (bs2 & N2 & M2) ->. apply in_map_iff in M1 as ([? P1] & E1 & M1). apply in_map_iff in M2 as ([? P2] & E2 & M2). cbn in E1, E2. subst.
      eapply (ok_board_unique bpts bss ol OK k l); eauto. }
    assert (OBS : forall k x, in_object k x -> In x (map fst (concat bss')) -> In (Z.of_nat k) (observed_objects ot (dense ol)) ).
    { intros k x I H. apply in_map_iff in H as ([x' Q] & Ex & H). cbn in Ex. subst x'. apply in_concat in H as (bs' & Hbs & H). destruct (MEM bs' Hbs) as (c & Hc & M).
      apply M in H. destruct (proj1 (BRD c x Hc) (ex_intro _ Q H)) as (k' & Hk & I'). rewrite (UNI x x k k' I I' eq_refl). apply CO. apply in_concat. eauto. }
    rewrite <- connected_group, <- (CC _ _ (OBS i a Ia Ha) (OBS j b Ib Hb)). split.
    + intros (bs & Hbs & Ha' & Hb'). destruct (MEM bs Hbs) as (c & Hc & M). exists c. split; auto.
      apply in_map_iff in Ha' as ([a' P1] & E1 & H1). apply in_map_iff in Hb' as ([b' P2] & E2 & H2). cbn in E1, E2. subst a' b'.
      apply M in H1. apply M in H2. destruct (proj1 (BRD c a Hc) (ex_intro _ P1 H1)) as (i' & Hi & Ia'). destruct (proj1 (BRD c b Hc) (ex_intro _ P2 H2)) as (j' & Hj & Ib').
      rewrite (UNI a a i i' Ia Ia' eq_refl), (UNI b b j j' Ib Ib' eq_refl). auto.
    + intros (c & Hc & Hi & Hj). destruct (MEC c Hc) as (bs' & Hbs & M). exists bs'. split; auto.
      destruct (proj2 (BRD c a Hc)) as (P1 & H1); [eauto|]. destruct (proj2 (BRD c b Hc)) as (P2 & H2); [eauto|].
      apply M in H1. apply M in H2. apply (in_map fst) in H1. apply (in_map fst) in H2. auto.
  - intros tr' E' bs' Hbs. assert (tr' = tr) by congruence. subst tr'. destruct (MEM bs' Hbs) as (c & Hc & M). exists c. split; auto. intros b Q. apply M.
Qed.

(** noise-free *)
Variables (W : Z -> pose) (X : Z * Z -> pose).
Hypothesis RW : forall b, rigid (W b).
Definition vpose (j : Z) : pose := match mfind j (dense ol) with Some o => W (ob_ref o) | None => pid end.
Hypothesis EB : forall i bs o b P, nth_error bss i = Some bs -> nth_error ol i = Some o -> In (b, P) bs -> P = pmul (pinv (W (ob_ref o))) (W b).
Hypothesis EX : exact_group_poses gt vpose X gp.
Hypothesis Hsvd : svd_ok svd.
Hypothesis Hlr : log_ok lr.
Lemma object_transforms_exact : exists tr, initInterTransform svd lr uq pairs = Some tr /\ mkeys tr = mkeys pairs /\
  forall a b p, mfind (a, b) tr = Some p -> p = pmul (pinv (vpose b)) (vpose a).
Proof.
  assert (TG := objects_table_good gp).
  destruct (initInterTransform_exact svd lr uq pairs (fun k => pmul (pinv (vpose (snd k))) (vpose (fst k))) Hsvd Hlr) as (tr & E & K & F).
  - intros [a b] ps Hin. split; [eapply gt_nonempty; eauto|]. cbn [fst snd].
    destruct EX as (HV & HX & HO). split; [apply rigid_mul; auto; apply rigid_inv; auto|].
    intros p Hin2. apply In_mfind in Hin; [|apply TG]. rewrite objects_table in Hin by apply views_ogated. destruct (Z.eqb a b); [discriminate|].
    apply as_vector_Some in Hin as (<- & _). apply obj_together_In in Hin2 as (n & ids & P & H & Ha & Hb & ->).
    apply group_view_entry in H as (k & go & Hk & -> & -> & ->). rewrite (HO k go a Hk Ha), (HO k go b Hk Hb).
    unfold rel_board. rewrite pinv_pmul by auto. rewrite <- pmul_assoc, (pmul_assoc (pinv (X k))), pinv_l, pmul_id_l by auto. auto.
  - exists tr. split; auto. split; auto. intros a b p H. rewrite F in H. destruct (mfind (a, b) pairs); [|discriminate]. injection H as <-. auto.
Qed.
Lemma merge_stage_exact : exists ol' bss', merge_stage svd lr uq pick g0 bpts (dense ol) ot gt gp = Some (dense ol') /\ objects_ok bpts bss' ol' /\
  forall i bs o b P, nth_error bss' i = Some bs -> nth_error ol' i = Some o -> In (b, P) bs -> P = pmul (pinv (W (ob_ref o))) (W b).
Proof.
  destruct merge_stage_main as (ol' & bss' & E & OK' & _ & _ & M). exists ol', bss'. split; [auto|]. split; [auto|].
  destruct object_transforms_exact as (tr & Et & K & F). assert (TG := objects_table_good gp). assert (PP := good_proper _ _ TG).
  assert (Keys : mkeys tr = mkeys (counts pairs)) by (rewrite counts_keys; auto).
  intros i bs o b P Hb Ho Hin. destruct (M tr Et bs (nth_error_In _ _ Hb)) as (c & Hc & MI).
  assert (EQ : forall b P, In (b, P) bs -> P = pmul (pinv (vpose (min_of c))) (W b)).
  { clear b P Hin. intros b P Hin. apply MI in Hin as (j & bs0 & T & P0 & Hj & Hbs & H0 & HT & ->).
    rewrite (component_exact_inv (observed_objects ot (dense ol)) (counts pairs) tr PP Keys (good_both _ _ TG) pick Hpick g0 vpose c (Z.of_nat j)) in HT; auto; [|apply EX].
    injection HT as <-. destruct (nth_error_length_ex bss ol j bs0 (ok_len _ _ _ OK) Hbs) as (oj & Hoj).
    rewrite (EB j bs0 oj b P0 Hbs Hoj H0). replace (vpose (Z.of_nat j)) with (W (ob_ref oj)) by (unfold vpose; rewrite dense_find, Hoj; auto).
    rewrite <- pmul_assoc, (pmul_assoc (W (ob_ref oj))), pinv_r, pmul_id_l by auto. auto. }
  assert (OR : origin_ok o) by (eapply ok_or; eauto). assert (WB := ok_wb _ _ _ OK' i bs o Hb Ho).
  assert (HR : In (ob_ref o, pid) bs) by (apply (wb_poses _ _ _ WB); apply OR).
  assert (RV : rigid (vpose (min_of c))) by apply EX.
  rewrite (EQ b P Hin). f_equal. f_equal. apply EQ in HR.
  rewrite <- (pmul_id_l (W (ob_ref o))), <- (pinv_r (vpose (min_of c)) RV), <- pmul_assoc, <- HR, pmul_id_r. auto.
Qed.
End M.
