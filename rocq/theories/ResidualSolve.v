(** What the solver does to the calibration: reference camera and boards stay, the problems
    can always be built, every detection enters with its own corner. *)
From Coq Require Import List ZArith QArith Lia Reals Lra Psatz Permutation Sorted.
From Verif Require Import SMap GraphModel GraphSpec DataModel DataSpec DataProofs DetectModel DetectSpec DetectProofs RansacModel RansacSpec RansacProofs
  GeomModel GeomSpec GeomProofs GeomMedian ChainModel ChainSpec ChainProofs ChainCam
  ObjectsModel ObjectsSpec ObjectsProofs ObjectsSave ObjectsBuild ObjectsMerge ObjectsObs
  GroupModel GroupSpec GroupProofs GroupMerge GroupObs StageModel StageSpec StageProofs StageMain StageCams StageMerge
  PipelineModel PipelineSpec PipelineProofs ObjectsMain EstimateAll CameraModel ResidualModel ResidualSpec ResidualProofs ResidualMain ResidualGroup.
Import ListNotations.
Close Scope Q_scope.
Close Scope R_scope.
Open Scope nat_scope.

(** ** Parameters on which a block does not depend *)
Definition indep (k : pkey) (b : block) : Prop := forall p1 p2, agree_but k p1 p2 -> eval p1 b = eval p2 b.
(** poses that influence a block *)
Definition live_keys (b : block) : list pkey :=
  match b with
  | BIntr _ _ _ kp _ => [kp]
  | BObj _ _ _ rb _ kp kb => kp :: (if rb then [kb] else [])
  | BGroup _ _ _ rc _ kc kp => kp :: (if rc then [kc] else [])
  | BBoth _ _ _ rc rb _ kc kp kb => kp :: (if rc then [kc] else []) ++ (if rb then [kb] else [])
  | BAll _ _ rc rb _ kc kp kb _ => kp :: (if rc then [kc] else []) ++ (if rb then [kb] else [])
  end.
Lemma indep_live k b : ~ In k (live_keys b) -> indep k b.
Proof.
  intros H p1 p2 (EI & EP). 
  destruct b as [m q dt kp c|m q i rb dt kp kb|m q i rc dt kc kp|m q i rc rb dt kc kp kb|m q rc rb dt kc kp kb c]; cbn [live_keys eval] in *.
  - rewrite EI, (EP kp); auto. intros ->. apply H. left. auto.
  - rewrite (EP kp) by (intros ->; apply H; left; auto). destruct rb; auto. rewrite (EP kb); auto. intros ->. apply H. right. left. auto.
  - rewrite (EP kp) by (intros ->; apply H; left; auto). destruct rc; auto. rewrite (EP kc); auto. intros ->. apply H. right. left. auto.
  - rewrite (EP kp) by (intros ->; apply H; left; auto).
    unfold ReprojectionError_CameraGroupAndObjectRef. destruct rc, rb; cbn [app] in H; auto; try (rewrite (EP kc) by (intros ->; apply H; right; left; auto));
      try (rewrite (EP kb) by (intros ->; apply H; cbn; tauto)); auto.
  - rewrite EI, (EP kp) by (intros ->; apply H; left; auto).
    unfold ReprojectionError_CameraGroupAndObjectRefAndIntrinsics. destruct rc, rb; cbn [app] in H; auto; try (rewrite (EP kc) by (intros ->; apply H; right; left; auto));
      try (rewrite (EP kb) by (intros ->; apply H; cbn; tauto)); auto.
Qed.

(** ** Stages *)
Lemma solve_each_inv {A} solve (problem : params -> A -> option (list block)) (I : params -> Prop) l p p' :
  (forall a q bs, In a l -> I q -> problem q a = Some bs -> I (solve bs q)) -> I p -> solve_each solve problem l p = Some p' -> I p'.
Proof.
  intros H. unfold solve_each. revert p. induction l as [|a l IH]; intros p Hp E; cbn [fold_left] in E; [injection E as <-; auto|].
  destruct (problem p a) as [bs|] eqn:Eb; cbn [option_map] in E.
  - apply (IH (fun a q bs Ha => H a q bs (or_intror Ha)) (solve bs p)); auto. apply (H a); auto. left; auto.
  - exfalso. clear -E. induction l; cbn in E; [discriminate|auto].
Qed.
Lemma solve_each_total {A} solve (problem : params -> A -> option (list block)) l p :
  (forall a q, In a l -> exists bs, problem q a = Some bs) -> exists p', solve_each solve problem l p = Some p'.
Proof.
  unfold solve_each. revert p. induction l as [|a l IH]; intros p H; cbn [fold_left]; eauto.
  destruct (H a p (or_introl eq_refl)) as (bs & ->). cbn [option_map]. apply IH. intros; apply H; right; auto.
Qed.
Lemma solve_each_pose {A} solve (problem : params -> A -> option (list block)) l p p' k : ceres solve ->
  (forall a q bs b, In a l -> problem q a = Some bs -> In b bs -> ~ In k (live_keys b)) ->
  solve_each solve problem l p = Some p' -> pa_pose p' k = pa_pose p k.
Proof.
  intros CE H E. apply (solve_each_inv solve problem (fun q => pa_pose q k = pa_pose p k) l p p'); auto.
  intros a q bs Ha Hq Eb. rewrite <- Hq. apply (ce_flat _ CE). intros b Hb. apply indep_live. eapply H; eauto.
Qed.
Lemma solve_each_intr {A} solve (problem : params -> A -> option (list block)) l p p' c : ceres solve ->
  (forall a q bs b, In a l -> problem q a = Some bs -> In b bs -> ~ In c (intr_keys b)) ->
  solve_each solve problem l p = Some p' -> pa_intr p' c = pa_intr p c.
Proof.
  intros CE H E. apply (solve_each_inv solve problem (fun q => pa_intr q c = pa_intr p c) l p p'); auto.
  intros a q bs Ha Hq Eb. rewrite <- Hq. apply (ce_intr _ CE). intros b Hb. eapply H; eauto.
Qed.

(** ** The blocks of a problem *)
Lemma point_blocks_In {A} (mk : vec3 -> pt2 -> A) pts3 ids pts l b : length ids = length pts -> point_blocks mk pts3 ids pts = Some l ->
  (In b l <-> exists i k x m, nth_error ids i = Some (Z.of_nat k) /\ nth_error pts i = Some m /\ nth_error pts3 k = Some x /\ b = mk x m).
Proof.
  intros L E. rewrite point_blocks_eq in E by auto. revert pts l L E. induction ids as [|z ids IH]; intros [|m pts] l L E; try discriminate; cbn [combine map collect] in E.
  - injection E as <-. split; [intros []|]. intros (i & k & x & m & H & _). destruct i; discriminate.
  - cbn [fst snd] in E. destruct (zget pts3 z) as [x|] eqn:Ex; cbn [option_map] in E; [|discriminate].
    destruct (collect _) as [l'|] eqn:E' in E; [|discriminate]. injection E as <-. cbn in L.
    specialize (IH pts l' ltac:(lia) E'). apply zget_nth in Ex as (Hz & Ex). cbn [In]. rewrite IH. split.
    + intros [<-|(i & k & x' & m' & H1 & H2 & H3 & H4)].
      * exists 0, (Z.to_nat z), x, m. cbn. rewrite Z2Nat.id by lia. auto.
      * exists (S i), k, x', m'. auto.
    + intros ([|i] & k & x' & m' & H1 & H2 & H3 & H4); cbn in H1, H2.
      * injection H1 as ->. injection H2 as ->. rewrite Nat2Z.id in Ex. left. congruence.
      * right. exists i, k, x', m'. auto.
Qed.
Lemma point_blocks_shape {A} (mk : vec3 -> pt2 -> A) pts3 ids pts l b : point_blocks mk pts3 ids pts = Some l -> In b l ->
  exists x m, b = mk x m.
Proof.
  unfold point_blocks. intros E H. apply collect_Some in E. apply (in_map Some) in H. rewrite <- E in H. apply in_map_iff in H as ((i, k) & Eq & _).
  destruct (zget pts3 k), (nth_error pts i); try discriminate. injection Eq as <-. eauto.
Qed.
Lemma corner_blocks_shape {A} bpts (mk : Z -> vec3 -> pt2 -> A) o ids pts l b : corner_blocks bpts mk o ids pts = Some l -> In b l ->
  exists bd x m, b = mk bd x m.
Proof.
  unfold corner_blocks. intros E H. apply (gather_In _ _ _ b E) in H as ((i, z) & y & _ & Ey & Hy).
  destruct (nth_error pts i) as [m|], (zget (ob_o2b o) z) as [(bd, k)|]; try discriminate.
  destruct (existsb (Z.eqb bd) (mkeys (ob_boards o))); [|injection Ey as <-; destruct Hy].
  destruct (zget (bpts bd) k) as [q|]; [|discriminate]. injection Ey as <-. destruct Hy as [<-|[]]. eauto.
Qed.

Lemma corner_blocks_total {A} bpts (mk : Z -> vec3 -> pt2 -> A) bs o ids pts : well_built bpts bs o -> length ids = length pts ->
  Forall (fun z => (0 <= z < Z.of_nat (length (ob_pts o)))%Z) ids ->
  exists l, corner_blocks bpts mk o ids pts = Some l /\
    forall b, In b l <-> exists i k bd j q m, nth_error ids i = Some (Z.of_nat k) /\ nth_error pts i = Some m /\
      nth_error (ob_o2b o) k = Some (bd, Z.of_nat j) /\ nth_error (bpts bd) j = Some q /\ b = mk bd q m.
Proof.
  intros W L Rg. rewrite corner_blocks_eq by auto. revert pts L. induction Rg as [|z ids Hz Rg IH]; intros [|m pts] L; try discriminate.
  - exists []. split; [reflexivity|]. intros b. split; [intros []|]. intros (i & k & bd & j & q & m & H & _). destruct i; discriminate.
  - cbn in L. destruct (IH pts ltac:(lia)) as (l & E & IN). cbn [combine]. rewrite gather_cons, E. cbn [fst snd].
    destruct (wb_corner bpts bs o z W Hz) as (bd & j & q & P & E1 & E2 & E3 & EP & EX). rewrite E1, E2, E3.
    exists ([mk bd q m] ++ l). split; [reflexivity|]. cbn [app In]. apply zget_nth in E1 as (_ & E1). apply zget_nth in E3 as (Hj & E3).
    intros b. rewrite IN. split.
    + intros [<-|(i & k & bd' & j' & q' & m' & H1 & H2 & H3 & H4 & H5)].
      * exists 0, (Z.to_nat z), bd, (Z.to_nat j), q, m. cbn. rewrite !Z2Nat.id by lia. auto.
      * exists (S i), k, bd', j', q', m'. auto.
    + intros ([|i] & k & bd' & j' & q' & m' & H1 & H2 & H3 & H4 & H5); cbn in H1, H2.
      * injection H1 as ->. injection H2 as ->. rewrite Nat2Z.id in E1. left.
        rewrite E1 in H3. injection H3 as <- ->. rewrite Nat2Z.id in E3. congruence.
      * right. exists i, k, bd', j', q', m'. auto.
Qed.
Lemma point_blocks_total {A} (mk : vec3 -> pt2 -> A) pts3 ids pts : length ids = length pts ->
  Forall (fun z => (0 <= z < Z.of_nat (length pts3))%Z) ids -> exists l, point_blocks mk pts3 ids pts = Some l.
Proof.
  intros L Rg. rewrite point_blocks_eq by auto. revert pts L. induction Rg as [|z ids Hz Rg IH]; intros [|m pts] L; try discriminate; cbn [combine map collect fst snd]; [eauto|].
  cbn in L. destruct (IH pts ltac:(lia)) as (l & E). 
  destruct (nth_error pts3 (Z.to_nat z)) as [q|] eqn:Eq; [|apply nth_error_None in Eq; lia].
  assert (Ez : zget pts3 z = Some q) by (apply zget_nth; split; [lia|auto]). rewrite Ez. cbn [option_map collect]. rewrite E. cbn. eauto.
Qed.

(** corners of the board observations gathered in an object observation *)
Lemma flat_pairs {A B C} (f : C -> list A) (g : C -> list B) l : (forall c, In c l -> length (f c) = length (g c)) ->
  forall x y, (exists i, nth_error (flat_map f l) i = Some x /\ nth_error (flat_map g l) i = Some y) <->
              exists c i, In c l /\ nth_error (f c) i = Some x /\ nth_error (g c) i = Some y.
Proof.
  intros H x y. induction l as [|c l IH]; cbn [flat_map].
  - split; [intros ([|i] & E & _); discriminate|intros (c & i & [] & _)].
  - assert (Hc := H c (or_introl eq_refl)). specialize (IH (fun c Hc => H c (or_intror Hc))). split.
    + intros (i & E1 & E2). destruct (Nat.lt_ge_cases i (length (f c))) as [Hi|Hi].
      * rewrite nth_error_app1 in E1 by auto. rewrite nth_error_app1 in E2 by lia. exists c, i. split; [left; auto|auto].
      * rewrite nth_error_app2 in E1 by auto. rewrite nth_error_app2 in E2 by lia. rewrite <- Hc in E2.
        destruct (proj1 IH ltac:(eauto)) as (c' & j & Hc' & Q). exists c', j. split; [right; auto|auto].
    + intros (c' & j & [->|Hc'] & E1 & E2).
      * exists j. rewrite !nth_error_app1; auto; apply nth_error_Some; congruence.
      * destruct (proj2 IH ltac:(exists c', j; auto)) as (i & F1 & F2). exists (length (f c) + i).
        rewrite !nth_error_app2 by lia. rewrite <- Hc. replace (length (f c) + i - length (f c)) with i by lia. auto.
Qed.

Section C.
Variables (bpts : Z -> list vec3) (t : tables pt2).
Hypothesis TR : forall o, In o (mvals (t_obs t)) -> trimmed bpts o.
(** the corner (bd, j) with image m in object observation oo is a corner of a board
    observation of the same camera and frame *)
Lemma gathered_corner o oo bs m bd q : well_built bpts bs o -> gathers t o oo ->
  ((exists i k j, nth_error (oo_ids oo) i = Some (Z.of_nat k) /\ nth_error (oo_pts oo) i = Some m /\
      nth_error (ob_o2b o) k = Some (bd, Z.of_nat j) /\ nth_error (bpts bd) j = Some q) <->
   exists n bo, In n (oo_bobs oo) /\ nth_error (mvals (t_obs t)) n = Some bo /\ o_board bo = bd /\ own_corner bpts bo m q).
Proof.
  intros W G. destruct (numbers_right bpts t o oo bs W G) as (l & F & E1 & E2 & N).
  assert (IN : forall bo, In bo l <-> exists n, In n (oo_bobs oo) /\ nth_error (mvals (t_obs t)) n = Some bo).
  { clear -F. induction F as [|n b ns l H F IH]; intros bo; cbn [In]; [split; [intros []|intros (n & [] & _)]|]. unfold obs_at in H. split.
    - intros [<-|Hb]; [eauto|]. apply IH in Hb as (n' & Hn & E). eauto.
    - intros (n' & [<-|Hn] & E); [left; congruence|right; apply IH; eauto]. }
  assert (LE : forall b, In b l -> length (map (b2o o (o_board b)) (o_ids b)) = length (o_pts b)).
  { intros b Hb. apply IN in Hb as (n & _ & Hb). apply nth_error_In in Hb. destruct (TR b Hb) as (T & _). rewrite map_length. auto. }
  split.
  - intros (i & k & j & H1 & H2 & H3 & H4). rewrite E2 in H1. rewrite E1 in H2.
    destruct (proj1 (flat_pairs _ _ l LE (Z.of_nat k) m) ltac:(eauto)) as (bo & i' & Hbo & F1 & F2).
    rewrite nth_error_map in F1. destruct (nth_error (o_ids bo) i') as [z|] eqn:Ez; [|discriminate]. cbn in F1. injection F1 as F1.
    assert (Hbo' := Hbo). apply IN in Hbo' as (n & Hn & Hb).
    destruct (TR bo (nth_error_In _ _ Hb)) as (_ & Rg & _). rewrite Forall_forall in Rg. assert (Iz := nth_error_In _ _ Ez).
    destruct (N bo z Hbo Iz (Rg z Iz)) as (_ & N2). rewrite F1, Nat2Z.id, H3 in N2. injection N2 as Eb Ej. subst bd z.
    exists n, bo. split; [auto|]. split; [auto|]. split; [auto|]. exists i', j. auto.
  - intros (n & bo & Hn & Hb & <- & i & j & H1 & H2 & H3). assert (Hbo : In bo l) by (apply IN; eauto).
    assert (Iz := nth_error_In _ _ H2). 
    destruct (TR bo (nth_error_In _ _ Hb)) as (_ & Rg & _). rewrite Forall_forall in Rg.
    destruct (N bo _ Hbo Iz (Rg _ Iz)) as (N1 & N2). set (z := b2o o (o_board bo) (Z.of_nat j)) in *.
    destruct (proj2 (flat_pairs _ _ l LE z m)) as (i' & F1 & F2).
    { exists bo, i. split; [auto|]. rewrite nth_error_map, H2. cbn. auto. }
    exists i', (Z.to_nat z), j. rewrite E1, E2, Z2Nat.id by lia. auto.
Qed.
End C.

(** ** Stages in a consistent calibration *)
Section S.
Variables (bpts : Z -> list vec3) (t : tables pt2) (cams : Z -> Z).
Variables (bss : list (list (Z * pose))) (ol : list obj3d) (css : list (list (Z * pose))) (gl : list cgroup) (s : calib pt2).
Hypothesis CO : calib_ok bpts t bss ol css gl s.
Hypothesis TR : forall o, In o (mvals (t_obs t)) -> trimmed bpts o.
Hypothesis FR : forall oo, In oo (ot_all (ca_oobs s)) -> In (oo_frame oo) (mkeys (t_frames t)).

Lemma same_object o o' : In o ol -> In o' ol -> ob_id o = ob_id o' -> o = o'.
Proof.
  intros H H' E. destruct CO as [E1 OK OT Ob Cov E2 GK GT NU CA KE]. apply In_nth_error in H as (i & H), H' as (j & H').
  rewrite (ok_ids _ _ _ OK i o H), (ok_ids _ _ _ OK j o' H') in E. assert (i = j) by lia. congruence.
Qed.
Lemma same_group_id G G' : In G gl -> In G' gl -> cg_id G = cg_id G' -> G = G'.
Proof.
  intros H H' E. destruct CO as [E1 OK OT Ob Cov E2 GK GT NU CA KE]. apply In_nth_error in H as (i & H), H' as (j & H').
  rewrite (gk_ids _ _ GK i G H), (gk_ids _ _ GK j G' H') in E. assert (i = j) by lia. congruence.
Qed.
Lemma groups_vals G : In G (mvals (ca_groups s)) <-> In G gl.
Proof. rewrite (co_groups _ _ _ _ _ _ _ CO), dense_vals. tauto. Qed.
Lemma objs_vals o : In o (mvals (ca_objs s)) <-> In o ol.
Proof. rewrite (co_objs _ _ _ _ _ _ _ CO), dense_vals. tauto. Qed.
Lemma view_data_In n oo o : view_data s n = Some (oo, o) -> nth_error (ot_all (ca_oobs s)) n = Some oo /\ In o ol /\ ob_id o = oo_obj oo.
Proof.
  unfold view_data. intros E. destruct (nth_error (ot_all (ca_oobs s)) n) as [oo'|] eqn:En; [|discriminate].
  destruct (mfind (oo_obj oo') (ca_objs s)) as [o'|] eqn:Em; [|discriminate]. injection E as <- <-. split; [auto|].
  destruct (view_ok bpts t bss ol css gl s CO TR n oo' En) as (o2 & bs & V & I1 & I2 & I3 & _). unfold view_data in V. rewrite En, Em in V. injection V as <-. auto.
Qed.

(** blocks of the group problems *)
Lemma group_objects_shape p G bs b : group_objects_problem bpts cams p s G = Some bs -> In b bs ->
  exists n oo o bd q m, nth_error (ot_all (ca_oobs s)) n = Some oo /\ In o ol /\ ob_id o = oo_obj oo /\
    exists k, In (k, n) (group_views_of s G) /\
    b = BBoth m q (pa_intr p (oo_cam oo)) (negb (Z.eqb (cg_ref G) (oo_cam oo))) (negb (Z.eqb (ob_ref o) bd))
                                          (cams (oo_cam oo)) (KCam (cg_id G) (oo_cam oo)) (KGroup k (oo_obj oo)) (KBoard (ob_id o) bd).
Proof.
  intros E H. apply (gather_In _ _ _ b E) in H as ((k, n) & y & Hv & Ey & Hy). destruct (view_data s n) as [(oo, o)|] eqn:V; [|injection Ey as <-; destruct Hy].
  destruct (corner_blocks_shape _ _ _ _ _ _ _ Ey Hy) as (bd & x & m & ->). destruct (view_data_In n oo o V) as (V1 & V2 & V3).
  exists n, oo, o, bd, x, m. split; [auto|]. split; [auto|]. split; [auto|]. exists k. auto.
Qed.
Lemma group_all_shape G bs b : group_all_problem bpts cams s G = Some bs -> In b bs ->
  exists n oo o bd q m, nth_error (ot_all (ca_oobs s)) n = Some oo /\ In o ol /\ ob_id o = oo_obj oo /\
    exists k, In (k, n) (group_views_of s G) /\
    b = BAll m q (negb (Z.eqb (cg_ref G) (oo_cam oo))) (negb (Z.eqb (ob_ref o) bd))
                                          (cams (oo_cam oo)) (KCam (cg_id G) (oo_cam oo)) (KGroup k (oo_obj oo)) (KBoard (ob_id o) bd) (oo_cam oo).
Proof.
  intros E H. apply (gather_In _ _ _ b E) in H as ((k, n) & y & Hv & Ey & Hy). destruct (view_data s n) as [(oo, o)|] eqn:V; [|injection Ey as <-; destruct Hy].
  destruct (corner_blocks_shape _ _ _ _ _ _ _ Ey Hy) as (bd & x & m & ->). destruct (view_data_In n oo o V) as (V1 & V2 & V3).
  exists n, oo, o, bd, x, m. split; [auto|]. split; [auto|]. split; [auto|]. exists k. auto.
Qed.
Lemma group_shape p G bs b : group_problem cams p s G = Some bs -> In b bs ->
  exists n oo q m k, nth_error (ot_all (ca_oobs s)) n = Some oo /\ In (k, n) (group_views_of s G) /\
    b = BGroup m q (pa_intr p (oo_cam oo)) (negb (Z.eqb (cg_ref G) (oo_cam oo))) (cams (oo_cam oo)) (KCam (cg_id G) (oo_cam oo)) (KGroup k (oo_obj oo)).
Proof.
  intros E H. apply (gather_In _ _ _ b E) in H as ((k, n) & y & Hv & Ey & Hy). destruct (view_data s n) as [(oo, o)|] eqn:V; [|injection Ey as <-; destruct Hy].
  destruct (point_blocks_shape _ _ _ _ _ _ Ey Hy) as (x & m & ->). destruct (view_data_In n oo o V) as (V1 & _).
  exists n, oo, x, m, k. auto.
Qed.
Lemma object_shape p o bs b : object_problem bpts t cams p (ca_oobs s) o = Some bs -> In b bs ->
  exists n (bo : bobs pt2) q m, o_valid bo = true /\
    b = BObj m q (pa_intr p (o_cam bo)) (negb (Z.eqb (ob_ref o) (o_board bo))) (cams (o_cam bo)) (KObjObs n) (KBoard (ob_id o) (o_board bo)).
Proof.
  intros E H. apply (gather_In _ _ _ b E) in H as (n & y & Hv & Ey & Hy). destruct (nth_error (ot_all (ca_oobs s)) n) as [oo|]; [|injection Ey as <-; destruct Hy].
  apply (gather_In _ _ _ b Ey) in Hy as (k & y' & _ & Ey' & Hy').
  destruct (nth_error (mvals (t_obs t)) k) as [bo|]; [|injection Ey' as <-; destruct Hy'].
  destruct (o_valid bo) eqn:V; [|injection Ey' as <-; destruct Hy']. destruct (point_blocks_shape _ _ _ _ _ _ Ey' Hy') as (x & m & ->).
  exists n, bo, x, m. auto.
Qed.

(** the poses of reference cameras and reference boards are not live *)
Definition reference (k : pkey) : Prop :=
  (exists G, In G gl /\ k = KCam (cg_id G) (cg_ref G)) \/ (exists o, In o ol /\ k = KBoard (ob_id o) (ob_ref o)).
Lemma ref_live_both m q i dt G oo o bd k key : In G gl -> In o ol -> reference key ->
  ~ In key (live_keys (BBoth m q i (negb (Z.eqb (cg_ref G) (oo_cam oo))) (negb (Z.eqb (ob_ref o) bd)) dt (KCam (cg_id G) (oo_cam oo)) (KGroup k (@oo_obj pt2 oo)) (KBoard (ob_id o) bd))).
Proof.
  intros HG Ho R. cbn [live_keys In]. rewrite in_app_iff. destruct R as [(G' & HG' & ->)|(o' & Ho' & ->)]; intros [E|[E|E]]; try discriminate.
  - destruct (Z.eqb_spec (cg_ref G) (oo_cam oo)) as [Er|Er]; cbn [negb] in E; [destruct E|]. destruct E as [E|[]]. injection E as E1 E2.
    assert (G = G') by (apply same_group_id; auto). subst G'. congruence.
  - destruct (Z.eqb_spec (ob_ref o) bd); cbn [negb] in E; [destruct E|]. destruct E as [E|[]]. discriminate.
  - destruct (Z.eqb_spec (cg_ref G) (oo_cam oo)); cbn [negb] in E; [destruct E|]. destruct E as [E|[]]. discriminate.
  - destruct (Z.eqb_spec (ob_ref o) bd) as [Er|Er]; cbn [negb] in E; [destruct E|]. destruct E as [E|[]]. injection E as E1 E2.
    assert (o = o') by (apply same_object; auto). subst o'. congruence.
Qed.
Lemma ref_live_group m q i dt G oo k key : In G gl -> reference key ->
  ~ In key (live_keys (BGroup m q i (negb (Z.eqb (cg_ref G) (oo_cam oo))) dt (KCam (cg_id G) (oo_cam oo)) (KGroup k (@oo_obj pt2 oo)))).
Proof.
  intros HG R. cbn [live_keys In]. destruct R as [(G' & HG' & ->)|(o' & Ho' & ->)]; intros [E|E]; try discriminate.
  - destruct (Z.eqb_spec (cg_ref G) (oo_cam oo)) as [Er|Er]; cbn [negb] in E; [destruct E|]. destruct E as [E|[]]. injection E as E1 E2.
    assert (G = G') by (apply same_group_id; auto). subst G'. congruence.
  - destruct (Z.eqb_spec (cg_ref G) (oo_cam oo)); cbn [negb] in E; [destruct E|]. destruct E as [E|[]]. discriminate.
Qed.
Lemma ref_live_obj m q i dt o bd n key : In o ol -> reference key ->
  ~ In key (live_keys (BObj m q i (negb (Z.eqb (ob_ref o) bd)) dt (KObjObs n) (KBoard (ob_id o) bd))).
Proof.
  intros Ho R. cbn [live_keys In]. destruct R as [(G' & HG' & ->)|(o' & Ho' & ->)]; intros [E|E]; try discriminate.
  - destruct (Z.eqb_spec (ob_ref o) bd); cbn [negb] in E; [destruct E|]. destruct E as [E|[]]. discriminate.
  - destruct (Z.eqb_spec (ob_ref o) bd) as [Er|Er]; cbn [negb] in E; [destruct E|]. destruct E as [E|[]]. injection E as E1 E2.
    assert (o = o') by (apply same_object; auto). subst o'. congruence.
Qed.

(** the four stages over a calibration *)
Inductive stage (solve : list block -> params -> params) (p p' : params) : Prop :=
| st_objects : refineAllObject3D solve bpts t cams s p = Some p' -> stage solve p p'
| st_group : refineAllCameraGroup solve cams s p = Some p' -> stage solve p p'
| st_both : refineAllCameraGroupAndObjects solve bpts cams s p = Some p' -> stage solve p p'
| st_all : refineAllCameraGroupAndObjectsAndIntrinsic solve bpts cams s p = Some p' -> stage solve p p'.
Lemma stage_reference solve p p' key : ceres solve -> stage solve p p' -> reference key -> pa_pose p' key = pa_pose p key.
Proof.
  intros CE ST R. destruct ST as [E|E|E|E]; eapply solve_each_pose in E; eauto.
  - intros o q bs b Ho Eb Hb. apply objs_vals in Ho. destruct (object_shape _ _ _ _ Eb Hb) as (n & bo & x & m & _ & ->). apply ref_live_obj; auto.
  - intros G q bs b HG Eb Hb. apply groups_vals in HG. destruct (group_shape _ _ _ _ Eb Hb) as (n & oo & x & m & k & _ & _ & ->). apply ref_live_group; auto.
  - intros G q bs b HG Eb Hb. apply groups_vals in HG. destruct (group_objects_shape _ _ _ _ Eb Hb) as (n & oo & o & bd & x & m & _ & Ho & _ & k & _ & ->). apply ref_live_both; auto.
  - intros G q bs b HG Eb Hb. apply groups_vals in HG. destruct (group_all_shape _ _ _ Eb Hb) as (n & oo & o & bd & x & m & _ & Ho & _ & k & _ & ->). 
    apply (ref_live_both m x (pa_intr p 0%Z) (cams (oo_cam oo)) G oo o bd k key HG Ho R).
Qed.

(** ** Every problem can be built *)
Lemma group_problem_total p G : In G gl -> exists bs, group_problem cams p s G = Some bs.
Proof.
  intros HG. apply gather_total. intros (k, n) H. apply (views_In bpts t cams bss ol css gl s CO FR G k n HG) in H as (oo & Hoo & _).
  destruct (view_ok bpts t bss ol css gl s CO TR n oo Hoo) as (o & bs & -> & Io & Hm & Eo & W & OO & Ga & L & Rg). apply point_blocks_total; auto.
Qed.
Lemma group_objects_total p G : In G gl -> exists bs, group_objects_problem bpts cams p s G = Some bs.
Proof.
  intros HG. apply gather_total. intros (k, n) H. apply (views_In bpts t cams bss ol css gl s CO FR G k n HG) in H as (oo & Hoo & _).
  destruct (view_ok bpts t bss ol css gl s CO TR n oo Hoo) as (o & bs & -> & Io & Hm & Eo & W & OO & Ga & L & Rg).
  edestruct (@corner_blocks_total block bpts) as (l & E & _); eauto.
Qed.
Lemma group_all_total G : In G gl -> exists bs, group_all_problem bpts cams s G = Some bs.
Proof.
  intros HG. apply gather_total. intros (k, n) H. apply (views_In bpts t cams bss ol css gl s CO FR G k n HG) in H as (oo & Hoo & _).
  destruct (view_ok bpts t bss ol css gl s CO TR n oo Hoo) as (o & bs & -> & Io & Hm & Eo & W & OO & Ga & L & Rg).
  edestruct (@corner_blocks_total block bpts) as (l & E & _); eauto.
Qed.
Lemma object_problem_total p o : exists bs, object_problem bpts t cams p (ca_oobs s) o = Some bs.
Proof.
  apply gather_total. intros n _. destruct (nth_error (ot_all (ca_oobs s)) n) as [oo|]; [|eauto].
  apply gather_total. intros k _. destruct (nth_error (mvals (t_obs t)) k) as [bo|] eqn:E; [|eauto].
  destruct (o_valid bo); [|eauto]. destruct (TR bo (nth_error_In _ _ E)) as (T1 & T2 & _). apply point_blocks_total; auto.
Qed.
Lemma camera_problem_total c ns : exists bs, camera_problem bpts t cams c ns = Some bs.
Proof.
  apply gather_total. intros k _. destruct (nth_error (mvals (t_obs t)) k) as [bo|] eqn:E; [|eauto].
  destruct (o_valid bo); [|eauto]. destruct (TR bo (nth_error_In _ _ E)) as (T1 & T2 & _). apply point_blocks_total; auto.
Qed.

(** ** Correspondences *)
Lemma camera_problem_In c ns bs b : camera_problem bpts t cams c ns = Some bs ->
  (In b bs <-> exists n bo m q, In n ns /\ nth_error (mvals (t_obs t)) n = Some bo /\ o_valid bo = true /\ own_corner bpts bo m q /\ b = BIntr m q (cams c) (KBoardObs n) c).
Proof.
  intros E. rewrite (gather_In _ _ _ b E). split.
  - intros (n & y & Hn & Ey & Hy). destruct (nth_error (mvals (t_obs t)) n) as [bo|] eqn:En; [|injection Ey as <-; destruct Hy].
    destruct (o_valid bo) eqn:V; [|injection Ey as <-; destruct Hy]. destruct (TR bo (nth_error_In _ _ En)) as (T1 & _).
    apply (point_blocks_In _ _ _ _ _ b (eq_sym T1) Ey) in Hy as (i & k & x & m & H1 & H2 & H3 & ->).
    exists n, bo, m, x. split; [auto|]. split; [auto|]. split; [auto|]. split; [exists i, k; auto|auto].
  - intros (n & bo & m & q & Hn & En & V & (i & k & H1 & H2 & H3) & ->). exists n. rewrite En, V.
    destruct (TR bo (nth_error_In _ _ En)) as (T1 & T2 & _).
    destruct (point_blocks_total (fun q m => BIntr m q (cams c) (KBoardObs n) c) (bpts (o_board bo)) (o_ids bo) (o_pts bo)) as (l & El); auto.
    exists l. split; [auto|]. split; [auto|]. apply (point_blocks_In _ _ _ _ _ _ (eq_sym T1) El). exists i, k, q, m. auto.
Qed.
Lemma object_problem_In p o bs b : In o ol -> object_problem bpts t cams p (ca_oobs s) o = Some bs ->
  (In b bs <-> exists n oo j bo m q, nth_error (ot_all (ca_oobs s)) n = Some oo /\ oo_obj oo = ob_id o /\ In j (oo_bobs oo) /\
     nth_error (mvals (t_obs t)) j = Some bo /\ o_valid bo = true /\ own_corner bpts bo m q /\
     b = BObj m q (pa_intr p (o_cam bo)) (negb (Z.eqb (ob_ref o) (o_board bo))) (cams (o_cam bo)) (KObjObs n) (KBoard (ob_id o) (o_board bo))).
Proof.
  intros Ho E. destruct CO as [E1 OK OT Ob Cov E2 GK GT NU CA KE].
  assert (TB : forall n, In n (table_of (ob_id o) (ot_objs (ca_oobs s))) <-> exists oo, nth_error (ot_all (ca_oobs s)) n = Some oo /\ oo_obj oo = ob_id o).
  { intros n. rewrite (ot_ok_objs _ OT). rewrite where_In. split; intros (oo & H1 & H2); exists oo; split; auto; apply Z.eqb_eq; auto. }
  rewrite (gather_In _ _ _ b E). split.
  - intros (n & y & Hn & Ey & Hy). apply TB in Hn as (oo & Hoo & Eo). rewrite Hoo in Ey.
    apply (gather_In _ _ _ b Ey) in Hy as (j & y' & Hj & Ey' & Hy').
    destruct (nth_error (mvals (t_obs t)) j) as [bo|] eqn:En; [|injection Ey' as <-; destruct Hy'].
    destruct (o_valid bo) eqn:V; [|injection Ey' as <-; destruct Hy']. destruct (TR bo (nth_error_In _ _ En)) as (T1 & _).
    apply (point_blocks_In _ _ _ _ _ b (eq_sym T1) Ey') in Hy' as (i & k & x & m & H1 & H2 & H3 & ->).
    exists n, oo, j, bo, m, x. do 5 (split; [auto|]). split; [exists i, k; auto|auto].
  - intros (n & oo & j & bo & m & q & Hoo & Eo & Hj & En & V & (i & k & H1 & H2 & H3) & ->). exists n. rewrite Hoo.
    destruct (gather_total (fun k => match nth_error (mvals (t_obs t)) k with
          | Some b => if o_valid b then
                        point_blocks (fun q m => BObj m q (pa_intr p (o_cam b)) (negb (Z.eqb (ob_ref o) (o_board b))) (cams (o_cam b))
                                                      (KObjObs n) (KBoard (ob_id o) (o_board b)))
                                     (bpts (o_board b)) (o_ids b) (o_pts b)
                      else Some []
          | None => Some []
          end) (oo_bobs oo)) as (y & Ey).
    { intros a _. destruct (nth_error (mvals (t_obs t)) a) as [bo'|] eqn:E'; [|eauto].
      destruct (o_valid bo'); [|eauto]. destruct (TR bo' (nth_error_In _ _ E')) as (T1 & T2 & _). apply point_blocks_total; auto. }
    exists y. split; [apply TB; eauto|]. split; [auto|]. apply (gather_In _ _ _ _ Ey). exists j. rewrite En, V.
    destruct (TR bo (nth_error_In _ _ En)) as (T1 & T2 & _).
    destruct (point_blocks_total (fun q m => BObj m q (pa_intr p (o_cam bo)) (negb (Z.eqb (ob_ref o) (o_board bo))) (cams (o_cam bo)) (KObjObs n) (KBoard (ob_id o) (o_board bo)))
       (bpts (o_board bo)) (o_ids bo) (o_pts bo)) as (l & El); auto.
    exists l. split; [auto|]. split; [auto|]. apply (point_blocks_In _ _ _ _ _ _ (eq_sym T1) El). exists i, k, q, m. auto.
Qed.
(** a detection of a camera of the group: object observation n (oo, of object o), board
    observation bo *)
Definition detection_in (G : cgroup) (oo : objobs pt2) (o : obj3d) (bo : bobs pt2) : Prop :=
  In oo (ot_all (ca_oobs s)) /\ In (oo_cam oo) (cg_cams G) /\ mfind (oo_obj oo) (ca_objs s) = Some o /\
  exists j, In j (oo_bobs oo) /\ nth_error (mvals (t_obs t)) j = Some bo.
Lemma corners_problem_In (mk : (Z * Z) -> objobs pt2 -> obj3d -> Z -> vec3 -> pt2 -> block) G bs b : In G gl ->
  gather (fun '(k, n) => match view_data s n with
    | Some (oo, o) => corner_blocks bpts (mk k oo o) o (oo_ids oo) (oo_pts oo)
    | None => Some []
    end) (group_views_of s G) = Some bs ->
  (In b bs <-> exists oo o bo m q, detection_in G oo o bo /\ own_corner bpts bo m q /\ b = mk (cg_id G, oo_frame oo) oo o (o_board bo) q m).
Proof.
  intros HG E. rewrite (gather_In _ _ _ b E). split.
  - intros ((k, n) & y & Hv & Ey & Hy). apply (views_In bpts t cams bss ol css gl s CO FR G k n HG) in Hv as (oo & Hoo & -> & HC).
    destruct (view_ok bpts t bss ol css gl s CO TR n oo Hoo) as (o & cs & V & Io & Hm & Eo & W & OO & Ga & L & Rg). rewrite V in Ey.
    destruct (corner_blocks_total bpts (mk (cg_id G, oo_frame oo) oo o) cs o (oo_ids oo) (oo_pts oo) W L Rg) as (l & El & IN). rewrite El in Ey. injection Ey as <-.
    apply IN in Hy as (i & k & bd & j & q & m & H1 & H2 & H3 & H4 & ->).
    destruct (proj1 (gathered_corner bpts t TR o oo cs m bd q W Ga)) as (j' & bo & G1 & G2 & <- & G3); [exists i, k, j; auto|].
    exists oo, o, bo, m, q. split; [|auto]. split; [eapply nth_error_In; eauto|]. split; [auto|]. split; [|eauto].
    unfold view_data in V. rewrite Hoo in V. destruct (mfind (oo_obj oo) (ca_objs s)); congruence.
  - intros (oo & o & bo & m & q & (Hoo & HC & Hm & j' & G1 & G2) & OC & ->). apply In_nth_error in Hoo as (n & Hoo).
    destruct (view_ok bpts t bss ol css gl s CO TR n oo Hoo) as (o' & cs & V & Io & Hm' & Eo & W & OO & Ga & L & Rg).
    assert (o' = o). { unfold view_data in V. rewrite Hoo, Hm in V. congruence. } subst o'.
    exists ((cg_id G, oo_frame oo), n). rewrite V.
    destruct (corner_blocks_total bpts (mk (cg_id G, oo_frame oo) oo o) cs o (oo_ids oo) (oo_pts oo) W L Rg) as (l & El & IN). exists l.
    split; [apply (views_In bpts t cams bss ol css gl s CO FR G _ n HG); eauto|]. split; [auto|]. apply IN.
    destruct (proj2 (gathered_corner bpts t TR o oo cs m (o_board bo) q W Ga)) as (i & k & j & H1 & H2 & H3 & H4); [exists j', bo; auto|].
    exists i, k, (o_board bo), j, q, m. auto.
Qed.
End S.
