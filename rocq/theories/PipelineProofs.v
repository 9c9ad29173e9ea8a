(** The workflow keeps objects, groups and observations consistent. *)
From Coq Require Import List ZArith QArith Lia Reals Permutation Sorted Relations.
From Verif Require Import SMap GraphModel GraphSpec GraphDijkstra DataModel DataSpec DetectModel GeomModel GeomSpec GeomProofs ChainModel ChainSpec ChainProofs ChainCam
  ObjectsModel ObjectsSpec ObjectsProofs ObjectsSave ObjectsBuild ObjectsMerge ObjectsObs
  GroupModel GroupSpec GroupProofs GroupMerge GroupObs StageModel StageSpec StageProofs StageMain StageCams StageMerge
  PipelineModel PipelineSpec StalePairs.
Import ListNotations.
Close Scope Q_scope.
Close Scope R_scope.
Open Scope nat_scope.

Lemma map_dense {A B} (f : A -> B) l : map (fun '(k, a) => (k, f a)) (dense l) = dense (map f l).
Proof.
  unfold dense. generalize 0 as s. induction l as [|a l IH]; intros s; cbn; auto. f_equal. apply IH.
Qed.
Lemma dense_nth {V} (l : list V) i v : nth_error l i = Some v -> mfind (Z.of_nat i) (dense l) = Some v.
Proof. intros H. apply In_mfind; [apply dense_sorted|]. apply dense_In. eauto. Qed.

Section Refine.
Variable bpts : Z -> list vec3.
(** boards of the refined objects *)
Definition refit (rf : obj3d -> smap Z pose) (bss : list (list (Z * pose))) (ol : list obj3d) : list (list (Z * pose)) :=
  map (fun '(bs, o) => with_poses (rf o) bs) (combine bss ol).
Definition retake (rf : obj3d -> smap Z pose) (ol : list obj3d) : list obj3d := map (fun o => updateObjectPts bpts o (rf o)) ol.
Lemma refine_dense rf ol : refine_objects bpts rf (dense ol) = dense (retake rf ol).
Proof. unfold refine_objects. apply (map_dense (fun o => updateObjectPts bpts o (rf o))). Qed.
Lemma refit_nth rf bss : forall ol i bs o, nth_error bss i = Some bs -> nth_error ol i = Some o ->
  nth_error (refit rf bss ol) i = Some (with_poses (rf o) bs).
Proof.
  unfold refit. induction bss as [|b bss IH]; intros [|a ol] [|i] bs o H1 H2; cbn in *; try discriminate; [congruence|].
  apply IH; auto.
Qed.
Lemma refit_fst rf bss : forall ol, length bss = length ol -> map (map fst) (refit rf bss ol) = map (map fst) bss.
Proof.
  unfold refit. induction bss as [|b bss IH]; intros [|a ol] L; cbn in *; try discriminate; auto.
  f_equal; [apply with_poses_fst|]. apply IH. lia.
Qed.
Lemma refit_concat rf bss ol : length bss = length ol -> map fst (concat (refit rf bss ol)) = map fst (concat bss).
Proof. intros L. rewrite !concat_map, refit_fst; auto. Qed.
Lemma refine_objects_ok rf bss ol : objects_ok bpts bss ol -> keeps_boards rf -> objects_ok bpts (refit rf bss ol) (retake rf ol).
Proof.
  intros OK K. assert (L := ok_len _ _ _ OK).
  assert (LR : length (refit rf bss ol) = length bss) by (unfold refit; rewrite map_length, combine_length; lia).
  constructor.
  - apply Forall2_nth. split; [unfold retake; rewrite map_length; lia|].
    intros i bs' o' H1 H2. unfold retake in H2. rewrite nth_error_map in H2.
    destruct (nth_error ol i) as [o|] eqn:Eo; [|discriminate]. injection H2 as <-.
    destruct (nth_error_length_ex ol bss i o (eq_sym L) Eo) as (bs & Eb). rewrite (refit_nth _ _ _ _ _ _ Eb Eo) in H1. injection H1 as <-.
    apply update_ok; [eapply ok_wb; eauto|apply K].
  - rewrite refit_concat; auto. apply OK.
  - unfold retake. rewrite Forall_map. eapply Forall_impl; [|apply (ok_origin _ _ _ OK)]. intros o [A B C].
    constructor; unfold updateObjectPts; cbn [ob_ref ob_boards ob_poses]; auto. destruct (K o) as (_ & ->). auto.
  - unfold retake. rewrite map_map. apply (ok_refs _ _ _ OK).
  - intros i o H. unfold retake in H. rewrite nth_error_map in H. destruct (nth_error ol i) as [o0|] eqn:E; [|discriminate].
    injection H as <-. cbn. apply (ok_ids _ _ _ OK); auto.
Qed.
Lemma gathers_update {pt} (t : tables pt) o poses oo : gathers t o oo -> gathers t (updateObjectPts bpts o poses) oo.
Proof. intros [A B C D]. constructor; auto. Qed.
End Refine.

Definition regroup (rg : cgroup -> smap Z pose) (G : cgroup) : cgroup := mkGrp (cg_id G) (cg_ref G) (cg_cams G) (cg_map G) (rg G).
Definition regroups (rg : cgroup -> smap Z pose) (css : list (list (Z * pose))) (gl : list cgroup) : list (list (Z * pose)) :=
  map (fun '(cs, G) => with_poses (rg G) cs) (combine css gl).
Lemma regroup_dense rg gl : refine_groups rg (dense gl) = dense (map (regroup rg) gl).
Proof. unfold refine_groups. apply (map_dense (regroup rg)). Qed.
Lemma regroups_nth rg css : forall gl i cs G, nth_error css i = Some cs -> nth_error gl i = Some G ->
  nth_error (regroups rg css gl) i = Some (with_poses (rg G) cs).
Proof.
  unfold regroups. induction css as [|b bss IH]; intros [|a ol] [|i] bs o H1 H2; cbn in *; try discriminate; [congruence|].
  apply IH; auto.
Qed.
Lemma regroups_fst rg css : forall gl, length css = length gl -> map (map fst) (regroups rg css gl) = map (map fst) css.
Proof.
  unfold regroups. induction css as [|b bss IH]; intros [|a ol] L; cbn in *; try discriminate; auto.
  f_equal; [apply with_poses_fst|]. apply IH. lia.
Qed.
Lemma regroup_ok rg cs G : grouped cs G -> mkeys (rg G) = mkeys (cg_poses G) -> grouped (with_poses (rg G) cs) (regroup rg G).
Proof.
  intros W K. constructor; rewrite ?with_poses_fst; try apply W. intros b P. cbn [regroup cg_poses]. unfold with_poses. split.
  - intros E. assert (Hb : In b (mkeys (rg G))) by (apply mfind_Some_key; eauto). rewrite K in Hb.
    apply mfind_Some_key in Hb as (P0 & E0). apply (gr_poses _ _ W) in E0. apply in_map_iff. exists (b, P0). rewrite E. auto.
  - intros Hin. apply in_map_iff in Hin as ([b' P0] & [= -> E] & Hin).
    assert (Hk : In b (mkeys (rg G))) by (rewrite K; apply mfind_Some_key; exists P0; apply W; auto).
    apply mfind_Some_key in Hk as (Q & EQ). rewrite EQ in E. congruence.
Qed.
Lemma regroups_ok rg css gl : groups_ok css gl -> keeps_cams rg -> groups_ok (regroups rg css gl) (map (regroup rg) gl).
Proof.
  intros OK K. assert (L := gk_len _ _ OK).
  assert (LR : length (regroups rg css gl) = length css) by (unfold regroups; rewrite map_length, combine_length; lia).
  constructor.
  - apply Forall2_nth. split; [rewrite map_length; lia|]. intros i cs' G' H1 H2. rewrite nth_error_map in H2.
    destruct (nth_error gl i) as [G|] eqn:Eo; [|discriminate]. injection H2 as <-.
    destruct (nth_error_length_ex gl css i G (eq_sym L) Eo) as (cs & Eb). rewrite (regroups_nth _ _ _ _ _ _ Eb Eo) in H1. injection H1 as <-.
    apply regroup_ok; [eapply gk_wb; eauto|apply K].
  - rewrite concat_map, regroups_fst, <- concat_map by auto. apply OK.
  - rewrite Forall_map. eapply Forall_impl; [|apply (gk_origin _ _ OK)]. intros G [A B C].
    constructor; cbn [regroup cg_ref cg_cams cg_poses]; auto. destruct (K G) as (_ & ->). auto.
  - rewrite map_map. apply (gk_refs _ _ OK).
  - intros i G H. rewrite nth_error_map in H. destruct (nth_error gl i) as [o0|] eqn:E; [|discriminate].
    injection H as <-. cbn. apply (gk_ids _ _ OK); auto.
Qed.
Lemma gtables_regroup {pt} (all : list (objobs pt)) frames rg gl gt : gtables_ok all frames gl gt -> gtables_ok all frames (map (regroup rg) gl) gt.
Proof.
  intros [A B C D F F']. constructor; auto.
  - intros gi f. rewrite B. split.
    + intros (i & G & E & H & R). exists i, (regroup rg G). rewrite nth_error_map, H. auto.
    + intros (i & G & E & H & R). rewrite nth_error_map in H. destruct (nth_error gl i) as [G0|] eqn:EG; [|discriminate]. injection H as <-.
      exists i, G0. auto.
  - intros i f G go H. rewrite nth_error_map in H. destruct (nth_error gl i) as [G0|] eqn:EG; [|discriminate]. injection H as <-.
    intros Hf. destruct (C i f G0 go EG Hf) as (H1 & H2 & H3). auto.
Qed.

Section Pipe.
Context {pt : Type}.
Variables (svd : (nat -> nat -> R) -> quat) (lr : mat3 -> vec3) (uq : bool) (pick : dstate -> nat) (g0 : graph).
Hypothesis Hpick : good_heap pick.
Variables (bpts : Z -> list vec3) (nc nb : nat) (ins : list (insertion pt)) (t : tables pt).
Hypothesis AD : after_detection nc nb ins t.
Hypothesis Hp : paired t.
Notation LU := (ad_linked nc nb ins t AD).

(** the objects in [s] are the objects [ol0] with refined poses *)
Lemma retake_nth rf ol i o : nth_error (retake bpts rf ol) i = Some o <-> exists o0, nth_error ol i = Some o0 /\ o = updateObjectPts bpts o0 (rf o0).
Proof.
  unfold retake. rewrite nth_error_map. destruct (nth_error ol i) as [o0|]; cbn.
  - split; [intros [= <-]; eauto|intros (o1 & [= <-] & ->); auto].
  - split; [discriminate|intros (o1 & H & _); discriminate].
Qed.
Lemma pass_cover bss ol n b : objects_ok bpts bss ol -> obs_at t n b -> o_pts b <> [] -> In (o_board b) (map fst (concat bss)) ->
  exists oo, In oo (map snd (pass t (dense ol))) /\ In n (oo_bobs oo).
Proof.
  intros OK Hn Hpts Hb. rewrite concat_map in Hb. apply in_concat in Hb as (l & Hl & Hb). apply in_map_iff in Hl as (bs & <- & Hl).
  apply In_nth_error in Hl as (i & Hi). destruct (nth_error_length_ex bss ol i bs (ok_len _ _ _ OK) Hi) as (o & Ho).
  assert (W := ok_wb _ _ _ OK i bs o Hi Ho).
  destruct (pass_covers t ol n b i o LU Hp Hn Hpts Ho) as (oo & H1 & _ & H2); [apply W; auto|]. eauto.
Qed.

Definition objects_part (bss : list (list (Z * pose))) (ol : list obj3d) (s : calib pt) : Prop :=
  ca_objs s = dense ol /\ objects_ok bpts bss ol /\ otables_ok (ca_oobs s) /\
  (forall oo, In oo (ot_all (ca_oobs s)) -> exists i o, nth_error ol i = Some o /\ oo_obj oo = Z.of_nat i /\ gathers t o oo) /\
  (forall n b, obs_at t n b -> o_pts b <> [] ->
    In (o_board b) (map fst (concat bss)) /\ exists oo, In oo (ot_all (ca_oobs s)) /\ In n (oo_bobs oo)).

Lemma store_pass_part rf bss ol (k : nat) ot : objects_ok bpts bss ol -> keeps_boards rf ->
  (forall n b, obs_at t n b -> o_pts b <> [] -> 0 < k /\ In (o_board b) (map fst (concat bss))) ->
  ot = store_all (concat (repeat (pass t (dense ol)) k)) empty_otables ->
  forall gs gt, objects_part (refit rf bss ol) (retake bpts rf ol) (mkCal (refine_objects bpts rf (dense ol)) ot gs gt).
Proof.
  intros OK K Cov -> gs gt.
  assert (IN : forall e, In e (concat (repeat (pass t (dense ol)) k)) -> In e (pass t (dense ol)))
    by (intros e H; apply in_concat in H as (l & H1 & H2); apply repeat_spec in H1; subst; auto).
  assert (IN' : forall e, 0 < k -> In e (pass t (dense ol)) -> In e (concat (repeat (pass t (dense ol)) k))).
  { intros e Hk H. apply in_concat. exists (pass t (dense ol)). split; auto. destruct k; [lia|left; auto]. }
  split; [apply refine_dense|]. split; [apply refine_objects_ok; auto|]. split; [|split].
  - cbn [ca_oobs]. apply store_all_ok; [apply empty_ok|]. intros key oo H. apply IN in H.
    destruct (pass_ok t ol _ LU Hp H) as (E & _). auto.
  - cbn [ca_oobs]. intros oo H. rewrite store_all_list in H. cbn [ot_all empty_otables app] in H. apply in_map_iff in H as (e & <- & He).
    apply IN in He. destruct (pass_ok t ol _ LU Hp He) as (_ & i & o & Ho & Ei & G).
    exists i, (updateObjectPts bpts o (rf o)). split; [apply retake_nth; eauto|]. split; auto. apply gathers_update. auto.
  - intros n b Hn Hpts. rewrite refit_concat by (apply ok_len with (1 := OK)). destruct (Cov n b Hn Hpts) as (Hk & Hc). split; [auto|].
    destruct (pass_cover bss ol n b OK Hn Hpts Hc) as (oo & H1 & H2). exists oo. split; auto.
    cbn [ca_oobs]. rewrite store_all_list. cbn [ot_all empty_otables app]. apply in_map_iff in H1 as (e & <- & He). apply in_map. apply IN'; auto.
Qed.

(** calibrate3DObjects *)
Lemma objects_part_start bp rf : keeps_boards rf ->
  exists s ol bss, objects_stage svd lr uq pick g0 bpts t bp = Some (dense ol) /\ objects_ok bpts bss ol /\
    calibrate3DObjects svd lr uq pick g0 bpts t bp rf = Some s /\ objects_part (refit rf bss ol) (retake bpts rf ol) s /\
    initAll3DObjectObs t (dense ol) empty_otables = Some (ca_oobs s).
Proof.
  intros K. destruct (objects_stage_main nc nb ins t AD svd lr uq pick g0 Hpick bpts bp) as (ol & bss & E & OK & Cov & _).
  unfold calibrate3DObjects. rewrite E, init_all by auto.
  eexists. exists ol, bss. split; [auto|]. split; [auto|]. split; [reflexivity|]. split; [|apply init_all; auto].
  apply (store_pass_part rf bss ol 1); auto.
  - intros n b Hn _. split; [lia|]. apply Cov. eauto.
  - cbn [repeat concat]. rewrite app_nil_r. auto.
Qed.

Lemma known_frames ot ol : (forall oo, In oo (ot_all ot) -> exists i o, nth_error ol i = Some o /\ oo_obj oo = Z.of_nat i /\ gathers t o oo) ->
  forall oo, In oo (ot_all ot) -> In (oo_frame oo) (mkeys (t_frames t)).
Proof.
  intros H oo Hin. destruct (H oo Hin) as (i & o & _ & _ & G). eapply frames_keys; eauto.
  destruct (oo_bobs oo) as [|n l] eqn:E.
  - exfalso. destruct (ga_content _ _ _ G) as (bs & F & _ & Hpts & _). rewrite E in F. inversion F; subst. apply (ga_nonempty _ _ _ G). auto.
  - assert (Hn : In n (oo_bobs oo)) by (rewrite E; left; auto). apply (ga_bobs _ _ _ G) in Hn as (b & Hb & _ & Hf & _). eauto.
Qed.
(** the tables of object observations of the groups *)
Lemma nums_spec (ot : otables pt) (ol : list obj3d) css gl nums gframes : groups_ok css gl -> otables_ok ot ->
  (forall oo, In oo (ot_all ot) -> exists i o, nth_error ol i = Some o /\ oo_obj oo = Z.of_nat i /\ gathers t o oo) ->
  (forall n b, obs_at t n b -> o_pts b <> [] -> exists oo, In oo (ot_all ot) /\ In n (oo_bobs oo)) ->
  (forall i G, nth_error gl i = Some G -> ptable (Z.of_nat i) nums <> [] -> group_sees t G) ->
  forall i G, nth_error gl i = Some G ->
    (ptable (Z.of_nat i) (gt_nums (initAllCameraGroupObs ot (mkeys (t_frames t)) (dense gl) (mkGT [] [] nums gframes))) <> [] <-> group_sees t G).
Proof.
  intros GK OT Ob Cov N0 i G HG.
  destruct (group_obs_ok ot OT css gl (mkeys (t_frames t)) nums gframes GK) as (_ & RI).
  { apply msorted_NoDup. eapply frames_sorted; eauto. }
  rewrite (ri_nums _ _ _ _ RI). cbn [gt_nums]. split.
  - intros H. destruct (ptable (Z.of_nat i) nums) as [|x l] eqn:E; [|apply (N0 i G HG); rewrite E; discriminate].
    cbn [app] in H. match type of H with ?L <> [] => destruct L as [|n l] eqn:EL; [congruence|] end. clear H.
    assert (Hn : In n (n :: l)) by (left; auto). rewrite <- EL in Hn. apply in_flat_map in Hn as ((G' & f) & He & Hn). cbn [fst snd] in Hn.
    destruct (Z.eqb (cg_id G') (Z.of_nat i)) eqn:Q; [|destruct Hn]. apply Z.eqb_eq in Q. apply steps_In in He as (He & _). cbn in He.
    apply In_nth_error in He as (i' & Hi'). rewrite (gk_ids _ _ GK i' G' Hi') in Q. apply Nat2Z.inj in Q. subst i'. assert (G' = G) by congruence. subst G'.
    apply where_In in Hn as (oo & Hoo & S). apply seen_by_iff in S as (_ & Hc). apply nth_error_In in Hoo.
    destruct (Ob oo Hoo) as (j & o & _ & _ & GA). destruct (ga_content _ _ _ GA) as (bs & F & _ & Hpts & _).
    assert (Ne := ga_nonempty _ _ _ GA). rewrite Hpts in Ne.
    assert (X : exists m b, In m (oo_bobs oo) /\ nth_error (mvals (t_obs t)) m = Some b /\ o_pts b <> []).
    { clear -F Ne. induction F as [|m b ms bs A F IH]; [exfalso; apply Ne; reflexivity|]. cbn in Ne. destruct (o_pts b) eqn:E.
      - destruct IH as (m' & b' & I & R); auto. exists m', b'. split; [right; auto|auto].
      - exists m, b. split; [left; auto|]. split; auto. congruence. }
    destruct X as (m & b & Hm & Hb & Hp'). exists m, b. split; [auto|]. split; [auto|].
    apply (ga_bobs _ _ _ GA) in Hm as (b' & Hb' & Ec & _). assert (b' = b) by congruence. subst. rewrite Ec. auto.
  - intros (n & b & Hn & Hb & Hc) Q. apply app_eq_nil in Q as (_ & Q). destruct (Cov n b Hn Hb) as (oo & Hoo & Hu).
    destruct (Ob oo Hoo) as (j & o & _ & _ & GA). assert (Fr := known_frames ot ol Ob oo Hoo).
    apply (ga_bobs _ _ _ GA) in Hu as (b' & Hb' & Ec & _). unfold obs_at in Hn. assert (b' = b) by congruence. subst b'.
    apply In_nth_error in Hoo as (k & Hk).
    assert (M : In k (flat_map (fun e => if Z.eqb (cg_id (fst e)) (Z.of_nat i) then where_ (seen_by (fst e) (snd e)) (ot_all ot) else []) (steps_of gl (mkeys (t_frames t))))).
    { apply in_flat_map. exists (G, oo_frame oo). split.
      - apply steps_In. cbn. split; [eapply nth_error_In; eauto|auto].
      - cbn [fst snd]. rewrite (gk_ids _ _ GK i G HG), Z.eqb_refl. apply where_In. exists oo. split; auto. apply seen_by_iff. split; auto. rewrite <- Ec. auto. }
    rewrite Q in M. destruct M.
Qed.
Lemma regroup_nth rg (gl : list cgroup) i G : nth_error (map (regroup rg) gl) i = Some G -> exists G0, nth_error gl i = Some G0 /\ cg_cams G = cg_cams G0.
Proof. rewrite nth_error_map. destruct (nth_error gl i) as [G0|]; [|discriminate]. cbn. intros E. injection E as <-. eauto. Qed.
Lemma sees_cams (G G0 : cgroup) : cg_cams G = cg_cams G0 -> (group_sees t G <-> group_sees t G0).
Proof. unfold group_sees. intros ->. tauto. Qed.

(** calibrateCameraGroup after it *)
Lemma calib_ok_start bp rf op rf' rg : keeps_boards rf -> keeps_boards rf' -> keeps_cams rg ->
  exists s s' bss ol css gl, calibrate3DObjects svd lr uq pick g0 bpts t bp rf = Some s /\
    calibrateCameraGroup svd lr uq pick g0 bpts t op rf' rg s = Some s' /\ calib_ok bpts t bss ol css gl s' /\
    (forall c, In c (map fst (concat css)) <-> exists n o, obs_at t n o /\ o_cam o = c).
Proof.
  intros K K' KG. destruct (objects_part_start bp rf K) as (s & ol & bss & _ & OK & E & (E1 & OK1 & OT & Ob & Cov) & Eo).
  destruct (cameras_stage_main nc nb ins t AD Hp bpts bss ol OK (ca_oobs s) Eo svd lr uq pick g0 Hpick op)
    as (gl & css & Eg & GK & GC & _).
  assert (EG : ca_gobs s = empty_gtables) by (unfold calibrate3DObjects in E;
    repeat match type of E with match ?x with _ => _ end = _ => destruct x; try discriminate end; injection E as <-; auto).
  exists s. eexists. exists (refit rf' (refit rf bss ol) (retake bpts rf ol)), (retake bpts rf' (retake bpts rf ol)), (regroups rg css gl), (map (regroup rg) gl).
  split; [auto|]. split; [unfold calibrateCameraGroup; rewrite Eg; reflexivity|]. split.
  - constructor; cbn [ca_objs ca_oobs ca_groups ca_gobs].
    + rewrite E1. apply refine_dense.
    + apply refine_objects_ok; auto.
    + auto.
    + intros oo H. destruct (Ob oo H) as (i & o & H1 & H2 & H3). exists i, (updateObjectPts bpts o (rf' o)).
      split; [apply retake_nth; eauto|]. split; auto. apply gathers_update; auto.
    + intros n b Hn Hpts. destruct (Cov n b Hn Hpts) as (C1 & C2). rewrite refit_concat by (apply ok_len with (1 := OK1)). auto.
    + apply regroup_dense.
    + apply regroups_ok; auto.
    + apply gtables_regroup. rewrite EG.
      destruct (group_obs_ok (ca_oobs s) OT css gl (mkeys (t_frames t)) [] [] GK) as (H & _); auto.
      apply msorted_NoDup. eapply frames_sorted; eauto.
    + intros i G HG. apply regroup_nth in HG as (G0 & HG & Ec). rewrite (sees_cams G G0 Ec), EG. apply (nums_spec (ca_oobs s) _ css gl [] [] GK OT Ob); auto.
      * intros n b Hn Hb. apply (Cov n b Hn Hb).
      * intros i' G' _ Q. exfalso. apply Q. reflexivity.
    + intros c. rewrite concat_map, regroups_fst, <- concat_map by (apply gk_len with (1 := GK)). apply GC.
    + intros n b Hn _. rewrite concat_map, regroups_fst, <- concat_map by (apply gk_len with (1 := GK)). apply GC. eauto.
  - intros c. rewrite concat_map, regroups_fst, <- concat_map by (apply gk_len with (1 := GK)). apply GC.
Qed.

(** merge3DObjects *)
Lemma merge_keeps_ok gp rf rg s bss ol css gl : keeps_boards rf -> keeps_cams rg -> calib_ok bpts t bss ol css gl s ->
  exists s' bss' ol' css' gl' ol0, merge3DObjects svd lr uq pick g0 bpts t gp rf rg s = Some s' /\ calib_ok bpts t bss' ol' css' gl' s' /\
    map (map fst) css' = map (map fst) css /\
    length ol' = length ol0 /\ ot_all (ca_oobs s') = concat (repeat (map snd (pass t (dense ol0))) (length ol0)) /\
    (exists bss0, objects_ok bpts bss0 ol0 /\ map (map fst) bss' = map (map fst) bss0).
Proof.
  intros K KG [E1 OK OT Ob Cov E2 GK GT NU CA KE].
  assert (Objs : forall oo, In oo (ot_all (ca_oobs s)) -> exists i o, nth_error ol i = Some o /\ oo_obj oo = Z.of_nat i)
    by (intros oo H; destruct (Ob oo H) as (i & o & H1 & H2 & _); eauto).
  assert (Fr := known_frames _ _ Ob).
  destruct (merge_stage_main bpts bss ol OK (ca_oobs s) OT Objs gl _ (ca_gobs s) GT Fr svd lr uq pick g0 Hpick gp)
    as (ol' & bss' & Em & OK' & Cov' & _ & _).
  assert (CovN : forall n b, obs_at t n b -> o_pts b <> [] -> In (o_board b) (map fst (concat bss'))).
  { intros n b Hn Hpts. destruct (Cov n b Hn Hpts) as (_ & oo & Hoo & Hu). destruct (Ob oo Hoo) as (i & o & Ho & Ei & G).
    apply (ga_bobs _ _ _ G) in Hu as (b' & Hb' & _ & _ & Hk). unfold obs_at in Hn. assert (b' = b) by congruence. subst b'.
    apply Cov'. exists i, oo. split; [|auto].
    destruct (nth_error_length_ex ol bss i o (eq_sym (ok_len _ _ _ OK)) Ho) as (bs & Hbs). exists bs. split; auto.
    apply (ok_wb _ _ _ OK i bs o Hbs Ho). auto. }
  assert (CovK : forall n b, obs_at t n b -> o_pts b <> [] -> 0 < length ol' /\ In (o_board b) (map fst (concat bss'))).
  { intros n b Hn Hpts. assert (H := CovN n b Hn Hpts). split; auto. rewrite <- (ok_len _ _ _ OK'). destruct bss'; [destruct H|cbn; lia]. }
  set (ot' := store_all (concat (repeat (pass t (dense ol')) (length ol'))) empty_otables).
  set (gt' := mergeAllCameraGroupObs ot' (mkeys (t_frames t)) (dense gl) (ca_gobs s)).
  exists (mkCal (refine_objects bpts rf (dense ol')) ot' (refine_groups rg (dense gl)) gt'),
    (refit rf bss' ol'), (retake bpts rf ol'), (regroups rg css gl), (map (regroup rg) gl), ol'.
  destruct (store_pass_part rf bss' ol' (length ol') ot' OK' K CovK eq_refl (refine_groups rg (dense gl)) gt') as (P1 & P2 & P3 & P4 & P5).
  split; [|split; [|split; [|split; [|split]]]].
  - unfold merge3DObjects. rewrite E1, Em, merge_all, dense_length by auto. rewrite E2. reflexivity.
  - constructor; auto.
    + apply regroup_dense.
    + apply regroups_ok; auto.
    + apply gtables_regroup. unfold gt', mergeAllCameraGroupObs. cbn [ca_oobs].
      destruct (group_obs_ok ot' P3 css gl (mkeys (t_frames t)) (gt_nums (ca_gobs s)) (gt_gframes (ca_gobs s)) GK) as (H & _); auto.
      apply msorted_NoDup. eapply frames_sorted; eauto.
    + intros i G HG. apply regroup_nth in HG as (G0 & HG & Ec). rewrite (sees_cams G G0 Ec). cbn [ca_gobs]. unfold gt', mergeAllCameraGroupObs.
      apply (nums_spec ot' _ css gl _ _ GK P3 P4); auto.
      * intros n b Hn Hb. apply (P5 n b Hn Hb).
      * intros i' G' Hi' Q. apply (NU i' G' Hi'). auto.
    + intros c. rewrite concat_map, regroups_fst, <- concat_map by (apply gk_len with (1 := GK)). apply CA.
    + intros n b Hn Hb. rewrite concat_map, regroups_fst, <- concat_map by (apply gk_len with (1 := GK)). eapply KE; eauto.
  - apply regroups_fst. apply gk_len with (1 := GK).
  - unfold retake. apply map_length.
  - cbn [ca_oobs]. unfold ot'. rewrite store_all_list. cbn [ot_all empty_otables app]. rewrite concat_map. f_equal.
    clear. induction (length ol') as [|k IH]; cbn; [auto|]. f_equal. apply IH.
  - exists bss'. split; auto. apply refit_fst. apply ok_len with (1 := OK').
Qed.

Lemma filter_map_sorted (gl : list cgroup) p : (forall i G, nth_error gl i = Some G -> cg_id G = Z.of_nat i) ->
  StronglySorted Z.lt (map (fun e => cg_id (snd e)) (filter p (dense gl))).
Proof.
  intros H. replace (map (fun e : Z * cgroup => cg_id (snd e)) (filter p (dense gl))) with (map fst (filter p (dense gl))).
  - apply (StageProofs.filter_keys_sorted). apply dense_sorted.
  - apply map_ext_in. intros [k G] Hin. apply filter_In in Hin as (Hin & _). apply dense_In in Hin as (i & -> & Hi). cbn. symmetry. auto.
Qed.
Lemma observed_groups_ok css gl gt : groups_ok css gl -> StronglySorted Z.lt (observed_groups (dense gl) gt) /\
  forall j, In j (observed_groups (dense gl) gt) <-> exists i G, j = Z.of_nat i /\ nth_error gl i = Some G /\ ptable j (gt_nums gt) <> [].
Proof.
  intros GK. split; [apply filter_map_sorted; apply GK|]. intros j. unfold observed_groups. rewrite in_map_iff. split.
  - intros ([k G] & E & Hin). apply filter_In in Hin as (Hin & L). apply dense_In in Hin as (i & -> & Hi). cbn [snd] in *.
    assert (Id := gk_ids _ _ GK i G Hi). exists i, G. split; [congruence|]. split; auto. apply Nat.ltb_lt in L. rewrite E in L.
    destruct (ptable j (gt_nums gt)); [cbn in L; lia|discriminate].
  - intros (i & G & -> & Hi & N). exists (Z.of_nat i, G). assert (Id := gk_ids _ _ GK i G Hi). split; [auto|]. apply filter_In. split; [apply dense_In; eauto|].
    cbn [snd]. rewrite Id. apply Nat.ltb_lt. destruct (ptable (Z.of_nat i) (gt_nums gt)); [congruence|cbn; lia].
Qed.

(** mergeGroups *)
Notation edges prs := (map (fun '(k, (_, n)) => (k, n)) prs).
Notation steps prs := (map (fun '(k, (P, _)) => (k, P)) prs).
Lemma mergeCameraGroup_vertices obs es tr groups : NoDup obs -> (forall a, ~ covisible es a a) ->
  mergeCameraGroup pick (covis_graph g0 obs es) tr groups = mergeCameraGroup pick (covis_graph g0 (vertices obs es) es) tr groups.
Proof.
  intros A C. unfold mergeCameraGroup. rewrite (same_components obs es A C g0). f_equal. f_equal. apply map_ext. intros [i c].
  unfold merge_group, component_poses.
  replace (map (fun m : Z => option_map (pair m) (path_pose step_fwd pick (covis_graph g0 obs es) tr (min_of c) m)) c)
    with (map (fun m : Z => option_map (pair m) (path_pose step_fwd pick (covis_graph g0 (vertices obs es) es) tr (min_of c) m)) c); auto.
  apply map_ext. intros m. rewrite (same_path_pose obs es A C). auto.
Qed.
Lemma merged_parts g tr groups gs c : mergeCameraGroup pick g tr groups = Some gs -> In c (connectedComponents g) ->
  (exists ps, component_poses step_fwd pick g tr c = Some ps) /\ exists r, mfind (min_of c) groups = Some r.
Proof.
  unfold mergeCameraGroup. intros E Hc.
  destruct (collect (map (fun '(i, c) => merge_group pick g tr groups i c) (combine (seq 0 (length (connectedComponents g))) (connectedComponents g)))) as [l|] eqn:EC; [|discriminate].
  apply In_nth_error in Hc as (i & Hi).
  assert (Q : exists G, merge_group pick g tr groups i c = Some G).
  { apply DetectProofs.collect_Some in EC.
    assert (Hx : nth_error (combine (seq 0 (length (connectedComponents g))) (connectedComponents g)) i = Some (i, c)).
    { clear -Hi. generalize (connectedComponents g) as cs, Hi. clear. intros cs Hi.
      assert (W : forall s (cs : list (list Z)) i c, nth_error cs i = Some c -> nth_error (combine (seq s (length cs)) cs) i = Some (s + i, c)).
      { intros s cs0. revert s. induction cs0 as [|x cs0 IH]; intros s [|j] c0 H; cbn in *; try discriminate.
        - injection H as ->. rewrite Nat.add_0_r. auto.
        - rewrite (IH (S s) j c0 H). f_equal. f_equal. lia. }
      apply (W 0). auto. }
    assert (Hy : nth_error (map (fun '(i, c) => merge_group pick g tr groups i c) (combine (seq 0 (length (connectedComponents g))) (connectedComponents g))) i = Some (merge_group pick g tr groups i c))
      by (rewrite nth_error_map, Hx; auto).
    rewrite EC, nth_error_map in Hy. destruct (nth_error l i) as [G|]; [|discriminate]. cbn in Hy. injection Hy as Hy. exists G. auto. }
  destruct Q as (G & Q). unfold merge_group in Q. destruct (component_poses step_fwd pick g tr c); [|discriminate].
  destruct (mfind (min_of c) groups) as [r|]; [eauto|discriminate].
Qed.
Lemma merged_known g tr groups gs c : mergeCameraGroup pick g tr groups = Some gs -> In c (connectedComponents g) -> exists r, mfind (min_of c) groups = Some r.
Proof. intros H Hc. eapply merged_parts; eauto.
Qed.
(** the groups after mergeGroups: the components of the graph, and what they consist of *)
Lemma groups_keep_ok prs s s' bss ol css gl : calib_ok bpts t bss ol css gl s ->
  usable_pairs (observed_groups (ca_groups s) (ca_gobs s)) (length (ca_groups s)) (edges prs) ->
  mergeGroups pick g0 t prs s = Some s' ->
  exists css' gl', calib_ok bpts t bss ol css' gl' s' /\
    ca_objs s' = ca_objs s /\ ca_oobs s' = ca_oobs s /\
    let obs := observed_groups (ca_groups s) (ca_gobs s) in let V := vertices obs (edges prs) in
    let g := covis_graph g0 V (edges prs) in
    proper_pairs V (edges prs) /\ length gl' = length (connectedComponents g) /\
    (forall c, In c (connectedComponents g) -> In (min_of c) obs) /\
    (forall c, In c (connectedComponents g) -> exists ps, component_poses step_fwd pick g (steps prs) c = Some ps) /\
    forall i c cs', nth_error (connectedComponents g) i = Some c -> nth_error css' i = Some cs' -> 
      forall b Q, In (b, Q) cs' <-> gmerged_in css V (edges prs) (steps prs) pick g0 c b Q.
Proof.
  intros [E1 OK OT Ob Cov E2 GK GT NU CA KE] [U2 U3] EM. rewrite E2 in *. rewrite dense_length in U3.
  destruct (observed_groups_ok css gl (ca_gobs s) GK) as (So & IO).
  set (obs := observed_groups (dense gl) (ca_gobs s)) in *. assert (ND : NoDup obs) by (apply sorted_lt_NoDup; auto).
  assert (PP := proper_vertices obs (edges prs) ND U2).
  unfold mergeGroups in EM. rewrite E2 in EM. fold obs in EM.
  destruct (mergeCameraGroup pick (covis_graph g0 obs (edges prs)) (steps prs) (dense gl)) as [gs|] eqn:EG; [|discriminate].
  assert (Kn : forall c, In c (connectedComponents (covis_graph g0 obs (edges prs))) -> exists o, mfind (min_of c) (dense gl) = Some o)
    by (intros c Hc; eapply merged_known; eauto).
  destruct (stale_mins obs (edges prs) ND U2 (length gl) So U3 g0) as (Mi & Mo).
  { intros c Hc. destruct (Kn c Hc) as (r & Hr). apply mfind_In, dense_In in Hr as (i & -> & Hr). assert (i < length gl) by (apply nth_error_Some; congruence). lia. }
  rewrite (same_components obs (edges prs) ND U2 g0) in Mi, Mo, Kn. rewrite (mergeCameraGroup_vertices obs) in EG by auto.
  assert (Tot : forall c, In c (connectedComponents (covis_graph g0 (vertices obs (edges prs)) (edges prs))) ->
    exists ps, component_poses step_fwd pick (covis_graph g0 (vertices obs (edges prs)) (edges prs)) (steps prs) c = Some ps)
    by (intros c Hc; eapply merged_parts; eauto).
  destruct (mergeCameraGroup_ok css gl GK (vertices obs (edges prs)) (edges prs) (steps prs) PP) with (pick := pick) (g0 := g0) as (gl' & css' & E & GK' & L & Mg); auto.
  rewrite E in EG. injection EG as <-. injection EM as <-. exists css', gl'.
  assert (Comps := comps_partition (vertices obs (edges prs)) (edges prs) PP g0). destruct Comps as (CN & CI & _).
  split; [|split; [auto|]; split; [auto|]; split; [auto|]; split; [auto|]; split; [auto|]; split; [auto|auto]].
  constructor; cbn [ca_objs ca_oobs ca_groups ca_gobs]; auto; unfold mergeAllCameraGroupObs; cbn [gt_nums gt_gframes].
  - destruct (group_obs_ok (ca_oobs s) OT css' gl' (mkeys (t_frames t)) [] [] GK') as (H & _); auto.
    apply msorted_NoDup. eapply frames_sorted; eauto.
  - apply (nums_spec (ca_oobs s) ol css' gl' [] [] GK' OT Ob); auto.
    + intros n b Hn Hb. apply (Cov n b Hn Hb).
    + intros i' G' _ Q. exfalso. apply Q. reflexivity.
  - intros c Hc. apply CA. rewrite concat_map in Hc |- *. apply in_concat in Hc as (l & Hl & Hc). apply in_map_iff in Hl as (cs' & <- & Hl).
    apply In_nth_error in Hl as (i & Hi). assert (L' := gk_len css' gl' GK').
    destruct (nth_error_length_ex css' (connectedComponents (covis_graph g0 (vertices obs (edges prs)) (edges prs))) i cs' ltac:(congruence) Hi) as (k & Hk).
    apply in_map_iff in Hc as ((c' & Q) & Ec & Hc). cbn in Ec. subst c'. apply (Mg i k cs' Hk Hi) in Hc as (j & bs & T & P & J1 & J2 & J3 & _).
    apply in_concat. exists (map fst bs). split; [apply in_map; eapply nth_error_In; eauto|]. apply (in_map fst) in J3. auto.
  - intros n b Hn Hb. assert (K0 := KE n b Hn Hb). rewrite concat_map in K0 |- *. apply in_concat in K0 as (l & Hl & Hc). apply in_map_iff in Hl as (bs & <- & Hl).
    apply In_nth_error in Hl as (j & Hj). destruct (nth_error_length_ex css gl j bs (gk_len css gl GK) Hj) as (G & HG).
    apply in_map_iff in Hc as ((c' & P) & Ec & Hc). cbn in Ec. subst c'.
    assert (Oj : In (Z.of_nat j) (vertices obs (edges prs))).
    { apply vertices_In; auto. left. apply IO. exists j, G. split; auto. split; auto. apply (NU j G HG). exists n, b. split; auto. split; auto.
      rewrite (gr_cams _ _ (gk_wb css gl GK j bs G Hj HG)). apply (in_map fst) in Hc. auto. }
    apply CI in Oj. apply in_concat in Oj as (k & Hk & Hjk).
    assert (Hk' := Hk). apply In_nth_error in Hk' as (i & Hi). assert (L' := gk_len css' gl' GK').
    destruct (nth_error_length_ex _ css' i k (eq_trans (eq_sym L) (eq_sym L')) Hi) as (cs' & Hcs').
    apply in_concat. exists (map fst cs'). split; [apply in_map; eapply nth_error_In; eauto|].
    destruct (Tot k Hk) as (ps & Eps). destruct (component_poses_mem _ _ _ _ _ _ _ Eps Hjk) as (T & ET).
    apply (in_map fst _ (o_cam b, pmul P T)). apply (Mg i k cs' Hi Hcs'). exists j, bs, T, P. auto 10.
Qed.
(** no crash when all pairs are of observed groups *)
Lemma groups_merge_total prs s bss ol css gl : calib_ok bpts t bss ol css gl s ->
  proper_pairs (observed_groups (ca_groups s) (ca_gobs s)) (edges prs) -> both_orders (edges prs) -> exists s', mergeGroups pick g0 t prs s = Some s'.
Proof.
  intros [E1 OK OT Ob Cov E2 GK GT NU CA KE] PP Both. rewrite E2 in PP.
  destruct (observed_groups_ok css gl (ca_gobs s) GK) as (So & IO).
  destruct (mergeCameraGroup_ok css gl GK (observed_groups (dense gl) (ca_gobs s)) (edges prs) (steps prs) PP) with (pick := pick) (g0 := g0)
    as (gl' & css' & E & _); auto.
  - intros c Hc. destruct (component_total (observed_groups (dense gl) (ca_gobs s)) (edges prs) (steps prs) PP) with (pick := pick) (g0 := g0) (step := step_fwd) (c := c) as (ps & Eps & _); auto; [|eauto].
    unfold mkeys. rewrite !map_map. apply map_ext. intros [k [P n]]. auto.
  - apply comps_mins; auto.
  - intros c Hc. destruct (comp_facts _ _ PP g0 c Hc) as (N & Iobs & _). destruct (min_of_spec c N) as (Hm & _).
    apply Iobs in Hm. apply IO in Hm as (i & G & -> & Hi & _). exists G. apply dense_nth. auto.
  - unfold mergeGroups. rewrite E2, E. eauto.
Qed.
Lemma proper_usable obs n es : proper_pairs obs es -> usable_pairs obs n es.
Proof. intros [A B C]. constructor; eauto. Qed.

Lemma refine_keeps_ok rf rg s bss ol css gl : keeps_boards rf -> keeps_cams rg -> calib_ok bpts t bss ol css gl s ->
  calib_ok bpts t (refit rf bss ol) (retake bpts rf ol) (regroups rg css gl) (map (regroup rg) gl) (refine_calib bpts rf rg s).
Proof.
  intros K KG [E1 OK OT Ob Cov E2 GK GT NU CA KE]. unfold refine_calib. constructor; cbn [ca_objs ca_oobs ca_groups ca_gobs]; auto.
  - rewrite E1. apply refine_dense.
  - apply refine_objects_ok; auto.
  - intros oo Hoo. destruct (Ob oo Hoo) as (i & o & Ho & Ei & Ga). exists i, (updateObjectPts bpts o (rf o)).
    split; [apply retake_nth; eauto|]. split; [auto|]. apply gathers_update. auto.
  - intros n b Hn Hb. rewrite refit_concat by (apply ok_len with (1 := OK)). eapply Cov; eauto.
  - rewrite E2. apply regroup_dense.
  - apply regroups_ok; auto.
  - apply gtables_regroup. auto.
  - intros i G HG. apply regroup_nth in HG as (G0 & HG & Ec). rewrite (sees_cams G G0 Ec). apply NU. auto.
  - intros c. rewrite concat_map, regroups_fst, <- concat_map by (apply gk_len with (1 := GK)). apply CA.
  - intros n b Hn Hb. rewrite concat_map, regroups_fst, <- concat_map by (apply gk_len with (1 := GK)). eapply KE; eauto.
Qed.

Theorem reached_ok s : reached svd lr uq pick g0 bpts t s -> exists bss ol css gl, calib_ok bpts t bss ol css gl s.
Proof.
  induction 1 as [bp rf op rf' rg s s' K K' KG E1 E2|gp rf rg s s' K KG H (bss & ol & css & gl & IH) E|prs s s' H (bss & ol & css & gl & IH) PP E|rf rg s K KG H (bss & ol & css & gl & IH)].
  - destruct (calib_ok_start bp rf op rf' rg K K' KG) as (s1 & s2 & bss & ol & css & gl & F1 & F2 & C & _).
    assert (s1 = s) by congruence. subst s1. assert (s2 = s') by congruence. subst s2. eauto 10.
  - destruct (merge_keeps_ok gp rf rg s bss ol css gl K KG IH) as (s1 & bss' & ol' & css' & gl' & ol0 & F & C & _).
    assert (s1 = s') by congruence. subst. eauto 10.
  - destruct (groups_keep_ok prs s s' bss ol css gl IH PP E) as (css' & gl' & C & _). eauto 10.
  - exists (refit rf bss ol), (retake bpts rf ol), (regroups rg css gl), (map (regroup rg) gl). apply refine_keeps_ok; auto.
Qed.
End Pipe.
