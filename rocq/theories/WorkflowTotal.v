(** C55: which runs get through. *)
From Coq Require Import List ZArith QArith Lia Reals Lra Permutation Sorted Relations.
From Verif Require Import SMap GraphModel GraphSpec DataModel DataSpec DataProofs DetectModel DetectSpec DetectProofs RansacModel RansacSpec RansacProofs
  GeomModel GeomSpec GeomProofs GeomMedian ChainModel ChainSpec ChainProofs ChainCam
  ObjectsModel ObjectsSpec ObjectsProofs ObjectsSave ObjectsBuild ObjectsMerge ObjectsObs
  GroupModel GroupSpec GroupProofs GroupMerge GroupObs GroupPose StageModel StageSpec StageProofs StageMain StageCams StageMerge
  PipelineModel PipelineSpec PipelineProofs StalePairs ObjectsMain EstimateAll HandEyeModel HandEyeSpec HandEyeProofs CameraModel ResidualModel ResidualSpec ResidualProofs ResidualMain ResidualGroup
  ResidualSolve ResidualAvg FileModel IntrinsicModel GroupAll PropChain PropObjects PropGroup PropStale PropResidual WorkflowModel WorkflowRigid WorkflowProofs WorkflowReach WorkflowWhole RigOwn CompleteSpec.
Import ListNotations.
Close Scope Q_scope.
Close Scope R_scope.
Open Scope nat_scope.

(** ** Sums over positions *)
Lemma where_filter {A} (p : A -> bool) (l : list A) : map (nth_error l) (where_ p l) = map Some (filter p l).
Proof.
  unfold where_. assert (G : forall l pre, map (nth_error (pre ++ l)) (map fst (filter (fun e => p (snd e)) (combine (seq (length pre) (length l)) l))) = map Some (filter p l)).
  { clear l. induction l as [|a l IH]; intros pre; cbn [length seq combine filter map]; [auto|]. cbn [snd].
    specialize (IH (pre ++ [a])). rewrite <- app_assoc, app_length in IH. cbn [app length] in IH. rewrite Nat.add_1_r in IH.
    destruct (p a); cbn [map fst]; [|auto]. rewrite IH. f_equal. rewrite nth_error_app2, Nat.sub_diag by auto. reflexivity. }
  exact (G l []).
Qed.
Definition weight {A B} (g : A -> list B) (x : option A) : nat := match x with Some a => length (g a) | None => 0 end.
Lemma flat_weight {A B} (g : A -> list B) l : length (flat_map g l) = fold_right Nat.add 0 (map (weight g) (map Some l)).
Proof. induction l as [|a l IH]; cbn; [auto|]. rewrite app_length, IH. auto. Qed.
Lemma sum_perm l l' : Permutation l l' -> fold_right Nat.add 0 l = fold_right Nat.add 0 l'.
Proof. induction 1; cbn; lia. Qed.

(** ** All boards of one image are in one object *)
Definition whole {pt} (t : tables pt) (objs : smap Z obj3d) : Prop :=
  forall k o a b, In (k, o) objs -> seen_together t a b -> In a (mkeys (ob_boards o)) -> In b (mkeys (ob_boards o)).
Lemma whole_refine {pt} (t : tables pt) bpts rf objs : whole t objs -> whole t (refine_objects bpts rf objs).
Proof. intros W k o a b H. apply in_map_iff in H as ((k0, o0) & E & H). injection E as <- <-. exact (W k0 o0 a b H). Qed.

Section T.
Variables (svd : (nat -> nat -> R) -> quat) (lr : mat3 -> vec3) (uq : bool) (pick : dstate -> nat) (g0 : graph).
Hypothesis Hh : good_heap pick.
Variables (bpts : Z -> list vec3) (nc nb : nat) (ins : list (insertion pt2)) (t : tables pt2).
Hypothesis AD : after_detection nc nb ins t.
Hypothesis TR : forall o, In o (mvals (t_obs t)) -> trimmed bpts o.
Let Hp : paired t := trimmed_paired bpts t TR.

Lemma in_some bss ol i o b : objects_ok bpts bss ol -> nth_error ol i = Some o -> In b (mkeys (ob_boards o)) -> in_object bss i b.
Proof.
  intros OK Ho Hb. destruct (nth_error_length_ex ol bss i o (eq_sym (ok_len _ _ _ OK)) Ho) as (bs & Hbs). exists bs. split; [auto|].
  apply (wb_boards _ _ _ (ok_wb _ _ _ OK i bs o Hbs Ho)). auto.
Qed.
(** boards of one class are in one object *)
Lemma same_class bss ol i o a b : objects_ok bpts bss ol -> nth_error ol i = Some o -> In a (mkeys (ob_boards o)) ->
  (exists bs, In bs bss /\ In a (map fst bs) /\ In b (map fst bs)) -> In b (mkeys (ob_boards o)).
Proof.
  intros OK Ho Ha (bs' & Hin & Ha' & Hb'). destruct (in_some bss ol i o a OK Ho Ha) as (bs & Hbs & Hab). apply In_nth_error in Hin as (j & Hj).
  assert (E : j = i).
  { assert (ND := ok_disjoint _ _ _ OK). rewrite concat_map in ND. eapply NoDup_concat_unique; [exact ND|rewrite nth_error_map, Hj; reflexivity|rewrite nth_error_map, Hbs; reflexivity|exact Ha'|exact Hab]. }
  subst j. assert (bs' = bs) by congruence. subst bs'. apply (wb_boards _ _ _ (ok_wb _ _ _ OK i bs o Hbs Ho)). auto.
Qed.
Lemma whole_start bp objs : objects_stage svd lr uq pick g0 bpts t bp = Some objs -> whole t objs.
Proof.
  intros E. destruct (objects_stage_main nc nb ins t AD svd lr uq pick g0 Hh bpts bp) as (ol & bss & E' & OK & Obs & Cl & _). assert (objs = dense ol) by congruence. subst objs.
  intros k o a b H S Ha. apply dense_In in H as (i & -> & Ho). eapply same_class; eauto. apply Cl.
  - destruct (in_some bss ol i o a OK Ho Ha) as (bs & Hbs & Hab). rewrite concat_map. apply in_concat. exists (map fst bs). split; [apply in_map; eapply nth_error_In; eauto|auto].
  - apply Obs. destruct S as (_ & n & m & x & y & _ & Hy & _ & Eb & _). eauto.
  - apply rt_step. auto.
Qed.
Lemma whole_merge s gp objs bss ol css gl : calib_ok bpts t bss ol css gl s -> whole t (ca_objs s) -> merge_stage svd lr uq pick g0 bpts (ca_objs s) (ca_oobs s) (ca_gobs s) gp = Some objs -> whole t objs.
Proof.
  intros [E1 OK OT Ob Cov E2 GK GT NU CA KE] W E.
  assert (Objs : forall oo, In oo (ot_all (ca_oobs s)) -> exists i o, nth_error ol i = Some o /\ oo_obj oo = Z.of_nat i)
    by (intros oo H; destruct (Ob oo H) as (i & o & H1 & H2 & _); eauto).
  assert (Fr := known_frames nc nb ins t AD _ _ Ob).
  destruct (merge_stage_main bpts bss ol OK (ca_oobs s) OT Objs gl _ (ca_gobs s) GT Fr svd lr uq pick g0 Hh gp) as (ol' & bss' & Em & OK' & Cov' & Cl & _).
  rewrite E1 in *. assert (objs = dense ol') by congruence. subst objs. intros k o a b H S Ha. apply dense_In in H as (i & -> & Ho).
  assert (Ia : In a (map fst (concat bss'))).
  { destruct (in_some bss' ol' i o a OK' Ho Ha) as (bs & Hbs & Hab). rewrite concat_map. apply in_concat. exists (map fst bs). split; [apply in_map; eapply nth_error_In; eauto|auto]. }
  destruct (proj1 (Cov' a) Ia) as (j & oo & (bs & Hbs & Hja) & Hoo & Ej).
  destruct (nth_error_length_ex bss ol j bs (ok_len _ _ _ OK) Hbs) as (oj & Hoj). assert (WB := ok_wb _ _ _ OK j bs oj Hbs Hoj).
  assert (Hb : In b (mkeys (ob_boards oj))) by (apply (W (Z.of_nat j) oj a b); [apply dense_In; eauto|auto|apply (wb_boards _ _ _ WB); auto]).
  assert (Ib : in_object bss j b) by (eapply in_some; eauto).
  eapply same_class; eauto. apply (Cl j j); auto; [exists bs; auto| |apply rt_refl]. apply Cov'. eauto.
Qed.
Lemma whole_objects bp rf s : calibrate3DObjects svd lr uq pick g0 bpts t bp rf = Some s -> whole t (ca_objs s).
Proof.
  unfold calibrate3DObjects. destruct (objects_stage svd lr uq pick g0 bpts t bp) as [objs|] eqn:E; [|intros H; discriminate H].
  destruct (initAll3DObjectObs t objs empty_otables); [|intros H; discriminate H]. intros H. injection H as <-. apply whole_refine. eapply whole_start; eauto.
Qed.
Lemma whole_reached s : reached svd lr uq pick g0 bpts t s -> whole t (ca_objs s).
Proof.
  induction 1 as [bp rf op rf' rg s s' K K' KG E1 E2|gp rf rg s s' K KG Rd IH E|prs s s' Rd IH UP E|rf rg s K KG Rd IH].
  - apply whole_objects in E1. unfold calibrateCameraGroup in E2. destruct (cameras_stage svd lr uq pick g0 t (ca_oobs s) op); [|discriminate E2].
    injection E2 as <-. apply whole_refine. auto.
  - destruct (reached_ok svd lr uq pick g0 Hh bpts nc nb ins t AD Hp s Rd) as (bss & ol & css & gl & CO). unfold merge3DObjects in E.
    destruct (merge_stage svd lr uq pick g0 bpts (ca_objs s) (ca_oobs s) (ca_gobs s) gp) as [objs|] eqn:Em; [|discriminate E].
    destruct (mergeAllObjectObs t objs); [|discriminate E]. injection E as <-. apply whole_refine. eapply whole_merge; eauto.
  - unfold mergeGroups in E. destruct (mergeCameraGroup _ _ _ _); [|discriminate E]. injection E as <-. exact IH.
  - apply whole_refine. auto.
Qed.

(** an object observation has all corners of its image *)
Lemma image_corners objs oo o : whole t objs -> mfind (oo_obj oo) objs = Some o -> gathers t o oo -> length (oo_pts oo) = corners_left t (oo_cam oo) (oo_frame oo).
Proof.
  intros W Ho Ga. destruct (ga_content _ _ _ Ga) as (l & F & _ & Pts & _). assert (NE := ga_nonempty _ _ _ Ga). unfold corners_left.
  set (p := fun o : bobs pt2 => andb (Z.eqb (o_cam o) (oo_cam oo)) (Z.eqb (o_frame o) (oo_frame oo))). rewrite flat_weight, <- where_filter, map_map.
  assert (E : map (nth_error (mvals (t_obs t))) (oo_bobs oo) = map Some l) by (clear - F; induction F; cbn; [auto|]; f_equal; auto).
  rewrite Pts, flat_weight, <- E, map_map. apply sum_perm, Permutation_map. apply NoDup_Permutation; [apply (ga_nodup _ _ _ Ga)|apply where_NoDup|].
  intros n. rewrite (ga_bobs _ _ _ Ga), where_In. split.
  - intros (b & Hb & C1 & C2 & _). exists b. split; [auto|]. unfold p. rewrite C1, C2, !Z.eqb_refl. auto.
  - intros (b & Hb & P). apply andb_prop in P as (P1 & P2). apply Z.eqb_eq in P1, P2. exists b. split; [auto|]. split; [auto|]. split; [auto|].
    assert (Q : exists m b', In m (oo_bobs oo) /\ nth_error (mvals (t_obs t)) m = Some b').
    { destruct F as [|m b' ms l' Hm F]; [rewrite Pts in NE; cbn in NE; congruence|]. exists m, b'. split; [left; auto|auto]. }
    destruct Q as (m & b' & Hm & Hb'). apply (ga_bobs _ _ _ Ga) in Hm as (b'' & Hb'' & C1 & C2 & C3). assert (b'' = b') by congruence. subst b''.
    destruct (Z.eq_dec (o_board b') (o_board b)) as [<-|N]; [auto|]. apply (W (oo_obj oo) o (o_board b') (o_board b)); [apply mfind_In; auto| |auto].
    split; [auto|]. exists m, n, b', b. unfold obs_at. split; [auto|]. split; [auto|]. split; [auto|]. split; [auto|]. split; congruence.
Qed.
Lemma corners_some c f : corners_left t c f <> 0 <-> exists n b, obs_at t n b /\ o_cam b = c /\ o_frame b = f /\ o_pts b <> [].
Proof.
  unfold corners_left. split.
  - intros H. match type of H with length ?x <> 0 => destruct x as [|q l] eqn:E; [cbn in H; congruence|] end.
    assert (Hq : In q (q :: l)) by (left; auto). rewrite <- E in Hq. apply in_flat_map in Hq as (b & Hb & Hq). apply filter_In in Hb as (Hb & P). apply andb_prop in P as (P1 & P2). apply Z.eqb_eq in P1, P2.
    apply In_nth_error in Hb as (n & Hb). exists n, b. split; [auto|]. split; [auto|]. split; [auto|]. intros Q. rewrite Q in Hq. destruct Hq.
  - intros (n & b & Hn & <- & <- & Hpt) Q. destruct (o_pts b) as [|q l] eqn:E; [congruence|].
    assert (Hq : In q (flat_map o_pts (filter (fun o => andb (Z.eqb (o_cam o) (o_cam b)) (Z.eqb (o_frame o) (o_frame b))) (mvals (t_obs t))))).
    { apply in_flat_map. exists b. split; [|rewrite E; left; auto]. apply filter_In. split; [eapply nth_error_In; eauto|]. rewrite !Z.eqb_refl. auto. }
    destruct (flat_map _ _); [destruct Hq|discriminate Q].
Qed.
(** the object observations cover all corners *)
Definition covered (s : calib pt2) : Prop :=
  (forall oo, In oo (ot_all (ca_oobs s)) -> exists o, mfind (oo_obj oo) (ca_objs s) = Some o /\ gathers t o oo) /\
  (forall n b, obs_at t n b -> o_pts b <> [] -> exists oo, In oo (ot_all (ca_oobs s)) /\ In n (oo_bobs oo)).
Lemma covered_reached s : reached svd lr uq pick g0 bpts t s -> covered s.
Proof.
  intros Rd. split; [apply (reached_gathers bpts svd lr uq pick g0 Hh nc nb ins t AD TR s Rd)|].
  destruct (reached_ok svd lr uq pick g0 Hh bpts nc nb ins t AD Hp s Rd) as (bss & ol & css & gl & CO). intros n b Hn Hb. apply (co_cover _ _ _ _ _ _ _ CO n b Hn Hb).
Qed.
Lemma covered_objects bp rf s : keeps_boards rf -> calibrate3DObjects svd lr uq pick g0 bpts t bp rf = Some s -> covered s.
Proof.
  intros K E. split; [apply (first_gathers bpts svd lr uq pick g0 Hh nc nb ins t AD TR bp rf s K E)|].
  destruct (objects_part_start svd lr uq pick g0 Hh bpts nc nb ins t AD Hp bp rf K) as (s1 & ol & bss & _ & OK & E1 & (P1 & P2 & P3 & P4 & P5) & _).
  assert (s1 = s) by congruence. subst s1. intros n b Hn Hb. apply (P5 n b Hn Hb).
Qed.
Lemma enough_iff s : covered s -> whole t (ca_objs s) -> ((forall oo, In oo (ot_all (ca_oobs s)) -> enough oo) <-> four_or_none t).
Proof.
  intros (GA & CV) W. split.
  - intros H c f. destruct (Nat.eq_dec (corners_left t c f) 0) as [E|E]; [left; auto|right]. destruct (proj1 (corners_some c f) E) as (n & b & Hn & Ec & Ef & Hb).
    destruct (CV n b Hn Hb) as (oo & Hoo & Hin). destruct (GA oo Hoo) as (o & Ho & Ga). assert (Q := H oo Hoo). unfold enough in Q.
    rewrite (image_corners _ oo o W Ho Ga) in Q. destruct (proj1 (ga_bobs _ _ _ Ga n) Hin) as (b' & Hb' & C1 & C2 & _). assert (b' = b) by (unfold obs_at in Hn; congruence). subst b'.
    rewrite <- C1, <- C2, Ec, Ef in Q. auto.
  - intros H oo Hoo. destruct (GA oo Hoo) as (o & Ho & Ga). unfold enough. assert (E := image_corners _ oo o W Ho Ga). destruct (H (oo_cam oo) (oo_frame oo)) as [Q|Q]; [|lia].
    assert (NE := ga_nonempty _ _ _ Ga). destruct (oo_pts oo); [congruence|cbn in E; lia].
Qed.
End T.

(** ** The steps of a run *)
Section Run.
Variables (svd : (nat -> nat -> R) -> quat) (lr : mat3 -> vec3) (uq : bool) (pick : dstate -> nat) (g0 : graph).
Variables (solve : list block -> params -> params) (bpts : Z -> list vec3) (models : Z -> Z) (thresh : R) (it : Z).
Variables (env : nat -> nat -> rs_env par6 vec3) (pose0 : nat -> nat -> par6).
Variable calib2 : list pose -> list pose -> option pose.
Variable fixi : Z.
Hypothesis CE : ceres solve.
Hypothesis Hh : good_heap pick.
Hypothesis LO : log_ok lr.
Hypothesis Fair : forall c n, fair_shuffles (env c n).
Hypothesis Mo : forall c, models c = 0%Z \/ models c = 1%Z.
Hypothesis Hit : (0 < it)%Z.
Hypothesis C2 : forall l l', length l = length l' -> 3 < length l -> exists X, calib2 l l' = Some X.
Hypothesis Rc : forall l l' X, calib2 l l' = Some X -> rigid X.
Variables (nc nb : nat) (ins : list (insertion pt2)) (t : tables pt2).
Hypothesis AD : after_detection nc nb ins t.
Hypothesis TR : forall o, In o (mvals (t_obs t)) -> trimmed bpts o.
Let Hp : paired t := trimmed_paired bpts t TR.
Notation Good := (good svd lr uq pick g0 bpts t).
Notation Objects := (good_objects svd lr uq pick g0 bpts t).

Lemma estimate_step_total c r : (forall k o, In (k, o) (ca_objs (ru_s r)) -> exists bs, well_built bpts bs o) -> covered t (ru_s r) -> whole t (ca_objs (ru_s r)) ->
  ((exists r', estimate_objects_step models thresh it env pose0 c r = Some r') <-> four_or_none t).
Proof.
  intros WB CV W. rewrite <- (enough_iff t (ru_s r) CV W).
  rewrite <- (estimate_objects (env c) (Fair c) (cam_of models (ru_p r)) bpts thresh it t TR (pose0 c) (ru_s r) WB (proj1 CV) (fun a => Mo a) Hit).
  unfold estimate_objects_step. split.
  - intros (r' & E). apply omap_Some in E as (ps & E & _). eauto.
  - intros (ps & E). rewrite E. cbn [option_map]. eauto.
Qed.
Lemma good_estimate_total c r : Good r -> ((exists r', estimate_objects_step models thresh it env pose0 c r = Some r') <-> four_or_none t).
Proof.
  intros G. assert (Rd := gd_reached _ _ _ _ _ _ _ _ G). apply estimate_step_total.
  - apply (reached_gathers bpts svd lr uq pick g0 Hh nc nb ins t AD TR (ru_s r) Rd).
  - apply (covered_reached svd lr uq pick g0 Hh bpts nc nb ins t AD TR (ru_s r) Rd).
  - apply (whole_reached svd lr uq pick g0 Hh bpts nc nb ins t AD TR (ru_s r) Rd).
Qed.
Lemma objects_estimate_total c r : Objects r -> ((exists r', estimate_objects_step models thresh it env pose0 c r = Some r') <-> four_or_none t).
Proof.
  intros G. destruct (go_run _ _ _ _ _ _ _ _ G) as (bp & rf & K & E). apply estimate_step_total.
  - apply (first_gathers bpts svd lr uq pick g0 Hh nc nb ins t AD TR bp rf (ru_s r) K E).
  - apply (covered_objects svd lr uq pick g0 Hh bpts nc nb ins t AD TR bp rf (ru_s r) K E).
  - apply (whole_objects svd lr uq pick g0 Hh bpts nc nb ins t AD bp rf (ru_s r) E).
Qed.
(** objects *)
Lemma new_objects_total r : ru_t r = t -> exists r', new_objects svd lr uq pick g0 bpts r = Some r'.
Proof.
  intros Et. set (bp := fun n => as_matrix (pa_pose (ru_p r) (KBoardObs n))).
  destruct (objects_part_start svd lr uq pick g0 Hh bpts nc nb ins t AD Hp bp ob_poses own_boards) as (s & ol & bss & Es & OK & Ec & _ & Ei).
  unfold new_objects. rewrite Et. fold bp. rewrite Es. cbn [bind]. rewrite Ei. cbn [bind]. eauto.
Qed.
Lemma objects_total r : ru_t r = t -> ((exists r', run_calibrate3DObjects svd lr uq pick g0 solve bpts models thresh it env pose0 r = Some r') <-> four_or_none t).
Proof.
  intros Et. destruct (new_objects_total r Et) as (r1 & E1). destruct (new_objects_good svd lr uq pick g0 bpts Hh LO nc nb ins t AD TR r r1 Et E1) as (G1 & _).
  rewrite <- (objects_estimate_total 1 r1 G1). unfold run_calibrate3DObjects. rewrite E1. cbn [bind]. split.
  - intros (r' & E). apply bind_Some in E as (r2 & E & _). eauto.
  - intros (r2 & E2). rewrite E2. cbn [bind]. destruct (estimate_good_objects svd lr uq pick g0 bpts models thresh it env pose0 t 1 r1 r2 G1 E2) as (G2 & _).
    unfold refine_objects_step. rewrite (go_t _ _ _ _ _ _ _ _ G2).
    destruct (solve_each_total solve (fun p o => object_problem bpts t models p (ca_oobs (ru_s r2)) o) (mvals (ca_objs (ru_s r2))) (ru_p r2)) as (p & Ep).
    { intros o q _. apply object_problem_total. auto. }
    unfold refineAllObject3D. rewrite Ep. cbn [option_map]. eauto.
Qed.
(** camera groups *)
Lemma new_groups_total r : Objects r -> exists r', new_groups svd lr uq pick g0 r = Some r'.
Proof.
  intros G. destruct (go_run _ _ _ _ _ _ _ _ G) as (bp & rf & K & Ec).
  destruct (objects_part_start svd lr uq pick g0 Hh bpts nc nb ins t AD Hp bp rf K) as (s & ol & bss & Es & OK & Ec' & _ & Ei). assert (s = ru_s r) by congruence. subst s.
  destruct (cameras_stage_main nc nb ins t AD Hp bpts bss ol OK (ca_oobs (ru_s r)) Ei svd lr uq pick g0 Hh (fun n => as_matrix (pa_pose (ru_p r) (KObjObs n)))) as (gl & css & Eg & _).
  unfold new_groups. rewrite (go_t _ _ _ _ _ _ _ _ G), Eg. cbn [bind]. eauto.
Qed.
(** the last element with a property *)
Lemma last_with {A} (P : A -> bool) (l : list A) : (forall x, In x l -> P x = false) \/ exists a x b, l = a ++ x :: b /\ P x = true /\ forall y, In y b -> P y = false.
Proof.
  induction l as [|y l [IH|(a & x & b & -> & Px & Pb)]]; [left; intros x []| |right; exists (y :: a), x, b; auto].
  destruct (P y) eqn:E; [right; exists [], y, l; auto|left]. intros x [<-|H]; auto.
Qed.
Lemma group_poses_total r : Good r -> exists r', group_poses_step svd lr uq r = Some r'.
Proof.
  intros XG. assert (Rd := gd_reached _ _ _ _ _ _ _ _ XG).
  unfold group_poses_step. set (s := ru_s r) in *. set (op := fun n => as_matrix (pa_pose (ru_p r) (KObjObs n))).
  set (R := computeAllObjPoseInCameraGroup svd lr uq (ot_all (ca_oobs s)) (ca_groups s) (ca_gobs s) op (ru_gp r)).
  set (Fn := fun (k : Z * Z) (o : Z) => match mfind k (fst R) with Some m => match mfind o m with Some (Some v) => v | _ => (vzero, vzero) end | None => (vzero, vzero) end).
  assert (V : forall k f G n oo, mfind k (ca_groups s) = Some G -> made_by (ot_all (ca_oobs s)) G f n oo ->
    exists m v, mfind (k, f) (fst R) = Some m /\ mfind (oo_obj oo) m = Some (Some v)).
  { intros k f G n oo HG M.
    destruct (C32_object_poses_in_groups pt2 svd lr uq pick g0 Hh bpts nc nb ins t AD Hp s Rd op (ru_gp r) k f G (oo_obj oo) n oo HG M eq_refl)
      as (L & v & m & p & NE & _ & _ & _ & E1 & E2 & Ref & Avg & _). fold R in E1. exists m.
    destruct (last_with (fun n => match nth_error (ot_all (ca_oobs s)) n with Some oo => Z.eqb (oo_cam oo) (cg_ref G) | None => false end) L) as [No|(a & x & b & EL & Px & Pb)].
    - rewrite Avg in E2. 
      + destruct (average_rotation_total svd lr uq (map (fun n => fst (v n)) L)) as (ro & Er); [destruct L; [congruence|intros Q; discriminate Q]|]. rewrite Er in E2. cbn [option_map] in E2. eauto.
      + intros n' oo' H1 H2 H3. assert (Q := No n' H1). cbn beta in Q. rewrite H2, H3, Z.eqb_refl in Q. discriminate Q.
    - destruct (nth_error (ot_all (ca_oobs s)) x) as [ox|] eqn:Ex; [|discriminate Px]. apply Z.eqb_eq in Px. rewrite (Ref a x b ox EL Ex Px) in E2; [eauto|].
      intros n' oo' H1 H2 H3. assert (Q := Pb n' H1). cbn beta in Q. rewrite H2, H3, Z.eqb_refl in Q. discriminate Q. }
  destruct (reached_ok svd lr uq pick g0 Hh bpts nc nb ins t AD Hp s Rd) as (bss & ol & css & gl & CO).
  destruct (C31_group_observations pt2 svd lr uq pick g0 Hh bpts nc nb ins t AD Hp s Rd) as (K1 & K2 & _).
  destruct (all_poses_shape svd lr uq (ot_all (ca_oobs s)) (ca_groups s) (ca_gobs s) op (ru_gp r)) as (SR & Sh). fold R in SR, Sh.
  assert (A : forall k om o v, In (k, om) (fst R) -> In (o, v) om -> v = Some (Fn k o)).
  { intros (k, f) om o v Hk Ho. destruct (Sh (k, f) om Hk) as (go & Hgo & Sm & Ids). assert (Io := Ids o v Ho).
    apply In_mfind in Hgo; [|apply (gto_sorted _ _ _ _ (co_gobs _ _ _ _ _ _ _ CO))].
    destruct (proj1 (K1 k f) (ex_intro _ go Hgo)) as (G & n & oo & HG & _). destruct (K2 k f G go HG Hgo) as (_ & _ & L & Nm & Id).
    apply In_nth_error in Io as (j & Hj). destruct (nth_error (go_nums go) j) as [n'|] eqn:En.
    2:{ apply nth_error_None in En. assert (j < length (go_ids go)) by (apply nth_error_Some; congruence). lia. }
    destruct (proj1 (Nm n') (nth_error_In _ _ En)) as (oo' & M'). assert (Q := Id j n' oo' En (proj1 M')). assert (o = oo_obj oo') by congruence. subst o.
    destruct (V k f G n' oo' HG M') as (m & w & E1 & E2). apply In_mfind in Hk; auto. assert (m = om) by congruence. subst m. apply In_mfind in Ho; auto.
    unfold Fn. rewrite E1, E2. congruence. }
  destruct (put_group_total (fst R) Fn (ru_p r) A) as (p' & E & _). rewrite E. cbn [option_map]. eauto.
Qed.
Lemma refine_total r : Good r -> exists r', refine_step solve bpts models r = Some r'.
Proof.
  intros G. destruct (C47_refinement_cannot_fail svd lr uq pick g0 Hh bpts nc nb ins t AD TR (ru_s r) (gd_reached _ _ _ _ _ _ _ _ G) models solve (fun _ => []) [] (ru_p r)) as (_ & _ & _ & (p & E) & _).
  unfold refine_step. rewrite E. cbn [option_map]. eauto.
Qed.
Lemma refine_all_total r : Good r -> exists r', refine_intrinsic_step solve bpts models r = Some r'.
Proof.
  intros G. destruct (C47_refinement_cannot_fail svd lr uq pick g0 Hh bpts nc nb ins t AD TR (ru_s r) (gd_reached _ _ _ _ _ _ _ _ G) models solve (fun _ => []) [] (ru_p r)) as (_ & _ & _ & _ & (p & E)).
  unfold refine_intrinsic_step. rewrite E. cbn [option_map]. eauto.
Qed.
Lemma groups_total r : Objects r -> exists r', run_calibrateCameraGroup svd lr uq pick g0 solve bpts models r = Some r'.
Proof.
  intros G. unfold run_calibrateCameraGroup. destruct (new_groups_total r G) as (r1 & E1). rewrite E1. cbn [bind].
  destruct (new_groups_good svd lr uq pick g0 bpts Hh LO nc nb ins t AD TR r r1 G E1) as (G1 & _).
  destruct (group_poses_total r1 G1) as (r2 & E2). rewrite E2. cbn [bind]. destruct (good_group_poses svd lr uq pick g0 bpts t r1 r2 G1 E2) as (G2 & _). apply refine_total; auto.
Qed.
(** merging of objects *)
Lemma merged_objects_total r : Good r -> exists r', merged_objects svd lr uq pick g0 bpts r = Some r'.
Proof.
  intros G. assert (Rd := gd_reached _ _ _ _ _ _ _ _ G). destruct (reached_ok svd lr uq pick g0 Hh bpts nc nb ins t AD Hp (ru_s r) Rd) as (bss & ol & css & gl & CO).
  destruct (merge_keeps_ok svd lr uq pick g0 Hh bpts nc nb ins t AD Hp (fun k o => as_matrix (pa_pose (ru_p r) (KGroup k o))) ob_poses cg_poses (ru_s r) bss ol css gl own_boards own_cams CO) as (s' & _ & _ & _ & _ & _ & E & _).
  unfold merge3DObjects in E. unfold merged_objects. rewrite (gd_t _ _ _ _ _ _ _ _ G).
  destruct (merge_stage svd lr uq pick g0 bpts (ca_objs (ru_s r)) (ca_oobs (ru_s r)) (ca_gobs (ru_s r)) (fun k o => as_matrix (pa_pose (ru_p r) (KGroup k o)))) as [objs|]; [|discriminate E]. cbn [bind].
  destruct (mergeAllObjectObs t objs); [|discriminate E]. cbn [bind]. eauto.
Qed.
Lemma merge_total c r : Good r -> ((exists r', run_merge3DObjects svd lr uq pick g0 solve bpts models thresh it env pose0 c r = Some r') <-> four_or_none t).
Proof.
  intros G. split.
  - intros (r' & E). apply bind_Some in E as (r1 & E & _). apply (good_estimate_total c r G). eauto.
  - intros H. unfold run_merge3DObjects. destruct (proj2 (good_estimate_total c r G) H) as (r1 & E1). rewrite E1. cbn [bind].
    destruct (good_estimate svd lr uq pick g0 bpts models thresh it env pose0 t c r r1 G E1) as (G1 & _).
    destruct (group_poses_total r1 G1) as (r2 & E2). rewrite E2. cbn [bind]. destruct (good_group_poses svd lr uq pick g0 bpts t r1 r2 G1 E2) as (G2 & _).
    destruct (merged_objects_total r2 G2) as (r3 & E3). rewrite E3. cbn [bind]. destruct (merged_objects_good svd lr uq pick g0 bpts models it env pose0 Hh LO nc nb ins t AD TR r2 r3 G2 E3) as (G3 & _).
    destruct (proj2 (good_estimate_total (S c) r3 G3) H) as (r4 & E4). rewrite E4. cbn [bind].
    destruct (good_estimate svd lr uq pick g0 bpts models thresh it env pose0 t (S c) r3 r4 G3 E4) as (G4 & _).
    destruct (group_poses_total r4 G4) as (r5 & E5). rewrite E5. cbn [bind]. destruct (good_group_poses svd lr uq pick g0 bpts t r4 r5 G4 E5) as (G5 & _). apply refine_total; auto.
Qed.
(** pairs of groups *)
Lemma pairs_total r : exists r', run_pairs calib2 r = Some r'.
Proof.
  unfold run_pairs. set (gp := fun k o => as_matrix (pa_pose (ru_p r) (KGroup k o))).
  assert (T : forall k, exists v, initNonOverlapPair calib2 (ca_gobs (ru_s r)) gp (findPairObjectForNonOverlap (ru_s r)) (fst k) (snd k) = Some v).
  { intros k. unfold initNonOverlapPair. destruct (match mfind (fst k, snd k) (findPairObjectForNonOverlap (ru_s r)) with Some p => p | None => (0%Z, 0%Z) end) as (o1, o2).
    set (ps := common_poses (ca_gobs (ru_s r)) gp (fst k) (snd k) o1 o2). destruct (Nat.leb_spec (length ps) 3); [eauto|].
    destruct (C2 (map fst ps) (map snd ps)) as (X & E); [rewrite !map_length; auto|rewrite map_length; auto|]. rewrite E. eauto. }
  assert (Q : forall l m, exists m', fold_left (fun acc k => match acc with None => None | Some m => match initNonOverlapPair calib2 (ca_gobs (ru_s r)) gp (findPairObjectForNonOverlap (ru_s r)) (fst k) (snd k) with
     None => None | Some None => Some m | Some (Some v) => Some (mset k v m) end end) l (Some m) = Some m').
  { induction l as [|k l IH]; intros m; cbn [fold_left]; [eauto|]. destruct (T k) as ([v|] & ->); apply IH. }
  assert (Q' : exists prs, findPoseNoOverlapAllCamGroup calib2 gp (findPairObjectForNonOverlap (ru_s r)) (ru_s r) = Some prs) by (exact (Q (distinct_pairs (ca_groups (ru_s r))) [])).
  destruct Q' as (m' & E). rewrite E. cbn [option_map]. eauto.
Qed.
(** final estimation and refinement *)
Lemma final_total r : Good r -> ((exists r', run_final svd lr uq solve bpts models thresh it env pose0 fixi r = Some r') <-> four_or_none t).
Proof.
  intros G. split.
  - intros (r' & E). apply bind_Some in E as (r1 & E & _). apply (good_estimate_total 6 r G). eauto.
  - intros H. unfold run_final. destruct (proj2 (good_estimate_total 6 r G) H) as (r1 & E1). rewrite E1. cbn [bind].
    destruct (good_estimate svd lr uq pick g0 bpts models thresh it env pose0 t 6 r r1 G E1) as (G1 & _).
    destruct (group_poses_total r1 G1) as (r2 & E2). rewrite E2. cbn [bind]. destruct (good_group_poses svd lr uq pick g0 bpts t r1 r2 G1 E2) as (G2 & _).
    destruct (refine_total r2 G2) as (r3 & E3). rewrite E3. cbn [bind].
    destruct (good_refine svd lr uq pick g0 solve bpts models CE Hh nc nb ins t AD TR r2 r3 G2 E3) as (G3 & _).
    destruct (Z.eqb fixi 0); [apply refine_all_total; auto|eauto].
Qed.

(** calibrate.cpp 34-42: up to the poses between camera groups *)
Definition first_half (r : run) : option run :=
  bind (run_calibrate3DObjects svd lr uq pick g0 solve bpts models thresh it env pose0 r) (fun r =>
  bind (run_calibrateCameraGroup svd lr uq pick g0 solve bpts models r) (fun r =>
  bind (run_merge3DObjects svd lr uq pick g0 solve bpts models thresh it env pose0 2 r) (run_pairs calib2))).
Definition second_half (r : run) : option run :=
  bind (run_mergeGroups lr pick g0 r) (fun r =>
  bind (run_merge3DObjects svd lr uq pick g0 solve bpts models thresh it env pose0 4 r) (fun r =>
  bind (run_mergeGroups lr pick g0 r) (run_final svd lr uq solve bpts models thresh it env pose0 fixi))).
Lemma first_half_total r : ru_t r = t -> ((exists r', first_half r = Some r') <-> four_or_none t).
Proof.
  intros Et. rewrite <- (objects_total r Et). unfold first_half. split.
  - intros (r' & E). apply bind_Some in E as (r1 & E & _). eauto.
  - intros (r1 & E1). assert (H : four_or_none t) by (apply (objects_total r Et); eauto). rewrite E1. cbn [bind].
    destruct (calibrate3DObjects_good svd lr uq pick g0 solve bpts models thresh it env pose0 CE Hh LO nc nb ins t AD TR r r1 Et E1) as (G1 & _).
    destruct (groups_total r1 G1) as (r2 & E2). rewrite E2. cbn [bind].
    destruct (calibrateCameraGroup_good svd lr uq pick g0 solve bpts models CE Hh LO nc nb ins t AD TR r1 r2 G1 E2) as (G2 & _).
    destruct (proj2 (merge_total 2 r2 G2) H) as (r3 & E3). rewrite E3. cbn [bind]. apply pairs_total.
Qed.
Lemma first_half_good r r4 : ru_t r = t -> first_half r = Some r4 -> Good r4 /\ (forall k P n, In (k, (P, n)) (ru_prs r4) -> rigid P) /\ (symmetric_pairs (ru_prs r4) -> pairs_of_groups t (ru_prs r4) (ru_s r4)).
Proof.
  intros Et E. apply bind_Some in E as (r1 & E1 & E). apply bind_Some in E as (r2 & E2 & E). apply bind_Some in E as (r3 & E3 & E4).
  destruct (calibrate3DObjects_good svd lr uq pick g0 solve bpts models thresh it env pose0 CE Hh LO nc nb ins t AD TR r r1 Et E1) as (G1 & _).
  destruct (calibrateCameraGroup_good svd lr uq pick g0 solve bpts models CE Hh LO nc nb ins t AD TR r1 r2 G1 E2) as (G2 & _).
  destruct (merge_good svd lr uq pick g0 solve bpts models thresh it env pose0 CE Hh LO nc nb ins t AD TR 2 r2 r3 G2 E3) as (G3 & _ & _).
  destruct (good_pairs svd lr uq pick g0 bpts calib2 Hh Rc nc nb ins t AD TR r3 r4 G3 E4) as (G4 & _ & Rp & PG). split; [auto|]. split.
  2:{ intros Sy a b H. destruct (PG a b H) as (N & A & _). split; [auto|]. split; [apply Sy; auto|auto]. }
  intros k P n H. apply (Rp k P n). apply In_mfind; [|auto]. apply omap_Some in E4 as (prs & E4 & ->). cbn [ru_prs].
  exact (fold_sorted (fun k : Z * Z => initNonOverlapPair calib2 (ca_gobs (ru_s r3)) (fun k0 o => as_matrix (pa_pose (ru_p r3) (KGroup k0 o))) (findPairObjectForNonOverlap (ru_s r3)) (fst k) (snd k))
      (distinct_pairs (ca_groups (ru_s r3))) [] prs ltac:(constructor) E4).
Qed.
End Run.
