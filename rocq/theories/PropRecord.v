(** C68: recordings of the same cameras, or of the same boards, give the same calibration.
    Specification: RecordSpec.v, AppSpec.v, RigSpec.v. *)
From Coq Require Import List ZArith Lia Reals Lra String Bool.
From Verif Require Import SMap DataModel DataSpec DetectModel GeomModel GeomSpec GeomProofs ObjectsModel CameraModel ResidualModel FileModel WorkflowModel InputModel InputSpec
  RigSpec RigExample AppModel AppSpec AppProofs PropApp PropWhole AppExample RecordSpec.
From Verif Require PipelineModel PropGeom.
Import ListNotations.
Close Scope R_scope.
Open Scope nat_scope.
Open Scope string_scope.

(** what an exact run leaves *)
Lemma exact_run w L program path rest s W : exact_start w L path s W ->
  exists es ins r all, main w L (program :: path :: rest) = (es, Returned 0) /\ entering w L s ins /\ rigid_rig W /\ (forall c, rg_model W c = su_models s c) /\
    all_results s r all /\ (forall f, In f (files es) -> In f all) /\ true_results (lb_lr L) s W ins all.
Proof.
  intros [SL SW SO PN Ex Ym C1 Th It (t & C2 & ES & Src)].
  assert (R : exists es ins r all, main w L (program :: path :: rest) = (es, Returned 0) /\ entering w L s ins /\ completed w L path s t r /\
    all_results s r all /\ files es = filter (fun f => w_open w (folders es) (fst f)) all /\ true_results (lb_lr L) s W ins all).
  { destruct Src as [TP|CT]; [apply (C59_exact_data_exact_files w L program path rest s t W); auto|apply (C59_calibrating_the_cameras w L program path rest s t W); auto]. }
  destruct R as (es & ins & r & all & Rm & En & _ & Ar & Ef & Tr). exists es, ins, r, all. destruct (ES ins En) as [Em Er _ _ _ _ _ _].
  split; [auto|]. split; [auto|]. split; [auto|]. split; [auto|]. split; [auto|]. split; [|auto]. intros f Hf. rewrite Ef in Hf. apply filter_In in Hf. tauto.
Qed.

Lemma relative_pose A C D : rigid A -> rigid C -> rigid D -> pmul (pinv (pmul A (pinv C))) (pmul A (pinv D)) = pmul C (pinv D).
Proof.
  intros HA HC HD. assert (E : pinv (pmul A (pinv C)) = pmul C (pinv A)).
  { symmetry. apply pinv_unique; [apply rigid_mul; [auto|apply rigid_inv; auto]|].
    rewrite pmul_assoc, <- (pmul_assoc A), pinv_l, pmul_id_r, pinv_r; auto. }
  rewrite E, pmul_assoc, <- (pmul_assoc C), pinv_l, pmul_id_r; auto.
Qed.
Lemma shifted C D T : rigid C -> rigid D -> rigid T -> pmul (pmul C T) (pinv (pmul D T)) = pmul C (pinv D).
Proof.
  intros HC HD HT. assert (E : pinv (pmul D T) = pmul (pinv T) (pinv D)).
  { symmetry. apply pinv_unique; [apply rigid_mul; auto|].
    rewrite pmul_assoc, <- (pmul_assoc D), pinv_r, pmul_id_r, pinv_r; auto. }
  rewrite E, pmul_assoc, <- (pmul_assoc C), pinv_r, pmul_id_r; auto.
Qed.

(** *** Cameras *)
(** The boards, their number, the positions shown, the configurations, the world coordinates and
    the random choices may differ. *)
Theorem C68_same_cameras_same_calibration : forall w L program path rest s W w' L' program' path' rest' s' W' T,
  exact_start w L path s W -> exact_start w' L' path' s' W' -> rigid T ->
  let argv := program :: path :: rest in let argv' := program' :: path' :: rest' in
  snd (main w L argv) = Returned 0 /\ snd (main w' L' argv') = Returned 0 /\
  forall l l', left_cameras w L argv l -> left_cameras w' L' argv' l' ->
  (forall c k k', same_camera T W W' c -> In (c, k) l -> In (c, k') l' -> r_K k' = r_K k /\ r_dist k' = r_dist k /\ r_type k' = r_type k) /\
  (forall c d P P', same_camera T W W' c -> same_camera T W W' d -> relative l c d P -> relative l' c d P' -> P' = P) /\
  (forall m c k k', same_camera T W W' m -> same_camera T W W' c -> lowest m l -> lowest m l' -> In (c, k) l -> In (c, k') l' -> r_pose k' = r_pose k).
Proof.
  intros w L program path rest s W w' L' program' path' rest' s' W' T X X' HT argv argv'.
  destruct (exact_run _ _ program _ rest _ _ X) as (es & ins & r & all & Rm & En & (_ & RC & _) & Mo & Ar & Ef & Tr).
  destruct (exact_run _ _ program' _ rest' _ _ X') as (es' & ins' & r' & all' & Rm' & En' & (_ & RC' & _) & Mo' & Ar' & Ef' & Tr').
  subst argv argv'. rewrite Rm, Rm'. split; [reflexivity|]. split; [reflexivity|]. intros l l' (p & Hl) (p' & Hl'). rewrite Rm in Hl. rewrite Rm' in Hl'. cbn [fst] in Hl, Hl'.
  apply Ef in Hl. apply Ef' in Hl'. destruct (tr_cameras _ _ _ _ _ Tr _ _ Hl) as (ND & SA & ref & Sr & Mi & TC). destruct (tr_cameras _ _ _ _ _ Tr' _ _ Hl') as (ND' & SA' & ref' & Sr' & Mi' & TC').
  assert (Rel : forall c d P P', same_camera T W W' c -> same_camera T W W' d -> relative l c d P -> relative l' c d P' -> P' = P).
  { intros c d P P' (_ & _ & Sc) (_ & _ & Sd) (k & k1 & H1 & H2 & ->) (k' & k1' & H3 & H4 & ->).
    destruct (TC _ _ H1) as (_ & _ & ->). destruct (TC _ _ H2) as (_ & _ & ->). destruct (TC' _ _ H3) as (_ & _ & ->). destruct (TC' _ _ H4) as (_ & _ & ->).
    rewrite !relative_pose; auto. rewrite Sc, Sd. apply shifted; auto. }
  split; [|split; [exact Rel|]].
  - intros c k k' (Sm & Si & _) H H'. destruct (TC _ _ H) as (E1 & E2 & _). destruct (TC' _ _ H') as (E1' & E2' & _). rewrite Sm, Si, <- E1 in E1'. injection E1' as A B. rewrite E2, E2', Sm. auto.
  - intros m c k k' (_ & _ & Sm) (_ & _ & Sc) (I1 & L1) (I2 & L2) H H'.
    assert (E : ref = m) by (apply Z.le_antisymm; [apply Mi, SA; auto|apply L1, SA; auto]). assert (E' : ref' = m) by (apply Z.le_antisymm; [apply Mi', SA'; auto|apply L2, SA'; auto]). subst ref ref'.
    destruct (TC _ _ H) as (_ & _ & ->). destruct (TC' _ _ H') as (_ & _ & ->). rewrite Sm, Sc. apply shifted; auto.
Qed.
Print Assumptions C68_same_cameras_same_calibration.

(** *** Boards *)
Lemma poses_in s r all id cols p l : all_results s r all -> In (p, DObjects l) all -> In (id, cols) l -> exists p' l' ps, In (p', DPoses l') all /\ In (id, ps) l'.
Proof.
  intros (Ks & Rs) Hl Hi. assert (Q : exists p' l', In (p', DPoses l') all).
  { destruct all as [|a [|b [|(q, d) all]]]; try discriminate Ks. injection Ks as _ _ K2 _. exists q. cbn [snd] in K2. destruct d; try discriminate K2. eexists. right; right; left. reflexivity. }
  destruct Q as (p' & l' & Hp). exists p', l'. assert (R1 := Rs _ _ Hl). assert (R2 := Rs _ _ Hp). inversion R1 as [|q m _ F| | |]; subst. inversion R2; subst.
  assert (Q : exists e, In e (PipelineModel.ca_objs (ru_s r)) /\ id = ob_id (snd e)).
  { clear - F Hi. induction F as [|e f a b (E & _) F IH]; [destruct Hi|]. destruct Hi as [-> |Hi]; [exists e; split; [left; reflexivity|exact E]|destruct (IH Hi) as (x & A & B); exists x; split; [right|]; auto]. }
  destruct Q as ((k, o) & Ho & ->). eexists. split; [exact Hp|]. unfold saved_poses, save3DObjPose. apply in_map_iff. exists (k, o). split; [reflexivity|exact Ho].
Qed.
Lemma corner_apart w L program path rest s W l b k b' k' x : exact_start w L path s W -> left_objects w L (program :: path :: rest) l -> apart_by l b k b' k' x ->
  exists q q', corner (su_pts s) b k q /\ corner (su_pts s) b' k' q' /\ x = distance (pact (rg_board W b) q) (pact (rg_board W b') q').
Proof.
  intros X (p & Hl) (id & cols & y & y' & Hc & H1 & H2 & ->). destruct (exact_run _ _ program _ rest _ _ X) as (es & ins & r & all & Rm & _ & (_ & _ & _ & RB) & _ & Ar & Ef & Tr).
  rewrite Rm in Hl. cbn [fst] in Hl. apply Ef in Hl. destruct (poses_in _ _ _ _ _ _ _ Ar Hl Hc) as (p' & l' & ps & Hp & Hps).
  destruct (tr_objects _ _ _ _ _ Tr _ _ _ _ _ _ _ Hl Hp Hc Hps) as (ref & C & _).
  destruct (C _ _ _ H1) as (q & Cq & Eq). destruct (C _ _ _ H2) as (q' & Cq' & Eq'). exists q, q'. split; [auto|]. split; [auto|].
  rewrite <- Eq, <- Eq'. symmetry. apply rigid_distance. apply RB.
Qed.

(** The same boards fixed to each other in the same way: the cameras, their number and the
    positions shown may differ. *)
Theorem C68_same_boards_same_objects : forall w L program path rest s W w' L' program' path' rest' s' W' S,
  exact_start w L path s W -> exact_start w' L' path' s' W' -> rigid S ->
  forall l l', left_objects w L (program :: path :: rest) l -> left_objects w' L' (program' :: path' :: rest') l' ->
  forall b k b' k' x x', same_board S W W' s s' b -> same_board S W W' s s' b' -> apart_by l b k b' k' x -> apart_by l' b k b' k' x' -> x' = x.
Proof.
  intros w L program path rest s W w' L' program' path' rest' s' W' S X X' HS l l' Hl Hl' b k b' k' x x' (B1 & B2) (B1' & B2') A A'.
  destruct (corner_apart _ _ _ _ _ _ _ _ _ _ _ _ _ X Hl A) as (q & q' & (_ & C) & (_ & C') & ->). destruct (corner_apart _ _ _ _ _ _ _ _ _ _ _ _ _ X' Hl' A') as (y & y' & (_ & D) & (_ & D') & ->).
  rewrite B1, C in D. rewrite B1', C' in D'. injection D as <-. injection D' as <-. rewrite B2, B2'.
  rewrite !pact_mul. apply rigid_distance. auto.
Qed.
Print Assumptions C68_same_boards_same_objects.

(** Two runs with different configurations on the pictures of two cameras meet the assumptions. *)
Lemma grid_start svd i0 save name : svd_ok svd -> exists s, exact_start (grid_world save name "cams.yml") (grid_libs svd i0) "conf.yml" s two_rig.
Proof.
  intros SO. destruct (grid_setup save name "cams.yml") as (B & made & C1 & HB & Em). destruct (grid_extraction save name "cams.yml" B made svd i0) as (t & C2).
  exists (grid_set save name "cams.yml" B made). split.
  - apply grid_libs_sound.
  - apply grid_world_sound.
  - exact SO.
  - intros; apply ideal_pnp.
  - reflexivity.
  - apply yml_path_spec. split; reflexivity.
  - exact C1.
  - cbn. lra.
  - cbn. lia.
  - exists t. split; [exact C2|]. split; [apply grid_scene; auto|]. left. split; [discriminate|]. split; [discriminate|]. split; [reflexivity|]. split; [apply yml_path_spec; split; reflexivity|].
    intros c Hc. change (0 <= c < 2)%Z in Hc. assert (D : c = 0%Z \/ c = 1%Z) by lia. destruct D as [-> | ->]; (eexists; split; [reflexivity|reflexivity]).
Qed.
Example C68_example : exists svd i0 s s' l l' P, let w := grid_world "out" "" "cams.yml" in let w' := grid_world "there" "mine.yml" "cams.yml" in let L := grid_libs svd i0 in
  exact_start w L "conf.yml" s two_rig /\ exact_start w' L "conf.yml" s' two_rig /\ same_camera pid two_rig two_rig 0 /\ same_camera pid two_rig two_rig 1 /\
  left_cameras w L ["calibrate"; "conf.yml"] l /\ left_cameras w' L ["calibrate"; "conf.yml"] l' /\ relative l 0 1 P /\ relative l' 0 1 P /\ P <> pid.
Proof.
  destruct PropGeom.C20_svd_exists as (svd & SO). set (i0 := I9 0 0 0 0 0 0 0 0 0).
  destruct (grid_start svd i0 "out" "" SO) as (s & X). destruct (grid_start svd i0 "there" "mine.yml" SO) as (s' & X').
  assert (Left : forall save name s, save = "out" \/ save = "there" -> name = "" \/ name = "mine.yml" -> exact_start (grid_world save name "cams.yml") (grid_libs svd i0) "conf.yml" s two_rig ->
    exists l, left_cameras (grid_world save name "cams.yml") (grid_libs svd i0) ["calibrate"; "conf.yml"] l /\ relative l 0 1 (pmul (rg_cam two_rig 0) (pinv (rg_cam two_rig 1)))).
  { clear. intros save name s Hs Hn X. destruct (grid_run svd i0 save name "cams.yml" (xs_svd _ _ _ _ _ X) (or_introl eq_refl)) as (s1 & es & ins & r & all & C1 & Ec & Rm & En & Ar & Ef & Tr & Fo).
    assert (N := all_names _ _ _ Ar). destruct Ar as (Ks & Rs). destruct all as [|(p, d) all]; [discriminate Ks|]. injection Ks as K0 _. cbn [snd] in K0. destruct d as [l| | | |]; try discriminate K0.
    exists l. assert (TC := tr_cameras _ _ _ _ _ Tr p l (or_introl eq_refl)). destruct TC as (ND & SA & ref & Sr & Mi & TC). split.
    - exists p. rewrite Rm. cbn [fst]. rewrite Ef. apply filter_In. split; [left; reflexivity|]. cbn [fst]. rewrite Fo. rewrite Ec in N. injection N as -> _.
      destruct Hs as [-> | ->], Hn as [-> | ->]; reflexivity.
    - destruct (grid_setup save name "cams.yml") as (B & made & C1' & HB & Em). rewrite C1' in C1. injection C1 as <-. apply (grid_entering save name "cams.yml" B made) in En. subst ins.
      assert (I0 : In 0%Z (map fst l)) by (apply SA; eexists; split; [left; reflexivity|reflexivity]). assert (I1 : In 1%Z (map fst l)) by (apply SA; eexists; split; [right; right; left; reflexivity|reflexivity]).
      apply in_map_iff in I0 as ((c0, k) & E0 & I0). apply in_map_iff in I1 as ((c1, k') & E1 & I1). cbn [fst] in E0, E1. subst c0 c1. exists k, k'. split; [auto|]. split; [auto|].
      destruct (TC _ _ I0) as (_ & _ & ->). destruct (TC _ _ I1) as (_ & _ & ->). symmetry. apply relative_pose; apply rig_rigid. }
  destruct (Left "out" "" s (or_introl eq_refl) (or_introl eq_refl) X) as (l & Hl & Rl). destruct (Left "there" "mine.yml" s' (or_intror eq_refl) (or_intror eq_refl) X') as (l' & Hl' & Rl').
  exists svd, i0, s, s', l, l', (pmul (rg_cam two_rig 0) (pinv (rg_cam two_rig 1))). split; [auto|]. split; [auto|].
  split; [split; [reflexivity|]; split; [reflexivity|symmetry; apply pmul_id_r]|]. split; [split; [reflexivity|]; split; [reflexivity|symmetry; apply pmul_id_r]|].
  do 4 (split; [auto|]). intros E. assert (Q := f_equal (fun P => pmul P (rg_cam two_rig 1)) E). cbv beta in Q.
  rewrite <- pmul_assoc, pinv_l, pmul_id_r, pmul_id_l in Q by apply rig_rigid. cbn in Q. injection Q as Q. lra.
Qed.
Print Assumptions C68_example.
