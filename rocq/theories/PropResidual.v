(** C25, C42, C46 - C49: refinement and the reported reprojection error. *)
From Coq Require Import String List ZArith QArith Lia Reals Lra Psatz Permutation Sorted ClassicalEpsilon.
From Verif Require Import SMap GraphModel GraphSpec GraphDijkstra GraphPath DataModel DataSpec DataProofs DetectModel DetectSpec DetectProofs RansacModel RansacSpec RansacProofs
  GeomModel GeomSpec GeomProofs GeomMedian ChainModel ChainSpec ChainProofs ChainCam
  ObjectsModel ObjectsSpec ObjectsProofs ObjectsSave ObjectsBuild ObjectsMerge ObjectsObs GroupModel GroupSpec GroupProofs GroupMerge GroupObs GroupPose
  StageModel StageSpec StageProofs StageMain StageCams StageMerge PipelineModel PipelineSpec PipelineProofs ObjectsMain EstimateAll
  CameraModel ResidualModel ResidualSpec ResidualProofs ResidualMain ResidualGroup ResidualSolve ResidualAvg ResidualCost PropObjects PropGroup.
Import ListNotations.
Close Scope Q_scope.
Close Scope R_scope.
Open Scope nat_scope.

(** ** C25 *)
(** The five cost functors are the error of one projection: the point goes through the pose
    of the board in the object, of the object in the group (or before the camera), of the
    camera in the group; the poses that are not refined are left out. *)
Theorem C25_residuals_are_projection_errors :
  forall (u v : R) (q : vec3) (dt : Z) (i : intr) (camera object_pose board_pose : par6) (rc rb : bool),
  plain camera -> plain object_pose -> plain board_pose ->
  let C := if rc then matrix camera else pid in
  let B := if rb then matrix board_pose else pid in
  ReprojectionError u v q dt camera i = option_map (minus (u, v)) (image dt i (matrix camera) q) /\
  ReprojectionError_3DObjRef u v q (a0 i) (a1 i) (a2 i) (a3 i) (a4 i) (a5 i) (a8 i) (a6 i) (a7 i) rb dt camera board_pose =
    option_map (minus (u, v)) (image dt i (pmul (matrix camera) B) q) /\
  ReprojectionError_CameraGroupRef u v q (a0 i) (a1 i) (a2 i) (a3 i) (a4 i) (a5 i) (a8 i) (a6 i) (a7 i) rc dt camera object_pose =
    option_map (minus (u, v)) (image dt i (pmul C (matrix object_pose)) q) /\
  ReprojectionError_CameraGroupAndObjectRef u v q (a0 i) (a1 i) (a2 i) (a3 i) (a4 i) (a5 i) (a8 i) (a6 i) (a7 i) rc rb dt camera object_pose board_pose =
    option_map (minus (u, v)) (image dt i (pmul C (pmul (matrix object_pose) B)) q) /\
  ReprojectionError_CameraGroupAndObjectRefAndIntrinsics u v q rc rb dt camera object_pose board_pose i =
    option_map (minus (u, v)) (image dt i (pmul C (pmul (matrix object_pose) B)) q).
Proof.
  intros u v q dt i C0 O0 B0 rc rb PC PO PB C B.
  set (p := mkPar (fun k => match k with KCam _ _ => C0 | KGroup _ _ => O0 | KBoard _ _ => B0 | _ => C0 end) (fun _ => i)).
  assert (H : forall k, plain (pa_pose p k)) by (intros []; auto).
  split; [exact (eval_ok p (BIntr (u, v) q dt (KBoardObs 0) 0%Z) (fun k _ => H k))|].
  split; [exact (eval_ok p (BObj (u, v) q i rb dt (KObjObs 0) (KBoard 0 0)) (fun k _ => H k))|].
  split; [exact (eval_ok p (BGroup (u, v) q i rc dt (KCam 0 0) (KGroup (0, 0)%Z 0)) (fun k _ => H k))|].
  split; [exact (eval_ok p (BBoth (u, v) q i rc rb dt (KCam 0 0) (KGroup (0, 0)%Z 0) (KBoard 0 0)) (fun k _ => H k))|].
  exact (eval_ok p (BAll (u, v) q rc rb dt (KCam 0 0) (KGroup (0, 0)%Z 0) (KBoard 0 0) 0%Z) (fun k _ => H k)).
Qed.
Print Assumptions C25_residuals_are_projection_errors.

(** a pose that is not refined has no influence, whatever it is *)
Theorem C25_poses_not_refined_have_no_influence :
  forall (u v : R) (q : vec3) fx fy u0 v0 k1 k2 k3 p1 p2 dt i rc rb (camera camera' object_pose board_pose board_pose' : par6),
  (rc = false \/ camera = camera') -> (rb = false \/ board_pose = board_pose') ->
  ReprojectionError_3DObjRef u v q fx fy u0 v0 k1 k2 k3 p1 p2 rb dt object_pose board_pose =
    ReprojectionError_3DObjRef u v q fx fy u0 v0 k1 k2 k3 p1 p2 rb dt object_pose board_pose' /\
  ReprojectionError_CameraGroupRef u v q fx fy u0 v0 k1 k2 k3 p1 p2 rc dt camera object_pose =
    ReprojectionError_CameraGroupRef u v q fx fy u0 v0 k1 k2 k3 p1 p2 rc dt camera' object_pose /\
  ReprojectionError_CameraGroupAndObjectRef u v q fx fy u0 v0 k1 k2 k3 p1 p2 rc rb dt camera object_pose board_pose =
    ReprojectionError_CameraGroupAndObjectRef u v q fx fy u0 v0 k1 k2 k3 p1 p2 rc rb dt camera' object_pose board_pose' /\
  ReprojectionError_CameraGroupAndObjectRefAndIntrinsics u v q rc rb dt camera object_pose board_pose i =
    ReprojectionError_CameraGroupAndObjectRefAndIntrinsics u v q rc rb dt camera' object_pose board_pose' i.
Proof.
  intros u v q fx fy u0 v0 k1 k2 k3 p1 p2 dt i rc rb c c' o b b' [->| ->] [->| ->]; auto.
Qed.
Print Assumptions C25_poses_not_refined_have_no_influence.

(** with the fisheye model the fifth distortion coefficient has no influence *)
Theorem C25_fisheye_has_four_coefficients :
  forall (u v : R) (q : vec3) fx fy u0 v0 k1 k2 k3 k3' p1 p2 rc rb i j (camera object_pose board_pose : par6),
  (a0 i, a1 i, a2 i, a3 i, a4 i, a5 i, a6 i, a7 i) = (a0 j, a1 j, a2 j, a3 j, a4 j, a5 j, a6 j, a7 j) ->
  ReprojectionError u v q 1 camera i = ReprojectionError u v q 1 camera j /\
  ReprojectionError_3DObjRef u v q fx fy u0 v0 k1 k2 k3 p1 p2 rb 1 camera board_pose =
    ReprojectionError_3DObjRef u v q fx fy u0 v0 k1 k2 k3' p1 p2 rb 1 camera board_pose /\
  ReprojectionError_CameraGroupRef u v q fx fy u0 v0 k1 k2 k3 p1 p2 rc 1 camera object_pose =
    ReprojectionError_CameraGroupRef u v q fx fy u0 v0 k1 k2 k3' p1 p2 rc 1 camera object_pose /\
  ReprojectionError_CameraGroupAndObjectRef u v q fx fy u0 v0 k1 k2 k3 p1 p2 rc rb 1 camera object_pose board_pose =
    ReprojectionError_CameraGroupAndObjectRef u v q fx fy u0 v0 k1 k2 k3' p1 p2 rc rb 1 camera object_pose board_pose /\
  ReprojectionError_CameraGroupAndObjectRefAndIntrinsics u v q rc rb 1 camera object_pose board_pose i =
    ReprojectionError_CameraGroupAndObjectRefAndIntrinsics u v q rc rb 1 camera object_pose board_pose j.
Proof.
  intros u v q fx fy u0 v0 k1 k2 k3 k3' p1 p2 rc rb i j c o b E. destruct i, j. cbn in E. injection E as -> -> -> -> -> -> -> ->.
  repeat (split; [reflexivity|]). reflexivity.
Qed.
Print Assumptions C25_fisheye_has_four_coefficients.

(** A rotation by a tiny angle (squared angle at most 2.2e-16) is replaced by its first
    order approximation: the rotated point is off by at most that part of its length. *)
Theorem C25_tiny_rotations : forall (P : par6) q, (vdot (fst P) (fst P) <= 1)%R ->
  let d := vsub (rotate_move P q) (pact (matrix P) q) in (vdot d d <= dbl_eps ^ 2 * vdot q q)%R.
Proof.
  intros P q H d. assert (E := rotate_error (fst P) q H). cbv zeta in E. assert (EQ : d = vsub (AngleAxisRotatePoint (fst P) q) (mv (exp_rot (fst P)) q)).
  { subst d. unfold rotate_move, pact, matrix, RVecT2Proj, vsub, vadd. cbn [fst snd vx vy vz]. apply vec3_eq; cbn; ring. }
  rewrite EQ. eapply Rle_trans; [exact E|]. apply Rmult_le_compat_r; [apply vdot_nonneg|].
  assert (A := vdot_nonneg (fst P)). assert (B := eps_pos). apply pow_incr. split; [apply Rmin_glb; lra|apply Rmin_r].
Qed.
Print Assumptions C25_tiny_rotations.

(** the reports (mean error, saved errors, drawn points) project in the same way *)
Theorem C25_reports_project_alike : forall P i model q,
  projectPointsWithDistortion P (getCameraMat i) (getDistortionVector model i) model q = image model i P q.
Proof. intros. apply project_ok. Qed.
Print Assumptions C25_reports_project_alike.
Example C25_example : plain (V3 0 0 0, V3 1 2 3)%R /\ plain (V3 0 1 0, V3 0 0 5)%R /\
  image 0 (I9 100 100 50 50 0 0 0 0 0)%R (matrix (V3 0 0 0, V3 0 0 2)%R) (V3 1 0 0)%R = Some (100, 50)%R.
Proof.
  split; [left; unfold vdot; cbn; ring|]. split; [right; unfold vdot, dbl_eps; cbn; lra|].
  unfold image. replace (pact (matrix (V3 0 0 0, V3 0 0 2)%R) (V3 1 0 0)%R) with (V3 1 0 2)%R.
  2:{ unfold matrix. cbn [fst snd]. rewrite <- (rotate_move_ok (V3 0 0 0, V3 0 0 2)%R) by (left; unfold vdot; cbn; ring).
      unfold rotate_move, AngleAxisRotatePoint. cbn [fst snd]. replace (vdot (V3 0 0 0)%R (V3 0 0 0)%R) with 0%R by (unfold vdot; cbn; ring).
      rewrite (proj2 (Rltb_false dbl_eps 0)) by (assert (A := eps_pos); lra). apply vec3_eq; cbn; ring. }
  cbn [vz]. destruct (Req_EM_T 2 0); [lra|]. unfold lens. cbn [vx vy option_map fst snd]. apply some_pair; cbn; field.
Qed.

(** ** C46: what is optimised is what is reported *)
(** object observations [ns] of the cameras of G, each once; the residuals of a problem are
    the distances, per coordinate, between their detections and the reprojections *)
Definition reports (cams : Z -> Z) (p : params) (s : calib pt2) (G : cgroup) (bs : list block) : Prop :=
  exists ns : list nat, NoDup ns /\
    (forall n, In n ns <-> exists oo, nth_error (ot_all (ca_oobs s)) n = Some oo /\ In (oo_cam oo) (cg_cams G)) /\
    forall rs, collect (map (eval p) bs) = Some rs <->
      exists parts, rs = concat parts /\
        Forall2 (fun n part => exists oo o rp, nth_error (ot_all (ca_oobs s)) n = Some oo /\ mfind (oo_obj oo) (ca_objs s) = Some o /\
                   length rp = length (oo_pts oo) /\ (forall i r, nth_error rp i = Some r -> reprojects cams p G oo o i r) /\
                   part = errors_of (oo_pts oo) rp) ns parts.

Lemma gather_parts {A B} (f : A -> option (list B)) l rs : gather f l = Some rs <-> exists parts, rs = concat parts /\ Forall2 (fun a part => f a = Some part) l parts.
Proof.
  unfold gather. split.
  - destruct (collect (map f l)) as [ps|] eqn:E; [|discriminate]. intros Q. injection Q as <-. exists ps. split; auto.
    apply collect_Some in E. revert ps E. induction l as [|a l IH]; intros [|x ps] E; try discriminate; constructor; [injection E as E _; auto|apply IH; injection E as _ E; auto].
  - intros (ps & -> & F). replace (map f l) with (map Some ps) by (induction F; cbn; congruence).
    rewrite (proj2 (collect_Some (map Some ps) ps) eq_refl). auto.
Qed.

Section Setting.
Variables (svd : (nat -> nat -> R) -> quat) (lr : mat3 -> vec3) (uq : bool) (pick : dstate -> nat) (g0 : graph).
Hypothesis Hh : good_heap pick.
Variables (bpts : Z -> list vec3) (nc nb : nat) (ins : list (insertion pt2)) (t : tables pt2).
Hypothesis AD : after_detection nc nb ins t.
Hypothesis TR : forall o, In o (mvals (t_obs t)) -> trimmed bpts o.
Variable s : calib pt2.
Hypothesis Rd : reached svd lr uq pick g0 bpts t s.

Lemma setting : exists bss ol css gl, calib_ok bpts t bss ol css gl s /\
  (forall oo, In oo (ot_all (ca_oobs s)) -> In (oo_frame oo) (mkeys (t_frames t))).
Proof.
  destruct (reached_ok svd lr uq pick g0 Hh bpts nc nb ins t AD (trimmed_paired bpts t TR) s Rd) as (bss & ol & css & gl & CO).
  exists bss, ol, css, gl. split; auto. exact (known_frames nc nb ins t AD (ca_oobs s) ol (co_obs _ _ _ _ _ _ _ CO)).
Qed.

Lemma reports_intro cams p bss ol css gl G bs : calib_ok bpts t bss ol css gl s ->
  (forall oo, In oo (ot_all (ca_oobs s)) -> In (oo_frame oo) (mkeys (t_frames t))) -> In G gl ->
  collect (map (eval p) bs) = gather (view_residuals cams p s G) (group_views_of s G) -> reports cams p s G bs.
Proof.
  intros CO FR HG E. exists (map snd (group_views_of s G)).
  assert (VI := views_In bpts t cams bss ol css gl s CO FR G). split; [|split].
  - assert (N := views_NoDup bpts t cams bss ol css gl s CO G HG).
    assert (D : forall l, NoDup l -> (forall x, In x l -> In x (group_views_of s G)) -> NoDup (map snd l)).
    { intros l Nl. induction Nl as [|(k, n) l Hx Nl IH]; intros H; cbn; constructor; [|apply IH; intros; apply H; right; auto].
      intros Hn. apply in_map_iff in Hn as ((k', n') & En & Hn). cbn in En. subst n'. assert (H1 := H (k, n) (or_introl eq_refl)). assert (H2 := H (k', n) (or_intror Hn)).
      apply VI in H1 as (oo & H1 & -> & _); auto. apply VI in H2 as (oo' & H2 & -> & _); auto. assert (oo' = oo) by congruence. subst. auto. }
    apply D; auto.
  - intros n. rewrite in_map_iff. split.
    + intros ((k, n') & En & Hn). cbn in En. subst n'. apply VI in Hn as (oo & H1 & _ & H2); eauto.
    + intros (oo & H1 & H2). exists ((cg_id G, oo_frame oo), n). split; auto. apply VI; eauto.
  - intros rs. rewrite E, gather_parts.
    assert (Q : forall kn part, In kn (group_views_of s G) -> (view_residuals cams p s G kn = Some part <->
       exists oo o rp, nth_error (ot_all (ca_oobs s)) (snd kn) = Some oo /\ mfind (oo_obj oo) (ca_objs s) = Some o /\
                   length rp = length (oo_pts oo) /\ (forall i r, nth_error rp i = Some r -> reprojects cams p G oo o i r) /\
                   part = errors_of (oo_pts oo) rp)).
    { intros (k, n) part Hv. apply VI in Hv as (oo & Hn & -> & HC); auto. cbn [snd].
      destruct (view_ok bpts t bss ol css gl s CO TR n oo Hn) as (o & bs' & V & Io & Hm & Eo & W & OO & Ga & L & Rg).
      assert (NN : Forall (fun z => (0 <= z)%Z) (oo_ids oo)) by (eapply Forall_impl; [|exact Rg]; cbn; lia).
      assert (Hm' : mfind (oo_obj oo) (ca_objs s) = Some o).
      { unfold view_data in V. rewrite Hn in V. destruct (mfind (oo_obj oo) (ca_objs s)); congruence. }
      unfold view_residuals. cbn [fst snd]. rewrite V. split.
      - destruct (reprojected cams p G (cg_id G, oo_frame oo) oo o) as [rp|] eqn:Er; [|discriminate]. cbn. intros X. injection X as <-.
        apply reprojected_spec in Er as (Lr & Hr); auto. exists oo, o, rp. do 2 (split; [auto|]). split; [lia|]. auto.
      - intros (oo' & o' & rp & H1 & H2 & H3 & H4 & ->). assert (oo' = oo) by congruence. subst oo'. assert (o' = o) by congruence. subst o'.
        assert (Er : reprojected cams p G (cg_id G, oo_frame oo) oo o = Some rp) by (apply reprojected_spec; auto; split; [lia|auto]). rewrite Er. auto. }
    assert (F2 : forall l parts, (forall x, In x l -> In x (group_views_of s G)) ->
       (Forall2 (fun a part => view_residuals cams p s G a = Some part) l parts <->
        Forall2 (fun n part => exists oo o rp, nth_error (ot_all (ca_oobs s)) n = Some oo /\ mfind (oo_obj oo) (ca_objs s) = Some o /\
                   length rp = length (oo_pts oo) /\ (forall i r, nth_error rp i = Some r -> reprojects cams p G oo o i r) /\
                   part = errors_of (oo_pts oo) rp) (map snd l) parts)).
    { induction l as [|kn l IH]; intros parts Hl; cbn [map]; [split; intros F; inversion F; subst; constructor|].
      split; intros F; inversion F; subst; constructor; [apply Q; auto; apply Hl; left; auto|apply IH; auto; intros; apply Hl; right; auto|apply Q; auto; apply Hl; left; auto|apply IH; auto; intros; apply Hl; right; auto]. }
    split; intros (parts & -> & F); exists parts; (split; [auto|]); apply (F2 _ parts (fun x H => H)); auto.
Qed.

(** the three refinements over a camera group, at any time *)
Theorem C46_optimised_errors_are_the_reported_errors : forall cams p,
  represents p (ca_objs s) (ca_groups s) -> (forall k, plain (pa_pose p k)) ->
  forall k G, In (k, G) (ca_groups s) ->
    (exists bs, group_problem cams p s G = Some bs /\ reports cams p s G bs) /\
    (exists bs, group_objects_problem bpts cams p s G = Some bs /\ reports cams p s G bs) /\
    (exists bs, group_all_problem bpts cams s G = Some bs /\ reports cams p s G bs).
Proof.
  intros cams p RP PL k G H. destruct setting as (bss & ol & css & gl & CO & FR).
  assert (HG : In G gl) by (apply (groups_vals bpts t bss ol css gl s CO); apply (in_map snd) in H; auto).
  split; [|split].
  - destruct (group_problem_residuals bpts t cams p bss ol css gl s CO TR FR RP PL G HG) as (bs & E1 & E2). exists bs. split; auto. eapply reports_intro; eauto.
  - destruct (group_objects_residuals bpts t cams p bss ol css gl s CO TR FR RP PL G HG) as (bs & E1 & E2). exists bs. split; auto. eapply reports_intro; eauto.
  - destruct (group_all_residuals bpts t cams p bss ol css gl s CO TR FR RP PL G HG) as (bs & E1 & E2). exists bs. split; auto. eapply reports_intro; eauto.
Qed.

(** ** C42 *)
(** The average is the mean, over all object observations, each once, of the mean distance
    between detections and reprojections; it is defined if and only if there is an
    observation and all reprojections are. *)
Theorem C42_average_is_mean_of_means : forall cams p a,
  computeAvgReprojectionError cams p s = Some a <->
  exists es, length es = length (ot_all (ca_oobs s)) /\ es <> [] /\ a = mean es /\
    forall n oo e, nth_error (ot_all (ca_oobs s)) n = Some oo -> nth_error es n = Some e ->
      exists k G o rs, In (k, G) (ca_groups s) /\ In (oo_cam oo) (cg_cams G) /\ mfind (oo_obj oo) (ca_objs s) = Some o /\ observation_mean cams p G oo o rs e.
Proof.
  intros cams p a. destruct setting as (bss & ol & css & gl & CO & FR). rewrite (average_main bpts t cams p bss ol css gl s CO TR FR a).
  assert (GV : forall G, In G gl <-> exists k, In (k, G) (ca_groups s)).
  { intros G. rewrite <- (groups_vals bpts t bss ol css gl s CO). unfold mvals. rewrite in_map_iff. split; [intros ((k, G') & <- & H); eauto|intros (k & H); exists (k, G); auto]. }
  split; intros (es & L & NE & E & H); exists es; (do 3 (split; [auto|])); intros n oo e Hn He.
  - destruct (H n oo e Hn He) as (G & o & rs & HG & Q). apply GV in HG as (k & HG). exists k, G, o, rs. auto.
  - destruct (H n oo e Hn He) as (k & G & o & rs & HG & Q). exists G, o, rs. split; [apply GV; eauto|auto].
Qed.

Lemma observation_mean_nonneg cams p G oo o rs e : oo_pts oo <> [] -> observation_mean cams p G oo o rs e -> (0 <= e)%R /\ (e = 0%R <-> rs = oo_pts oo).
Proof.
  intros NE (L & _ & ->). set (ds := map (fun mr => distance (fst mr) (snd mr)) (combine (oo_pts oo) rs)).
  assert (N : ds <> []).
  { intros E. apply (f_equal (@length _)) in E. unfold ds in E. rewrite map_length, combine_length, L, Nat.min_id in E. destruct (oo_pts oo); [contradiction|discriminate]. }
  assert (F : Forall (fun e => 0 <= e)%R ds) by (apply Forall_forall; intros e He; apply in_map_iff in He as (mr & <- & _); apply distance_nonneg).
  split.
  - assert (P := len_pos ds N). unfold mean, Rdiv. apply Rmult_le_pos; [|left; apply Rinv_0_lt_compat; auto]. clear -F. induction F; cbn; lra.
  - rewrite mean_zero by auto. apply distances_zero. auto.
Qed.
Lemma obs_nonempty oo : In oo (ot_all (ca_oobs s)) -> oo_pts oo <> [].
Proof.
  intros H. destruct setting as (bss & ol & css & gl & CO & FR). destruct (co_obs _ _ _ _ _ _ _ CO oo H) as (i & o & _ & _ & Ga). apply (ga_nonempty _ _ _ Ga).
Qed.

Theorem C42_average_between_extremes : forall cams p a lo hi,
  computeAvgReprojectionError cams p s = Some a ->
  (forall oo, In oo (ot_all (ca_oobs s)) -> forall k G o rs e, In (k, G) (ca_groups s) -> In (oo_cam oo) (cg_cams G) -> mfind (oo_obj oo) (ca_objs s) = Some o ->
     observation_mean cams p G oo o rs e -> (lo <= e <= hi)%R) ->
  (0 <= a)%R /\ (lo <= a <= hi)%R.
Proof.
  intros cams p a lo hi E H. apply C42_average_is_mean_of_means in E as (es & L & NE & -> & Q).
  assert (F : forall P : R -> Prop, (forall oo e k G o rs, In oo (ot_all (ca_oobs s)) -> In (k, G) (ca_groups s) -> In (oo_cam oo) (cg_cams G) -> mfind (oo_obj oo) (ca_objs s) = Some o -> observation_mean cams p G oo o rs e -> P e) -> Forall P es).
  { intros P HP. apply Forall_forall. intros e He. apply In_nth_error in He as (n & He).
    destruct (nth_error (ot_all (ca_oobs s)) n) as [oo|] eqn:En. 2:{ apply nth_error_None in En. assert (n < length es) by (apply nth_error_Some; congruence). lia. }
    destruct (Q n oo e En He) as (k & G & o & rs & H1 & H2 & H3 & H4). apply (HP oo e k G o rs); auto. eapply nth_error_In; eauto. }
  split.
  - assert (N : Forall (fun e => 0 <= e)%R es).
    { apply F. intros oo e k G o rs I _ _ _ M. apply (observation_mean_nonneg cams p G oo o rs e); auto. apply obs_nonempty; auto. }
    assert (P := len_pos es NE). unfold mean, Rdiv. apply Rmult_le_pos; [|left; apply Rinv_0_lt_compat; auto]. clear -N. induction N; cbn; lra.
  - apply mean_bounds; auto. apply F. intros oo e k G o rs I H1 H2 H3 H4. eapply H; eauto.
Qed.

(** zero: exactly if every detection is met *)
Theorem C42_zero_iff_exact : forall cams p,
  computeAvgReprojectionError cams p s = Some 0%R <->
  ot_all (ca_oobs s) <> [] /\
  forall oo, In oo (ot_all (ca_oobs s)) -> exists k G o, In (k, G) (ca_groups s) /\ In (oo_cam oo) (cg_cams G) /\ mfind (oo_obj oo) (ca_objs s) = Some o /\
    forall i m, nth_error (oo_pts oo) i = Some m -> reprojects cams p G oo o i m.
Proof.
  intros cams p. split.
  - intros E. apply C42_average_is_mean_of_means in E as (es & L & NE & Z & Q). split.
    { intros E. rewrite E in L. destruct es; [contradiction|discriminate]. }
    assert (N : Forall (fun e => 0 <= e)%R es).
    { apply Forall_forall. intros e He. apply In_nth_error in He as (n & He).
      destruct (nth_error (ot_all (ca_oobs s)) n) as [oo|] eqn:En. 2:{ apply nth_error_None in En. assert (n < length es) by (apply nth_error_Some; congruence). lia. }
      destruct (Q n oo e En He) as (k & G & o & rs & _ & _ & _ & M). apply (observation_mean_nonneg cams p G oo o rs e); auto. apply obs_nonempty. eapply nth_error_In; eauto. }
    symmetry in Z. apply mean_zero in Z; auto. intros oo Hoo. apply In_nth_error in Hoo as (n & Hn).
    destruct (nth_error es n) as [e|] eqn:He. 2:{ apply nth_error_None in He. assert (n < length (ot_all (ca_oobs s))) by (apply nth_error_Some; congruence). lia. }
    destruct (Q n oo e Hn He) as (k & G & o & rs & H1 & H2 & H3 & M). exists k, G, o. do 3 (split; [auto|]).
    assert (e = 0%R) by (rewrite Forall_forall in Z; apply Z; eapply nth_error_In; eauto).
    apply (observation_mean_nonneg cams p G oo o rs e) in H; [|apply obs_nonempty; eapply nth_error_In; eauto|auto]. subst rs. destruct M as (_ & M & _). auto.
  - intros (NE & H). apply C42_average_is_mean_of_means. exists (map (fun _ => 0%R) (ot_all (ca_oobs s))). split; [apply map_length|]. split.
    { intros E. apply NE. destruct (ot_all (ca_oobs s)); [auto|discriminate]. }
    split.
    { unfold mean. replace (fold_right Rplus 0 (map (fun _ : objobs pt2 => 0) (ot_all (ca_oobs s))))%R with 0%R; [unfold Rdiv; ring|].
      clear. induction (ot_all (ca_oobs s)) as [|x l IH]; cbn [map fold_right]; [reflexivity|rewrite <- IH; ring]. }
    intros n oo e Hn He. rewrite nth_error_map, Hn in He. cbn in He. injection He as <-.
    assert (I := nth_error_In _ _ Hn). destruct (H oo I) as (k & G & o & H1 & H2 & H3 & H4). exists k, G, o, (oo_pts oo). do 3 (split; [auto|]).
    split; [auto|]. split; [auto|]. symmetry. apply mean_zero.
    + intros E. assert (NP := obs_nonempty oo I). destruct (oo_pts oo); [contradiction|discriminate].
    + apply Forall_forall. intros e He. apply in_map_iff in He as (mr & <- & _). apply distance_nonneg.
    + apply distances_zero; auto.
Qed.

(** without observations nothing is reported *)
Theorem C42_no_observation_no_average : forall cams p, ot_all (ca_oobs s) = [] -> computeAvgReprojectionError cams p s = None.
Proof.
  intros cams p E. destruct (computeAvgReprojectionError cams p s) as [a|] eqn:Ea; auto.
  apply C42_average_is_mean_of_means in Ea as (es & L & NE & _). rewrite E in L. destruct es; [contradiction|discriminate].
Qed.


(** ** C46: the minimum *)
Lemma reports_zero cams p bss ol css gl G bs : calib_ok bpts t bss ol css gl s -> In G gl -> reports cams p s G bs ->
  (cost p bs = Some 0%R <->
   forall oo, In oo (ot_all (ca_oobs s)) -> In (oo_cam oo) (cg_cams G) -> exists o, mfind (oo_obj oo) (ca_objs s) = Some o /\
     forall i m, nth_error (oo_pts oo) i = Some m -> reprojects cams p G oo o i m).
Proof.
  intros CO HG (ns & ND & IN & RS). rewrite cost_zero. split.
  - intros (rs & E & F) oo Hoo HC. apply RS in E as (parts & -> & F2). apply In_nth_error in Hoo as (n & Hn).
    assert (Hin : In n ns) by (apply IN; eauto). clear IN RS ND.
    induction F2 as [|n' part ns' parts H F2 IH]; [destruct Hin|]. cbn [concat] in F. apply Forall_app in F as (F & F').
    destruct Hin as [->|Hin]; [|apply IH; auto].
    destruct H as (oo' & o & rp & H1 & H2 & L & H3 & ->). assert (oo' = oo) by congruence. subst oo'. apply errors_zero in F; auto. subst rp. exists o. auto.
  - intros H. exists (concat (map (fun n => match nth_error (ot_all (ca_oobs s)) n with Some oo => errors_of (oo_pts oo) (oo_pts oo) | None => [] end) ns)). split.
    + apply RS. eexists. split; [reflexivity|]. assert (Sub : forall n, In n ns -> In n ns) by auto. revert Sub. generalize ns at 1 3 4 as l.
      induction l as [|n l IH]; intros Sub; cbn [map]; constructor; [|apply IH; intros; apply Sub; right; auto].
      destruct (proj1 (IN n) (Sub n (or_introl eq_refl))) as (oo & Hn & HC). rewrite Hn. destruct (H oo (nth_error_In _ _ Hn) HC) as (o & H1 & H2).
      exists oo, o, (oo_pts oo). auto.
    + apply Forall_concat. apply Forall_map. apply Forall_forall. intros n _. destruct (nth_error (ot_all (ca_oobs s)) n) as [oo|]; [|constructor].
      apply errors_zero; auto.
Qed.

(** The average is 0 exactly if the cost of every group is. *)
Theorem C46_zero_cost_is_zero_average : forall cams p,
  represents p (ca_objs s) (ca_groups s) -> (forall k, plain (pa_pose p k)) -> ot_all (ca_oobs s) <> [] ->
  (computeAvgReprojectionError cams p s = Some 0%R <->
   forall k G bs, In (k, G) (ca_groups s) ->
     group_problem cams p s G = Some bs \/ group_objects_problem bpts cams p s G = Some bs \/ group_all_problem bpts cams s G = Some bs ->
     cost p bs = Some 0%R).
Proof.
  intros cams p RP PL NE. rewrite C42_zero_iff_exact. destruct setting as (bss & ol & css & gl & CO & FR).
  assert (RB : forall k G bs, In (k, G) (ca_groups s) -> group_problem cams p s G = Some bs \/ group_objects_problem bpts cams p s G = Some bs \/ group_all_problem bpts cams s G = Some bs -> reports cams p s G bs).
  { intros k G bs H Q. destruct (C46_optimised_errors_are_the_reported_errors cams p RP PL k G H) as ((b1 & E1 & R1) & (b2 & E2 & R2) & (b3 & E3 & R3)).
    destruct Q as [Q|[Q|Q]]; [assert (b1 = bs) by congruence|assert (b2 = bs) by congruence|assert (b3 = bs) by congruence]; subst; auto. }
  assert (GV : forall G, In G gl <-> exists k, In (k, G) (ca_groups s)).
  { intros G. rewrite <- (groups_vals bpts t bss ol css gl s CO). unfold mvals. rewrite in_map_iff. split; [intros ((k, G') & <- & H); eauto|intros (k & H); exists (k, G); auto]. }
  split.
  - intros (_ & H) k G bs HG Q. assert (HG' : In G gl) by (apply GV; eauto). apply (reports_zero cams p bss ol css gl G bs CO HG' (RB k G bs HG Q)).
    intros oo Hoo HC. destruct (H oo Hoo) as (k' & G' & o & HG2 & HC' & Ho & R). assert (G' = G) by (apply (camera_group bpts t bss ol css gl s CO (oo_cam oo)); auto; apply GV; eauto).
    subst G'. eauto.
  - intros H. split; auto. intros oo Hoo. apply In_nth_error in Hoo as (n & Hn). destruct (obs_group bpts t bss ol css gl s CO n oo Hn) as (G & HG & HC).
    destruct (proj1 (GV G) HG) as (k & Hk). destruct (C46_optimised_errors_are_the_reported_errors cams p RP PL k G Hk) as ((bs & E1 & R1) & _).
    assert (ZC := H k G bs Hk (or_introl E1)). destruct (proj1 (reports_zero cams p bss ol css gl G bs CO HG R1) ZC oo (nth_error_In _ _ Hn) HC) as (o & Ho & R).
    exists k, G, o. auto.
Qed.

(** ** C47 *)
Theorem C47_refinement_cannot_fail : forall cams solve bobs cs p,
  (exists p', refineIntrinsicAndPoseAllCam solve bpts t cams bobs cs p = Some p') /\
  (exists p', refineAllObject3D solve bpts t cams s p = Some p') /\
  (exists p', refineAllCameraGroup solve cams s p = Some p') /\
  (exists p', refineAllCameraGroupAndObjects solve bpts cams s p = Some p') /\
  (exists p', refineAllCameraGroupAndObjectsAndIntrinsic solve bpts cams s p = Some p').
Proof.
  intros cams solve bobs cs p. destruct setting as (bss & ol & css & gl & CO & FR).
  split; [apply solve_each_total; intros; apply camera_problem_total; auto|].
  split; [apply solve_each_total; intros; apply object_problem_total; auto|].
  split; [apply solve_each_total; intros G q HG; apply (groups_vals bpts t bss ol css gl s CO) in HG; eapply group_problem_total; eauto|].
  split; apply solve_each_total; intros G q HG; apply (groups_vals bpts t bss ol css gl s CO) in HG; [eapply group_objects_total; eauto|eapply group_all_total; eauto].
Qed.

(** Refinement turns a calibration into one with the same reference boards and cameras,
    at the origin as before, and the same members; everything proved of the states of a
    run holds of the refined one too. *)
Theorem C47_refinement_keeps_the_calibration_consistent : forall cams solve p p', ceres solve ->
  represents p (ca_objs s) (ca_groups s) ->
  (refineAllObject3D solve bpts t cams s p = Some p' \/
   refineAllCameraGroup solve cams s p = Some p' \/
   refineAllCameraGroupAndObjects solve bpts cams s p = Some p' \/
   refineAllCameraGroupAndObjectsAndIntrinsic solve bpts cams s p = Some p') ->
  let s' := refine_calib bpts (boards_of p') (cams_of p') s in
  reached svd lr uq pick g0 bpts t s' /\ represents p' (ca_objs s') (ca_groups s') /\
  (forall k o, In (k, o) (ca_objs s) -> pa_pose p' (KBoard (ob_id o) (ob_ref o)) = pa_pose p (KBoard (ob_id o) (ob_ref o))) /\
  (forall k G, In (k, G) (ca_groups s) -> pa_pose p' (KCam (cg_id G) (cg_ref G)) = pa_pose p (KCam (cg_id G) (cg_ref G))).
Proof.
  intros cams solve p p' CE RP Hst s'. destruct setting as (bss & ol & css & gl & CO & FR).
  assert (ST : stage bpts t cams s solve p p') by (destruct Hst as [E|[E|[E|E]]]; [apply st_objects|apply st_group|apply st_both|apply st_all]; auto).
  assert (OV : forall k o, In (k, o) (ca_objs s) -> In o ol) by (intros k o H; apply (objs_vals bpts t bss ol css gl s CO); apply (in_map snd) in H; auto).
  assert (GV : forall k G, In (k, G) (ca_groups s) -> In G gl) by (intros k G H; apply (groups_vals bpts t bss ol css gl s CO); apply (in_map snd) in H; auto).
  assert (RO : forall k o, In (k, o) (ca_objs s) -> pa_pose p' (KBoard (ob_id o) (ob_ref o)) = pa_pose p (KBoard (ob_id o) (ob_ref o))).
  { intros k o H. apply (stage_reference bpts t cams bss ol css gl s CO TR solve p p' _ CE ST). right. exists o. eauto. }
  assert (RG : forall k G, In (k, G) (ca_groups s) -> pa_pose p' (KCam (cg_id G) (cg_ref G)) = pa_pose p (KCam (cg_id G) (cg_ref G))).
  { intros k G H. apply (stage_reference bpts t cams bss ol css gl s CO TR solve p p' _ CE ST). left. exists G. eauto. }
  set (rf := fun o => map (fun e : Z * pose => (fst e, if Z.eqb (fst e) (ob_ref o) then match mfind (fst e) (ob_poses o) with Some P => P | None => pid end
                                   else matrix (pa_pose p' (KBoard (ob_id o) (fst e))))) (ob_poses o)).
  set (rg := fun G => map (fun e : Z * pose => (fst e, if Z.eqb (fst e) (cg_ref G) then match mfind (fst e) (cg_poses G) with Some P => P | None => pid end
                                   else matrix (pa_pose p' (KCam (cg_id G) (fst e))))) (cg_poses G)).
  assert (MK : forall (f : Z -> pose) (m : smap Z pose) k, mfind k (map (fun e : Z * pose => (fst e, f (fst e))) m) = option_map (fun _ => f k) (mfind k m)).
  { intros f m k. induction m as [|(b, x) m IH]; cbn [map mfind fst]; auto. destruct (kcmp k b) eqn:E; auto. apply kcmp_eq in E. subst. auto. }
  assert (KB : keeps_boards rf).
  { intros o. split; [unfold rf, mkeys; rewrite map_map; apply map_ext; auto|]. unfold rf.
    rewrite (MK (fun b => if Z.eqb b (ob_ref o) then match mfind b (ob_poses o) with Some P => P | None => pid end else matrix (pa_pose p' (KBoard (ob_id o) b)))).
    rewrite Z.eqb_refl. destruct (mfind (ob_ref o) (ob_poses o)); auto. }
  assert (KC : keeps_cams rg).
  { intros G. split; [unfold rg, mkeys; rewrite map_map; apply map_ext; auto|]. unfold rg.
    rewrite (MK (fun b => if Z.eqb b (cg_ref G) then match mfind b (cg_poses G) with Some P => P | None => pid end else matrix (pa_pose p' (KCam (cg_id G) b)))).
    rewrite Z.eqb_refl. destruct (mfind (cg_ref G) (cg_poses G)); auto. }
  assert (EB : forall k o, In (k, o) (ca_objs s) -> boards_of p' o = rf o).
  { intros k o H. unfold boards_of, rf. apply map_ext_in. intros (b, P) Hb. cbn [fst]. f_equal. destruct (Z.eqb_spec b (ob_ref o)) as [->|N]; [|reflexivity].
    destruct (mfind (ob_ref o) (ob_poses o)) as [Q|] eqn:EQ.
    - rewrite (RO k o H). apply (rp_boards _ _ _ RP k o (ob_ref o) Q H EQ).
    - exfalso. apply mfind_None in EQ. apply EQ. apply in_map_iff. exists (ob_ref o, P). auto. }
  assert (EC : forall k G, In (k, G) (ca_groups s) -> cams_of p' G = rg G).
  { intros k o H. unfold cams_of, rg. apply map_ext_in. intros (b, P) Hb. cbn [fst]. f_equal. destruct (Z.eqb_spec b (cg_ref o)) as [->|N]; [|reflexivity].
    destruct (mfind (cg_ref o) (cg_poses o)) as [Q|] eqn:EQ.
    - rewrite (RG k o H). apply (rp_cams _ _ _ RP k o (cg_ref o) Q H EQ).
    - exfalso. apply mfind_None in EQ. apply EQ. apply in_map_iff. exists (cg_ref o, P). auto. }
  assert (ES : s' = refine_calib bpts rf rg s).
  { unfold s', refine_calib. f_equal.
    - unfold refine_objects. apply map_ext_in. intros (k, o) H. rewrite (EB k o H). auto.
    - unfold refine_groups. apply map_ext_in. intros (k, G) H. rewrite (EC k G H). auto. }
  split; [rewrite ES; apply rd_refine; auto|]. split; [|auto].
  constructor.
  - intros k o b P H E. unfold s', refine_calib in H. cbn [ca_objs] in H. apply in_map_iff in H as ((k0, o0) & Eq & H). injection Eq as <- <-.
    cbn [updateObjectPts ob_id ob_poses] in E |- *. unfold boards_of in E.
    replace (map (fun '(b0, _) => (b0, RVecT2Proj (fst (pa_pose p' (KBoard (ob_id o0) b0))) (snd (pa_pose p' (KBoard (ob_id o0) b0))))) (ob_poses o0))
      with (map (fun e : Z * pose => (fst e, matrix (pa_pose p' (KBoard (ob_id o0) (fst e))))) (ob_poses o0)) in E by (apply map_ext; intros (x, y); reflexivity).
    rewrite (MK (fun b => matrix (pa_pose p' (KBoard (ob_id o0) b)))) in E. destruct (mfind b (ob_poses o0)); [|discriminate E]. injection E as E. auto.
  - intros k G b P H E. unfold s', refine_calib in H. cbn [ca_groups] in H. apply in_map_iff in H as ((k0, G0) & Eq & H). injection Eq as <- <-.
    cbn [cg_id cg_poses] in E |- *. unfold cams_of in E.
    replace (map (fun '(b0, _) => (b0, RVecT2Proj (fst (pa_pose p' (KCam (cg_id G0) b0))) (snd (pa_pose p' (KCam (cg_id G0) b0))))) (cg_poses G0))
      with (map (fun e : Z * pose => (fst e, matrix (pa_pose p' (KCam (cg_id G0) (fst e))))) (cg_poses G0)) in E by (apply map_ext; intros (x, y); reflexivity).
    rewrite (MK (fun b => matrix (pa_pose p' (KCam (cg_id G0) b)))) in E. destruct (mfind b (cg_poses G0)); [|discriminate E]. injection E as E. auto.
Qed.

(** ** C48 *)
(** The blocks of the problems are the corners of the detected boards, each with the 3-D
    point of the same corner, and the poses and the lens that belong to it. *)
Theorem C48_cameras_use_their_detections : forall cams c ns bs b, camera_problem bpts t cams c ns = Some bs ->
  (In b bs <-> exists n bo m q, In n ns /\ nth_error (mvals (t_obs t)) n = Some bo /\ o_valid bo = true /\ own_corner bpts bo m q /\
                 b = BIntr m q (cams c) (KBoardObs n) c).
Proof. intros cams. exact (camera_problem_In bpts t cams TR). Qed.
Theorem C48_objects_use_their_detections : forall cams p k o bs b, In (k, o) (ca_objs s) -> object_problem bpts t cams p (ca_oobs s) o = Some bs ->
  (In b bs <-> exists n oo j bo m q, nth_error (ot_all (ca_oobs s)) n = Some oo /\ oo_obj oo = ob_id o /\ In j (oo_bobs oo) /\
     nth_error (mvals (t_obs t)) j = Some bo /\ o_valid bo = true /\ own_corner bpts bo m q /\
     b = BObj m q (pa_intr p (o_cam bo)) (negb (Z.eqb (ob_ref o) (o_board bo))) (cams (o_cam bo)) (KObjObs n) (KBoard (ob_id o) (o_board bo))).
Proof.
  intros cams p k o bs b H E. destruct setting as (bss & ol & css & gl & CO & FR). apply (object_problem_In bpts t cams bss ol css gl s CO TR p o bs b); auto.
  apply (objs_vals bpts t bss ol css gl s CO). apply (in_map snd) in H; auto.
Qed.
(** oo: an object observation by a camera of G, of object o; bo: one of its board
    observations *)
Definition detection_of (G : cgroup) (oo : objobs pt2) (o : obj3d) (bo : bobs pt2) : Prop :=
  In oo (ot_all (ca_oobs s)) /\ In (oo_cam oo) (cg_cams G) /\ mfind (oo_obj oo) (ca_objs s) = Some o /\
  exists j, In j (oo_bobs oo) /\ nth_error (mvals (t_obs t)) j = Some bo.
Theorem C48_groups_use_their_detections : forall cams p k G bs, In (k, G) (ca_groups s) ->
  (group_objects_problem bpts cams p s G = Some bs ->
   forall b, In b bs <-> exists oo o bo m q, detection_of G oo o bo /\ own_corner bpts bo m q /\
     b = BBoth m q (pa_intr p (oo_cam oo)) (negb (Z.eqb (cg_ref G) (oo_cam oo))) (negb (Z.eqb (ob_ref o) (o_board bo))) (cams (oo_cam oo))
               (KCam (cg_id G) (oo_cam oo)) (KGroup (cg_id G, oo_frame oo) (oo_obj oo)) (KBoard (ob_id o) (o_board bo))) /\
  (group_all_problem bpts cams s G = Some bs ->
   forall b, In b bs <-> exists oo o bo m q, detection_of G oo o bo /\ own_corner bpts bo m q /\
     b = BAll m q (negb (Z.eqb (cg_ref G) (oo_cam oo))) (negb (Z.eqb (ob_ref o) (o_board bo))) (cams (oo_cam oo))
              (KCam (cg_id G) (oo_cam oo)) (KGroup (cg_id G, oo_frame oo) (oo_obj oo)) (KBoard (ob_id o) (o_board bo)) (oo_cam oo)).
Proof.
  intros cams p k G bs HG. destruct setting as (bss & ol & css & gl & CO & FR).
  assert (HG' : In G gl) by (apply (groups_vals bpts t bss ol css gl s CO); apply (in_map snd) in HG; auto).
  split; intros E b.
  - apply (corners_problem_In bpts t cams bss ol css gl s CO TR FR (fun k oo o bd q m => BBoth m q (pa_intr p (oo_cam oo)) (negb (Z.eqb (cg_ref G) (oo_cam oo))) (negb (Z.eqb (ob_ref o) bd))
                                          (cams (oo_cam oo)) (KCam (cg_id G) (oo_cam oo)) (KGroup k (oo_obj oo)) (KBoard (ob_id o) bd)) G bs b HG' E).
  - apply (corners_problem_In bpts t cams bss ol css gl s CO TR FR (fun k oo o bd q m => BAll m q (negb (Z.eqb (cg_ref G) (oo_cam oo))) (negb (Z.eqb (ob_ref o) bd))
                                          (cams (oo_cam oo)) (KCam (cg_id G) (oo_cam oo)) (KGroup k (oo_obj oo)) (KBoard (ob_id o) bd) (oo_cam oo)) G bs b HG' E).
Qed.
(** and every detection enters the problem of a group, of exactly one *)
Theorem C48_every_detection_is_used : forall n (bo : bobs pt2), nth_error (mvals (t_obs t)) n = Some bo -> o_pts bo <> [] ->
  exists k G oo o, In (k, G) (ca_groups s) /\ detection_of G oo o bo /\ o_cam bo = oo_cam oo /\ o_frame bo = oo_frame oo /\
    forall k' G' oo' o', In (k', G') (ca_groups s) -> detection_of G' oo' o' bo -> G' = G.
Proof.
  intros n bo Hn Hp. destruct setting as (bss & ol & css & gl & CO & FR). destruct CO as [E1 OK OT Ob Cov E2 GK GT NU CA KE] eqn:ECO.
  assert (GA : forall oo j b, In oo (ot_all (ca_oobs s)) -> In j (oo_bobs oo) -> nth_error (mvals (t_obs t)) j = Some b -> o_cam b = oo_cam oo /\ o_frame b = oo_frame oo).
  { intros oo j b Hoo Hj Hb. destruct (Ob oo Hoo) as (i & o & _ & _ & Ga). apply (ga_bobs _ _ _ Ga) in Hj as (b' & Hb' & Hc & Hf & _). unfold obs_at in Hb'.
    assert (b' = b) by congruence. subst. auto. }
  destruct (Cov n bo Hn Hp) as (_ & oo & Hoo & Hin). destruct (GA oo n bo Hoo Hin Hn) as (C1 & C2).
  destruct (In_nth_error _ _ Hoo) as (m & Hm). destruct (obs_group bpts t bss ol css gl s CO m oo Hm) as (G & HG & HC).
  assert (Hk : exists k, In (k, G) (ca_groups s)).
  { apply (groups_vals bpts t bss ol css gl s CO) in HG. unfold mvals in HG. apply in_map_iff in HG as ((k, G') & <- & HG). eauto. }
  destruct Hk as (k & Hk). destruct (view_ok bpts t bss ol css gl s CO TR m oo Hm) as (o & bs & V & _).
  assert (Ho : mfind (oo_obj oo) (ca_objs s) = Some o) by (unfold view_data in V; rewrite Hm in V; destruct (mfind (oo_obj oo) (ca_objs s)); congruence).
  exists k, G, oo, o. split; [auto|]. split; [split; [auto|]; split; [auto|]; split; [auto|]; eauto|]. split; [auto|]. split; [auto|].
  intros k' G' oo' o' HG' (Q1 & Q2 & _ & j & Q3 & Q4). destruct (GA oo' j bo Q1 Q3 Q4) as (C3 & _).
  apply (camera_group bpts t bss ol css gl s CO (oo_cam oo)); auto; [|congruence].
  apply (groups_vals bpts t bss ol css gl s CO). apply (in_map snd) in HG'; auto.
Qed.

(** ** C49 *)
(** No two groups see the same board, unless it is the board that its object is built on
    (whose pose in the object is never refined). *)
Definition boards_apart : Prop := forall k k' G G' oo o bo oo' o' bo', In (k, G) (ca_groups s) -> In (k', G') (ca_groups s) ->
  detection_of G oo o bo -> detection_of G' oo' o' bo' -> o_board bo = o_board bo' -> o_board bo <> ob_ref o -> G = G'.
Lemma apart_cost cams solve (problem : params -> cgroup -> option (list block)) (I : params -> Prop) (mk : cgroup -> objobs pt2 -> obj3d -> Z -> vec3 -> pt2 -> block) p p' k G bs c :
  ceres solve -> boards_apart ->
  (forall x q, In x (mvals (ca_groups s)) -> I q -> problem q x = problem p x) ->
  (forall x bx, In x (mvals (ca_groups s)) -> problem p x = Some bx -> forall q, I q -> I (solve bx q)) ->
  (forall x, In x (mvals (ca_groups s)) -> exists bx, problem p x = Some bx) ->
  (forall kx x bx b, In (kx, x) (ca_groups s) -> problem p x = Some bx -> In b bx ->
     exists oo o bo m q, detection_of x oo o bo /\ b = mk x oo o (o_board bo) q m) ->
  (forall x oo o bd q m, live_keys (mk x oo o bd q m) = live_keys (BBoth m q (pa_intr p (oo_cam oo)) (negb (Z.eqb (cg_ref x) (oo_cam oo))) (negb (Z.eqb (ob_ref o) bd)) (cams (oo_cam oo))
     (KCam (cg_id x) (oo_cam oo)) (KGroup (cg_id x, oo_frame oo) (oo_obj oo)) (KBoard (ob_id o) bd)) /\
     forall z, In z (intr_keys (mk x oo o bd q m)) -> z = oo_cam oo) ->
  I p -> solve_each solve problem (mvals (ca_groups s)) p = Some p' -> In (k, G) (ca_groups s) -> problem p G = Some bs -> cost p bs = Some c ->
  I p' /\ exists c', cost p' bs = Some c' /\ (c' <= c)%R.
Proof.
  intros CE BA PE PI PT SH MK Ip E HG Eb Ec. destruct setting as (bss & ol & css & gl & CO & FR).
  set (prob := fun G => match problem p G with Some bs => bs | None => [] end).
  assert (PB : forall x, In x (mvals (ca_groups s)) -> problem p x = Some (prob x)) by (intros x Hx; unfold prob; destruct (PT x Hx) as (y & ->); auto).
  assert (Epb : prob G = bs) by (unfold prob; rewrite Eb; auto). subst bs.
  assert (KX : forall x, In x (mvals (ca_groups s)) -> exists kx, In (kx, x) (ca_groups s)) by (intros x Hx; apply in_map_iff in Hx as ((kx, y) & <- & Hx); eauto).
  assert (SH' : forall x b, In x (mvals (ca_groups s)) -> In b (prob x) -> exists oo o bo m q, detection_of x oo o bo /\ b = mk x oo o (o_board bo) q m).
  { intros x b Hx Hb. destruct (KX x Hx) as (kx & Hk). apply (SH kx x (prob x) b Hk (PB x Hx) Hb). }
  assert (Hm : In G (mvals (ca_groups s))) by (apply (in_map snd) in HG; auto).
  destruct (solve_each_cost solve problem CE I (mvals (ca_groups s)) prob (NoDup_groups bpts t bss ol css gl s CO)) with (p := p) (p' := p') (a := G) (c := c) as (R1 & R2); auto.
  - intros a q Ha H. rewrite (PE a q Ha H). auto.
  - intros a q Ha H. apply (PI a (prob a) Ha (PB a Ha)). auto.
  - intros a a' b b' key Ha Ha' N Hb Hb' Hk Hk'.
    destruct (SH' a b Ha Hb) as (oo & o & bo & m & q & D & ->), (SH' a' b' Ha' Hb') as (oo' & o' & bo' & m' & q' & D' & ->).
    destruct (MK a oo o (o_board bo) q m) as (Lk & _), (MK a' oo' o' (o_board bo') q' m') as (Lk' & _). rewrite Lk in Hk. rewrite Lk' in Hk'.
    assert (IDS : cg_id a <> cg_id a').
    { intros Eq. apply N. apply (same_group_id bpts t bss ol css gl s CO); auto; apply (groups_vals bpts t bss ol css gl s CO); auto. }
    cbn [live_keys] in Hk, Hk'.
    assert (SP : forall x (oo : objobs pt2) (o : obj3d) bd, In key (KGroup (cg_id x, oo_frame oo) (oo_obj oo) :: (if negb (Z.eqb (cg_ref x) (oo_cam oo)) then [KCam (cg_id x) (oo_cam oo)] else []) ++ (if negb (Z.eqb (ob_ref o) bd) then [KBoard (ob_id o) bd] else [])) ->
      key = KGroup (cg_id x, oo_frame oo) (oo_obj oo) \/ key = KCam (cg_id x) (oo_cam oo) \/ (key = KBoard (ob_id o) bd /\ bd <> ob_ref o)).
    { intros x y z bd [H|H]; [auto|]. apply in_app_or in H as [H|H].
      - destruct (Z.eqb (cg_ref x) (oo_cam y)); cbn [negb] in H; [destruct H|]. destruct H as [H|[]]. auto.
      - destruct (Z.eqb_spec (ob_ref z) bd) as [Q|Q]; cbn [negb] in H; [destruct H|]. destruct H as [H|[]]. right. right. split; [auto|congruence]. }
    apply SP in Hk. apply SP in Hk'.
    destruct Hk as [-> |[-> |(-> & NR)]], Hk' as [Q|[Q|(Q & NR')]]; try discriminate Q; try (injection Q; intros; congruence).
    injection Q as _ Q. destruct (KX a Ha) as (ka & Ka), (KX a' Ha') as (ka' & Ka'). apply N. apply (BA ka ka' a a' oo o bo oo' o' bo' Ka Ka' D D' Q NR).
  - intros a a' b b' z Ha Ha' N Hb Hb' Hk Hk'.
    destruct (SH' a b Ha Hb) as (oo & o & bo & m & q & (_ & D & _) & ->), (SH' a' b' Ha' Hb') as (oo' & o' & bo' & m' & q' & (_ & D' & _) & ->).
    apply MK in Hk, Hk'. subst z. rewrite <- Hk' in D'. apply N. apply (camera_group bpts t bss ol css gl s CO (oo_cam oo)); auto; apply (groups_vals bpts t bss ol css gl s CO); auto.
Qed.
(** Refinement does not make a calibration worse: the cost of an object, of a group (boards
    fixed), and of a group with its boards (and intrinsics) if no two groups refine the pose
    of the same board, does not increase.  In particular the cost of the only group. *)
Theorem C49_cost_does_not_increase_partial : forall cams solve p p', ceres solve ->
  (refineAllObject3D solve bpts t cams s p = Some p' ->
   forall k o bs c, In (k, o) (ca_objs s) -> object_problem bpts t cams p (ca_oobs s) o = Some bs -> cost p bs = Some c ->
     object_problem bpts t cams p' (ca_oobs s) o = Some bs /\ exists c', cost p' bs = Some c' /\ (c' <= c)%R) /\
  (refineAllCameraGroup solve cams s p = Some p' ->
   forall k G bs c, In (k, G) (ca_groups s) -> group_problem cams p s G = Some bs -> cost p bs = Some c ->
     group_problem cams p' s G = Some bs /\ exists c', cost p' bs = Some c' /\ (c' <= c)%R) /\
  (boards_apart -> refineAllCameraGroupAndObjects solve bpts cams s p = Some p' ->
   forall k G bs c, In (k, G) (ca_groups s) -> group_objects_problem bpts cams p s G = Some bs -> cost p bs = Some c ->
     group_objects_problem bpts cams p' s G = Some bs /\ exists c', cost p' bs = Some c' /\ (c' <= c)%R) /\
  (boards_apart -> refineAllCameraGroupAndObjectsAndIntrinsic solve bpts cams s p = Some p' ->
   forall k G bs c, In (k, G) (ca_groups s) -> group_all_problem bpts cams s G = Some bs -> cost p bs = Some c ->
     exists c', cost p' bs = Some c' /\ (c' <= c)%R) /\
  ((exists k G, ca_groups s = [(k, G)]) -> boards_apart).
Proof.
  intros cams solve p p' CE. destruct setting as (bss & ol & css & gl & CO & FR). split; [|split; [|split; [|split]]].
  - intros E k o bs c. apply (objects_cost bpts t cams bss ol css gl s CO TR solve p p' k o bs c CE E).
  - intros E k G bs c. apply (groups_cost bpts t cams bss ol css gl s CO TR FR solve p p' k G bs c CE E).
  - intros BA E k G bs c HG Eb Ec.
    destruct (apart_cost cams solve (fun p G => group_objects_problem bpts cams p s G) (same_intr p)
      (fun x oo o bd q m => BBoth m q (pa_intr p (oo_cam oo)) (negb (Z.eqb (cg_ref x) (oo_cam oo))) (negb (Z.eqb (ob_ref o) bd)) (cams (oo_cam oo))
         (KCam (cg_id x) (oo_cam oo)) (KGroup (cg_id x, oo_frame oo) (oo_obj oo)) (KBoard (ob_id o) bd)) p p' k G bs c) as (R1 & R2); auto.
    + intros x q Hx H. apply (group_objects_problem_intr bpts cams s p q x H).
    + intros x bx Hx Ex q H c0. rewrite (ce_intr _ CE); [apply H|]. intros b Hb. destruct (group_objects_shape bpts t cams bss ol css gl s CO TR p x bx b Ex Hb) as (n & oo & o & bd & y & m & _ & _ & _ & kk & _ & ->). intros [].
    + intros x Hx. apply (group_objects_total bpts t cams bss ol css gl s CO TR FR p). apply (groups_vals bpts t bss ol css gl s CO). auto.
    + intros kx x bx b Hx Ex Hb. destruct (proj1 (proj1 (C48_groups_use_their_detections cams p kx x bx Hx) Ex b) Hb) as (oo & o & bo & m & q & D & _ & ->). exists oo, o, bo, m, q. auto.
    + intros. split; [reflexivity|]. intros z [].
    + intros z. auto.
    + split; [rewrite (group_objects_problem_intr bpts cams s p p' G R1); auto|auto].
  - intros BA E k G bs c HG Eb Ec.
    apply (apart_cost cams solve (fun _ G => group_all_problem bpts cams s G) (fun _ => True)
      (fun x oo o bd q m => BAll m q (negb (Z.eqb (cg_ref x) (oo_cam oo))) (negb (Z.eqb (ob_ref o) bd)) (cams (oo_cam oo))
         (KCam (cg_id x) (oo_cam oo)) (KGroup (cg_id x, oo_frame oo) (oo_obj oo)) (KBoard (ob_id o) bd) (oo_cam oo)) p p' k G bs c); auto.
    + intros x Hx. apply (group_all_total bpts t cams bss ol css gl s CO TR FR). apply (groups_vals bpts t bss ol css gl s CO). auto.
    + intros kx x bx b Hx Ex Hb. destruct (proj1 (proj2 (C48_groups_use_their_detections cams p kx x bx Hx) Ex b) Hb) as (oo & o & bo & m & q & D & _ & ->). exists oo, o, bo, m, q. auto.
    + intros. split; [reflexivity|]. cbn [intr_keys]. intros z [H|[]]. auto.
  - intros (k & G & E) k1 k2 G1 G2 oo o bo oo' o' bo' H1 H2 _ _ _ _. rewrite E in H1, H2. destruct H1 as [H1|[]], H2 as [H2|[]]. congruence.
Qed.

(** A calibration that meets all detections is left as it is. *)
Theorem C49_exact_calibration_stays : forall cams solve p, ceres solve ->
  represents p (ca_objs s) (ca_groups s) -> (forall k, plain (pa_pose p k)) ->
  computeAvgReprojectionError cams p s = Some 0%R ->
  refineAllCameraGroup solve cams s p = Some p /\ refineAllCameraGroupAndObjects solve bpts cams s p = Some p /\
  refineAllCameraGroupAndObjectsAndIntrinsic solve bpts cams s p = Some p.
Proof.
  intros cams solve p CE RP PL E. assert (NE : ot_all (ca_oobs s) <> []) by (apply C42_zero_iff_exact in E as (NE & _); auto).
  assert (ZC := proj1 (C46_zero_cost_is_zero_average cams p RP PL NE) E).
  assert (FX : forall problem : params -> cgroup -> option (list block), (forall k G, In (k, G) (ca_groups s) -> exists bs, problem p G = Some bs /\ cost p bs = Some 0%R) ->
    solve_each solve problem (mvals (ca_groups s)) p = Some p).
  { clear -CE. intros problem. unfold mvals. induction (ca_groups s) as [|(k, G) l IH]; intros H; [reflexivity|]. unfold solve_each in *. cbn [map snd fold_left].
    destruct (H k G (or_introl eq_refl)) as (bs & Eb & Ec). rewrite Eb. cbn [option_map]. rewrite (ce_exact _ CE bs p Ec). apply IH. intros k' G' H'. apply (H k' G'). right. auto. }
  split; [|split]; apply FX; intros k G HG;
    destruct (C46_optimised_errors_are_the_reported_errors cams p RP PL k G HG) as ((b1 & E1 & _) & (b2 & E2 & _) & (b3 & E3 & _)).
  - exists b1. split; auto. apply (ZC k G); auto.
  - exists b2. split; auto. apply (ZC k G); auto.
  - exists b3. split; auto. apply (ZC k G); auto.
Qed.
End Setting.
Print Assumptions C46_optimised_errors_are_the_reported_errors.
Print Assumptions C46_zero_cost_is_zero_average.
Print Assumptions C42_average_is_mean_of_means.
Print Assumptions C42_average_between_extremes.
Print Assumptions C42_zero_iff_exact.
Print Assumptions C42_no_observation_no_average.
Print Assumptions C47_refinement_cannot_fail.
Print Assumptions C47_refinement_keeps_the_calibration_consistent.
Print Assumptions C48_cameras_use_their_detections.
Print Assumptions C48_objects_use_their_detections.
Print Assumptions C48_groups_use_their_detections.
Print Assumptions C48_every_detection_is_used.
Print Assumptions C49_cost_does_not_increase_partial.
Print Assumptions C49_exact_calibration_stays.

Definition flat_corners : list pt2 := [(0,0);(1,0);(0,1);(1,1);(2,2)]%R.
Definition exact_ins : list (insertion pt2) :=
  [mkIns 0%Z 0%Z 0%Z flat_corners five_ids EmptyString; mkIns 1%Z 0%Z 1%Z flat_corners five_ids EmptyString].
Definition exact_t : tables pt2 := run_of 2 2 exact_ins.
Definition exact_p : params :=
  mkPar (fun k => match k with KGroup _ _ => (V3 0 0 0, V3 0 0 1)%R | _ => (V3 0 0 0, V3 0 0 0)%R end) (fun _ => I9 1 1 0 0 0 0 0 0 0)%R.
Lemma exact_after : after_detection 2 2 exact_ins exact_t.
Proof. apply run_after. unfold exact_ins. repeat constructor; cbn; lia. Qed.
Lemma exact_trimmed : forall o, In o (mvals (t_obs exact_t)) -> trimmed grid o.
Proof.
  intros b H; vm_compute in H; repeat (destruct H as [<-|H]; [|]); try destruct H; 
  (split; [reflexivity|]; split; [repeat constructor; cbn; lia|]; cbn; split; auto; intros; lia).
Qed.

Lemma exact_start svd lr uq : exists s, start_of svd lr uq exact_t = Some s /\ ca_groups s = [single 0 0; single 1 1] /\
  (exists o0 o1, ca_objs s = [(0%Z, o0); (1%Z, o1)] /\ ob_id o0 = 0%Z /\ ob_id o1 = 1%Z /\ ob_poses o0 = [(0%Z, pid)] /\ ob_poses o1 = [(1%Z, pid)] /\
    ob_pts o0 = grid 0 /\ ob_pts o1 = grid 0) /\
  ot_all (ca_oobs s) = [mkOO 0 0 0 [0%Z] [0] flat_corners five_ids; mkOO 1 1 0 [1%Z] [1] flat_corners five_ids].
Proof.
  destruct (start_of svd lr uq exact_t) as [s|] eqn:E; [|exfalso; vm_compute in E; discriminate E].
  exists s. split; [reflexivity|]. vm_compute in E. injection E as <-. 
  split; [reflexivity|]. split; [|reflexivity]. do 2 eexists. split; [reflexivity|]. do 4 (split; [reflexivity|]).
  cbn [ob_pts]. unfold grid. split; (repeat apply f_equal2; try reflexivity; apply vec3_eq; cbn [vx vy vz]; cbn; ring).
Qed.
Lemma exact_matrix P : fst P = V3 0 0 0%R -> matrix P = (mid, snd P).
Proof.
  intros E. destruct P as (r, x). cbn in E. subst r. unfold matrix, RVecT2Proj. cbn [fst snd]. f_equal.
  unfold exp_rot. destruct (Req_EM_T (vnorm (V3 0 0 0)%R) 0) as [_|N]; [reflexivity|exfalso; apply N]. unfold vnorm.
  replace (vdot _ _) with 0%R by (unfold vdot; cbn; ring). apply sqrt_0.
Qed.
(** two cameras, each with a board of its own, one unit before it *)
Example C42_exact_run : forall svd lr uq, exists s,
  reached svd lr uq pick_first empty_graph grid exact_t s /\ after_detection 2 2 exact_ins exact_t /\
  (forall o, In o (mvals (t_obs exact_t)) -> trimmed grid o) /\
  represents exact_p (ca_objs s) (ca_groups s) /\ (forall k, plain (pa_pose exact_p k)) /\
  length (ot_all (ca_oobs s)) = 2 /\
  computeAvgReprojectionError (fun _ => 0%Z) exact_p s = Some 0%R.
Proof.
  intros svd lr uq. destruct (exact_start svd lr uq) as (s & E & EG & (o0 & o1 & EO & I0 & I1 & P0 & P1 & X0 & X1) & EA).
  assert (Rd := start_reached svd lr uq exact_t s E). exists s. split; [auto|]. split; [apply exact_after|]. split; [apply exact_trimmed|].
  assert (Id : forall k, (forall a b, k <> KGroup a b) -> matrix (pa_pose exact_p k) = pid).
  { intros [n|n|a b|a b|a b] H; try (rewrite exact_matrix; reflexivity). exfalso. apply (H a b). auto. }
  split.
  { constructor.
    - intros k o b P H Ef. rewrite Id by (intros; discriminate). rewrite EO in H. destruct H as [H|[H|[]]]; injection H as <- <-; [rewrite P0 in Ef|rewrite P1 in Ef]; cbn [mfind] in Ef;
        (destruct (kcmp b _); [injection Ef as <-; auto|discriminate Ef|discriminate Ef]).
    - intros k G c P H Ef. rewrite Id by (intros; discriminate). rewrite EG in H. destruct H as [H|[H|[]]]; injection H as <- <-; cbn [cg_poses mfind] in Ef;
        (destruct (kcmp c _); [injection Ef as <-; auto|discriminate Ef|discriminate Ef]). }
  split; [intros []; left; cbn; unfold vdot; cbn; ring|]. split; [rewrite EA; auto|].
  apply (C42_zero_iff_exact svd lr uq pick_first empty_graph pick_first_good grid 2 2 exact_ins exact_t exact_after exact_trimmed s Rd).
  rewrite EA. split; [discriminate|].
  assert (RE : forall G oo (o : obj3d), oo_pts oo = flat_corners -> oo_ids oo = five_ids -> ob_pts o = grid 0 ->
    forall i m, nth_error (oo_pts oo) i = Some m -> reprojects (fun _ => 0%Z) exact_p G oo o i m).
  { intros G oo o E1 E2 E3 i m Hm. exists i, (nth i (grid 0) (V3 0 0 0)%R). rewrite E1 in Hm. rewrite E2, E3.
    assert (EP : matrix (pa_pose exact_p (KGroup (cg_id G, oo_frame oo) (oo_obj oo))) = (mid, V3 0 0 1)%R) by (rewrite exact_matrix; reflexivity).
    rewrite EP, Id by (intros; discriminate). rewrite pmul_id_l.
    destruct i as [|[|[|[|[|i]]]]]; cbn [nth_error flat_corners] in Hm; try (injection Hm as <-);
      try (split; [reflexivity|]; split; [reflexivity|]).
    6:{ destruct i; discriminate Hm. }
    all: unfold image; cbn [nth grid]; match goal with |- context [pact ?P ?q] => replace (pact P q) with (V3 (vx q) (vy q) 1)%R by (apply vec3_eq; cbn; ring) end;
      cbn [vx vy vz]; (destruct (Req_EM_T 1 0); [lra|]); cbn; apply some_pair; field. }
  intros oo [<-|[<-|[]]].
  - exists 0%Z, (snd (single 0 0)), o0. rewrite EG, EO. split; [left; auto|]. split; [left; auto|]. split; [reflexivity|]. apply RE; auto.
  - exists 1%Z, (snd (single 1 1)), o1. rewrite EG, EO. split; [right; left; auto|]. split; [left; auto|]. split; [reflexivity|]. apply RE; auto.
Qed.

Print Assumptions C42_exact_run.
(** the assumptions on ceres::Solve can be met, by leaving everything as it is, and by a
    solver that does something *)
Lemma ceres_idle : ceres (fun _ p => p).
Proof. constructor; auto. intros bs p c E. exists c. split; auto. lra. Qed.
Definition moved_start : params := mkPar (fun _ => (V3 0 0 0, V3 0 0 0)%R) (fun _ => I9 1 1 0 0 0 0 0 0 0)%R.
Definition moved_end : params :=
  mkPar (fun k => match k with KBoardObs 0 => (V3 0 0 0, V3 1 0 0)%R | _ => (V3 0 0 0, V3 0 0 0)%R end) (fun _ => I9 1 1 0 0 0 0 0 0 0)%R.
Definition moved_blocks : list block := [BIntr (1, 0)%R (V3 0 0 1)%R 0%Z (KBoardObs 0) 0%Z].
Lemma moved_eval x p : pa_intr p 0%Z = (I9 1 1 0 0 0 0 0 0 0)%R -> pa_pose p (KBoardObs 0) = (V3 0 0 0, V3 x 0 0)%R ->
  eval p (BIntr (1, 0)%R (V3 0 0 1)%R 0%Z (KBoardObs 0) 0%Z) = Some (x - 1, 0)%R.
Proof.
  intros EI EP. rewrite (eval_ok p) by (intros k H; left; destruct H as [<-|[]]; rewrite EP; cbn; unfold vdot; cbn; ring).
  cbn [block_uv block_model block_intr block_pose block_pt]. rewrite EI, EP, exact_matrix by reflexivity. cbn [snd]. unfold image.
  replace (pact (mid, V3 x 0 0) (V3 0 0 1))%R with (V3 x 0 1)%R by (apply vec3_eq; cbn; ring). cbn [vx vy vz]. destruct (Req_EM_T 1 0); [lra|].
  cbn. unfold minus. apply some_pair; cbn [fst snd]; field.
Qed.
Example C47_solver_exists : exists solve, ceres solve /\ solve moved_blocks moved_start = moved_end.
Proof.
  exists (fun bs p => if excluded_middle_informative (bs = moved_blocks /\ p = moved_start) then moved_end else p).
  assert (EB := moved_eval 0 moved_start eq_refl eq_refl). assert (EE := moved_eval 1 moved_end eq_refl eq_refl).
  split; [|destruct (excluded_middle_informative _) as [_|N]; [reflexivity|exfalso; apply N; auto]].
  constructor.
  - intros bs p k H. destruct (excluded_middle_informative _) as [(-> & ->)|_]; [|auto].
    destruct (excluded_middle_informative (k = KBoardObs 0)) as [->|N].
    + exfalso. assert (A : agree_but (KBoardObs 0) moved_start moved_end).
      { split; [reflexivity|]. intros [[|n]|n|a b|a b|a b] Hk; try reflexivity. congruence. }
      specialize (H _ (or_introl eq_refl) _ _ A). rewrite EB, EE in H. injection H as H. lra.
    + destruct k as [[|n]|n|a b|a b|a b]; try reflexivity. congruence.
  - intros bs p c H. destruct (excluded_middle_informative _) as [(-> & ->)|_]; auto.
  - intros bs p c E. destruct (excluded_middle_informative _) as [(-> & ->)|_]; [|exists c; split; [auto|lra]].
    exists 0%R. assert (N := cost_nonneg _ _ _ E). split; [|auto]. apply cost_zero. exists [(0, 0)%R]. split; [|repeat constructor].
    unfold moved_blocks. cbn [map]. rewrite EE. cbn [collect option_map]. f_equal. f_equal. f_equal. ring.
  - intros bs p E. destruct (excluded_middle_informative _) as [(-> & ->)|_]; [|auto].
    exfalso. apply cost_zero in E as (rs & E & F). unfold moved_blocks in E. cbn [map] in E. rewrite EB in E. cbn [collect option_map] in E. injection E as <-.
    inversion F as [|? ? Q _]; subst. injection Q as Q. lra.
Qed.
Print Assumptions C47_solver_exists.
(** all hypotheses of C46, C47 and C49 together *)
Example C49_example : forall svd lr uq, exists s p', reached svd lr uq pick_first empty_graph grid exact_t s /\
  represents exact_p (ca_objs s) (ca_groups s) /\
  refineAllCameraGroupAndObjects (fun _ p => p) grid (fun _ => 0%Z) s exact_p = Some p' /\ p' = exact_p.
Proof.
  intros svd lr uq. destruct (C42_exact_run svd lr uq) as (s & Rd & AD & TR & RP & PL & _ & E). exists s, exact_p. split; [auto|]. split; [auto|]. split; [|auto].
  apply (C49_exact_calibration_stays svd lr uq pick_first empty_graph pick_first_good grid 2 2 exact_ins exact_t AD TR s Rd (fun _ => 0%Z) _ exact_p ceres_idle RP PL E).
Qed.
(** two groups that see no board in common *)
Example C49_boards_apart_example : forall svd lr uq, exists s, reached svd lr uq pick_first empty_graph grid exact_t s /\
  length (ca_groups s) = 2 /\ boards_apart exact_t s.
Proof.
  intros svd lr uq. destruct (exact_start svd lr uq) as (s & E & EG & _ & EA).
  exists s. split; [apply (start_reached svd lr uq exact_t s E)|]. rewrite EG. split; [reflexivity|].
  intros k k' G G' oo o bo oo' o' bo' H H' (D1 & D2 & _ & j & D3 & D4) (D1' & D2' & _ & j' & D3' & D4') Q _.
  rewrite EG in H, H'. rewrite EA in D1, D1'.
  assert (X : forall k G oo bo j, In (k, G) [single 0 0; single 1 1] -> In oo [mkOO 0 0 0 [0%Z] [0] flat_corners five_ids; mkOO 1 1 0 [1%Z] [1] flat_corners five_ids] ->
    In (oo_cam oo) (cg_cams G) -> In j (oo_bobs oo) -> nth_error (mvals (t_obs exact_t)) j = Some bo -> G = snd (single (o_board bo) (o_board bo))).
  { clear. intros k G oo bo j H D1 D2 D3 D4.
    destruct D1 as [<-|[<-|[]]]; cbn [oo_cam oo_bobs] in *; destruct D3 as [<-|[]]; vm_compute in D4; injection D4 as <-; 
      destruct H as [H|[H|[]]]; injection H as <- <-; cbn in D2; destruct D2 as [D2|[]]; try discriminate D2; reflexivity. }
  rewrite (X k G oo bo j H D1 D2 D3 D4), (X k' G' oo' bo' j' H' D1' D2' D3' D4'), Q. reflexivity.
Qed.
