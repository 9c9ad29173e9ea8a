(** C63: what the scripts of python_utils draw.  Specification: AnalysisSpec.v, RigSpec.v. *)
From Coq Require Import List ZArith Lia Reals Lra.
From Verif Require Import SMap DataModel DetectModel DetectProofs GeomModel GeomSpec GeomProofs ObjectsModel CameraModel ResidualModel ResidualSpec FileModel RigSpec RigPnP RigExample AnalysisModel AnalysisSpec AnalysisProofs PropAnalysis PropReport.
Import ListNotations.
Open Scope R_scope.

Lemma end_plain xs a : end_point xs (a, a, a) = nth (a - 1) xs vzero.
Proof. unfold end_point. destruct (nth (a - 1) xs vzero); reflexivity. Qed.
Lemma plot_plain xs a b : In (plain_end a b) segments -> In (nth (a - 1) xs vzero, nth (b - 1) xs vzero) (plot_camera xs).
Proof. intros H. unfold plot_camera. apply in_map_iff. exists (plain_end a b). split; [|auto]. cbn [plain_end fst snd]. rewrite !end_plain. reflexivity. Qed.
Lemma pact_as P x : pact P x = vadd (mv (fst P) x) (snd P).
Proof. destruct P as (A, t). apply vec3_eq; cbn; ring. Qed.
(** the segments of the drawing of a camera with pose P *)
Lemma drawn_edges r P x y : edge r x y -> ~ spoiled r x y -> drawn (plot_camera (draw_camera r P)) (pact P x) (pact P y).
Proof.
  assert (D : forall a b x y, In (plain_end a b) segments -> (a - 1 < 16)%nat -> (b - 1 < 16)%nat -> nth (a - 1) (body r) vzero = x -> nth (b - 1) (body r) vzero = y ->
    In (pact P x, pact P y) (plot_camera (draw_camera r P))).
  { intros a b x0 y0 H La Lb <- <-. assert (X := plot_plain (draw_camera r P) a b H). unfold draw_camera in X at 1 2.
    rewrite !(nth_indep _ vzero (vadd (mv (fst P) vzero) (snd P))) in X by (rewrite map_length; assumption). rewrite !(map_nth (fun x => vadd (mv (fst P) x) (snd P))) in X. rewrite !pact_as. exact X. }
  assert (F : forall (x y : vec3) a b, (In (plain_end a b) segments \/ In (plain_end b a) segments) -> (a - 1 < 16)%nat -> (b - 1 < 16)%nat -> nth (a - 1) (body r) vzero = x -> nth (b - 1) (body r) vzero = y ->
    drawn (plot_camera (draw_camera r P)) (pact P x) (pact P y)).
  { intros x0 y0 a b [H|H] La Lb Ea Eb; [left|right]; eapply D; eauto. }
  Ltac segment F a b := apply (F _ _ a b); [cbn; tauto|cbn; lia|cbn; lia|apply vec3_eq; cbn; lra|apply vec3_eq; cbn; lra].
  intros E N. destruct E as [sy sz [-> | ->] [-> | ->]|sx sz [-> | ->] [-> | ->]|sx sy [-> | ->] [-> | ->]|sy [-> | ->]|sx [-> | ->]|sx sy [-> | ->] [-> | ->]].
  - segment F 6%nat 8%nat.
  - segment F 2%nat 4%nat.
  - segment F 5%nat 7%nat.
  - segment F 1%nat 3%nat.
  - segment F 6%nat 5%nat.
  - segment F 2%nat 1%nat.
  - segment F 8%nat 7%nat.
  - exfalso. apply N. left. auto.
  - segment F 6%nat 2%nat.
  - segment F 5%nat 1%nat.
  - segment F 8%nat 4%nat.
  - segment F 7%nat 3%nat.
  - segment F 10%nat 12%nat.
  - segment F 9%nat 11%nat.
  - segment F 10%nat 9%nat.
  - segment F 12%nat 11%nat.
  - segment F 6%nat 10%nat.
  - segment F 5%nat 9%nat.
  - exfalso. apply N. right. auto.
  - segment F 7%nat 11%nat.
Qed.
Lemma drawn_axes r P x y : axis r x y -> In (pact P x, pact P y) (plot_camera (draw_camera r P)).
Proof.
  intros A. rewrite !pact_as. unfold plot_camera, segments. rewrite map_app || idtac. destruct A; cbn [map In]; do 20 right; [right; right; left|right; left|left]; cbn [plain_end fst snd]; rewrite !end_plain; reflexivity.
Qed.
Lemma some_inj {A} (a b : A) : Some a = Some b -> a = b.
Proof. congruence. Qed.
(** nothing else is drawn, except the two spoiled segments *)
Lemma drawn_only r P j s : nth_error (plot_camera (draw_camera r P)) j = Some s -> j <> 2%nat -> j <> 19%nat ->
  exists x y, (edge r x y \/ axis r x y) /\ (s = (pact P x, pact P y) \/ s = (pact P y, pact P x)).
Proof.
  assert (F : forall a b s, (end_point (draw_camera r P) (fst (plain_end a b)), end_point (draw_camera r P) (snd (plain_end a b))) = s -> (a - 1 < 16)%nat -> (b - 1 < 16)%nat -> 
    forall x y, nth (a - 1) (body r) vzero = x -> nth (b - 1) (body r) vzero = y -> s = (pact P x, pact P y)).
  { intros a b s0 <- La Lb x y <- <-. cbn [plain_end fst snd]. rewrite !end_plain. unfold draw_camera.
    rewrite !(nth_indep _ vzero (vadd (mv (fst P) vzero) (snd P))) by (rewrite map_length; assumption). rewrite !(map_nth (fun x => vadd (mv (fst P) x) (snd P))). rewrite !pact_as. reflexivity. }
  intros E N1 N2. unfold plot_camera, segments in E. rewrite nth_error_map in E.
  Ltac pt := apply vec3_eq; cbn; lra.
  Ltac fwd F E x y := apply some_inj in E; exists x, y; split; [left; constructor; ((left; reflexivity) || (right; reflexivity)) | left; apply (F _ _ _ E); [cbn; lia|cbn; lia|pt|pt]].
  Ltac bwd F E x y := apply some_inj in E; exists x, y; split; [left; constructor; ((left; reflexivity) || (right; reflexivity)) | right; apply (F _ _ _ E); [cbn; lia|cbn; lia|pt|pt]].
  destruct j as [|[|[|[|[|[|[|[|[|[|[|[|[|[|[|[|[|[|[|[|[|[|[|j]]]]]]]]]]]]]]]]]]]]]]]; try lia; cbn [nth_error option_map] in E; [..|destruct j; discriminate E].
  - bwd F E (box r 1 1 (-1)) (box r 1 (-1) (-1)).
  - fwd F E (box r 1 (-1) (-1)) (box r (-1) (-1) (-1)).
  - fwd F E (box r 1 1 (-1)) (box r (-1) 1 (-1)).
  - bwd F E (box r 1 1 1) (box r 1 (-1) 1).
  - fwd F E (box r 1 (-1) 1) (box r (-1) (-1) 1).
  - fwd F E (box r (-1) 1 1) (box r (-1) (-1) 1).
  - fwd F E (box r 1 1 1) (box r (-1) 1 1).
  - bwd F E (box r 1 (-1) 1) (box r 1 (-1) (-1)).
  - bwd F E (box r 1 1 1) (box r 1 1 (-1)).
  - bwd F E (box r (-1) (-1) 1) (box r (-1) (-1) (-1)).
  - bwd F E (box r (-1) 1 1) (box r (-1) 1 (-1)).
  - bwd F E (lens r 1 1) (lens r 1 (-1)).
  - fwd F E (lens r 1 (-1)) (lens r (-1) (-1)).
  - fwd F E (lens r (-1) 1) (lens r (-1) (-1)).
  - fwd F E (lens r 1 1) (lens r (-1) 1).
  - fwd F E (box r 1 (-1) 1) (lens r 1 (-1)).
  - fwd F E (box r 1 1 1) (lens r 1 1).
  - fwd F E (box r (-1) (-1) 1) (lens r (-1) (-1)).
  - apply some_inj in E. do 2 eexists. split; [right; apply axis_z|left; apply (F _ _ _ E); [cbn; lia|cbn; lia|pt|pt]].
  - apply some_inj in E. do 2 eexists. split; [right; apply axis_y|left; apply (F _ _ _ E); [cbn; lia|cbn; lia|pt|pt]].
  - apply some_inj in E. do 2 eexists. split; [right; apply axis_x|left; apply (F _ _ _ E); [cbn; lia|cbn; lia|pt|pt]].
Qed.

Lemma drawing r w ref c : rigid_rig w -> drawing_of r w ref c (plot_camera (draw_camera r (pmul (rg_cam w ref) (pinv (rg_cam w c))))).
Proof.
  intros RG. assert (E : forall x, seen_from w ref c x = pact (pmul (rg_cam w ref) (pinv (rg_cam w c))) x) by (intros x; unfold seen_from; symmetry; apply pact_mul).
  constructor.
  - intros x y H N. rewrite !E. apply drawn_edges; auto.
  - intros x y H. rewrite !E. apply drawn_axes; auto.
  - reflexivity.
  - intros j s H N1 N2. destruct (drawn_only _ _ j s H N1 N2) as (x & y & A & B). exists x, y. rewrite !E. auto.
Qed.
Lemma true_poses_read w ins file nb : rigid_rig w -> true_cameras w ins file -> (forall c, saw ins c <-> (0 <= c < Z.of_nat nb)%Z) -> (0 < nb)%nat ->
  exists l, read_cameras nb file = Some l /\ length l = nb /\ forall i e, nth_error l i = Some e -> snd e = pmul (rg_cam w 0%Z) (pinv (rg_cam w (Z.of_nat i))).
Proof.
  intros RG (ND & Sw & ref & Sr & Lr & Q) Hs Pn. assert (ref = 0%Z) as -> by (assert (A := proj1 (Hs ref) Sr); assert (B := Lr 0%Z (proj2 (Hs 0%Z) ltac:(lia))); lia).
  assert (F : forall i, (i < nb)%nat -> exists r, entry file (Z.of_nat i) = Some r /\ r_pose r = pmul (rg_cam w 0%Z) (pinv (rg_cam w (Z.of_nat i)))).
  { intros i Hi. assert (Hc : In (Z.of_nat i) (map fst file)) by (apply Sw, Hs; lia). apply in_map_iff in Hc as ((c & k) & Ec & Hk). cbn in Ec. subst c.
    exists k. split; [apply entry_In; auto|]. destruct (Q _ _ Hk) as (_ & _ & E2). auto. }
  destruct (read_cameras_total nb file) as (est & Ee); [intros i Hi; destruct (F i Hi) as (r & E & _); eauto|]. exists est. split; [auto|]. apply read_cameras_Some in Ee as (Le & Ne). split; [auto|].
  intros i e He. assert (Hi : (i < nb)%nat) by (rewrite <- Le; apply nth_error_Some; rewrite He; discriminate). destruct (Ne i Hi) as (r & E1 & E3). destruct (F i Hi) as (r' & E2 & E4). assert (r' = r) by congruence. subst r'.
  assert (X : nth_error est i = Some (r_K r, r_pose r)) by congruence. rewrite X in He. injection He as <-. exact E4.
Qed.

(** display_calib_cameras.py on the file of a correct calibration (C59): every camera is drawn where it is, seen from camera 0;
    two of the 23 segments are not edges of the camera. *)
Theorem C63_cameras_are_drawn_in_place : forall w ins file nb,
  rigid_rig w -> true_cameras w ins file -> (forall c, saw ins c <-> (0 <= c < Z.of_nat nb)%Z) -> (0 < nb)%nat ->
  exists ds, display_calib_cameras nb file = Some ds /\ length ds = nb /\ forall i d, nth_error ds i = Some d -> drawing_of (1 / 2) w 0 (Z.of_nat i) d.
Proof.
  intros w ins file nb RG TC Hs Pn. destruct (true_poses_read w ins file nb RG TC Hs Pn) as (l & El & Ll & Q). unfold display_calib_cameras. rewrite El. cbn [option_map]. eexists. split; [reflexivity|].
  split; [rewrite map_length; auto|]. intros i d Hd. rewrite nth_error_map in Hd. destruct (nth_error l i) as [e|] eqn:E; [|discriminate Hd]. cbn [option_map] in Hd. apply some_inj in Hd. subst d. rewrite (Q i e E). apply drawing. auto.
Qed.
Print Assumptions C63_cameras_are_drawn_in_place.

(** "Every edge of the camera is drawn" is false, already for a camera at the origin. *)
Theorem C63_every_edge_is_drawn_refuted : exists w ins file nb d x y,
  rigid_rig w /\ true_cameras w ins file /\ (forall c, saw ins c <-> (0 <= c < Z.of_nat nb)%Z) /\
  display_calib_cameras nb file = Some [d] /\ edge (1 / 2) x y /\ ~ drawn d (seen_from w 0 0 x) (seen_from w 0 0 y).
Proof.
  set (k := mkRec (getCameraMat (I9 1 1 0 0 0 0 0 0 0)) [0; 0; 0; 0; 0] 0 0 0 0 pid).
  assert (PI : pinv pid = pid) by (symmetry; apply pinv_unique; [apply rigid_id|apply pmul_id_l]).
  exists (mkRig (fun _ => 0%Z) (fun _ => I9 1 1 0 0 0 0 0 0 0) (fun _ => pid) (fun _ => pid) (fun _ => pid)), [mkIns 0%Z 0%Z 0%Z [] [] RigExample.rig_path], [(0%Z, k)], 1%nat.
  eexists. exists (box (1 / 2) (-1) 1 1), (lens (1 / 2) (-1) 1).
  assert (Sw : forall c, saw [mkIns 0%Z 0%Z 0%Z [] [] rig_path] c <-> c = 0%Z) by (intros c; split; [intros (i & [<-|[]] & <-); reflexivity|intros ->; eexists; split; [left; reflexivity|reflexivity]]).
  split; [|split; [|split; [|split; [reflexivity|split]]]].
  - split; [cbn; auto|]. cbn. split; [|split]; intros; apply rigid_id.
  - split; [repeat constructor; auto|]. split; [intros c; rewrite Sw; cbn; intuition|]. exists 0%Z. split; [apply Sw; auto|]. split; [intros c Hc; apply Sw in Hc; lia|].
    intros c r [E|[]]. injection E as <- <-. split; [reflexivity|]. split; [reflexivity|]. cbn [rg_cam]. rewrite PI, pmul_id_l. reflexivity.
  - intros c. rewrite Sw. lia.
  - apply edge_cone; [right|left]; reflexivity.
  - unfold seen_from. cbn [rg_cam]. rewrite PI. unfold drawn. cbn [In]. intros H.
    assert (X : forall a b c a' b' c' d e f d' e' f' : R, (V3 a b c, V3 d e f) = (V3 a' b' c', V3 d' e' f') -> a = a' /\ b = b' /\ c = c' /\ d = d' /\ e = e' /\ f = f') by (intros * E; injection E; auto 8).
    destruct H as [H|H]; cbn in H; repeat (destruct H as [H|H]; [apply X in H; cbn in H; lra|]); destruct H.
Qed.
Print Assumptions C63_every_edge_is_drawn_refuted.

(** display_calib_object.py: each corner of object 0 is drawn once, with those of its board, and nothing else is drawn. *)
Theorem C63_object_is_drawn_by_boards : forall l cols,
  In (0%Z, cols) l -> NoDup (map fst l) -> cols <> [] ->
  exists out, display_calib_object l = Some out /\ NoDup (map fst out) /\
    (forall b, In b (map fst out) <-> exists x k, In (x, b, k) cols) /\
    (forall b pts, In (b, pts) out -> pts = map (fun c => fst (fst c)) (filter (fun c => Z.eqb (snd (fst c)) b) cols)).
Proof.
  intros l cols Hi ND NE. unfold display_calib_object, object0. assert (F := find_unique fst l (0%Z, cols) ND Hi). cbn [fst] in F. rewrite F. destruct cols as [|c0 cl] eqn:Ec; [contradiction|]. rewrite <- Ec in *. cbn [option_map].
  eexists. split; [reflexivity|]. rewrite map_map. cbn [fst]. rewrite map_id. split; [apply NoDup_nodup|]. split.
  - intros b. rewrite nodup_In, in_map_iff. split; [intros (((x, b'), k) & <- & H); exists x, k; exact H|intros (x & k & H); exists (x, b, k); auto].
  - intros b pts H. apply in_map_iff in H as (b' & E & _). injection E as <- <-. reflexivity.
Qed.
Print Assumptions C63_object_is_drawn_by_boards.

Lemma object0_In (A : Type) (l : list (Z * list A)) cols : In (0%Z, cols) l -> NoDup (map fst l) -> cols <> [] -> object0 l = Some cols.
Proof. intros Hi ND NE. unfold object0. assert (F := find_unique fst l (0%Z, cols) ND Hi). cbn [fst] in F. rewrite F. destruct cols; [contradiction|reflexivity]. Qed.
Lemma every_50th_In n i : In i (every_50th n) <-> (i < n /\ exists k, i = 50 * k)%nat.
Proof.
  unfold every_50th. rewrite filter_In, in_seq. split.
  - intros (A & B). split; [lia|]. apply Nat.eqb_eq in B. exists (i / 50)%nat. assert (X := Nat.div_mod i 50 ltac:(lia)). lia.
  - intros (A & k & ->). split; [lia|]. apply Nat.eqb_eq. rewrite Nat.mul_comm. apply Nat.mod_mul. lia.
Qed.
(** display_cam_obj_pose.py on the files of a correct calibration (C59): the cameras are drawn in place, and, for every
    50th view of object 0, the corners of its boards.  A view by camera [c] is drawn in the axes of that camera: the place
    of a corner in the axes of camera 0, in which the cameras are drawn, would be [seen_from w 0 c]. *)
Theorem C63_views_are_drawn_in_the_axes_of_their_camera : forall lr w ins file nb pts objects poses cols b0 views,
  log_ok lr -> rigid_rig w -> true_cameras w ins file -> (forall c, saw ins c <-> (0 <= c < Z.of_nat nb)%Z) -> (0 < nb)%nat ->
  In (0%Z, cols) objects -> NoDup (map fst objects) -> cols <> [] -> corners_of pts w b0 cols ->
  In (0%Z, map (fun cf => Proj2RT lr (board_at w (fst cf) (snd cf) b0)) views) poses -> NoDup (map fst poses) -> views <> [] ->
  exists ds scenes, display_cam_obj_pose nb file objects poses = Some (ds, scenes) /\
    length ds = nb /\ (forall i d, nth_error ds i = Some d -> drawing_of (1 / 10) w 0 (Z.of_nat i) d) /\
    (forall i, In i (map fst scenes) <-> (i < length views /\ exists k, i = 50 * k)%nat) /\
    forall i ys, In (i, ys) scenes -> exists c f, nth_error views i = Some (c, f) /\
      Forall2 (fun col y => exists q, corner pts (snd (fst col)) (snd col) q /\ y = pact (board_at w c f (snd (fst col))) q /\
                 seen_from w 0 c y = pact (board_at w 0 f (snd (fst col))) q) cols ys.
Proof.
  intros lr w ins file nb pts objects poses cols b0 views LO RG TC Hs Pn Ho No Nc CO Hp Np Nv. destruct (true_poses_read w ins file nb RG TC Hs Pn) as (l & El & Ll & Q). destruct RG as (RG1 & RC & RF & RB).
  set (ps := map (fun cf => Proj2RT lr (board_at w (fst cf) (snd cf) b0)) views) in *. assert (Lp : length ps = length views) by (unfold ps; apply map_length).
  unfold display_cam_obj_pose. rewrite El, (object0_In _ objects cols Ho No Nc), (object0_In par6 poses ps Hp Np) by (intros Z; apply Nv; destruct views; [auto|discriminate Z]).
  eexists. eexists. split; [reflexivity|]. split; [rewrite map_length; auto|]. split; [|split].
  - intros i d Hd. rewrite nth_error_map in Hd. destruct (nth_error l i) as [e|] eqn:E; [|discriminate Hd]. cbn [option_map] in Hd. apply some_inj in Hd. subst d. rewrite (Q i e E). apply drawing. split; auto.
  - intros i. rewrite in_map_iff. rewrite <- Lp. rewrite <- every_50th_In. split.
    + intros ((i', ys) & <- & H). apply in_flat_map in H as (j & Hj & H). match type of H with In _ (match ?x with _ => _ end) => destruct x as [P|] eqn:E; [|destruct H] end. destruct H as [H|[]]. injection H as <- _. exact Hj.
    + intros H. assert (H' := H). apply every_50th_In in H' as (Hi & _). destruct (nth_error (A := par6) ps i) as [P|] eqn:E; [|apply nth_error_None in E; exfalso; apply (Nat.lt_irrefl i), (Nat.lt_le_trans _ _ _ Hi); exact E]. eexists (i, _). split; [reflexivity|]. apply in_flat_map. exists i. split; [exact H|]. rewrite E. left. reflexivity.
  - intros i ys H. apply in_flat_map in H as (j & Hj & H). match type of H with In _ (match ?x with _ => _ end) => destruct x as [P|] eqn:E; [|destruct H] end. destruct H as [H|[]]. injection H as <- <-.
    unfold ps in E. rewrite nth_error_map in E. destruct (nth_error views j) as [(c, f)|] eqn:E'; [|discriminate E]. cbn [option_map fst snd] in E. apply some_inj in E. subst P. exists c, f. split; [auto|].
    assert (RBd : rigid (board_at w c f b0)) by (unfold board_at, world_at; repeat apply rigid_mul; auto).
    assert (X : forall x, vadd (mv (exp_rot (fst (Proj2RT lr (board_at w c f b0)))) x) (snd (Proj2RT lr (board_at w c f b0))) = pact (board_at w c f b0) x).
    { intros x. rewrite pact_as. unfold Proj2RT. cbn [fst snd]. rewrite LO by apply RBd. reflexivity. }
    clear - CO X RC. rename cols into cs. assert (I : forall c, In c cs -> In c cs) by auto. revert I. generalize cs at 1 3 4 as l. induction l as [|((x, b), k) l IH]; intros I; cbn [map fst snd]; constructor; [|apply IH; intros c' H; apply I; right; auto].
    cbn [fst snd]. destruct (CO x b k (I _ (or_introl eq_refl))) as (q & Hq & Eq). exists q. split; [auto|]. rewrite X.
    assert (Y : pact (board_at w c f b0) x = pact (board_at w c f b) q) by (unfold board_at; rewrite !pact_mul, Eq; reflexivity). split; [exact Y|]. rewrite Y.
    unfold seen_from, board_at, world_at. rewrite !pact_mul. rewrite <- (pact_mul (pinv (rg_cam w c)) (rg_cam w c)), pinv_l, pact_id by auto. reflexivity.
Qed.
Print Assumptions C63_views_are_drawn_in_the_axes_of_their_camera.
