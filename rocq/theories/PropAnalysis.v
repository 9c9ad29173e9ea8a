(** C61: the comparison with a ground truth (python_utils/compute_pose_error_vs_gt.py).
    Specification: AnalysisSpec.v, RigSpec.v; the files are those of C58/C59. *)
From Coq Require Import List ZArith Lia Reals Lra.
From Verif Require HandEyeMain.
From Verif Require Import DetectModel DetectProofs GeomModel GeomSpec GeomProofs CameraModel ResidualModel FileModel RigSpec AnalysisModel AnalysisSpec AnalysisProofs.
Import ListNotations.
Open Scope R_scope.

Lemma collect_length {A} (l : list (option A)) : forall v, collect l = Some v -> length v = length l.
Proof.
  induction l as [|[a|] l IH]; cbn; intros v E; [injection E as <-; auto| |discriminate E]. destruct (collect l) as [w|]; [|discriminate E]. injection E as <-. cbn. f_equal. auto.
Qed.

(** The rotation error of two orientations is the angle, in degrees, by which one has to be turned to get the other; the
    second formula (for a NaN) is never needed in exact arithmetic. *)
Theorem C61_rotation_error_is_the_angle : forall E r, rotation E -> 0 <= vnorm r <= PI ->
  rotation_error E (mm E (exp_rot r)) = Some (Some (vnorm r * 180 / PI)).
Proof.
  intros E r HE Hr. rewrite rot_error; [|auto|apply rot_mm; [auto|apply exp_rot_rotation]]. rewrite mm_assoc, rot_left, mm_id_l, exp_trace by auto.
  replace (1 / 2 * (1 + 2 * cos (vnorm r) - 1)) with (cos (vnorm r)) by field. rewrite acos_cos by auto. reflexivity.
Qed.
Print Assumptions C61_rotation_error_is_the_angle.

(** For cameras and ground truth with rigid poses the script reports seven numbers, none of them negative, the rotation at
    most 180 degrees; and they are all zero exactly if every camera agrees with the ground truth. *)
Theorem C61_zero_errors_mean_agreement : forall nb file g est gt,
  read_cameras nb file = Some est -> read_gt g = Some gt -> tf_nb g = nb -> (0 < nb)%nat ->
  (forall e, In e est -> rigid (snd e)) -> (forall e, In e gt -> rigid (snd e)) ->
  exists r, compute_pose_error_vs_gt nb file g = Some r /\ sane r /\
    (no_error r <-> forall i e e', nth_error est i = Some e -> nth_error gt i = Some e' -> agrees e e').
Proof.
  intros nb file g est gt Ee Eg En Pn Re Rg. unfold compute_pose_error_vs_gt. rewrite Ee, Eg, En, Nat.eqb_refl. apply read_cameras_Some in Ee as (Le & _).
  assert (Lg : length gt = nb) by (unfold read_gt in Eg; apply collect_length in Eg; rewrite map_length, seq_length in Eg; congruence).
  destruct (compute_errors_facts (combine est gt)) as (r & Er & Sr & Zr).
  - destruct est as [|e est], gt as [|g' gt]; cbn in *; try lia. discriminate.
  - intros e e' H. split; [exact (Re e (in_combine_l _ _ _ _ H))|exact (Rg e' (in_combine_r _ _ _ _ H))].
  - exists r. split; [auto|]. split; [auto|]. rewrite Zr. split.
    + intros H i e e' H1 H2. apply H. apply HandEyeMain.combine_nth. eauto.
    + intros H e e' Hi. apply HandEyeMain.combine_nth in Hi as (i & H1 & H2). eauto.
Qed.
Print Assumptions C61_zero_errors_mean_agreement.

Lemma flip_back P : pmul (pmul flip_axes (other_axes P)) flip_axes = P.
Proof.
  destruct P as (A, t). unfold pmul, flip_axes, other_axes, vzero. cbn [fst snd]. f_equal; [apply mat3_eq|apply vec3_eq]; cbn; ring.
Qed.
Lemma read_gt_describes w ref T g : rigid_rig w -> rigid T -> describes w ref T g -> exists gt, read_gt g = Some gt /\ length gt = tf_nb g /\
  forall i, (i < tf_nb g)%nat -> nth_error gt i = Some (getCameraMat (rg_intr w (Z.of_nat i)), pmul (pinv T) (pmul (rg_cam w ref) (pinv (rg_cam w (Z.of_nat i))))).
Proof.
  intros (_ & RC & _) RT D. unfold read_gt. exists (map (fun i => (getCameraMat (rg_intr w (Z.of_nat i)), pmul (pinv T) (pmul (rg_cam w ref) (pinv (rg_cam w (Z.of_nat i)))))) (seq 0 (tf_nb g))).
  split; [|split; [rewrite map_length, seq_length; auto|]].
  - rewrite <- collect_map_Some. f_equal. apply map_ext_in. intros i Hi. apply in_seq in Hi. rewrite Nat.add_1_r, (D i) by lia. rewrite flip_back. unfold np_inv4.
    assert (R1 : rigid (pmul (rg_cam w (Z.of_nat i)) (pinv (rg_cam w ref)))) by (apply rigid_mul; [|apply rigid_inv]; auto).
    destruct (Req_EM_T _ 0) as [Z|_]; [exfalso; revert Z; apply rigid_det, rigid_mul; auto|]. cbn [option_map].
    rewrite pinv_pmul, pinv_pmul, pinv_pinv by (auto; apply rigid_inv; auto). reflexivity.
  - intros i Hi. rewrite nth_error_map. replace (nth_error (seq 0 (tf_nb g)) i) with (Some i); [reflexivity|]. symmetry. rewrite nth_error_nth' with (d := 0%nat) by (rewrite seq_length; auto). rewrite seq_nth by auto. reflexivity.
Qed.
Lemma entry_In file c r : NoDup (map fst file) -> In (c, r) file -> entry file c = Some r.
Proof.
  unfold entry. induction file as [|(c', r') file IH]; cbn [map fst find]; intros N H; [destruct H|]. destruct H as [E|H].
  - injection E as -> ->. rewrite Z.eqb_refl. reflexivity.
  - inversion N as [|x l N1 N2]; subst. destruct (Z.eqb_spec c' c) as [-> |_]; [exfalso; apply N1; apply (in_map fst) in H; exact H|]. apply IH; auto.
Qed.

(** The files of a correct calibration (C59: the true cameras, relative to camera 0) compared with a ground truth of the same
    rig: the report is all zeros if the ground truth is given in the coordinates of camera 0 too, and only then.  ([T] is
    the pose of camera 0 in the world of the ground truth.) *)
Theorem C61_true_cameras_have_no_error : forall w ins file nb T g,
  rigid_rig w -> true_cameras w ins file -> (forall c, saw ins c <-> (0 <= c < Z.of_nat nb)%Z) -> (0 < nb)%nat ->
  tf_nb g = nb -> rigid T -> describes w 0 T g ->
  exists r, compute_pose_error_vs_gt nb file g = Some r /\ sane r /\ (no_error r <-> T = pid).
Proof.
  intros w ins file nb T g RG (ND & Sw & ref & Sr & Lr & Q) Hs Pn En RT D. assert (RC := proj1 (proj2 RG)).
  assert (ref = 0%Z) as -> by (assert (A := proj1 (Hs ref) Sr); assert (B := Lr 0%Z (proj2 (Hs 0%Z) ltac:(lia))); lia).
  assert (F : forall i, (i < nb)%nat -> exists r, entry file (Z.of_nat i) = Some r /\ r_K r = getCameraMat (rg_intr w (Z.of_nat i)) /\ r_pose r = pmul (rg_cam w 0%Z) (pinv (rg_cam w (Z.of_nat i)))).
  { intros i Hi. assert (Hc : In (Z.of_nat i) (map fst file)) by (apply Sw, Hs; lia). apply in_map_iff in Hc as ((c & k) & Ec & Hk). cbn in Ec. subst c.
    exists k. split; [apply entry_In; auto|]. destruct (Q _ _ Hk) as (E1 & _ & E2). injection E1 as E1 _. auto. }
  destruct (read_cameras_total nb file) as (est & Ee); [intros i Hi; destruct (F i Hi) as (r & E & _); eauto|].
  destruct (read_gt_describes w 0%Z T g RG RT D) as (gt & Eg & Lg & Ng). rewrite En in *. assert (Ee' := Ee). apply read_cameras_Some in Ee' as (Le & Ne).
  assert (NE : forall i, (i < nb)%nat -> nth_error est i = Some (getCameraMat (rg_intr w (Z.of_nat i)), pmul (rg_cam w 0%Z) (pinv (rg_cam w (Z.of_nat i))))).
  { intros i Hi. destruct (Ne i Hi) as (r & E1 & ->). destruct (F i Hi) as (r' & E2 & E3 & E4). assert (r' = r) by congruence. subst r'. rewrite E3, E4. reflexivity. }
  assert (B : forall (l : list (mat3 * pose)) i e, length l = nb -> nth_error l i = Some e -> (i < nb)%nat) by (intros l i e Ll H; rewrite <- Ll; apply nth_error_Some; rewrite H; discriminate).
  destruct (C61_zero_errors_mean_agreement nb file g est gt Ee Eg En Pn) as (r & Er & Sa & Z).
  - intros e He. apply In_nth_error in He as (i & Hi). assert (X := Hi). rewrite (NE i (B est i e Le X)) in Hi. injection Hi as <-. cbn [snd]. apply rigid_mul; [|apply rigid_inv]; auto.
  - intros e He. apply In_nth_error in He as (i & Hi). assert (X := Hi). rewrite (Ng i (B gt i e Lg X)) in Hi. injection Hi as <-. cbn [snd]. apply rigid_mul; [apply rigid_inv; auto|]. apply rigid_mul; [|apply rigid_inv]; auto.
  - exists r. split; [auto|]. split; [auto|]. rewrite Z. split.
    + intros A. destruct (A 0%nat _ _ (NE 0%nat Pn) (Ng 0%nat Pn)) as (_ & _ & _ & _ & X). cbn [snd] in X. rewrite pinv_r in X by auto. rewrite pmul_id_r in X.
      rewrite <- (pinv_pinv T RT), <- X. symmetry. apply pinv_unique; [apply rigid_id|apply pmul_id_l].
    + intros -> i e e' H1 H2. rewrite (NE i (B est i e Le H1)) in H1. rewrite (Ng i (B gt i e' Lg H2)) in H2. injection H1 as <-. injection H2 as <-. unfold agrees. cbn [fst snd]. do 4 (split; [reflexivity|]).
      replace (pinv pid) with pid by (apply pinv_unique; [apply rigid_id|apply pmul_id_l]). rewrite pmul_id_l. reflexivity.
Qed.
Print Assumptions C61_true_cameras_have_no_error.

(** If a camera is not in the file, or the numbers of cameras differ, nothing is reported: the script raises. *)
Theorem C61_every_camera_is_needed : forall nb file g,
  (exists i, (i < nb)%nat /\ entry file (Z.of_nat i) = None) \/ tf_nb g <> nb -> compute_pose_error_vs_gt nb file g = None.
Proof.
  intros nb file g [(i & Hi & E)|N]; unfold compute_pose_error_vs_gt.
  - destruct (read_cameras nb file) as [l|] eqn:R; [|reflexivity]. apply read_cameras_Some in R as (_ & Q). destruct (Q i Hi) as (r & A & _). congruence.
  - destruct (read_cameras nb file); [|reflexivity]. destruct (read_gt g); [|reflexivity]. destruct (Nat.eqb_spec nb (tf_nb g)); [congruence|reflexivity].
Qed.
Print Assumptions C61_every_camera_is_needed.
