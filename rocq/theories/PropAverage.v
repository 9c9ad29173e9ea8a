(** C61: what the numbers of the comparison with a ground truth (python_utils/compute_pose_error_vs_gt.py) are.
    Specification: AnalysisSpec.v. *)
From Coq Require Import List ZArith Lia Reals Lra.
From Verif Require HandEyeMain.
From Verif Require Import DetectModel DetectProofs GeomModel GeomSpec GeomProofs CameraModel ResidualModel FileModel RigSpec AnalysisModel AnalysisSpec AnalysisProofs AccessSpec PropAccess PropAnalysis.
Import ListNotations.
Open Scope R_scope.

Lemma abs_error_Rabs e g : abs_error e g = Rabs (e - g).
Proof. unfold abs_error. apply sqrt_Rsqr_abs. Qed.
Lemma translation_error_distance e g : translation_error e g = distance e g.
Proof. unfold translation_error, distance, vnorm. f_equal. unfold vdot, vsub. cbn. ring. Qed.
Lemma angle_turned e g : rigid (snd e) -> rigid (snd g) -> turned e g (angle (e, g)).
Proof.
  intros A B. destruct log_half_ok as (LO & LS). set (Q := mm (mtr (fst (snd e))) (fst (snd g))). assert (RQ : rotation Q) by (apply rot_mm; [apply rot_mtr|]; auto).
  exists (log_half Q). split; [apply LS; auto|]. rewrite (LO Q RQ). assert (G : fst (snd g) = mm (fst (snd e)) Q) by (unfold Q; rewrite mm_assoc, (proj1 A), mm_id_l; reflexivity).
  split; [exact G|]. assert (X := C61_rotation_error_is_the_angle (fst (snd e)) (log_half Q) A (conj (vnorm_pos _) (LS Q RQ))). rewrite (LO Q RQ), <- G, (rot_error _ _ A B) in X.
  injection X as X. unfold angle. cbn [fst snd]. unfold np_degrees in *. rewrite X. field. apply PI_neq0.
Qed.
Lemma mean_averages est gt (f : (mat3 * pose) * (mat3 * pose) -> R) (d : mat3 * pose -> mat3 * pose -> R -> Prop) : length gt = length est -> est <> [] ->
  (forall e g, In (e, g) (combine est gt) -> d e g (f (e, g))) -> averages est gt d (np_mean (map (fun eg => Some (f eg)) (combine est gt))).
Proof.
  intros L N H. set (l := combine est gt) in *. assert (Ll : length l = length est) by (unfold l; rewrite combine_length; lia).
  assert (Nl : l <> []) by (intros E; rewrite E in Ll; destruct est; [auto|discriminate Ll]).
  rewrite np_mean_Some by auto. exists (map f l), (fold_right Rplus 0 (map f l) / INR (length l)). split; [rewrite map_length; auto|]. split; [|split; [|reflexivity]].
  - intros i e g x He Hg Hx. rewrite nth_error_map in Hx. destruct (nth_error l i) as [(e', g')|] eqn:E; [|discriminate Hx]. injection Hx as <-.
    assert (C : In (e', g') l) by (eapply nth_error_In; eauto). assert (e' = e /\ g' = g) as (-> & ->); [|apply H; exact C].
    revert He Hg E. unfold l. clear. revert gt i. induction est as [|a est IH]; intros gt i He Hg E; [destruct i; discriminate He|]. destruct gt as [|b gt]; [destruct i; discriminate Hg|].
    destruct i as [|i]; cbn in *; [|apply (IH gt i); auto]. split; congruence.
  - split; [destruct l; [contradiction|discriminate]|]. rewrite map_length. field. apply not_0_INR. destruct l; [contradiction|discriminate].
Qed.

(** For cameras and ground truth with rigid poses: the translation error is the average distance between the estimated and
    the true positions, the rotation error the average angle in degrees between the orientations, the errors of the focal
    lengths and the principal point the averages of the absolute differences, and the last number is half the sum of the two
    errors of the principal point. *)
Theorem C61_the_numbers_are_averages : forall nb file g est gt,
  read_cameras nb file = Some est -> read_gt g = Some gt -> tf_nb g = nb -> (0 < nb)%nat ->
  (forall e, In e est -> rigid (snd e)) -> (forall e, In e gt -> rigid (snd e)) ->
  exists r, compute_pose_error_vs_gt nb file g = Some r /\
    averages est gt moved (rp_translation r) /\ averages est gt turned (rp_rotation r) /\
    averages est gt (apart m00) (rp_fx r) /\ averages est gt (apart m11) (rp_fy r) /\
    averages est gt (apart m02) (rp_u0 r) /\ averages est gt (apart m12) (rp_v0 r) /\
    (exists u v, rp_u0 r = Some u /\ rp_v0 r = Some v /\ rp_pp r = Some ((u + v) / 2)).
Proof.
  intros nb file g est gt Ee Eg En Pn Re Rg. unfold compute_pose_error_vs_gt. rewrite Ee, Eg, En, Nat.eqb_refl. apply read_cameras_Some in Ee as (Le & _).
  assert (Lg : length gt = nb) by (unfold read_gt in Eg; apply collect_length in Eg; rewrite map_length, seq_length in Eg; congruence).
  assert (L : length gt = length est) by congruence. assert (Ne : est <> []) by (intros ->; cbn in Le; lia).
  assert (H : forall e e', In (e, e') (combine est gt) -> rigid (snd e) /\ rigid (snd e')) by (intros e e' Hi; split; [exact (Re e (in_combine_l _ _ _ _ Hi))|exact (Rg e' (in_combine_r _ _ _ _ Hi))]).
  unfold compute_errors.
  match goal with |- context [collect ?c] => replace (collect c) with (Some (map (fun eg => Some (angle eg)) (combine est gt))) by (symmetry; exact (rots_all _ H)) end.
  cbn [option_map]. eexists. split; [reflexivity|]. cbn [rp_translation rp_rotation rp_fx rp_fy rp_u0 rp_v0 rp_pp].
  assert (K : forall k : mat3 -> R, averages est gt (apart k) (np_mean (map (fun eg : (mat3 * pose) * (mat3 * pose) => Some (abs_error (k (fst (fst eg))) (k (fst (snd eg))))) (combine est gt))))
    by (intros k; apply (mean_averages est gt (fun eg => abs_error (k (fst (fst eg))) (k (fst (snd eg))))); auto; intros e e' _; apply abs_error_Rabs).
  split; [apply (mean_averages est gt (fun eg => translation_error (snd (snd (fst eg))) (snd (snd (snd eg))))); auto; intros e e' _; apply translation_error_distance|].
  split; [apply (mean_averages est gt angle); auto; intros e e' Hi; destruct (H e e' Hi); apply angle_turned; auto|].
  do 4 (split; [apply K|]). destruct (K m02) as (_ & u & _ & _ & _ & Eu), (K m12) as (_ & v & _ & _ & _ & Ev). exists u, v. rewrite Eu, Ev. do 2 (split; [reflexivity|]). f_equal. lra.
Qed.
Print Assumptions C61_the_numbers_are_averages.

(** Two cameras; the second is 5 away from the truth, turned by half a turn, and its focal length fx is 2 too large. *)
Definition half_turn : mat3 := M3 1 0 0 0 (-1) 0 0 0 (-1).
Definition some_file : list (Z * cam_rec) := [(0%Z, mkRec (M3 100 0 50 0 100 40 0 0 1) [] 0 0 0 0 pid); (1%Z, mkRec (M3 102 0 50 0 100 40 0 0 1) [] 0 0 0 0 pid)].
Definition some_truth : truth_file :=
  mkTruth 2 (fun i => Some (M3 100 0 50 0 100 40 0 0 1, if Nat.eqb i 1 then pid else (half_turn, V3 (-3) (-4) 0))).
Example C61_example_of_errors : exists r, compute_pose_error_vs_gt 2 some_file some_truth = Some r /\
  rp_translation r = Some (5 / 2) /\ rp_rotation r = Some 90 /\ rp_fx r = Some 1 /\ rp_fy r = Some 0 /\ rp_pp r = Some 0.
Proof.
  assert (RH : rotation half_turn) by (split; [apply mat3_eq; cbn; ring|unfold det; cbn; ring]).
  set (K := M3 100 0 50 0 100 40 0 0 1). set (K1 := M3 102 0 50 0 100 40 0 0 1). set (Q := (half_turn, V3 3 4 0) : pose).
  assert (RQ : rigid Q) by exact RH. assert (RF : rigid flip_axes) by exact RH.
  assert (G : read_gt some_truth = Some [(K, pid); (K, Q)]).
  { unfold read_gt. cbn [some_truth tf_nb tf_cam seq map Nat.add Nat.eqb]. unfold np_inv4.
    replace (pmul (pmul flip_axes pid) flip_axes) with pid by (rewrite pmul_id_r; unfold pmul, flip_axes, pid, vzero; cbn [fst snd]; f_equal; [apply mat3_eq|apply vec3_eq]; cbn; ring).
    replace (pmul (pmul flip_axes (half_turn, V3 (-3) (-4) 0)) flip_axes) with (pinv Q).
    2: { symmetry. apply pinv_unique; [exact RQ|]. unfold pmul, flip_axes, half_turn, pid, Q, vzero. cbn [fst snd]. f_equal; [apply mat3_eq|apply vec3_eq]; cbn; ring. }
    destruct (Req_EM_T (det (fst pid)) 0) as [X|_]; [exfalso; revert X; apply rigid_det, rigid_id|]. destruct (Req_EM_T _ 0) as [X|_]; [exfalso; revert X; apply rigid_det, rigid_inv; auto|].
    cbn [option_map collect]. rewrite pinv_pinv by auto. replace (pinv pid) with pid by (apply pinv_unique; [apply rigid_id|apply pmul_id_l]). reflexivity. }
  assert (E : read_cameras 2 some_file = Some [(K, pid); (K1, pid)]) by reflexivity.
  unfold compute_pose_error_vs_gt. rewrite E, G. cbn [some_truth tf_nb Nat.eqb combine]. unfold compute_errors. cbn [map collect fst snd].
  rewrite (rot_error (fst pid) (fst pid)) by apply rot_id. rewrite (rot_error (fst pid) (fst Q)) by (auto; apply rot_id). cbn [option_map collect].
  eexists. split; [reflexivity|]. cbn [rp_translation rp_rotation rp_fx rp_fy rp_pp].
  replace (1 / 2 * (np_trace (mm (mtr (fst pid)) (fst pid)) - 1)) with 1 by (unfold np_trace, pid; cbn; field).
  replace (1 / 2 * (np_trace (mm (mtr (fst pid)) (fst Q)) - 1)) with (- (1)) by (unfold np_trace, pid, Q, half_turn; cbn; field).
  rewrite acos_opp, acos_1. cbn [np_mean collect option_map length fold_right]. rewrite !abs_error_Rabs, !translation_error_distance. cbn [fst snd K K1 m00 m11 m02 m12].
  replace (100 - 100) with 0 by ring. replace (102 - 100) with 2 by ring. replace (50 - 50) with 0 by ring. replace (40 - 40) with 0 by ring. rewrite Rabs_R0, (Rabs_pos_eq 2) by lra.
  assert (D0 : distance (snd pid) (snd pid) = 0) by (unfold distance, vnorm, vdot, vsub, pid, vzero; cbn; replace (_ + _ + _) with 0 by ring; apply sqrt_0).
  assert (D1 : distance (snd pid) (snd Q) = 5) by (unfold distance, vnorm, vdot, vsub, pid, vzero, Q; cbn; replace (_ + _ + _) with (5 * 5) by ring; apply sqrt_square; lra).
  rewrite D0, D1. unfold np_degrees. cbn [INR]. split; [f_equal; field|]. split; [f_equal; field; apply PI_neq0|]. split; [f_equal; field|]. split; f_equal; field.
Qed.
