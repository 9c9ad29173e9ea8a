(** The cost functors are the textbook projection. *)
From Coq Require Import List ZArith Reals Lra Lia Psatz.
From Verif Require Import SMap DetectModel DetectProofs GeomModel GeomSpec GeomProofs ObjectsModel GroupModel PipelineModel CameraModel ResidualModel ResidualSpec.
Import ListNotations.
Open Scope R_scope.

Lemma Rltb_true a b : Rltb a b = true <-> a < b.
Proof. unfold Rltb. destruct (Rlt_dec a b); split; intros; auto; try discriminate; contradiction. Qed.
Lemma Rltb_false a b : Rltb a b = false <-> b <= a.
Proof. unfold Rltb. destruct (Rlt_dec a b); split; intros; auto; try discriminate; lra. Qed.

Lemma some_pair (a b c d : R) : a = c -> b = d -> Some (a, b) = Some (c, d).
Proof. intros -> ->. auto. Qed.
Lemma sq_sum_nonneg x y : 0 <= x ^ 2 + y ^ 2.
Proof. nra. Qed.
Lemma sqrt_sq_sum x y : sqrt (x ^ 2 + y ^ 2) ^ 2 = x ^ 2 + y ^ 2.
Proof. rewrite pow2_sqrt; auto. apply sq_sum_nonneg. Qed.

(** the code's formula against [image] *)
Lemma image_error_ok dt i u v P q :
  image_error dt (a0 i) (a1 i) (a2 i) (a3 i) (a4 i) (a5 i) (a8 i) (a6 i) (a7 i) u v (pact P q) =
  option_map (minus (u, v)) (image dt i P q).
Proof.
  unfold image_error, image. destruct (Req_EM_T (vz (pact P q)) 0) as [|_]; [reflexivity|].
  set (x := vx (pact P q) / vz (pact P q)). set (y := vy (pact P q) / vz (pact P q)). clearbody x y.
  unfold lens. destruct (Z.eqb_spec dt 0) as [->|N0].
  - cbn [option_map]. unfold minus. cbn [fst snd].
    assert (E4 : sqrt (x ^ 2 + y ^ 2) ^ 4 = (x ^ 2 + y ^ 2) ^ 2) by (rewrite <- (sqrt_sq_sum x y) at 2; ring).
    assert (E6 : sqrt (x ^ 2 + y ^ 2) ^ 6 = (x ^ 2 + y ^ 2) ^ 3) by (rewrite <- (sqrt_sq_sum x y) at 2; ring).
    rewrite E4, E6, sqrt_sq_sum. apply some_pair; ring.
  - destruct (Z.eqb_spec dt 1) as [->|N1].
    + cbn [option_map]. unfold minus. cbn [fst snd].
      replace (x * x + y * y) with (x ^ 2 + y ^ 2) by ring. set (r := sqrt (x ^ 2 + y ^ 2)). 
      replace (/ 10 ^ 8) with (1 / 100000000) by (field_simplify; lra).
      destruct (Rltb (1 / 100000000) r) eqn:L.
      * apply Rltb_true in L. destruct (Rle_dec r (1 / 100000000)) as [|_]; [lra|].
        assert (r <> 0) by lra. apply some_pair; field; auto.
      * apply Rltb_false in L. destruct (Rle_dec r (1 / 100000000)) as [_|]; [|lra]. apply some_pair; ring.
    + destruct dt as [|[]|]; try reflexivity; lia.
Qed.
Lemma project_ok P i dt q : projectPointsWithDistortion P (getCameraMat i) (getDistortionVector dt i) dt q = image dt i P q.
Proof.
  unfold projectPointsWithDistortion, image. destruct (Req_EM_T (vz (pact P q)) 0) as [|_]; [reflexivity|].
  set (x := vx (pact P q) / vz (pact P q)). set (y := vy (pact P q) / vz (pact P q)). clearbody x y.
  unfold lens, getDistortionVector. destruct (Z.eqb_spec dt 0) as [->|N0].
  - cbn [option_map cv_brown]. cbn [fst snd getCameraMat m00 m02 m11 m12].
    assert (E4 : sqrt (x ^ 2 + y ^ 2) ^ 4 = (x ^ 2 + y ^ 2) ^ 2) by (rewrite <- (sqrt_sq_sum x y) at 2; ring).
    assert (E6 : sqrt (x ^ 2 + y ^ 2) ^ 6 = (x ^ 2 + y ^ 2) ^ 3) by (rewrite <- (sqrt_sq_sum x y) at 2; ring).
    rewrite E4, E6, sqrt_sq_sum. apply some_pair; ring.
  - destruct (Z.eqb_spec dt 1) as [->|N1].
    + cbn [option_map cv_fisheye]. cbn [fst snd getCameraMat m00 m02 m11 m12].
      replace (x * x + y * y) with (x ^ 2 + y ^ 2) by ring. set (r := sqrt (x ^ 2 + y ^ 2)).
      replace (/ 10 ^ 8) with (1 / 100000000) by (field_simplify; lra).
      destruct (Rltb (1 / 100000000) r) eqn:L.
      * apply Rltb_true in L. destruct (Rle_dec r (1 / 100000000)) as [|_]; [lra|].
        assert (r <> 0) by lra. apply some_pair; field; auto.
      * apply Rltb_false in L. destruct (Rle_dec r (1 / 100000000)) as [_|]; [|lra]. apply some_pair; ring.
    + destruct dt as [|[]|]; try reflexivity; lia.
Qed.

Lemma eps_pos : 0 < dbl_eps.
Proof. unfold dbl_eps. apply Rinv_0_lt_compat. lra. Qed.
Lemma vdot_nonneg w : 0 <= vdot w w.
Proof. unfold vdot. nra. Qed.
Lemma vdot_zero w : vdot w w = 0 -> w = vzero.
Proof. destruct w as [x y z]. unfold vdot. cbn. intros H. unfold vzero. f_equal; nra. Qed.

Lemma rotate_ok w p : vdot w w = 0 \/ dbl_eps < vdot w w -> AngleAxisRotatePoint w p = mv (exp_rot w) p.
Proof.
  assert (EP := eps_pos). intros [Z|L]; unfold AngleAxisRotatePoint.
  - assert (N : Rltb dbl_eps (vdot w w) = false) by (apply Rltb_false; lra). rewrite N.
    unfold exp_rot, vnorm. rewrite Z, sqrt_0. destruct (Req_EM_T 0 0) as [_|]; [|contradiction].
    rewrite (vdot_zero w Z). apply vec3_eq; cbn; ring.
  - assert (N : Rltb dbl_eps (vdot w w) = true) by (apply Rltb_true; lra). rewrite N.
    unfold exp_rot. fold (vnorm w). destruct (Req_EM_T (vnorm w) 0) as [E|_].
    { exfalso. assert (S := vnorm_sq w). rewrite E in S. lra. }
    replace (1 / vnorm w) with (/ vnorm w) by (unfold Rdiv; ring).
    set (u := vscale (/ vnorm w) w). apply vec3_eq; unfold mv, vdot, vcross; cbn [vx vy vz m00 m01 m02 m10 m11 m12 m20 m21 m22]; ring.
Qed.
Lemma rotate_move_ok P p : plain P -> rotate_move P p = pact (matrix P) p.
Proof.
  intros H. unfold rotate_move. rewrite rotate_ok by exact H. unfold matrix, RVecT2Proj, pact, mv, vadd. cbn [fst snd vx vy vz].
  apply vec3_eq; cbn [vx vy vz]; ring.
Qed.

(** between 0 and the threshold: first order in the angle *)
Lemma cos_gen x : 1 - cos x <= x ^ 2 / 2.
Proof.
  assert (C : cos x = 1 - 2 * (sin (x / 2)) ^ 2).
  { replace x with (2 * (x / 2)) at 1 by field. rewrite cos_2a_sin. ring. }
  rewrite C. assert (sin (x / 2) ^ 2 <= (x / 2) ^ 2); [|nra].
  rewrite <- !(Rsqr_pow2). apply Rsqr_le_abs_1.
  assert (G : forall y, 0 <= y -> sin y <= y). { intros y [Hy|<-]; [left; apply sin_lt_x; auto|rewrite sin_0; lra]. }
  destruct (Rle_dec 0 (x / 2)) as [P|P].
  - destruct (Rle_dec (x / 2) 1) as [P1|P1].
    + rewrite !Rabs_right; [apply G; auto|lra|]. apply Rle_ge, sin_ge_0; auto. assert (3 < PI) by (pose proof PI2_3_2; lra). lra.
    + assert (B := SIN_bound (x / 2)). rewrite (Rabs_right (x / 2)) by lra. apply Rabs_le. lra.
  - replace (sin (x / 2)) with (- sin (- (x / 2))) by (rewrite sin_neg; ring). rewrite Rabs_Ropp, (Rabs_left (x / 2)) by lra.
    set (y := - (x / 2)). assert (0 < y) by (unfold y; lra).
    destruct (Rle_dec y 1) as [P1|P1].
    + rewrite Rabs_right; [apply G; lra|]. apply Rle_ge, sin_ge_0; [lra|]. assert (3 < PI) by (pose proof PI2_3_2; lra). lra.
    + assert (B := SIN_bound y). apply Rabs_le. lra.
Qed.

Lemma sin_low x : 0 <= x <= 1 -> 0 <= x - sin x <= x ^ 3 / 6.
Proof.
  intros H. split.
  - destruct (Req_dec x 0) as [->|]; [rewrite sin_0; lra|]. assert (sin x < x) by (apply sin_lt_x; lra). lra.
  - assert (3 < PI) by (pose proof PI2_3_2; lra). destruct (SIN x) as (L & _); [lra|lra|].
    unfold sin_lb, sin_approx in L. cbn [sum_f_R0] in L. unfold sin_term in L.
    replace (INR (fact (2 * 0 + 1))) with 1 in L by (cbn; ring).
    replace (INR (fact (2 * 1 + 1))) with 6 in L by (cbn; ring).
    replace (INR (fact (2 * 2 + 1))) with 120 in L by (cbn; ring).
    replace (INR (fact (2 * 3 + 1))) with 5040 in L by (rewrite INR_IZR_INZ; reflexivity).
    cbn [Nat.mul Nat.add pow] in L.
    assert (x ^ 7 <= x ^ 5).
    { replace (x ^ 7) with (x ^ 5 * x ^ 2) by ring. assert (0 <= x ^ 5) by (apply pow_le; lra). assert (x ^ 2 <= 1) by nra. nra. }
    assert (0 <= x ^ 5) by (apply pow_le; lra).
    assert (E : 1 * (x * 1 / 1) + -1 * 1 * (x * (x * (x * 1)) / 6) + -1 * (-1 * 1) * (x * (x * (x * (x * (x * 1)))) / 120) +
      -1 * (-1 * (-1 * 1)) * (x * (x * (x * (x * (x * (x * (x * 1)))))) / 5040) = x - x ^ 3 / 6 + x ^ 5 / 120 - x ^ 7 / 5040) by field.
    lra.
Qed.
Lemma rotate_error w p : vdot w w <= 1 ->
  let d := vsub (AngleAxisRotatePoint w p) (mv (exp_rot w) p) in vdot d d <= (Rmin (vdot w w) dbl_eps) ^ 2 * vdot p p.
Proof.
  intros H1 d. assert (EP := eps_pos). assert (WN := vdot_nonneg w). assert (PN := vdot_nonneg p).
  destruct (Rlt_dec dbl_eps (vdot w w)) as [L|L].
  { unfold d. rewrite rotate_ok by auto. replace (vdot _ _) with 0 by (unfold vsub, vdot; cbn; ring).
    apply Rmult_le_pos; auto. apply pow2_ge_0. }
  destruct (Req_dec (vdot w w) 0) as [Z|NZ].
  { unfold d. rewrite rotate_ok by auto. replace (vdot _ _) with 0 by (unfold vsub, vdot; cbn; ring).
    apply Rmult_le_pos; auto. apply pow2_ge_0. }
  rewrite Rmin_left by lra.
  assert (TN : vnorm w * vnorm w = vdot w w) by apply vnorm_sq. assert (T0 : 0 <= vnorm w) by apply sqrt_pos.
  assert (TZ : vnorm w <> 0) by nra. assert (T1 : vnorm w <= 1) by nra.
  set (th := vnorm w) in *. set (u := vscale (/ th) w).
  assert (UU : vdot u u = 1).
  { unfold u, vscale, vdot. cbn [vx vy vz]. unfold vdot in TN. 
    replace (/ th * vx w * (/ th * vx w) + / th * vy w * (/ th * vy w) + / th * vz w * (/ th * vz w))
      with ((vx w * vx w + vy w * vy w + vz w * vz w) * (/ th * / th)) by ring. rewrite <- TN. field. auto. }
  assert (WU : w = vscale th u). { apply vec3_eq; unfold u, vscale; cbn [vx vy vz]; field; auto. }
  set (c := cos th). set (sn := sin th).
  assert (D : d = vadd (vscale (1 - c) (vsub p (vscale (vdot u p) u))) (vscale (th - sn) (vcross u p))).
  { unfold d, AngleAxisRotatePoint. assert (N : Rltb dbl_eps (vdot w w) = false) by (apply Rltb_false; lra). rewrite N.
    unfold exp_rot. fold th. destruct (Req_EM_T th 0) as [|_]; [contradiction|]. fold u. fold c. fold sn.
    replace (vcross w p) with (vscale th (vcross u p)) by (rewrite WU at 1; apply vec3_eq; unfold vscale, vcross; cbn [vx vy vz]; ring).
    apply vec3_eq; unfold vsub, vadd, vscale, vcross, mv, vdot; cbn [vx vy vz m00 m01 m02 m10 m11 m12 m20 m21 m22]; ring. }
  assert (Q : vdot d d = ((1 - c) ^ 2 + (th - sn) ^ 2) * (vdot p p - vdot u p ^ 2)).
  { rewrite D. clearbody u c sn th. clear - UU. destruct u as [u1 u2 u3], p as [p1 p2 p3].
    unfold vdot, vadd, vscale, vsub, vcross in *. cbn [vx vy vz] in *.
    set (e := u1 * p1 + u2 * p2 + u3 * p3).
    assert (A : forall a b, (a * (p1 - e * u1) + b * (u2 * p3 - u3 * p2)) * (a * (p1 - e * u1) + b * (u2 * p3 - u3 * p2)) +
      (a * (p2 - e * u2) + b * (u3 * p1 - u1 * p3)) * (a * (p2 - e * u2) + b * (u3 * p1 - u1 * p3)) +
      (a * (p3 - e * u3) + b * (u1 * p2 - u2 * p1)) * (a * (p3 - e * u3) + b * (u1 * p2 - u2 * p1)) =
      a ^ 2 * (p1 * p1 + p2 * p2 + p3 * p3 - 2 * e * e + e ^ 2 * (u1 * u1 + u2 * u2 + u3 * u3)) +
      b ^ 2 * ((u1 * u1 + u2 * u2 + u3 * u3) * (p1 * p1 + p2 * p2 + p3 * p3) - e ^ 2)) by (intros; unfold e; ring).
    rewrite A, UU. ring. }
  rewrite Q. clear D. assert (C1 := cos_gen th). fold c in C1. assert (C0 : c <= 1) by apply COS_bound.
  assert (S1 := sin_low th (conj T0 T1)). fold sn in S1.
  assert (PP : vdot p p - vdot u p ^ 2 <= vdot p p) by (assert (X := pow2_ge_0 (vdot u p)); lra).
  assert (B1 : (1 - c) ^ 2 <= th ^ 4 / 4). { replace (th ^ 4 / 4) with ((th ^ 2 / 2) ^ 2) by field. apply pow_incr. lra. }
  assert (B2 : (th - sn) ^ 2 <= th ^ 6 / 36). { replace (th ^ 6 / 36) with ((th ^ 3 / 6) ^ 2) by field. apply pow_incr. lra. }
  assert (B3 : th ^ 6 <= th ^ 4). { replace (th ^ 6) with (th ^ 4 * th ^ 2) by ring. assert (0 <= th ^ 4) by (apply pow_le; auto). assert (th ^ 2 <= 1) by nra. nra. }
  assert (B4 : (vdot w w) ^ 2 = th ^ 4) by (rewrite <- TN; ring). rewrite B4.
  assert (X0 : 0 <= (1 - c) ^ 2 + (th - sn) ^ 2) by (assert (U1 := pow2_ge_0 (1 - c)); assert (U2 := pow2_ge_0 (th - sn)); lra).
  assert (X1 : (1 - c) ^ 2 + (th - sn) ^ 2 <= th ^ 4) by lra.
  apply Rle_trans with (((1 - c) ^ 2 + (th - sn) ^ 2) * vdot p p); [apply Rmult_le_compat_l; lra|apply Rmult_le_compat_r; lra].
Qed.
