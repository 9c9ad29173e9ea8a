(** A witness for the logarithm oracle. *)
From Coq Require Import List ZArith Lia Reals Lra Nsatz.
From Verif Require Import DetectModel GeomModel GeomSpec GeomProofs GeomQuat GeomMedian.
Open Scope R_scope.
(** ** A logarithm: cv::Rodrigues from matrix to vector can be realised *)
Definition log_of_quat (q : quat) : vec3 :=
  let n := sqrt (1 - qw q * qw q) in
  if Req_EM_T n 0 then vzero else vscale (2 * acos (qw q) / n) (V3 (qx q) (qy q) (qz q)).
Definition log_quat (A : mat3) : vec3 := match quat_of_rot A with Some q => log_of_quat q | None => vzero end.

Lemma exp_log_of_quat q : unit_quat q -> exp_rot (log_of_quat q) = rot_of_quat q.
Proof.
  intros U. unfold unit_quat in U. destruct q as [x y z w]; cbn in U. unfold log_of_quat; cbn [qx qy qz qw].
  assert (W : 0 <= 1 - w * w) by nra.
  assert (N := sqrt_sqrt _ W). set (n := sqrt (1 - w * w)) in *. assert (Hn : 0 <= n) by apply sqrt_pos. 
  destruct (Req_EM_T n 0) as [E|E].
  - rewrite exp_rot_0. assert (x * x + y * y + z * z + 0 * 0 = 0) as Z by nra. apply sumsq0 in Z.
    destruct Z as (-> & -> & -> & _). apply mat3_eq; cbn; nra.
  - assert (Hw : -1 < w < 1) by nra.
    set (a := acos w). assert (Ca : cos a = w) by (apply cos_acos; lra).
    assert (Ba : 0 <= a <= PI) by apply acos_bound.
    assert (Sa : sin a = n). { unfold a. rewrite sin_acos by lra. reflexivity. }
    assert (Pa : 0 < a). { destruct Ba as [[|Q] _]; auto. exfalso. rewrite <- Q, sin_0 in Sa. congruence. }
    assert (V : vnorm (vscale (2 * a / n) (V3 x y z)) = 2 * a).
    { unfold vnorm, vdot; cbn. 
      replace (2 * a / n * x * (2 * a / n * x) + 2 * a / n * y * (2 * a / n * y) + 2 * a / n * z * (2 * a / n * z))
        with ((2 * a) * (2 * a) * ((x * x + y * y + z * z) / (n * n))) by (field; auto).
      replace (x * x + y * y + z * z) with (n * n) by lra.
      replace (n * n / (n * n)) with 1 by (field; auto). rewrite Rmult_1_r. apply sqrt_square. lra. }
    unfold exp_rot. rewrite V. destruct (Req_EM_T (2 * a) 0); [lra|].
    rewrite cos_2a, sin_2a, Ca, Sa.
    assert (Hu : vscale (/ (2 * a)) (vscale (2 * a / n) (V3 x y z)) = vscale (/ n) (V3 x y z)).
    { apply vec3_eq; cbn; field; lra. }
    rewrite Hu. cbn [vx vy vz vscale].
    assert (I : n * / n = 1) by (field; auto). set (i := / n) in *. clearbody i n. clear - U N I.
    apply mat3_eq; cbn; nsatz.
Qed.
Lemma log_quat_ok : log_ok log_quat.
Proof.
  intros A H. unfold log_quat. destruct (quat_of_rot_main A H) as (q & -> & U & R). rewrite exp_log_of_quat; auto.
Qed.
