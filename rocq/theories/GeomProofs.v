From Coq Require Import List ZArith Lia Reals Lra Sorted Permutation Psatz Nsatz.
From Verif Require Import DetectModel DetectSpec DetectProofs GeomModel GeomSpec.
Import ListNotations.
Open Scope R_scope.

(** ** Matrices *)
Lemma vec3_eq a b : vx a = vx b -> vy a = vy b -> vz a = vz b -> a = b.
Proof. destruct a, b; cbn. intros -> -> ->; auto. Qed.
Lemma mat3_eq A B : m00 A = m00 B -> m01 A = m01 B -> m02 A = m02 B -> m10 A = m10 B -> m11 A = m11 B ->
  m12 A = m12 B -> m20 A = m20 B -> m21 A = m21 B -> m22 A = m22 B -> A = B.
Proof. destruct A, B; cbn. intros -> -> -> -> -> -> -> -> ->; auto. Qed.

Lemma mm_assoc A B C : mm A (mm B C) = mm (mm A B) C.
Proof. apply mat3_eq; cbn; ring. Qed.
Lemma mm_id_l A : mm mid A = A. Proof. apply mat3_eq; cbn; ring. Qed.
Lemma mm_id_r A : mm A mid = A. Proof. apply mat3_eq; cbn; ring. Qed.
Lemma mv_mm A B p : mv (mm A B) p = mv A (mv B p). Proof. apply vec3_eq; cbn; ring. Qed.
Lemma mv_id p : mv mid p = p. Proof. apply vec3_eq; cbn; ring. Qed.
Lemma mv_add A p q : mv A (vadd p q) = vadd (mv A p) (mv A q). Proof. apply vec3_eq; cbn; ring. Qed.
Lemma mv_scale A k p : mv A (vscale k p) = vscale k (mv A p). Proof. apply vec3_eq; cbn; ring. Qed.
Lemma mtr_mm A B : mtr (mm A B) = mm (mtr B) (mtr A). Proof. apply mat3_eq; cbn; ring. Qed.
Lemma mtr_mtr A : mtr (mtr A) = A. Proof. apply mat3_eq; auto. Qed.
Lemma det_mm A B : det (mm A B) = det A * det B. Proof. unfold det; cbn; ring. Qed.
Lemma det_mtr A : det (mtr A) = det A. Proof. unfold det; cbn; ring. Qed.
Lemma adj_l A : mm (adj A) A = mscale (det A) mid.
Proof. apply mat3_eq; unfold det; cbn; ring. Qed.
Lemma adj_r A : mm A (adj A) = mscale (det A) mid.
Proof. apply mat3_eq; unfold det; cbn; ring. Qed.
Lemma mscale_1 A : mscale 1 A = A. Proof. apply mat3_eq; cbn; ring. Qed.
Lemma mscale_mm_l k A B : mm (mscale k A) B = mscale k (mm A B). Proof. apply mat3_eq; cbn; ring. Qed.
Lemma mscale_mm_r k A B : mm A (mscale k B) = mscale k (mm A B). Proof. apply mat3_eq; cbn; ring. Qed.
Lemma mscale_mscale k l A : mscale k (mscale l A) = mscale (k * l) A. Proof. apply mat3_eq; cbn; ring. Qed.

Lemma minv_l A : det A <> 0 -> mm (minv A) A = mid.
Proof. intros H. unfold minv. rewrite mscale_mm_l, adj_l, mscale_mscale, Rinv_l by auto. apply mscale_1. Qed.
Lemma minv_r A : det A <> 0 -> mm A (minv A) = mid.
Proof. intros H. unfold minv. rewrite mscale_mm_r, adj_r, mscale_mscale, Rinv_l by auto. apply mscale_1. Qed.

Lemma rot_adj A : rotation A -> adj A = mtr A.
Proof.
  intros [H D]. rewrite <- (mm_id_l (mtr A)). rewrite <- (mscale_1 mid), <- D, <- adj_l.
  rewrite <- mm_assoc, H, mm_id_r. auto.
Qed.
Lemma rot_minv A : rotation A -> minv A = mtr A.
Proof. intros H. unfold minv. rewrite (proj2 H), Rinv_1, mscale_1. apply rot_adj; auto. Qed.
Lemma rot_left A : rotation A -> mm (mtr A) A = mid.
Proof. intros H. rewrite <- rot_minv by auto. apply minv_l. destruct H as [_ ->]. lra. Qed.
Lemma rot_id : rotation mid.
Proof. split; [apply mat3_eq; cbn; ring|unfold det; cbn; ring]. Qed.
Lemma rot_mm A B : rotation A -> rotation B -> rotation (mm A B).
Proof.
  intros [HA DA] [HB DB]. split.
  - rewrite mtr_mm, <- mm_assoc, (mm_assoc B), HB, mm_id_l. auto.
  - rewrite det_mm, DA, DB. ring.
Qed.
Lemma rot_mtr A : rotation A -> rotation (mtr A).
Proof. intros H. split; [rewrite mtr_mtr; apply rot_left; auto|]. rewrite det_mtr. apply H. Qed.

(** ** Poses *)
Lemma pmul_assoc P Q S : pmul P (pmul Q S) = pmul (pmul P Q) S.
Proof.
  destruct P as [A a], Q as [B b], S as [C c]. unfold pmul; cbn [fst snd]. f_equal; [apply mm_assoc|].
  apply vec3_eq; cbn; ring.
Qed.
Lemma pmul_id_l P : pmul pid P = P.
Proof. destruct P as [A a]. unfold pmul, pid; cbn [fst snd]. rewrite mm_id_l. f_equal. apply vec3_eq; cbn; ring. Qed.
Lemma pmul_id_r P : pmul P pid = P.
Proof. destruct P as [A a]. unfold pmul, pid; cbn [fst snd]. rewrite mm_id_r. f_equal. apply vec3_eq; cbn; ring. Qed.
Lemma rigid_det P : rigid P -> det (fst P) <> 0.
Proof. intros [_ ->]. lra. Qed.
Lemma pinv_l P : rigid P -> pmul (pinv P) P = pid.
Proof.
  intros H. apply rigid_det in H. destruct P as [A a]. unfold pmul, pinv, pid; cbn [fst snd] in *. rewrite minv_l by auto. f_equal.
  apply vec3_eq; cbn; ring.
Qed.
Lemma pinv_r P : rigid P -> pmul P (pinv P) = pid.
Proof.
  intros H. apply rigid_det in H. destruct P as [A a]. unfold pmul, pinv, pid; cbn [fst snd] in *. rewrite minv_r by auto. f_equal.
  rewrite mv_scale, <- mv_mm, minv_r, mv_id by auto. apply vec3_eq; cbn; ring.
Qed.
Lemma rigid_id : rigid pid. Proof. apply rot_id. Qed.
Lemma rigid_mul P Q : rigid P -> rigid Q -> rigid (pmul P Q).
Proof. intros H1 H2. apply rot_mm; auto. Qed.
Lemma rigid_inv P : rigid P -> rigid (pinv P).
Proof. intros H. unfold rigid, pinv. cbn [fst]. rewrite rot_minv by auto. apply rot_mtr; auto. Qed.
Lemma pact_mul P Q p : pact (pmul P Q) p = pact P (pact Q p).
Proof. destruct P, Q. apply vec3_eq; cbn; ring. Qed.
Lemma pact_id p : pact pid p = p.
Proof. apply vec3_eq; cbn; ring. Qed.
Lemma pinv_unique P Q : rigid P -> pmul P Q = pid -> Q = pinv P.
Proof. intros H E. rewrite <- (pmul_id_l Q), <- (pinv_l P H), <- pmul_assoc, E, pmul_id_r. auto. Qed.
Lemma pinv_pinv P : rigid P -> pinv (pinv P) = P.
Proof. intros H. symmetry. apply pinv_unique; [apply rigid_inv; auto|apply pinv_l; auto]. Qed.
Lemma pinv_pmul P Q : rigid P -> rigid Q -> pinv (pmul P Q) = pmul (pinv Q) (pinv P).
Proof.
  intros HP HQ. symmetry. apply pinv_unique; [apply rigid_mul; auto|].
  rewrite <- pmul_assoc, (pmul_assoc Q), pinv_r, pmul_id_l, pinv_r; auto.
Qed.

Lemma rot_dot A p q : rotation A -> vdot (mv A p) (mv A q) = vdot p q.
Proof.
  intros H. apply rot_left in H. unfold mm, mid, mtr in H. cbn in H. injection H. intros.
  destruct p, q, A. unfold vdot; cbn in *. nsatz.
Qed.
Lemma rigid_distance P p q : rigid P -> distance (pact P p) (pact P q) = distance p q.
Proof.
  intros H. unfold distance, vnorm. f_equal. rewrite <- (rot_dot (fst P) (vsub p q) (vsub p q) H).
  destruct P. f_equal; apply vec3_eq; cbn; ring.
Qed.

(** ** Rodrigues *)
Lemma vnorm_sq r : vnorm r * vnorm r = vdot r r.
Proof. unfold vnorm. apply sqrt_sqrt. unfold vdot. nra. Qed.
Lemma exp_rot_rotation r : rotation (exp_rot r).
Proof.
  unfold exp_rot. destruct (Req_EM_T (vnorm r) 0) as [E|E]; [apply rot_id|].
  pose proof (vnorm_sq r) as N. set (th := vnorm r) in *. set (u := vscale (/ th) r).
  assert (U : vx u * vx u + vy u * vy u + vz u * vz u = 1).
  { unfold u; cbn. unfold vdot in N. field_simplify; [|auto]. 
    apply (Rmult_eq_reg_r (th ^ 2)); [|nra]. field_simplify; auto. nra. }
  clearbody u. clear N. pose proof (sin2_cos2 th) as S. unfold Rsqr in S.
  destruct u as [a b c]; cbn [vx vy vz] in *. set (s := sin th) in *. set (k := cos th) in *. clearbody s k. clear E th r.
  split; [apply mat3_eq; cbn|unfold det; cbn]; nsatz.
Qed.
