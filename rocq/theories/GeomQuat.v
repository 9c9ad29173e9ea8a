(** Quaternion conversions and quaternion averaging. *)
From Coq Require Import List ZArith Lia Reals Lra Sorted Permutation Psatz Nsatz.
From Verif Require Import DetectModel DetectSpec DetectProofs GeomModel GeomSpec GeomProofs.
Import ListNotations.
Open Scope R_scope.

(** the entries of 4 q q^T written with the entries of the rotation matrix *)
Definition kww A := m00 A + m11 A + m22 A + 1.
Definition kxx A := m00 A - m11 A - m22 A + 1.
Definition kyy A := m11 A - m22 A - m00 A + 1.
Definition kzz A := m22 A - m00 A - m11 A + 1.
Definition kwx A := m21 A - m12 A.
Definition kwy A := m02 A - m20 A.
Definition kwz A := m10 A - m01 A.
Definition kxy A := m10 A + m01 A.
Definition kxz A := m20 A + m02 A.
Definition kyz A := m21 A + m12 A.

Lemma rank_one A : rotation A ->
  (kwx A * kwx A = kww A * kxx A /\ kwy A * kwy A = kww A * kyy A /\ kwz A * kwz A = kww A * kzz A /\
   kwx A * kwy A = kww A * kxy A /\ kwx A * kwz A = kww A * kxz A /\ kwy A * kwz A = kww A * kyz A) /\
  (kxy A * kxy A = kxx A * kyy A /\ kxz A * kxz A = kxx A * kzz A /\
   kxy A * kxz A = kxx A * kyz A /\ kxy A * kwx A = kxx A * kwy A /\ kxz A * kwx A = kxx A * kwz A) /\
  (kyz A * kyz A = kyy A * kzz A /\ kxy A * kyz A = kyy A * kxz A /\ kxy A * kwy A = kyy A * kwx A /\
   kyz A * kwy A = kyy A * kwz A) /\
  (kxz A * kyz A = kzz A * kxy A /\ kxz A * kwz A = kzz A * kwx A /\ kyz A * kwz A = kzz A * kwy A).
Proof.
  intros H. pose proof (rot_adj A H) as Ha. pose proof (rot_left A H) as Hl. destruct H as [Hr _].
  unfold kww, kxx, kyy, kzz, kwx, kwy, kwz, kxy, kxz, kyz.
  destruct A as [a b c d e f g h i]. unfold adj, mtr, mm, mid in *. cbn in *.
  injection Ha. injection Hl. injection Hr. clear Ha Hl Hr. intros.
  repeat split; nsatz.
Qed.

Lemma quat_branch_ok rad f : 0 < rad -> quat_branch rad f = Some (f (sqrt rad) (/ 2 / sqrt rad)).
Proof.
  intros H. unfold quat_branch. destruct (Rltb rad 0) eqn:E; [apply Rltb_true in E; lra|].
  destruct (Req_EM_T (sqrt rad) 0) as [E2|]; auto. apply sqrt_eq_0 in E2; lra.
Qed.

(** products of components computed from the radicand K and the entries a, b *)
Lemma prod_sb K b : 0 < K -> (sqrt K * / 2) * (b * (/ 2 / sqrt K)) = b / 4.
Proof. intros H. field. apply sqrt_lt_R0 in H. lra. Qed.
Lemma prod_ss K : 0 < K -> (sqrt K * / 2) * (sqrt K * / 2) = K / 4.
Proof. intros H. replace (sqrt K * / 2 * (sqrt K * / 2)) with (sqrt K * sqrt K / 4) by field. rewrite sqrt_sqrt; lra. Qed.
Lemma prod_ab K a b c : 0 < K -> a * b = K * c -> (a * (/ 2 / sqrt K)) * (b * (/ 2 / sqrt K)) = c / 4.
Proof.
  intros H E. assert (Hs := sqrt_lt_R0 K H). assert (HK := sqrt_sqrt K). 
  replace (a * (/ 2 / sqrt K) * (b * (/ 2 / sqrt K))) with ((a * b) / 4 / (sqrt K * sqrt K)) by (field; lra).
  rewrite HK, E by lra. field. lra.
Qed.

Theorem quat_of_rot_main A : rotation A ->
  exists q, quat_of_rot A = Some q /\ unit_quat q /\ rot_of_quat q = A.
Proof.
  intros H. destruct (rank_one A H) as ((W1 & W2 & W3 & W4 & W5 & W6) & (X1 & X2 & X3 & X4 & X5) & (Y1 & Y2 & Y3 & Y4) & (Z1 & Z2 & Z3)).
  clear H. unfold quat_of_rot. cbv zeta.
  destruct (Rltb 0 (m00 A + m11 A + m22 A)) eqn:Et.
  - apply Rltb_true in Et. fold (kww A). fold (kwx A) (kwy A) (kwz A).
    assert (K : 0 < kww A) by (unfold kww; lra). rewrite quat_branch_ok by auto. eexists. split; [reflexivity|].
    unfold unit_quat, rot_of_quat. cbn [qx qy qz qw].
    rewrite !(prod_ss _ K), !(prod_sb _ _ K), (prod_ab _ _ _ _ K W1), (prod_ab _ _ _ _ K W2), (prod_ab _ _ _ _ K W3),
      (prod_ab _ _ _ _ K W4), (prod_ab _ _ _ _ K W5), (prod_ab _ _ _ _ K W6).
    clear. split; [|apply mat3_eq; cbn]; unfold kww, kxx, kyy, kzz, kwx, kwy, kwz, kxy, kxz, kyz; lra.
  - apply Rltb_false in Et.
    assert (Sx : quat_branch (m00 A - m11 A - m22 A + 1) (fun s s' =>
      Q4 (s * / 2) ((m10 A + m01 A) * s') ((m20 A + m02 A) * s') ((m21 A - m12 A) * s')) = quat_branch (kxx A) (fun s s' =>
      Q4 (s * / 2) (kxy A * s') (kxz A * s') (kwx A * s'))) by reflexivity.
    assert (Sy : quat_branch (m11 A - m22 A - m00 A + 1) (fun s s' =>
      Q4 ((m01 A + m10 A) * s') (s * / 2) ((m21 A + m12 A) * s') ((m02 A - m20 A) * s')) = quat_branch (kyy A) (fun s s' =>
      Q4 (kxy A * s') (s * / 2) (kyz A * s') (kwy A * s'))).
    { unfold kxy. rewrite (Rplus_comm (m10 A)). reflexivity. }
    assert (Sz : quat_branch (m22 A - m00 A - m11 A + 1) (fun s s' =>
      Q4 ((m02 A + m20 A) * s') ((m12 A + m21 A) * s') (s * / 2) ((m10 A - m01 A) * s')) = quat_branch (kzz A) (fun s s' =>
      Q4 (kxz A * s') (kyz A * s') (s * / 2) (kwz A * s'))).
    { unfold kxz, kyz. rewrite (Rplus_comm (m20 A)), (Rplus_comm (m21 A)). reflexivity. }
    assert (Cx : 0 < kxx A -> exists q, quat_branch (kxx A) (fun s s' =>
      Q4 (s * / 2) (kxy A * s') (kxz A * s') (kwx A * s')) = Some q /\ unit_quat q /\ rot_of_quat q = A).
    { intros K. rewrite quat_branch_ok by auto. eexists. split; [reflexivity|].
      unfold unit_quat, rot_of_quat. cbn [qx qy qz qw].
      assert (W1' : kwx A * kwx A = kxx A * kww A) by lra.
      rewrite (Rmult_comm (kwx A * _) (kxy A * _)), (Rmult_comm (kwx A * _) (kxz A * _)), (Rmult_comm (kwx A * _) (_ * / 2)).
      rewrite !(prod_ss _ K), !(prod_sb _ _ K), (prod_ab _ _ _ _ K X1), (prod_ab _ _ _ _ K X2), (prod_ab _ _ _ _ K X3),
        (prod_ab _ _ _ _ K X4), (prod_ab _ _ _ _ K X5), (prod_ab _ _ _ _ K W1').
      clear. split; [|apply mat3_eq; cbn]; unfold kww, kxx, kyy, kzz, kwx, kwy, kwz, kxy, kxz, kyz; lra. }
    assert (Cy : 0 < kyy A -> exists q, quat_branch (kyy A) (fun s s' =>
      Q4 (kxy A * s') (s * / 2) (kyz A * s') (kwy A * s')) = Some q /\ unit_quat q /\ rot_of_quat q = A).
    { intros K. rewrite quat_branch_ok by auto. eexists. split; [reflexivity|].
      unfold unit_quat, rot_of_quat. cbn [qx qy qz qw].
      assert (W2' : kwy A * kwy A = kyy A * kww A) by lra. assert (X1' : kxy A * kxy A = kyy A * kxx A) by lra.
      rewrite (Rmult_comm (kwy A * _) (kxy A * _)), (Rmult_comm (kwy A * _) (kyz A * _)), (Rmult_comm (kwy A * _) (_ * / 2)),
        (Rmult_comm (kxy A * _) (_ * / 2)).
      rewrite !(prod_ss _ K), !(prod_sb _ _ K), (prod_ab _ _ _ _ K Y1), (prod_ab _ _ _ _ K Y2), (prod_ab _ _ _ _ K Y3),
        (prod_ab _ _ _ _ K Y4), (prod_ab _ _ _ _ K X1'), (prod_ab _ _ _ _ K W2').
      clear. split; [|apply mat3_eq; cbn]; unfold kww, kxx, kyy, kzz, kwx, kwy, kwz, kxy, kxz, kyz; lra. }
    assert (Cz : 0 < kzz A -> exists q, quat_branch (kzz A) (fun s s' =>
      Q4 (kxz A * s') (kyz A * s') (s * / 2) (kwz A * s')) = Some q /\ unit_quat q /\ rot_of_quat q = A).
    { intros K. rewrite quat_branch_ok by auto. eexists. split; [reflexivity|].
      unfold unit_quat, rot_of_quat. cbn [qx qy qz qw].
      assert (W3' : kwz A * kwz A = kzz A * kww A) by lra. assert (X2' : kxz A * kxz A = kzz A * kxx A) by lra.
      assert (Y1' : kyz A * kyz A = kzz A * kyy A) by lra.
      rewrite (Rmult_comm (kwz A * _) (kxz A * _)), (Rmult_comm (kwz A * _) (kyz A * _)), (Rmult_comm (kwz A * _) (_ * / 2)),
        (Rmult_comm (kxz A * _) (_ * / 2)), (Rmult_comm (kyz A * _) (_ * / 2)).
      rewrite !(prod_ss _ K), !(prod_sb _ _ K), (prod_ab _ _ _ _ K Z1), (prod_ab _ _ _ _ K Z2), (prod_ab _ _ _ _ K Z3),
        (prod_ab _ _ _ _ K X2'), (prod_ab _ _ _ _ K Y1'), (prod_ab _ _ _ _ K W3').
      clear. split; [|apply mat3_eq; cbn]; unfold kww, kxx, kyy, kzz, kwx, kwy, kwz, kxy, kxz, kyz; lra. }
    rewrite Sx, Sy, Sz. clear Sx Sy Sz.
    destruct (Rltb (m00 A) (m11 A)) eqn:E1; [apply Rltb_true in E1|apply Rltb_false in E1].
    + destruct (Rltb (m11 A) (m22 A)) eqn:E2; [apply Rltb_true in E2; apply Cz|apply Rltb_false in E2; apply Cy];
        unfold kzz, kyy; lra.
    + destruct (Rltb (m00 A) (m22 A)) eqn:E2; [apply Rltb_true in E2; apply Cz|apply Rltb_false in E2; apply Cx];
        unfold kzz, kxx; lra.
Qed.

Theorem rot_of_quat_rotation q : unit_quat q -> rotation (rot_of_quat q).
Proof.
  unfold unit_quat. destruct q as [x y z w]; cbn. intros H.
  split; [apply mat3_eq; cbn|unfold det; cbn]; nsatz.
Qed.
Lemma rot_of_quat_neg q : rot_of_quat (qneg q) = rot_of_quat q.
Proof. destruct q as [x y z w]. apply mat3_eq; cbn; ring. Qed.

Lemma sumsq0 a b c d : a * a + b * b + c * c + d * d = 0 -> a = 0 /\ b = 0 /\ c = 0 /\ d = 0.
Proof.
  intros H. pose proof (Rle_0_sqr a) as A. pose proof (Rle_0_sqr b) as B. pose proof (Rle_0_sqr c) as C.
  pose proof (Rle_0_sqr d) as D. unfold Rsqr in *.
  assert (a * a = 0) by lra. assert (b * b = 0) by lra. assert (c * c = 0) by lra. assert (d * d = 0) by lra.
  split; [|split; [|split]]; match goal with |- ?x = 0 => match goal with K : x * x = 0 |- _ => apply Rmult_integral in K; tauto end end.
Qed.

(** two unit quaternions with the same rotation differ by a sign *)
Theorem rot_of_quat_inj p q : unit_quat p -> unit_quat q -> rot_of_quat p = rot_of_quat q -> p = q \/ p = qneg q.
Proof.
  unfold unit_quat, rot_of_quat. destruct p as [a b c d], q as [x y z w]; cbn. intros Hp Hq E. injection E. intros.
  assert (S : (d * w + a * x + b * y + c * z) * (d * w + a * x + b * y + c * z) = 1).
  { assert (d * d = w * w) by lra. assert (a * a = x * x) by lra. assert (b * b = y * y) by lra. assert (c * c = z * z) by lra.
    assert (d * a = w * x) by lra. assert (d * b = w * y) by lra. assert (d * c = w * z) by lra.
    assert (a * b = x * y) by lra. assert (a * c = x * z) by lra. assert (b * c = y * z) by lra.
    clear - Hp Hq H8 H9 H10 H11 H12 H13 H14 H15 H16 H17. 
    assert ((d * w + a * x + b * y + c * z) * (d * w + a * x + b * y + c * z) =
      (d*d)*(w*w) + (a*a)*(x*x) + (b*b)*(y*y) + (c*c)*(z*z) + 2*(d*a)*(w*x) + 2*(d*b)*(w*y) + 2*(d*c)*(w*z)
      + 2*(a*b)*(x*y) + 2*(a*c)*(x*z) + 2*(b*c)*(y*z)) as -> by ring.
    rewrite H8, H9, H10, H11, H12, H13, H14, H15, H16, H17.
    replace 1 with ((x * x + y * y + z * z + w * w) * (x * x + y * y + z * z + w * w)) by (rewrite Hq; ring). ring. }
  set (t := d * w + a * x + b * y + c * z) in *.
  assert (T : t = 1 \/ t = -1).
  { assert ((t - 1) * (t + 1) = 0) as Z by (ring_simplify; lra). apply Rmult_integral in Z. destruct Z; [left|right]; lra. }
  destruct T as [T|T]; unfold t in T; clear - Hp Hq T.
  - left. assert ((a - x) * (a - x) + (b - y) * (b - y) + (c - z) * (c - z) + (d - w) * (d - w) = 0) by nra.
    apply sumsq0 in H. destruct H as (?&?&?&?). f_equal; lra.
  - right. unfold qneg; cbn. assert ((a + x) * (a + x) + (b + y) * (b + y) + (c + z) * (c + z) + (d + w) * (d + w) = 0) by nra.
    apply sumsq0 in H. destruct H as (?&?&?&?). f_equal; lra.
Qed.

(** ** Averaging *)
Lemma antipodal_prod q i j : qget (antipodal q) i * qget (antipodal q) j = qget q i * qget q j.
Proof.
  unfold antipodal. destruct (Rltb (qw q) 0); auto. destruct q. destruct i as [|[|[|i]]], j as [|[|[|j]]]; cbn; ring.
Qed.
Lemma avg_entry qs i j : avg_matrix qs i j = mean (map (fun q => qget q i * qget q j) qs).
Proof.
  unfold avg_matrix, mean. rewrite fold_left_Rplus, map_length. f_equal. rewrite Rplus_0_l. f_equal. apply map_ext.
  intros. apply antipodal_prod.
Qed.
Lemma sum_perm l l' : Permutation l l' -> fold_right Rplus 0 l = fold_right Rplus 0 l'.
Proof. induction 1; cbn; lra. Qed.
Lemma mean_perm l l' : Permutation l l' -> mean l = mean l'.
Proof. intros H. unfold mean. rewrite (sum_perm _ _ H), (Permutation_length H). auto. Qed.
Lemma avg_perm qs qs' i j : Permutation qs qs' -> avg_matrix qs i j = avg_matrix qs' i j.
Proof. intros H. rewrite !avg_entry. apply mean_perm. apply Permutation_map; auto. Qed.

(** same quaternions up to individual signs *)
Lemma avg_sign qs qs' i j : Forall2 (fun q q' => q' = q \/ q' = qneg q) qs qs' ->
  avg_matrix qs i j = avg_matrix qs' i j.
Proof.
  intros H. rewrite !avg_entry. f_equal. induction H as [|q q' l l' Hq H IH]; auto. cbn. f_equal; auto.
  destruct Hq as [-> | ->]; auto. destruct q. destruct i as [|[|[|i]]], j as [|[|[|j]]]; cbn; ring.
Qed.
Lemma avg_sym qs i j : avg_matrix qs i j = avg_matrix qs j i.
Proof. rewrite !avg_entry. f_equal. apply map_ext. intros. ring. Qed.

Lemma mean_plus {A} (f g : A -> R) l : mean (map (fun x => f x + g x) l) = mean (map f l) + mean (map g l).
Proof.
  unfold mean. rewrite !map_length. rewrite <- Rdiv_plus_distr. f_equal. induction l; cbn; lra.
Qed.
Lemma mean_scale {A} k (f : A -> R) l : mean (map (fun x => k * f x) l) = k * mean (map f l).
Proof.
  unfold mean. rewrite !map_length. unfold Rdiv. rewrite <- Rmult_assoc. f_equal. induction l; cbn; [ring|]. rewrite IHl. ring.
Qed.
Lemma mean_const {A} (f : A -> R) l c : l <> [] -> (forall x, In x l -> f x = c) -> mean (map f l) = c.
Proof.
  intros Hn H. unfold mean. rewrite map_length.
  assert (E : fold_right Rplus 0 (map f l) = c * INR (length l)).
  { clear Hn. induction l as [|x l IH]; [cbn; ring|]. cbn [map fold_right length]. rewrite S_INR, IH, (H x); [ring|left; auto|].
    intros; apply H; right; auto. }
  rewrite E. field. apply not_0_INR. destruct l; [congruence|discriminate].
Qed.
Lemma avg_trace qs : qs <> [] -> Forall unit_quat qs -> sum4 (fun i => avg_matrix qs i i) = 1.
Proof.
  intros Hn H. unfold sum4. rewrite !avg_entry. rewrite <- !mean_plus. apply mean_const; auto.
  intros q Hq. rewrite Forall_forall in H. apply H in Hq. unfold unit_quat in Hq. cbn. lra.
Qed.
Lemma avg_form qs (v : nat -> R) : 
  sum4 (fun i => sum4 (fun j => v i * avg_matrix qs i j * v j)) =
  mean (map (fun q => (sum4 (fun i => v i * qget q i)) * (sum4 (fun i => v i * qget q i))) qs).
Proof.
  unfold sum4.
  set (L := map _ qs). unfold L. clear L.
  transitivity (mean (map (fun q => 
    sum4 (fun i => sum4 (fun j => (v i * v j) * (qget q i * qget q j)))) qs)).
  - unfold sum4. rewrite !mean_plus, !mean_scale, !avg_entry. ring.
  - f_equal. apply map_ext. intros q. unfold sum4. ring.
Qed.
Lemma mean_nonneg' l : Forall (fun x => 0 <= x) l -> 0 <= mean l.
Proof.
  intros H. unfold mean. assert (0 <= fold_right Rplus 0 l) by (induction H; cbn; lra).
  destruct l as [|x l]; [cbn; lra|]. apply Rmult_le_pos; auto. left. apply Rinv_0_lt_compat. apply lt_0_INR. cbn; lia.
Qed.
Lemma avg_psd qs (v : nat -> R) : 0 <= sum4 (fun i => sum4 (fun j => v i * avg_matrix qs i j * v j)).
Proof.
  rewrite avg_form. apply mean_nonneg'. apply Forall_forall. intros x Hx. apply in_map_iff in Hx.
  destruct Hx as (q & <- & _). nra.
Qed.

(** a dominant eigenvector maximises the mean squared cosine to the quaternions *)
Lemma dominant_max qs u : dominant (avg_matrix qs) u -> forall v, unit_quat v ->
  mean (map (fun q => (sum4 (fun i => qget v i * qget q i)) ^ 2) qs) <=
  mean (map (fun q => (sum4 (fun i => qget u i * qget q i)) ^ 2) qs).
Proof.
  intros (Hu & lam & He & Hm) v Hv.
  assert (Q : forall w, mean (map (fun q => (sum4 (fun i => qget w i * qget q i)) ^ 2) qs) =
     sum4 (fun i => sum4 (fun j => qget w i * avg_matrix qs i j * qget w j))).
  { intros w. rewrite avg_form. f_equal. apply map_ext. intros. ring. }
  rewrite !Q. apply Rle_trans with lam; [apply Hm; auto|]. right.
  assert (E : forall i, (i < 4)%nat -> sum4 (fun j => qget u i * avg_matrix qs i j * qget u j) = qget u i * (lam * qget u i)).
  { intros i Hi. rewrite <- (He i Hi). unfold sum4. ring. }
  unfold sum4 at 1. rewrite !E by lia. unfold unit_quat in Hu. cbn. 
  replace lam with (lam * (qx u * qx u + qy u * qy u + qz u * qz u + qw u * qw u)) at 1 by (rewrite Hu; ring). ring.
Qed.

Lemma dot4_unit p q : unit_quat p -> unit_quat q ->
  sum4 (fun i => qget p i * qget q i) ^ 2 <= 1.
Proof.
  unfold unit_quat, sum4. destruct p as [a b c d], q as [x y z w]; cbn. intros Hp Hq.
  assert (L : (a * x + b * y + c * z + d * w) * (a * x + b * y + c * z + d * w) + 
    ((a*y - b*x)*(a*y - b*x) + (a*z - c*x)*(a*z-c*x) + (a*w-d*x)*(a*w-d*x) + (b*z-c*y)*(b*z-c*y) + (b*w-d*y)*(b*w-d*y) + (c*w-d*z)*(c*w-d*z))
    = (a*a+b*b+c*c+d*d)*(x*x+y*y+z*z+w*w)) by ring. rewrite Hp, Hq in L.
  pose proof (Rle_0_sqr (a*y - b*x)) as S1. pose proof (Rle_0_sqr (a*z - c*x)) as S2. pose proof (Rle_0_sqr (a*w - d*x)) as S3.
  pose proof (Rle_0_sqr (b*z - c*y)) as S4. pose proof (Rle_0_sqr (b*w - d*y)) as S5. pose proof (Rle_0_sqr (c*w - d*z)) as S6.
  unfold Rsqr in *. rewrite Rmult_1_r. lra.
Qed.

(** identical quaternions: the dominant eigenvector is that quaternion up to sign *)
Lemma dominant_same qs u q : qs <> [] -> Forall (fun p => p = q) qs -> unit_quat q ->
  dominant (avg_matrix qs) u -> u = q \/ u = qneg q.
Proof.
  intros Hn HF Hq Hd. pose proof (dominant_max qs u Hd q Hq) as M. destruct Hd as (Hu & _).
  rewrite Forall_forall in HF.
  rewrite (mean_const _ _ 1), (mean_const _ _ (sum4 (fun i => qget u i * qget q i) ^ 2)) in M; auto.
  - assert (S := dot4_unit u q Hu Hq).
    set (t := sum4 (fun i => qget u i * qget q i)) in *.
    assert (T : t = 1 \/ t = -1).
    { assert ((t - 1) * (t + 1) = 0) as Z by (cbn in *; nra). apply Rmult_integral in Z. destruct Z; [left|right]; lra. }
    unfold t, sum4 in T. unfold unit_quat in *. destruct u as [a b c d], q as [x y z w]; cbn in *.
    destruct T as [T|T]; clear - Hu Hq T.
    + left. assert ((a - x) * (a - x) + (b - y) * (b - y) + (c - z) * (c - z) + (d - w) * (d - w) = 0) by nra.
      apply sumsq0 in H. destruct H as (?&?&?&?). f_equal; lra.
    + right. unfold qneg; cbn. assert ((a + x) * (a + x) + (b + y) * (b + y) + (c + z) * (c + z) + (d + w) * (d + w) = 0) by nra.
      apply sumsq0 in H. destruct H as (?&?&?&?). f_equal; lra.
  - intros x Hx. rewrite (HF x Hx). auto.
  - intros x Hx. rewrite (HF x Hx). unfold unit_quat in Hq. unfold sum4. cbn.
    replace (qx q * qx q + qy q * qy q + qz q * qz q + qw q * qw q) with 1 by lra. ring.
Qed.
Lemma same_dominant qs q : qs <> [] -> Forall (fun p => p = q) qs -> unit_quat q -> dominant (avg_matrix qs) q.
Proof.
  intros Hn HF Hq. rewrite Forall_forall in HF.
  assert (E : forall i j, avg_matrix qs i j = qget q i * qget q j).
  { intros. rewrite avg_entry. apply mean_const; auto. intros x Hx. rewrite (HF x Hx). auto. }
  split; auto. exists 1. split.
  - intros i Hi. unfold sum4. rewrite !E. unfold unit_quat in Hq. cbn.
    replace (qget q i * qx q * qx q + qget q i * qy q * qy q + qget q i * qz q * qz q + qget q i * qw q * qw q)
      with (qget q i * (qx q * qx q + qy q * qy q + qz q * qz q + qw q * qw q)) by ring. rewrite Hq. ring.
  - intros v Hv. rewrite avg_form. rewrite (mean_const _ _ (sum4 (fun i => qget v i * qget q i) ^ 2)); auto.
    + apply dot4_unit; auto.
    + intros x Hx. rewrite (HF x Hx). ring.
Qed.
