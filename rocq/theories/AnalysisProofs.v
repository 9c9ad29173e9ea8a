(** Lemmas about the scripts of python_utils (AnalysisModel.v). *)
From Coq Require Import List ZArith Lia Reals Lra.
From Verif Require Import DetectModel DetectProofs GeomModel GeomSpec GeomProofs CameraModel ResidualModel FileModel RigSpec AnalysisModel AnalysisSpec.
Import ListNotations.
Open Scope R_scope.

(** *** The trace of a rotation *)
Lemma rot_trace Q : rotation Q -> -1 <= np_trace Q <= 3 /\ (np_trace Q = 3 -> Q = mid).
Proof.
  intros H. assert (A := rot_adj Q H). assert (B := proj1 H). destruct Q as [a b c d e f g h i]. unfold np_trace. unfold mm, mtr, mid, adj in *. cbn in *.
  injection A as A1 A2 A3 A4 A5 A6 A7 A8 A9. injection B as B1 B2 B3 _ B5 B6 _ _ B9.
  assert (Ua : a <= 1) by (assert (0 <= b * b) by apply Rle_0_sqr; assert (0 <= c * c) by apply Rle_0_sqr; nra).
  assert (Ue : e <= 1) by (assert (0 <= d * d) by apply Rle_0_sqr; assert (0 <= f * f) by apply Rle_0_sqr; nra).
  assert (Ui : i <= 1) by (assert (0 <= g * g) by apply Rle_0_sqr; assert (0 <= h * h) by apply Rle_0_sqr; nra).
  split.
  - split; [|lra]. assert (K : (3 - (a + e + i)) * (1 + (a + e + i)) = (h - f) * (h - f) + (c - g) * (c - g) + (d - b) * (d - b)) by nra.
    assert (0 <= (h - f) * (h - f)) by apply Rle_0_sqr. assert (0 <= (c - g) * (c - g)) by apply Rle_0_sqr. assert (0 <= (d - b) * (d - b)) by apply Rle_0_sqr.
    destruct (Rle_dec (-1) (a + e + i)) as [|N]; [auto|]. exfalso. assert (1 + (a + e + i) < 0) by lra. assert (0 < 3 - (a + e + i)) by lra. nra.
  - intros T. assert (a = 1 /\ e = 1 /\ i = 1) as (-> & -> & ->) by lra.
    assert (Z0 : forall x y, 1 * 1 + x * x + y * y = 1 -> x = 0 /\ y = 0) by (intros x y; split; nra).
    destruct (Z0 b c B1) as (Eb & Ec). destruct (Z0 d f) as (Ed & Ef); [lra|]. destruct (Z0 g h) as (Eg & Eh); [lra|].
    rewrite Eb, Ec, Ed, Ef, Eg, Eh. reflexivity.
Qed.
Lemma exp_trace r : np_trace (exp_rot r) = 1 + 2 * cos (vnorm r).
Proof.
  unfold exp_rot. destruct (Req_EM_T (vnorm r) 0) as [-> |E]; [rewrite cos_0; unfold np_trace; cbn; lra|].
  assert (U : vdot (vscale (/ vnorm r) r) (vscale (/ vnorm r) r) = 1).
  { replace (vdot (vscale (/ vnorm r) r) (vscale (/ vnorm r) r)) with (/ vnorm r * / vnorm r * vdot r r) by (unfold vdot, vscale; cbn; ring). rewrite <- vnorm_sq. field. auto. }
  unfold np_trace, vdot in *. cbn [m00 m11 m22]. set (u := vscale (/ vnorm r) r) in *.
  replace (1 + 2 * cos (vnorm r)) with (3 * cos (vnorm r) + (1 - cos (vnorm r)) * 1) by ring. rewrite <- U. ring.
Qed.

(** *** The rotation error *)
Lemma acos_bounds x : -1 <= x <= 1 -> 0 <= acos x <= PI.
Proof. intros H. apply acos_bound. Qed.
Lemma np_arccos_in x : -1 <= x <= 1 -> np_arccos x = Some (acos x).
Proof. intros (A & B). unfold np_arccos. destruct (Rle_dec (-1) x); [|contradiction]. destruct (Rle_dec x 1); [auto|contradiction]. Qed.
Lemma rot_error E G : rotation E -> rotation G ->
  rotation_error E G = Some (Some (np_degrees (acos (1 / 2 * (np_trace (mm (mtr E) G) - 1))))).
Proof.
  intros RE RG. unfold rotation_error, np_inv3. destruct (Req_EM_T (det E) 0) as [D|D]; [rewrite (proj2 RE) in D; lra|]. cbn [option_map].
  rewrite (rot_minv E RE). destruct (rot_trace (mm (mtr E) G)) as (B & _); [apply rot_mm; [apply rot_mtr|]; auto|].
  rewrite np_arccos_in by lra. reflexivity.
Qed.
Lemma degrees_range a : 0 <= a <= PI -> 0 <= np_degrees a <= 180.
Proof.
  intros (A & B). assert (P := PI_RGT_0). unfold np_degrees. split.
  - apply Rmult_le_pos; [nra|]. left. apply Rinv_0_lt_compat. auto.
  - apply Rmult_le_reg_r with PI; [auto|]. replace (a * 180 / PI * PI) with (a * 180) by (field; lra). nra.
Qed.
Lemma degrees_zero a : np_degrees a = 0 -> a = 0.
Proof. assert (P := PI_RGT_0). unfold np_degrees. intros H. assert (a * 180 / PI * PI = 0) by (rewrite H; ring). replace (a * 180 / PI * PI) with (a * 180) in H0 by (field; lra). lra. Qed.
Lemma acos_zero x : -1 <= x <= 1 -> acos x = 0 -> x = 1.
Proof. intros B H. rewrite <- (cos_acos x B), H. apply cos_0. Qed.
Lemma rot_error_zero E G : rotation E -> rotation G -> (rotation_error E G = Some (Some 0) <-> E = G).
Proof.
  intros RE RG. rewrite (rot_error E G RE RG). destruct (rot_trace (mm (mtr E) G)) as (B & T); [apply rot_mm; [apply rot_mtr|]; auto|]. split.
  - intros H. injection H as H. apply degrees_zero, acos_zero in H; [|lra]. assert (X : mm (mtr E) G = mid) by (apply T; lra).
    rewrite <- (mm_id_l G), <- (proj1 RE), <- mm_assoc, X, mm_id_r. reflexivity.
  - intros <-. rewrite rot_left by auto. do 2 f_equal. replace (1 / 2 * (np_trace mid - 1)) with 1 by (unfold np_trace; cbn; lra). rewrite acos_1. unfold np_degrees. lra.
Qed.

(** *** Means *)
Lemma collect_map_Some {A B} (f : A -> B) l : collect (map (fun x => Some (f x)) l) = Some (map f l).
Proof. induction l as [|a l IH]; cbn; [auto|]. rewrite IH. reflexivity. Qed.
Lemma np_mean_Some {A} (f : A -> R) l : l <> [] -> np_mean (map (fun x => Some (f x)) l) = Some (fold_right Rplus 0 (map f l) / INR (length l)).
Proof. intros N. unfold np_mean. destruct l as [|a l]; [contradiction|]. change (map (fun x => Some (f x)) (a :: l)) with ((fun x => Some (f x)) a :: map (fun x => Some (f x)) l) at 1. cbv iota. rewrite collect_map_Some. cbn [option_map]. rewrite map_length. reflexivity. Qed.
Lemma sum_nonneg l : (forall x, In x l -> 0 <= x) -> 0 <= fold_right Rplus 0 l.
Proof. induction l as [|a l IH]; cbn; intros H; [lra|]. assert (0 <= a) by auto. assert (0 <= fold_right Rplus 0 l) by auto. lra. Qed.
Lemma sum_zero l : (forall x, In x l -> 0 <= x) -> fold_right Rplus 0 l = 0 -> forall x, In x l -> x = 0.
Proof.
  induction l as [|a l IH]; cbn; intros H E x; [intros []|]. assert (0 <= a) by auto. assert (0 <= fold_right Rplus 0 l) by (apply sum_nonneg; auto).
  intros [<- |Hx]; [lra|]. apply IH; auto. lra.
Qed.
Lemma sum_zero_conv l : (forall x, In x l -> x = 0) -> fold_right Rplus 0 l = 0.
Proof. induction l as [|a l IH]; cbn; intros H; [auto|]. rewrite IH, (H a) by auto. lra. Qed.
Lemma INR_pos n : (0 < n)%nat -> 0 < INR n.
Proof. intros H. apply lt_0_INR. auto. Qed.
Lemma np_mean_facts {A} (f : A -> R) l : l <> [] -> (forall x, In x l -> 0 <= f x) ->
  exists m, np_mean (map (fun x => Some (f x)) l) = Some m /\ 0 <= m /\ (m = 0 <-> forall x, In x l -> f x = 0).
Proof.
  intros N P. rewrite np_mean_Some by auto. eexists. split; [reflexivity|]. assert (L : 0 < INR (length l)) by (apply INR_pos; destruct l; [contradiction|cbn; lia]).
  assert (S : 0 <= fold_right Rplus 0 (map f l)) by (apply sum_nonneg; intros x Hx; apply in_map_iff in Hx as (y & <- & Hy); auto).
  assert (I : 0 < / INR (length l)) by (apply Rinv_0_lt_compat; auto).
  split; [unfold Rdiv; apply Rmult_le_pos; lra|]. split.
  - intros E x Hx. assert (Z : fold_right Rplus 0 (map f l) = 0).
    { assert (fold_right Rplus 0 (map f l) / INR (length l) * INR (length l) = 0) by (rewrite E; ring). replace (fold_right Rplus 0 (map f l) / INR (length l) * INR (length l)) with (fold_right Rplus 0 (map f l)) in H by (field; lra). auto. }
    apply (sum_zero (map f l)); auto; [|apply in_map; auto]. intros z Hz. apply in_map_iff in Hz as (y & <- & Hy); auto.
  - intros H. rewrite sum_zero_conv; [lra|]. intros z Hz. apply in_map_iff in Hz as (y & <- & Hy); auto.
Qed.
Lemma np_mean_range {A} (f : A -> R) l b : l <> [] -> (forall x, In x l -> f x <= b) -> forall m, np_mean (map (fun x => Some (f x)) l) = Some m -> m <= b.
Proof.
  intros N P m. rewrite np_mean_Some by auto. intros E. injection E as <-. assert (L : 0 < INR (length l)) by (apply INR_pos; destruct l; [contradiction|cbn; lia]).
  assert (S : fold_right Rplus 0 (map f l) <= b * INR (length l)).
  { clear N L. induction l as [|a l IH]; [cbn; lra|]. cbn [map fold_right length]. rewrite S_INR. assert (f a <= b) by (apply P; left; auto). assert (fold_right Rplus 0 (map f l) <= b * INR (length l)) by (apply IH; intros; apply P; right; auto). lra. }
  apply Rmult_le_reg_r with (INR (length l)); [auto|]. replace (fold_right Rplus 0 (map f l) / INR (length l) * INR (length l)) with (fold_right Rplus 0 (map f l)) by (field; lra). auto.
Qed.

(** *** Single errors *)
Lemma abs_error_zero e g : 0 <= abs_error e g /\ (abs_error e g = 0 <-> e = g).
Proof.
  unfold abs_error. split; [apply sqrt_pos|]. split; [|intros ->; replace ((g - g) * (g - g)) with 0 by ring; apply sqrt_0].
  intros H. apply sqrt_eq_0 in H; [nra|apply Rle_0_sqr].
Qed.
Lemma translation_error_zero e g : 0 <= translation_error e g /\ (translation_error e g = 0 <-> e = g).
Proof.
  unfold translation_error. split; [apply sqrt_pos|]. split.
  - intros H. apply sqrt_eq_0 in H; unfold vdot, vsub in *; cbn in *; [|assert (A1 := Rle_0_sqr (vx g - vx e)); assert (A2 := Rle_0_sqr (vy g - vy e)); assert (A3 := Rle_0_sqr (vz g - vz e)); unfold Rsqr in *; lra].
    apply vec3_eq; assert (A1 := Rle_0_sqr (vx g - vx e)); assert (A2 := Rle_0_sqr (vy g - vy e)); assert (A3 := Rle_0_sqr (vz g - vz e)); unfold Rsqr in *; nra.
  - intros ->. replace (vdot (vsub g g) (vsub g g)) with 0 by (unfold vdot, vsub; cbn; ring). apply sqrt_0.
Qed.

(** *** The report *)
Definition angle (eg : (mat3 * pose) * (mat3 * pose)) : R :=
  np_degrees (acos (1 / 2 * (np_trace (mm (mtr (fst (snd (fst eg)))) (fst (snd (snd eg)))) - 1))).
Lemma rots_all l : (forall e g, In (e, g) l -> rigid (snd e) /\ rigid (snd g)) ->
  collect (map (fun eg : (mat3 * pose) * (mat3 * pose) => rotation_error (fst (snd (fst eg))) (fst (snd (snd eg)))) l) = Some (map (fun eg => Some (angle eg)) l).
Proof.
  intros H. rewrite <- collect_map_Some. f_equal. apply map_ext_in. intros (e, g) Hi. destruct (H e g Hi) as (A & B). cbn [fst snd]. rewrite rot_error by assumption. reflexivity.
Qed.
Lemma angle_facts e g : rigid (snd e) -> rigid (snd g) -> 0 <= angle (e, g) <= 180 /\ (angle (e, g) = 0 <-> fst (snd e) = fst (snd g)).
Proof.
  intros A B. destruct (rot_trace (mm (mtr (fst (snd e))) (fst (snd g)))) as (T & _); [apply rot_mm; [apply rot_mtr|]; auto|]. split.
  - unfold angle. cbn [fst snd]. apply degrees_range, acos_bounds. lra.
  - rewrite <- (rot_error_zero _ _ A B), (rot_error _ _ A B). unfold angle. cbn [fst snd]. split; [intros ->; reflexivity|intros H; injection H as H; exact H].
Qed.
Lemma compute_errors_facts l : l <> [] -> (forall e g, In (e, g) l -> rigid (snd e) /\ rigid (snd g)) ->
  exists r, compute_errors l = Some r /\ sane r /\ (no_error r <-> forall e g, In (e, g) l -> agrees e g).
Proof.
  intros N H. unfold compute_errors.
  match goal with |- context [collect ?c] => replace (collect c) with (Some (map (fun eg => Some (angle eg)) l)) by (symmetry; exact (rots_all l H)) end. cbn [option_map]. eexists. split; [reflexivity|].
  assert (MK : forall f : mat3 -> R, exists m, np_mean (map (fun eg : (mat3 * pose) * (mat3 * pose) => Some (abs_error (f (fst (fst eg))) (f (fst (snd eg))))) l) = Some m /\ 0 <= m /\ (m = 0 <-> forall e g, In (e, g) l -> f (fst e) = f (fst g))).
  { intros f. destruct (np_mean_facts (fun eg : (mat3 * pose) * (mat3 * pose) => abs_error (f (fst (fst eg))) (f (fst (snd eg)))) l N) as (m & E & P & Z); [intros (e, g) _; apply abs_error_zero|].
    exists m. do 2 (split; [assumption|]). rewrite Z. split.
    - intros Q e g Hi. apply abs_error_zero. exact (Q (e, g) Hi).
    - intros Q (e, g) Hi. apply abs_error_zero. exact (Q e g Hi). }
  destruct (np_mean_facts (fun eg : (mat3 * pose) * (mat3 * pose) => translation_error (snd (snd (fst eg))) (snd (snd (snd eg)))) l N) as (mt & Et & Pt & Zt); [intros (e, g) _; apply translation_error_zero|].
  destruct (np_mean_facts angle l N) as (mr & Er & Pr & Zr); [intros (e, g) Hi; destruct (H e g Hi); apply angle_facts; auto|].
  assert (Rr : mr <= 180) by (apply (np_mean_range angle l 180 N); [intros (e, g) Hi; destruct (H e g Hi); apply angle_facts; auto|exact Er]).
  destruct (MK m00) as (x1 & E1 & P1 & Z1), (MK m11) as (x2 & E2 & P2 & Z2), (MK m02) as (x3 & E3 & P3 & Z3), (MK m12) as (x4 & E4 & P4 & Z4).
  unfold sane, no_error. cbn [rp_translation rp_rotation rp_fx rp_fy rp_u0 rp_v0 rp_pp]. rewrite Et, Er, E1, E2, E3, E4. split; [split|].
  - exists mr. auto.
  - intros f [<- |[<- |[<- |[<- |[<- |[<- |[]]]]]]]; cbn [rp_translation rp_fx rp_fy rp_u0 rp_v0 rp_pp]; eexists; (split; [reflexivity|lra]).
  - split.
    + intros (A & B & C & D & F & G & _) e g Hi. injection A as A. injection B as B. injection C as C. injection D as D. injection F as F. injection G as G. destruct (H e g Hi) as (He & Hg).
      split; [exact (proj1 Z1 C e g Hi)|]. split; [exact (proj1 Z2 D e g Hi)|]. split; [exact (proj1 Z3 F e g Hi)|]. split; [exact (proj1 Z4 G e g Hi)|].
      assert (X := proj1 Zt A (e, g) Hi). assert (Y := proj1 Zr B (e, g) Hi). cbn [fst snd] in X. apply translation_error_zero in X. apply (angle_facts e g He Hg) in Y.
      destruct e as (k, (r, v)), g as (k', (r', v')). cbn in *. congruence.
    + intros Q. assert (mt = 0) as -> by (apply Zt; intros (e, g) Hi; apply translation_error_zero; destruct (Q e g Hi) as (_ & _ & _ & _ & E); cbn [fst snd]; rewrite E; auto).
      assert (mr = 0) as -> by (apply Zr; intros (e, g) Hi; destruct (H e g Hi) as (He & Hg); apply (angle_facts e g He Hg); destruct (Q e g Hi) as (_ & _ & _ & _ & E); rewrite E; auto).
      assert (x1 = 0) as -> by (apply Z1; intros e g Hi; apply (Q e g Hi)). assert (x2 = 0) as -> by (apply Z2; intros e g Hi; apply (Q e g Hi)).
      assert (x3 = 0) as -> by (apply Z3; intros e g Hi; apply (Q e g Hi)). assert (x4 = 0) as -> by (apply Z4; intros e g Hi; apply (Q e g Hi)).
      do 6 (split; [reflexivity|]). f_equal. lra.
Qed.

(** *** Reading the files *)
Lemma read_cameras_Some nb file l : read_cameras nb file = Some l <->
  length l = nb /\ forall i, (i < nb)%nat -> exists r, entry file (Z.of_nat i) = Some r /\ nth_error l i = Some (r_K r, r_pose r).
Proof.
  unfold read_cameras. assert (G : forall n a (l : list (mat3 * pose)), collect (map (fun i => option_map (fun r => (r_K r, r_pose r)) (entry file (Z.of_nat i))) (seq a n)) = Some l <->
    length l = n /\ forall i, (i < n)%nat -> exists r, entry file (Z.of_nat (a + i)) = Some r /\ nth_error l i = Some (r_K r, r_pose r)).
  { clear. induction n as [|n IH]; intros a l; cbn [seq map collect].
    - split; [intros E; injection E as <-; split; [reflexivity|intros i Hi; lia]|]. intros (A & _). destruct l; [auto|discriminate A].
    - destruct (entry file (Z.of_nat a)) as [r|] eqn:Er; cbn [option_map].
      + destruct (collect (map _ (seq (S a) n))) as [l'|] eqn:El; cbn [option_map].
        * apply IH in El as (L & Q). split.
          -- intros E. injection E as <-. cbn [length]. split; [lia|]. intros [|i] Hi; [exists r; rewrite Nat.add_0_r; auto|]. destruct (Q i ltac:(lia)) as (r' & A & B). exists r'. rewrite Nat.add_succ_r. auto.
          -- intros (L' & Q'). destruct l as [|x l]; [discriminate L'|]. f_equal. destruct (Q' 0%nat ltac:(lia)) as (r' & A & B). rewrite Nat.add_0_r, Er in A. injection A as <-. injection B as <-. f_equal.
             assert (X : Some l' = Some l); [|congruence]. rewrite <- (proj2 (IH (S a) l')) by auto. apply IH. injection L' as L'. split; [auto|]. intros i Hi. destruct (Q' (S i) ltac:(lia)) as (r' & A & B'). exists r'. rewrite Nat.add_succ_r in A. auto.
        * split; [intros E; discriminate E|]. intros (L' & Q'). exfalso. destruct l as [|x l]; [discriminate L'|]. injection L' as L'. assert (X : None = Some l); [|discriminate X]. rewrite <- El. apply IH. split; [auto|].
          intros i Hi. destruct (Q' (S i) ltac:(lia)) as (r' & A & B'). exists r'. rewrite Nat.add_succ_r in A. auto.
      + split; [intros E; discriminate E|]. intros (_ & Q'). destruct (Q' 0%nat ltac:(lia)) as (r' & A & _). rewrite Nat.add_0_r, Er in A. discriminate A. }
  apply (G nb 0%nat).
Qed.
Lemma read_cameras_total nb file : (forall i, (i < nb)%nat -> exists r, entry file (Z.of_nat i) = Some r) -> exists l, read_cameras nb file = Some l.
Proof. intros H. unfold read_cameras. assert (G : forall n a, (a + n <= nb)%nat -> exists l, collect (map (fun i => option_map (fun r => (r_K r, r_pose r)) (entry file (Z.of_nat i))) (seq a n)) = Some l).
  { induction n as [|n IH]; intros a L; cbn [seq map collect]; [eauto|]. destruct (H a ltac:(lia)) as (r & ->). cbn [option_map]. destruct (IH (S a) ltac:(lia)) as (l & ->). eexists. reflexivity. }
  apply G. lia. Qed.
