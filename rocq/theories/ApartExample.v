(** Rigs of N cameras that never see the same board: camera 0 sees board 0, camera 1 sees
    board 1, ..., in four or six frames in which the boards move, without noise. *)
From Coq Require Import String List ZArith QArith Lia Reals Lra Permutation Relations ClassicalEpsilon.
From Verif Require Import SMap DataModel DataSpec DetectModel RansacModel RansacSpec GeomModel GeomSpec GeomProofs GeomLog GeomMedian PropGeom CameraModel ResidualModel ResidualSpec ResidualProofs HandEyeModel HandEyeSpec RigSpec RigExample ApartSpec.
Import ListNotations.
Close Scope Q_scope.
Close Scope string_scope.
Open Scope R_scope.

(** the boards are turned by 180 degrees about each of the axes, and moved *)
Definition sx (f : Z) : R := if Z.eqb f 0 then 1 else if Z.eqb f 2 then 1 else -1.
Definition sy (f : Z) : R := if Z.eqb f 1 then -1 else if Z.eqb f 2 then -1 else 1.
Definition half (f : Z) : mat3 := M3 (sx f) 0 0 0 (sy f) 0 0 0 (sx f * sy f).
Definition mx (f : Z) : R := if Z.eqb f 2 then 1 else 0.
Definition mz (f : Z) : R := if Z.eqb f 1 then 2 else if Z.eqb f 4 then 3 else if Z.eqb f 5 then 4 else 1.
Definition cx (c : Z) : R := if Z.eqb c 1 then -1 else if Z.eqb c 2 then -2 else 0.
Definition wx (b : Z) : R := if Z.eqb b 1 then 3 else if Z.eqb b 2 then 5 else 0.
Definition apart_rig : rig :=
  mkRig (fun _ => 0%Z) (fun _ => I9 1 1 0 0 0 0 0 0 0) (fun c => (mid, V3 (cx c) 0 0)) (fun f => (half f, V3 (mx f) 0 (mz f))) (fun b => (mid, V3 (wx b) 0 0)).
(** where the board that camera c sees is in frame f *)
Definition bx (c f b : Z) : R := sx f * wx b + mx f + cx c.
Definition shota (c f : Z) : list pt2 := map (fun q => ((sx f * vx q + bx c f c) / mz f, sy f * vy q / mz f)) five_pts.
(** [ids]: the numbers of the corners seen, [pth]: the names of the images *)
Definition apart_with (ids : list Z) (pth : Z -> string) (N n : nat) : list (insertion pt2) :=
  map (fun cf : Z * Z => mkIns (fst cf) (snd cf) (fst cf) (shota (fst cf) (snd cf)) ids (pth (snd cf)))
      (flat_map (fun c => map (fun f => (Z.of_nat c, Z.of_nat f)) (seq 0 n)) (seq 0 N)).
Definition apart_of : nat -> nat -> list (insertion pt2) := apart_with rig_ids (fun _ => rig_path).

Lemma mz_pos f : 0 < mz f.
Proof. unfold mz. destruct (Z.eqb f 1), (Z.eqb f 4), (Z.eqb f 5); lra. Qed.
Lemma sx_sq f : sx f * sx f = 1.
Proof. unfold sx. destruct (Z.eqb f 0), (Z.eqb f 2); ring. Qed.
Lemma sy_sq f : sy f * sy f = 1.
Proof. unfold sy. destruct (Z.eqb f 1), (Z.eqb f 2); ring. Qed.
Lemma sign_rot a b : a * a = 1 -> b * b = 1 -> rotation (M3 a 0 0 0 b 0 0 0 (a * b)).
Proof.
  intros A B. assert (C : (a * b) * (a * b) = 1) by (replace ((a * b) * (a * b)) with ((a * a) * (b * b)) by ring; rewrite A, B; ring).
  split; [unfold mm, mtr, mid; cbn; f_equal; lra|unfold det; cbn; ring_simplify; replace (a ^ 2 * b ^ 2) with ((a * a) * (b * b)) by ring; rewrite A, B; ring].
Qed.
Lemma half_rot f : rotation (half f).
Proof. apply sign_rot; [apply sx_sq|apply sy_sq]. Qed.
Lemma at_worlda c f : world_at apart_rig c f = (half f, V3 (mx f + cx c) 0 (mz f)).
Proof.
  unfold world_at, apart_rig, pmul. cbn [rg_cam rg_frame fst snd]. f_equal; [unfold mm, mid, half; cbn; f_equal; ring|]. apply vec3_eq; cbn; ring.
Qed.
Lemma at_boarda c f b : board_at apart_rig c f b = (half f, V3 (bx c f b) 0 (mz f)).
Proof.
  unfold board_at. rewrite at_worlda. cbn [apart_rig rg_board]. unfold pmul. cbn [fst snd]. f_equal; [unfold mm, mid, half; cbn; f_equal; ring|]. apply vec3_eq; unfold bx; cbn; ring.
Qed.
Lemma shota_image c f q : vz q = 0 -> image 0 (I9 1 1 0 0 0 0 0 0 0) (half f, V3 (bx c f c) 0 (mz f)) q = Some ((sx f * vx q + bx c f c) / mz f, sy f * vy q / mz f).
Proof.
  intros E. assert (T := mz_pos f). unfold image. replace (pact (half f, V3 (bx c f c) 0 (mz f)) q) with (V3 (sx f * vx q + bx c f c) (sy f * vy q) (mz f)) by (apply vec3_eq; cbn; rewrite ?E; ring).
  cbn [vx vy vz]. destruct (Req_EM_T (mz f) 0); [lra|]. cbn. apply some_pair; cbn [fst snd]; field; lra.
Qed.
Lemma apart_pairs N n c f : In (c, f) (flat_map (fun c => map (fun f => (Z.of_nat c, Z.of_nat f)) (seq 0 n)) (seq 0 N)) <-> (0 <= c < Z.of_nat N)%Z /\ (0 <= f < Z.of_nat n)%Z.
Proof.
  rewrite in_flat_map. split.
  - intros (k & Hk & H). apply in_seq in Hk. apply in_map_iff in H as (d & Q & H). apply in_seq in H. injection Q as <- <-. lia.
  - intros (C & F). exists (Z.to_nat c). split; [apply in_seq; lia|]. apply in_map_iff. exists (Z.to_nat f). split; [rewrite !Z2Nat.id by lia; auto|apply in_seq; lia].
Qed.
Section Shots.
Variables (ids : list Z) (pth : Z -> string) (pts : Z -> list vec3) (N : nat).
Hypothesis (Li : length ids = 5%nat) (Ni : NoDup ids)
  (Hc : forall c j q k, (0 <= c < Z.of_nat N)%Z -> nth_error five_pts j = Some q -> nth_error ids j = Some k -> corner pts c k q).
Lemma with_In n c f : (0 <= c < Z.of_nat N)%Z -> (0 <= f < Z.of_nat n)%Z -> In (mkIns c f c (shota c f) ids (pth f)) (apart_with ids pth N n).
Proof. intros C F. apply in_map_iff. exists (c, f). split; [auto|]. apply apart_pairs; auto. Qed.
Lemma with_inv n i : In i (apart_with ids pth N n) -> exists c f, (0 <= c < Z.of_nat N)%Z /\ (0 <= f < Z.of_nat n)%Z /\ i = mkIns c f c (shota c f) ids (pth f).
Proof. intros H. apply in_map_iff in H as ((c, f) & <- & H). apply apart_pairs in H as (C & F). exists c, f. auto. Qed.
Lemma with_sighted n c f b k m : sighted (apart_with ids pth N n) c f b k m -> (0 <= c < Z.of_nat N)%Z /\ (0 <= f < Z.of_nat n)%Z /\ b = c /\ exists j q, nth_error ids j = Some k /\ nth_error five_pts j = Some q /\ m = ((sx f * vx q + bx c f c) / mz f, sy f * vy q / mz f).
Proof.
  intros (i & j & Hi & <- & <- & <- & Hk & Hm). apply with_inv in Hi as (c' & f' & C & F & ->). cbn [fst snd i_cam i_frame i_board i_ids i_pts] in *. do 3 (split; [auto|]).
  unfold shota in Hm. rewrite nth_error_map in Hm. destruct (nth_error five_pts j) as [q|] eqn:Eq; [|discriminate Hm]. injection Hm as <-. exists j, q. auto.
Qed.
Lemma with_exact n : exact_detections pts apart_rig (apart_with ids pth N n).
Proof.
  constructor.
  - unfold apart_with. rewrite map_map. apply (NoDup_map_inv (fun x : Z * Z * Z => fst x)). rewrite map_map. cbn [fst snd i_cam i_frame i_board].
    rewrite (map_ext _ (fun x : Z * Z => x)) by (intros (a, b); auto). rewrite map_id. generalize 0%nat at 2. clear. induction N as [|M IH]; intros s; cbn [seq flat_map]; [constructor|].
    assert (ND : NoDup (map (fun f => (Z.of_nat s, Z.of_nat f)) (seq 0 n))) by (apply FinFun.Injective_map_NoDup; [intros x y Q; injection Q; apply Nat2Z.inj|apply seq_NoDup]).
    assert (K : forall x, In x (map (fun f => (Z.of_nat s, Z.of_nat f)) (seq 0 n)) -> ~ In x (flat_map (fun c => map (fun f => (Z.of_nat c, Z.of_nat f)) (seq 0 n)) (seq (S s) M))).
    { intros x Hx H. apply in_map_iff in Hx as (c & <- & _). apply in_flat_map in H as (k & Hk & H). apply in_seq in Hk. apply in_map_iff in H as (d & Q & _). injection Q as Q _. lia. }
    specialize (IH (S s)). revert ND K. generalize (map (fun f => (Z.of_nat s, Z.of_nat f)) (seq 0 n)). intros l ND K. induction ND as [|x l Hx ND IHl]; cbn [app]; [auto|]. constructor.
    + rewrite in_app_iff. intros [H|H]; [auto|]. apply (K x); [left; auto|auto].
    + apply IHl. intros y Hy. apply K. right. auto.
  - intros i Hi. apply with_inv in Hi as (c & f & _ & _ & ->). cbn [i_ids i_pts]. split; [auto|]. rewrite Li. unfold shota. rewrite map_length. split; cbn; lia.
  - intros c f b k m S. apply with_sighted in S as (C & _ & -> & j & q & Hk & Hq & ->). assert (V := five_flat j q Hq). exists q. split; [eapply Hc; eauto|]. rewrite at_boarda. split.
    + cbn. rewrite V. assert (T := mz_pos f). lra.
    + apply shota_image. auto.
Qed.
End Shots.
Lemma rig_known N c j q k : (0 <= c < Z.of_nat N)%Z -> nth_error five_pts j = Some q -> nth_error rig_ids j = Some k -> corner rig_pts c k q.
Proof.
  intros _ Hq Hk. assert (k = Z.of_nat j) by (destruct j as [|[|[|[|[|j]]]]]; cbn in Hk; try (injection Hk as <-; reflexivity); destruct j; discriminate Hk). subst k.
  split; [lia|]. rewrite Nat2Z.id. exact Hq.
Qed.
Lemma rig_ids_distinct : NoDup rig_ids.
Proof. repeat constructor; cbn; intuition lia. Qed.
Lemma apart_In N n c f : (0 <= c < Z.of_nat N)%Z -> (0 <= f < Z.of_nat n)%Z -> In (mkIns c f c (shota c f) rig_ids rig_path) (apart_of N n).
Proof. exact (with_In rig_ids (fun _ => rig_path) N n c f). Qed.
Lemma apart_inv N n i : In i (apart_of N n) -> exists c f, (0 <= c < Z.of_nat N)%Z /\ (0 <= f < Z.of_nat n)%Z /\ i = mkIns c f c (shota c f) rig_ids rig_path.
Proof. exact (with_inv rig_ids (fun _ => rig_path) N n i). Qed.
Lemma apart_exact N n : exact_detections rig_pts apart_rig (apart_of N n).
Proof. exact (with_exact rig_ids (fun _ => rig_path) rig_pts N eq_refl rig_ids_distinct (rig_known N) n). Qed.
Lemma apart_rigid : rigid_rig apart_rig.
Proof.
  split; [left; reflexivity|]. split; [|split]; intros; [apply rot_id|apply half_rot|apply rot_id].
Qed.
Lemma with_known ids pth N n : Forall (known N N) (apart_with ids pth N n).
Proof. apply Forall_forall. intros i Hi. apply with_inv in Hi as (c & f & C & F & ->). repeat split; cbn; lia. Qed.
Lemma apart_known N n : Forall (known N N) (apart_of N n).
Proof. apply with_known. Qed.

(** a turn by 180 degrees is no small angle *)
Lemma turned_plain a b P : a * a = 1 -> b * b = 1 -> fst P = M3 a 0 0 0 b 0 0 0 (a * b) -> plain (Proj2RT log0 P).
Proof.
  intros A B E. assert (L := log0_ok _ (sign_rot a b A B)). rewrite <- E in L. assert (Qa : a = 1 \/ a = -1) by (assert ((a - 1) * (a + 1) = 0) by nra; destruct (Rmult_integral _ _ H); [left|right]; lra).
  assert (Qb : b = 1 \/ b = -1) by (assert ((b - 1) * (b + 1) = 0) by nra; destruct (Rmult_integral _ _ H); [left|right]; lra).
  destruct (excluded_middle_informative (a = 1 /\ b = 1)) as [(-> & ->)|N].
  - left. unfold Proj2RT. cbn [fst]. rewrite E. replace (M3 1 0 0 0 1 0 0 0 (1 * 1)) with mid by (unfold mid; f_equal; ring). unfold log0. destruct (excluded_middle_informative (mid = mid)) as [_|Q]; [|congruence]. unfold vdot, vzero. cbn. ring.
  - right. unfold Proj2RT. cbn [fst]. set (v := log0 _) in *. destruct (Rlt_dec dbl_eps (vdot v v)) as [H|H]; [exact H|exfalso]. apply Rnot_lt_le in H. rewrite E in L.
    assert (T : a + b + a * b = -1) by (destruct Qa as [-> | ->], Qb as [-> | ->]; [exfalso; apply N; auto| | |]; ring).
    unfold exp_rot in L. destruct (Req_EM_T (vnorm v) 0) as [Z|Z].
    + assert (L1 := f_equal m00 L). assert (L2 := f_equal m11 L). cbn in L1, L2. apply N. auto.
    + assert (S1 := f_equal m00 L). assert (S2 := f_equal m11 L). assert (S3 := f_equal m22 L). cbn [m00 m11 m22 vscale vx vy vz] in S1, S2, S3.
      assert (V : vnorm v * vnorm v = vdot v v) by (unfold vnorm; apply sqrt_sqrt; unfold vdot; nra).
      assert (U : (/ vnorm v * vx v) * (/ vnorm v * vx v) + (/ vnorm v * vy v) * (/ vnorm v * vy v) + (/ vnorm v * vz v) * (/ vnorm v * vz v) = 1).
      { replace ((/ vnorm v * vx v) * (/ vnorm v * vx v) + (/ vnorm v * vy v) * (/ vnorm v * vy v) + (/ vnorm v * vz v) * (/ vnorm v * vz v)) with (vdot v v / (vnorm v * vnorm v)) by (unfold vdot; field; auto).
        rewrite V. field. intros Q. apply Z. rewrite Q in V. nra. }
      assert (C : cos (vnorm v) = -1) by nra.
      assert (0 <= vnorm v) by (unfold vnorm; apply sqrt_pos).
      assert (Bd : vnorm v < 1). { assert (dbl_eps < 1) by (unfold dbl_eps; lra). nra. }
      assert (G : 0 < cos (vnorm v)) by (apply cos_gt_0; assert (P2 := PI2_1); lra). lra.
Qed.
Lemma unturned_plain P : fst P = mid -> plain (Proj2RT log0 P).
Proof. intros E. apply (turned_plain 1 1); [ring|ring|]. rewrite E. unfold mid. f_equal; ring. Qed.
Lemma apart_angles : no_tiny_angles log0 apart_rig.
Proof.
  split; [|split].
  - intros c f b. rewrite at_boarda. apply (turned_plain (sx f) (sy f)); [apply sx_sq|apply sy_sq|reflexivity].
  - intros c d. apply unturned_plain. cbn [apart_rig rg_cam]. unfold pmul, pinv. cbn [fst snd]. rewrite rot_minv by apply rot_id. unfold mm, mtr, mid. cbn. f_equal; ring.
  - intros b d. apply unturned_plain. cbn [apart_rig rg_board]. unfold pmul, pinv. cbn [fst snd]. rewrite rot_minv by apply rot_id. unfold mm, mtr, mid. cbn. f_equal; ring.
Qed.

(** *** Four of the corners determine the pose *)
Section Solve.
Variables (a b X Z : R) (P : pose).
Hypothesis (A : a * a = 1) (B : b * b = 1) (Zp : 0 < Z) (RP : rigid P).
Definition meeta (q : vec3) : Prop :=
  0 < vz (pact P q) /\ Z * vx (pact P q) = (a * vx q + X) * vz (pact P q) /\ Z * vy (pact P q) = b * vy q * vz (pact P q).
Lemma apart_solved m : (forall n q, nth_error five_pts n = Some q -> n <> m -> meeta q) -> P = (M3 a 0 0 0 b 0 0 0 (a * b), V3 X 0 Z).
Proof.
  intros H.
  assert (H' : forall n q, nth_error five_pts n = Some q -> n <> m -> 0 < vz (pact P q) /\ a * (Z * vx (pact P q) - X * vz (pact P q)) = vx q * vz (pact P q) /\ b * (Z * vy (pact P q)) = vy q * vz (pact P q)).
  { intros n q Hq Nm. destruct (H n q Hq Nm) as (Q0 & Q1 & Q2). split; [auto|]. rewrite Q1, Q2. split.
    - replace (a * ((a * vx q + X) * vz (pact P q) - X * vz (pact P q))) with ((a * a) * (vx q * vz (pact P q))) by ring. rewrite A. ring.
    - replace (b * (b * vy q * vz (pact P q))) with ((b * b) * (vy q * vz (pact P q))) by ring. rewrite B. ring. }
  clear H. assert (H0 := H' 0%nat _ eq_refl). assert (H1 := H' 1%nat _ eq_refl). assert (H2 := H' 2%nat _ eq_refl). assert (H3 := H' 3%nat _ eq_refl). assert (H4 := H' 4%nat _ eq_refl). clear H'.
  destruct P as (M, t). destruct M as [b00 b01 b02 b10 b11 b12 b20 b21 b22]. destruct t as [t0 t1 t2].
  assert (RP' : rigid (M3 b00 b01 b02 b10 b11 b12 b20 b21 b22, V3 t0 t1 t2)) by exact RP. clear RP.
  cbn [fst snd vx vy vz pact] in *. unfold pact, vadd, mv in *. cbn [fst snd vx vy vz m00 m01 m02 m10 m11 m12 m20 m21 m22] in *.
  set (u0 := a * (Z * b00 - X * b20)) in *. set (u1 := a * (Z * b01 - X * b21)) in *. set (u2 := a * (Z * t0 - X * t2)) in *.
  set (v0 := b * (Z * b10)) in *. set (v1 := b * (Z * b11)) in *. set (v2 := b * (Z * t1)) in *.
  assert (Lin : u0 = t2 /\ u1 = 0 /\ u2 = 0 /\ v0 = 0 /\ v1 = t2 /\ v2 = 0 /\ b20 = 0 /\ b21 = 0 /\ 0 < t2).
  { assert (K : forall x y, (0 < t2 + b20 * x + b21 * y + b22 * 0 /\ a * (Z * (t0 + b00 * x + b01 * y + b02 * 0) - X * (t2 + b20 * x + b21 * y + b22 * 0)) = x * (t2 + b20 * x + b21 * y + b22 * 0) /\
        b * (Z * (t1 + b10 * x + b11 * y + b12 * 0)) = y * (t2 + b20 * x + b21 * y + b22 * 0)) ->
        0 < b20 * x + b21 * y + t2 /\ u0 * x + u1 * y + u2 = x * (b20 * x + b21 * y + t2) /\ v0 * x + v1 * y + v2 = y * (b20 * x + b21 * y + t2)).
    { intros x y (Q0 & Q1 & Q2). unfold u0, u1, u2, v0, v1, v2. split; [lra|]. split.
      - transitivity (x * (t2 + b20 * x + b21 * y + b22 * 0)); [rewrite <- Q1|]; ring.
      - transitivity (y * (t2 + b20 * x + b21 * y + b22 * 0)); [rewrite <- Q2|]; ring. }
    destruct m as [|[|[|[|m]]]];
       [clear H0; specialize (H1 ltac:(lia)); specialize (H2 ltac:(lia)); specialize (H3 ltac:(lia)); specialize (H4 ltac:(lia))
       |clear H1; specialize (H0 ltac:(lia)); specialize (H2 ltac:(lia)); specialize (H3 ltac:(lia)); specialize (H4 ltac:(lia))
       |clear H2; specialize (H0 ltac:(lia)); specialize (H1 ltac:(lia)); specialize (H3 ltac:(lia)); specialize (H4 ltac:(lia))
       |clear H3; specialize (H0 ltac:(lia)); specialize (H1 ltac:(lia)); specialize (H2 ltac:(lia)); specialize (H4 ltac:(lia))
       |clear H4; specialize (H0 ltac:(lia)); specialize (H1 ltac:(lia)); specialize (H2 ltac:(lia)); specialize (H3 ltac:(lia))];
      repeat match goal with H : 0 < _ /\ _ |- _ => apply K in H; destruct H as (? & ? & ?) end; clear K RP'; clearbody u0 u1 u2 v0 v1 v2; repeat (split; [lra|]); lra. }
  clear H0 H1 H2 H3 H4. destruct Lin as (L0 & L1 & L2 & L3 & L4 & L5 & -> & -> & Tp). unfold u0, u1, u2, v0, v1, v2 in *. clear u0 u1 u2 v0 v1 v2.
  assert (Ca : forall x y, a * x = y -> x = a * y) by (intros x y <-; replace (a * (a * x)) with ((a * a) * x) by ring; rewrite A; ring).
  assert (Cb : forall x y, b * x = y -> x = b * y) by (intros x y <-; replace (b * (b * x)) with ((b * b) * x) by ring; rewrite B; ring).
  assert (Cz : forall x y, Z * x = y -> x = y / Z) by (intros x y <-; field; lra).
  apply Ca in L0, L1, L2. apply Cb in L3, L4, L5. set (s := t2 / Z) in *.
  assert (E00 : b00 = a * s) by (rewrite (Cz b00 (a * t2)); [unfold s; field|]; lra). assert (E01 : b01 = 0) by (rewrite (Cz b01 0); [field|]; lra).
  assert (E10 : b10 = 0) by (rewrite (Cz b10 0); [field|]; lra). assert (E11 : b11 = b * s) by (rewrite (Cz b11 (b * t2)); [unfold s; field|]; lra).
  assert (T0 : t0 = X * s) by (rewrite (Cz t0 (X * t2)); [unfold s; field|]; lra). assert (T1 : t1 = 0) by (rewrite (Cz t1 0); [field|]; lra).
  assert (T2 : t2 = Z * s) by (unfold s; field; lra). assert (Sp : 0 < s) by (unfold s; apply Rdiv_lt_0_compat; auto).
  clearbody s. clear L0 L1 L2 L3 L4 L5 Ca Cb Cz Tp. subst. destruct RP' as (O & D). cbn [fst snd] in O, D. unfold mm, mtr, mid in O. cbn in O. unfold det in D. cbn in D. injection O as O1 O2 O3 _ O4 O5 _ _ O6.
  assert (N : b22 * b22 = 1) by lra. assert (Q2 : b02 * b22 = 0) by lra. assert (Q3 : b12 * b22 = 0) by lra. assert (B0 : b02 = 0) by nra. assert (B1 : b12 = 0) by nra. subst b02 b12.
  assert (S2 : s * s = 1) by (replace (s * s) with ((a * a) * (s * s)) by (rewrite A; ring); lra). assert (S1 : s = 1) by nra. subst s.
  assert (N2 : a * b * b22 = 1) by lra. assert (N3 : b22 = a * b) by (replace b22 with ((a * a) * (b * b) * b22) by (rewrite A, B; ring); replace ((a * a) * (b * b) * b22) with ((a * b) * (a * b * b22)) by ring; rewrite N2; ring).
  subst b22. f_equal; f_equal; ring.
Qed.
End Solve.
Lemma image_meeta c f P q : vz q = 0 -> 0 < vz (pact P q) -> image 0 (I9 1 1 0 0 0 0 0 0 0) P q = Some ((sx f * vx q + bx c f c) / mz f, sy f * vy q / mz f) -> meeta (sx f) (sy f) (bx c f c) (mz f) P q.
Proof.
  intros V Z E. split; [auto|]. assert (T := mz_pos f). unfold image in E. destruct (Req_EM_T (vz (pact P q)) 0); [lra|].
  set (p := pact P q) in *. set (x := sx f * vx q + bx c f c) in *. set (y := sy f * vy q) in *. cbn in E. injection E as E1 E2. ring_simplify in E1. ring_simplify in E2. split.
  - replace (vx p) with ((vx p / vz p) * vz p) by (field; auto). rewrite E1. field. lra.
  - replace (vy p) with ((vy p / vz p) * vz p) by (field; auto). rewrite E2. field. lra.
Qed.
Lemma with_general ids pth pts N n : length ids = 5%nat -> NoDup ids -> (forall c j q k, (0 <= c < Z.of_nat N)%Z -> nth_error five_pts j = Some q -> nth_error ids j = Some k -> corner pts c k q) ->
  general_position pts apart_rig (apart_with ids pth N n).
Proof.
  intros Li Ni Hc c f l L Nd S P RP H.
  set (u := map (fun k => (c, k)) ids).
  assert (IL : incl l u).
  { intros (b, k) Hb. destruct (S b k Hb) as (m & Sm). apply with_sighted in Sm as (_ & _ & -> & j & q & Hk & Hq & _). apply in_map. eapply nth_error_In; eauto. }
  assert (Rc : (0 <= c < Z.of_nat N)%Z).
  { destruct l as [|(b, k) l]; [discriminate L|]. destruct (S b k (or_introl eq_refl)) as (m & Sm). apply with_sighted in Sm. apply Sm. }
  assert (Dec : forall a b : Z * Z, {a = b} + {a <> b}) by (intros (a, b) (a', b'); destruct (Z.eq_dec a a'), (Z.eq_dec b b'); [left; congruence|right; congruence|right; congruence|right; congruence]).
  destruct (one_missing Dec u l) as (mm & Hmm & Miss); [apply FinFun.Injective_map_NoDup; [intros x y Q; injection Q; auto|auto]|auto|auto|unfold u; rewrite map_length, Li; lia|].
  apply in_map_iff in Hmm as (km & <- & Hkm). apply In_nth_error in Hkm as (m & Hkm).
  assert (RB : rigid (rg_board apart_rig c)) by apply rot_id.
  assert (Q : pmul P (rg_board apart_rig c) = board_at apart_rig c f c).
  { rewrite at_boarda. apply (apart_solved (sx f) (sy f) (bx c f c) (mz f) _ (sx_sq f) (sy_sq f) (mz_pos f) (rigid_mul _ _ RP RB) m). intros j q Hq Nm.
    assert (Lj : (j < 5)%nat) by (assert (j < length five_pts)%nat by (apply nth_error_Some; congruence); auto).
    destruct (nth_error ids j) as [k|] eqn:Hk; [|apply nth_error_None in Hk; lia].
    assert (Hl : In (c, k) l).
    { apply Miss; [apply in_map; eapply nth_error_In; eauto|]. intros E. injection E as ->. apply Nm. apply (proj1 (NoDup_nth_error ids) Ni); [lia|congruence]. }
    assert (V := five_flat j q Hq). destruct (H c k q Hl) as (Z0 & E); [eapply Hc; eauto|]. cbn [apart_rig rg_model rg_intr flat Z.eqb] in E. fold apart_rig in E.
    assert (AM : forall P', pact P' (pact (rg_board apart_rig c) q) = pact (pmul P' (rg_board apart_rig c)) q) by (intros P'; symmetry; apply pact_mul).
    rewrite AM in Z0. apply image_meeta; auto.
    assert (IM : forall P', image 0 (I9 1 1 0 0 0 0 0 0 0) P' (pact (rg_board apart_rig c) q) = image 0 (I9 1 1 0 0 0 0 0 0 0) (pmul P' (rg_board apart_rig c)) q) by (intros P'; unfold image; rewrite AM; auto).
    rewrite !IM in E. rewrite E. change (pmul (world_at apart_rig c f) (rg_board apart_rig c)) with (board_at apart_rig c f c). rewrite at_boarda. apply shota_image; auto. }
  unfold board_at in Q. apply (f_equal (fun M => pmul M (pinv (rg_board apart_rig c)))) in Q. rewrite <- !pmul_assoc, !pinv_r, !pmul_id_r in Q by auto. exact Q.
Qed.
Lemma apart_general N n : general_position rig_pts apart_rig (apart_of N n).
Proof. exact (with_general rig_ids (fun _ => rig_path) rig_pts N n eq_refl rig_ids_distinct (rig_known N)). Qed.

(** *** The motion *)
Lemma apart_unrelated ids pth N n c d : same_view (apart_with ids pth N n) c d -> c = d.
Proof.
  intros H. induction H as [c d (i & j & Hi & Hj & <- & <- & _ & Cn)| |]; [|auto|congruence].
  apply with_inv in Hi as (c' & f & _ & _ & ->). apply with_inv in Hj as (d' & g & _ & _ & ->). cbn [i_cam i_board] in *.
  induction Cn as [a b (i & j & Hi & Hj & <- & <- & E & _)| |]; [|auto|congruence].
  apply with_inv in Hi as (x & ? & _ & _ & ->). apply with_inv in Hj as (y & ? & _ & _ & ->). exact E.
Qed.
Lemma apart_range ids pth N n f : apart_in (apart_with ids pth N n) f -> (0 <= f < Z.of_nat n)%Z.
Proof. intros (i & _ & Hi & _ & <- & _). apply with_inv in Hi as (c & g & _ & H & ->). exact H. Qed.
Lemma all_frames n fs : NoDup fs -> length fs = n -> (forall f, In f fs -> (0 <= f < Z.of_nat n)%Z) -> forall f, (0 <= f < Z.of_nat n)%Z -> In f fs.
Proof.
  intros N L R f F. assert (I : incl (map Z.of_nat (seq 0 n)) fs).
  { apply NoDup_length_incl; [auto|rewrite map_length, seq_length; lia|]. intros g Hg. apply R in Hg. apply in_map_iff. exists (Z.to_nat g). split; [lia|apply in_seq; lia]. }
  apply I. apply in_map_iff. exists (Z.to_nat f). split; [lia|apply in_seq; lia].
Qed.
Lemma apart_turns ids pth N n : (4 <= n)%nat -> turns_enough n apart_rig (apart_with ids pth N n).
Proof.
  intros N4 fs Nd L Ap D RD E. assert (AF := all_frames n fs Nd L (fun f H => apart_range ids pth N n f (Ap f H))).
  assert (E' : forall f, In f fs -> pmul (pmul (pinv (rg_frame apart_rig f)) D) (rg_frame apart_rig f) = pmul (pmul (pinv (rg_frame apart_rig 0)) D) (rg_frame apart_rig 0)) by (intros f Hf; apply E; [auto|apply AF; lia]).
  assert (E1 := E' 1%Z (AF 1%Z ltac:(lia))). assert (E2 := E' 2%Z (AF 2%Z ltac:(lia))). assert (E3 := E' 3%Z (AF 3%Z ltac:(lia))). clear E E' AF Ap L Nd.
  assert (RV : forall f, pinv (rg_frame apart_rig f) = (half f, V3 (- (sx f * mx f)) 0 (- (sx f * sy f * mz f)))).
  { intros f. cbn [apart_rig rg_frame]. unfold pinv. cbn [fst snd]. rewrite rot_minv by apply half_rot. f_equal. apply vec3_eq; cbn; ring. }
  rewrite !RV in E1, E2, E3. clear RV. cbn [apart_rig rg_frame] in E1, E2, E3. unfold half, sx, sy, mx, mz in E1, E2, E3. cbn [Z.eqb Pos.eqb] in E1, E2, E3.
  destruct D as (M, t). destruct M as [b00 b01 b02 b10 b11 b12 b20 b21 b22]. destruct t as [t0 t1 t2]. destruct RD as (_ & D1). cbn [fst snd] in D1. unfold det in D1. cbn in D1.
  unfold pmul in E1, E2, E3. cbn [fst snd] in E1, E2, E3. 
  assert (F1 := f_equal fst E1). assert (F2 := f_equal fst E2). assert (G1 := f_equal snd E1). assert (G2 := f_equal snd E2). assert (G3 := f_equal snd E3). clear E1 E2 E3. cbn [fst snd] in *.
  assert (X1 := f_equal m02 F1). assert (X2 := f_equal m12 F1). assert (X3 := f_equal m20 F1). assert (X4 := f_equal m21 F1). assert (X5 := f_equal m01 F2). assert (X6 := f_equal m10 F2). clear F1 F2.
  assert (G11 := f_equal vx G1). assert (G12 := f_equal vy G1). assert (G13 := f_equal vz G1). assert (G21 := f_equal vx G2). assert (G22 := f_equal vy G2). assert (G23 := f_equal vz G2).
  assert (G31 := f_equal vx G3). assert (G32 := f_equal vy G3). assert (G33 := f_equal vz G3). clear G1 G2 G3.
  unfold mm in X1, X2, X3, X4, X5, X6, G11, G12, G13, G21, G22, G23, G31, G32, G33. cbn in X1, X2, X3, X4, X5, X6, G11, G12, G13, G21, G22, G23, G31, G32, G33.
  assert (b02 = 0) by lra. assert (b12 = 0) by lra. assert (b20 = 0) by lra. assert (b21 = 0) by lra. assert (b01 = 0) by lra. assert (b10 = 0) by lra. subst.
  assert (b00 = 1) by lra. assert (b22 = 1) by lra. subst. assert (b11 = 1) by lra. subst. assert (t0 = 0) by lra. assert (t1 = 0) by lra. assert (t2 = 0) by lra. subst. reflexivity.
Qed.
Lemma apart_alike ids pth N n : alike_enough apart_rig (apart_with ids pth N n).
Proof.
  intros c d _ _ _. assert (T : fst (pmul (rg_cam apart_rig c) (pinv (rg_cam apart_rig d))) = mid).
  { cbn [apart_rig rg_cam]. unfold pmul, pinv. cbn [fst snd]. rewrite rot_minv by apply rot_id. unfold mm, mtr, mid. cbn. f_equal; ring. }
  cbv zeta. rewrite T. replace (mm mid mid) with mid by (unfold mm, mid; cbn; f_equal; ring). unfold trace, mid. cbn [m00 m11 m22].
  assert (E : (0 < / 2 ^ 52 < 1 / 1000)%R) by lra. set (e := (/ 2 ^ 52)%R) in *. clearbody e. split; [lra|].
  assert (P : (0 < PI)%R) by apply PI_RGT_0. assert (P4 := PI_4).
  set (x := (1 / 2 * (1 + 1 + 1 - e - 1))%R). assert (X : (1 - 1 / 1000 < x < 1)%R) by (unfold x; lra). clearbody x.
  assert (Lt : (acos x < PI / 12)%R).
  { destruct (Rlt_dec (acos x) (PI / 12)) as [|Nl]; [auto|exfalso]. assert (B := acos_bound x). assert (C := cos_decr_1 (PI / 12) (acos x) ltac:(lra) ltac:(lra) ltac:(lra) ltac:(lra) ltac:(lra)).
    rewrite cos_acos in C by lra.
    assert (C2 : (cos (PI / 6) = 2 * (cos (PI / 12) * cos (PI / 12)) - 1)%R) by (replace (PI / 6)%R with (2 * (PI / 12))%R by field; rewrite cos_2a_cos; ring).
    rewrite cos_PI6 in C2. assert (S3 : (sqrt 3 < 9 / 5)%R) by (rewrite <- (sqrt_square (9 / 5)) by lra; apply sqrt_lt_1; lra). nra. }
  apply (Rmult_lt_reg_r (PI / 180)); [lra|]. replace (acos x * 180 / PI * (PI / 180))%R with (acos x) by (field; lra). lra.
Qed.
Lemma apart_both ids pth N n c d : (0 <= c < Z.of_nat N)%Z -> (0 <= d < Z.of_nat N)%Z -> exists a b fs, NoDup fs /\ (n <= length fs)%nat /\ forall f, In f fs -> both_see (apart_with ids pth N n) c a d b f.
Proof.
  intros C D. exists c, d, (map Z.of_nat (seq 0 n)). split; [apply FinFun.Injective_map_NoDup; [intros x y; apply Nat2Z.inj|apply seq_NoDup]|]. split; [rewrite map_length, seq_length; auto|].
  intros f Hf. apply in_map_iff in Hf as (k & <- & Hk). apply in_seq in Hk.
  exists (mkIns c (Z.of_nat k) c (shota c (Z.of_nat k)) ids (pth (Z.of_nat k)))%Z, (mkIns d (Z.of_nat k) d (shota d (Z.of_nat k)) ids (pth (Z.of_nat k)))%Z. split; [apply with_In; lia|]. split; [apply with_In; lia|]. auto 10.
Qed.
