(** The rig of RigExample with a sixth corner that is detected in the wrong place. *)
From Coq Require Import String List ZArith QArith Lia Reals Lra Permutation Sorted Relations ClassicalEpsilon.
From Verif Require Import SMap DataModel DataSpec DetectModel DetectSpec RansacModel RansacSpec RansacProofs GeomModel GeomSpec GeomProofs GeomLog GeomMedian PropGeom CameraModel ResidualModel ResidualSpec ResidualProofs RigSpec RigExample OutlierSpec.
Import ListNotations.
Close Scope Q_scope.
Close Scope string_scope.
Open Scope R_scope.

Definition six_pts (b : Z) : list vec3 := five_pts ++ [V3 2 2 0].
Lemma six_corner b k q : corner rig_pts b k q -> corner six_pts b k q.
Proof. intros (K0 & H). split; [auto|]. unfold six_pts. rewrite nth_error_app1; [exact H|]. apply nth_error_Some. unfold rig_pts in H. congruence. Qed.
Lemma six_exact : exact_detections six_pts two_rig rig_ins.
Proof.
  destruct rig_exact as [A B C]. constructor; auto. intros c f b k m S. destruct (C c f b k m S) as (q & Hq & H). exists q. split; [apply six_corner; auto|auto].
Qed.
Lemma six_general : general_position six_pts two_rig rig_ins.
Proof. intros c f l L N S P RP H. apply (rig_general c f l L N S P RP). intros b k q Hl Hq. apply (H b k q Hl). apply six_corner. auto. Qed.

(** solvePnP without noise; when nothing fits, it says something wrong.  The first sample
    has the last corner, later ones the first four. *)
Definition astray : par6 := (vzero, V3 1000 1000 1).
Definition swaps (k : nat) (l : list nat) : list nat :=
  match k with
  | O => match rev l with x :: r => x :: rev r | [] => [] end
  | S O => match l with x :: r => r ++ [x] | [] => [] end
  | _ => l
  end.
Definition astray_env (lr : mat3 -> vec3) : rs_env par6 vec3 :=
  mkRS (fun K D scene img _ => if excluded_middle_informative (exists P, rigid P /\ fits (intr_of K D) P scene img)
                               then Proj2RT lr (epsilon (inhabits pid) (fun P => rigid P /\ fits (intr_of K D) P scene img)) else astray)
       (fun _ _ _ _ P => P)
       (fun K D P q => match image 0 (intr_of K D) (matrix P) q with Some m => m | None => (0, 0) end)
       (fun _ _ m => m) swaps (vzero, vzero).
Lemma swaps_fair k l : Permutation (swaps k l) l.
Proof.
  destruct k as [|[|k]]; cbn [swaps]; [| |auto].
  - assert (R := Permutation_rev l). destruct (rev l) as [|x r]; [apply Permutation_sym in R; exact R|]. apply Permutation_sym. eapply Permutation_trans; [exact R|]. apply perm_skip. apply Permutation_rev.
  - destruct l as [|x r]; [auto|]. apply Permutation_sym. apply Permutation_cons_append.
Qed.
Lemma astray_pnp lr : exact_pnp lr (astray_env lr).
Proof.
  constructor.
  - intros i P q m E. cbn [astray_env rs_project]. rewrite intr_of_five, E. auto.
  - intros i P scene img before _ RP F U. cbn [astray_env rs_p3p]. rewrite intr_of_five. destruct (excluded_middle_informative _) as [_|N]; [|exfalso; apply N; eauto]. f_equal.
    destruct (epsilon_spec (inhabits pid) (fun P => rigid P /\ fits i P scene img) (ex_intro _ P (conj RP F))) as (A & B). apply U; auto.
  - intros. reflexivity.
  - intros k l. apply swaps_fair.
Qed.
Lemma sample_first lr : sample (astray_env lr) 6 0 = [5; 0; 1; 2]%nat.
Proof. reflexivity. Qed.
Lemma sample_later lr k : sample (astray_env lr) 6 (S k) = [0; 1; 2; 3]%nat.
Proof.
  unfold sample. assert (H : order (astray_env lr) 6 (S (S k)) = [0; 1; 2; 3; 4; 5]%nat); [|rewrite H; reflexivity]. induction k as [|k IH]; [reflexivity|].
  change (order (astray_env lr) 6 (S (S (S k)))) with (swaps (S (S k)) (order (astray_env lr) 6 (S (S k)))). rewrite IH. reflexivity.
Qed.

(** ** The detections *)
Definition seen (c f : Z) (q : vec3) : pt2 := ((vx q + tx c) / tz f, vy q / tz f).
Definition six_ids : list Z := [0; 1; 2; 3; 4; 5]%Z.
(** the sixth corner is detected where the first one is *)
Definition wrong_shot (c f : Z) : list pt2 := shot c f ++ [seen c f (V3 0 0 0)].
Definition wrong_one (cf : Z * Z) : insertion pt2 := mkIns (fst cf) (snd cf) 0%Z (wrong_shot (fst cf) (snd cf)) six_ids rig_path.
Definition clean_one (cf : Z * Z) : insertion pt2 := mkIns (fst cf) (snd cf) 0%Z (shot (fst cf) (snd cf)) rig_ids rig_path.
Definition wrong_ins : list (insertion pt2) := map wrong_one [(0, 0); (1, 0); (0, 1); (1, 1)]%Z.

Lemma six_flat k q : nth_error (six_pts 0) k = Some q -> vz q = 0.
Proof. destruct k as [|[|[|[|[|[|k]]]]]]; cbn; intros H; try (injection H as <-; reflexivity). destruct k; discriminate H. Qed.
Lemma six_image c f q : vz q = 0 -> image 0 (I9 1 1 0 0 0 0 0 0 0) (board_at two_rig c f 0) q = Some (seen c f q).
Proof. intros E. rewrite at_board. apply shot_image. auto. Qed.
Lemma six_front c f q : vz q = 0 -> 0 < vz (pact (board_at two_rig c f 0) q).
Proof. intros E. rewrite at_board. cbn. rewrite E. assert (T := tz_pos f). lra. Qed.
Lemma six_id j k : nth_error six_ids j = Some k -> k = Z.of_nat j /\ (j < 6)%nat.
Proof. destruct j as [|[|[|[|[|[|j]]]]]]; cbn; intros H; try (injection H as <-; split; [reflexivity|lia]). destruct j; discriminate H. Qed.
Lemma wrong_pts c f j q : (j < 5)%nat -> nth_error (six_pts 0) j = Some q -> nth_error (wrong_shot c f) j = Some (seen c f q).
Proof.
  intros L H. unfold wrong_shot. rewrite nth_error_app1 by exact L. unfold shot. rewrite nth_error_map. unfold six_pts in H. rewrite nth_error_app1 in H by exact L. rewrite H. reflexivity.
Qed.
Lemma far_apart c f : 1 <= dist2 (seen c f (V3 0 0 0)) (seen c f (V3 2 2 0)).
Proof.
  assert (T : tz f = 1 \/ tz f = 2) by (unfold tz; destruct (Z.eqb f 1); auto). unfold dist2, seen. cbn [fst snd vx vy]. rewrite <- sqrt_1 at 1. apply sqrt_le_1_alt.
  destruct T as [-> | ->]; field_simplify; nra.
Qed.
Lemma wrong_right cf j : right six_pts two_rig (wrong_one cf) j <-> (j < 5)%nat.
Proof.
  destruct cf as (c, f). split.
  - intros (k & m & q & Hk & Hm & (_ & Hq) & _ & I). cbn [wrong_one fst snd i_ids i_pts i_board i_cam i_frame] in *. destruct (six_id j k Hk) as (-> & L). rewrite Nat2Z.id in Hq.
    destruct (Nat.eq_dec j 5) as [->|]; [exfalso|lia]. injection Hq as <-. injection Hm as <-. change (rg_model two_rig c) with 0%Z in I. change (rg_intr two_rig c) with (I9 1 1 0 0 0 0 0 0 0) in I. rewrite six_image in I by reflexivity.
    injection I as I1 I2. assert (A := far_apart c f). unfold dist2, seen in A. cbn [fst snd vx vy] in *. rewrite I1, I2 in A. replace (_ + _) with 0 in A by ring. rewrite sqrt_0 in A. lra.
  - intros L. destruct (nth_error (six_pts 0) j) as [q|] eqn:Eq; [|apply nth_error_None in Eq; cbn in Eq; lia]. assert (V := six_flat j q Eq).
    exists (Z.of_nat j), (seen c f q), q. cbn [wrong_one fst snd i_ids i_pts i_board i_cam i_frame]. split; [destruct j as [|[|[|[|[|j]]]]]; try reflexivity; lia|]. split; [apply wrong_pts; auto|].
    split; [split; [lia|rewrite Nat2Z.id; auto]|]. split; [apply six_front; auto|]. apply six_image. auto.
Qed.
Lemma wrong_cleaned cf : cleaned six_pts two_rig (wrong_one cf) (clean_one cf).
Proof.
  do 4 (split; [reflexivity|]). exists (seq 0 5). split; [cbn; repeat constructor|]. split; [intros j; rewrite wrong_right, in_seq; lia|].
  split; [repeat constructor|]. cbn [wrong_one clean_one fst snd i_ids i_pts]. destruct cf as (c, f). cbn [fst snd]. unfold wrong_shot. repeat constructor.
Qed.
(** no pose fits the first sample *)
Lemma first_unfit c f P : In (c, f) [(0, 0); (1, 0); (0, 1); (1, 1)]%Z ->
  ~ fits (I9 1 1 0 0 0 0 0 0 0) P [V3 2 2 0; V3 0 0 0; V3 1 0 0; V3 0 1 0] [seen c f (V3 0 0 0); seen c f (V3 0 0 0); seen c f (V3 1 0 0); seen c f (V3 0 1 0)].
Proof.
  intros Hcf F. inversion F as [|? ? ? ? (Z3 & I3) F1]; subst. inversion F1 as [|? ? ? ? (Z0 & I0) F2]; subst. inversion F2 as [|? ? ? ? (Z1 & I1) F3]; subst. inversion F3 as [|? ? ? ? (Z2 & I2) _]; subst. clear F F1 F2 F3.
  assert (G : forall q q', 0 < vz (pact P q) -> image 0 (I9 1 1 0 0 0 0 0 0 0) P q = Some (seen c f q') -> tz f * vx (pact P q) = (vx q' + tx c) * vz (pact P q) /\ tz f * vy (pact P q) = vy q' * vz (pact P q)).
  { intros q q' Z E. assert (T := tz_pos f). unfold image, seen in E. destruct (Req_EM_T (vz (pact P q)) 0); [lra|].
    set (p := pact P q) in *. set (x := vx q') in *. set (y := vy q') in *. cbn in E. injection E as E1 E2. ring_simplify in E1. ring_simplify in E2. split.
    - replace (vx p) with ((vx p / vz p) * vz p) by (field; auto). rewrite E1. field. lra.
    - replace (vy p) with ((vy p / vz p) * vz p) by (field; auto). rewrite E2. field. lra. }
  apply G in I0; [|auto]. apply G in I1; [|auto]. apply G in I2; [|auto]. apply G in I3; [|auto]. clear G.
  destruct P as (A, t). cbn [fst snd vx vy vz pact] in *. destruct A as [b00 b01 b02 b10 b11 b12 b20 b21 b22]. destruct t as [t0 t1 t2]. cbn [vx vy vz m00 m01 m02 m10 m11 m12 m20 m21 m22] in *.
  destruct Hcf as [Q|[Q|[Q|[Q|[]]]]]; injection Q as <- <-; unfold tx, tz in *; cbn [Z.eqb Pos.eqb] in *; destruct I0, I1, I2, I3; lra.
Qed.
Lemma astray_explains c f scene l : In (c, f) [(0, 0); (1, 0); (0, 1); (1, 1)]%Z -> Forall2 (corner six_pts 0) six_ids scene ->
  consensus (astray_env log0) (mkK 1 1 0 0) [0; 0; 0; 0; 0] scene (wrong_shot c f) 1 astray l -> l = [].
Proof.
  intros Hcf Sc (_ & C). destruct l as [|j l]; [auto|exfalso]. destruct (proj1 (C j) (or_introl eq_refl)) as (s & m & Hs & Hm & D).
  assert (Bs : vz s = 0 /\ 0 <= vx s /\ 0 <= vy s).
  { assert (Q : exists k, corner six_pts 0 k s).
    { clear - Sc Hs. revert j Hs. induction Sc as [|k s' ids sc H F IH]; intros [|j] Hs; cbn in Hs; try discriminate Hs; [injection Hs as ->; eauto|eauto]. }
    destruct Q as (k & _ & Hk). revert Hk. generalize (Z.to_nat k). intros n Hk. destruct n as [|[|[|[|[|[|n]]]]]]; cbn in Hk; try (injection Hk as <-; cbn; lra). destruct n; discriminate Hk. }
  assert (Bm : fst m <= 3).
  { clear - Hm Hcf. assert (T : tx c = 0 \/ tx c = 1) by (unfold tx; destruct (Z.eqb c 1); auto). assert (T' : tz f = 1 \/ tz f = 2) by (unfold tz; destruct (Z.eqb f 1); auto).
    unfold wrong_shot, shot, seen in Hm. destruct j as [|[|[|[|[|[|j]]]]]]; cbn in Hm; try (injection Hm as <-; cbn; destruct T as [-> | ->], T' as [-> | ->]; lra). destruct j; discriminate Hm. }
  assert (Ep : rs_project (astray_env log0) (mkK 1 1 0 0) [0; 0; 0; 0; 0] astray s = (vx s + 1000, vy s + 1000)).
  { assert (Mx : matrix astray = (mid, V3 1000 1000 1)).
    { unfold matrix, astray, RVecT2Proj. cbn [fst snd]. f_equal. unfold exp_rot. destruct (Req_EM_T (vnorm vzero) 0) as [_|N]; [auto|]. exfalso. apply N. unfold vnorm, vdot, vzero. cbn. replace (0 * 0 + 0 * 0 + 0 * 0) with 0 by ring. apply sqrt_0. }
    cbn [astray_env rs_project]. rewrite Mx. cbn [intr_of k_fx k_fy k_u0 k_v0]. unfold image.
    assert (E : pact (mid, V3 1000 1000 1) s = V3 (vx s + 1000) (vy s + 1000) 1) by (destruct Bs as (Q & _); apply vec3_eq; cbn; rewrite ?Q; ring). rewrite E. cbn [vx vy vz].
    destruct (Req_EM_T 1 0); [lra|]. cbn. f_equal; field. }
  rewrite Ep in D. unfold dist2 in D. cbn [fst snd] in D.
  match type of D with sqrt ?X < 1 => assert (S : 1 <= sqrt X) end.
  { rewrite <- sqrt_1 at 1. apply sqrt_le_1_alt. assert (0 <= (snd m - (vy s + 1000)) * (snd m - (vy s + 1000))) by apply Rle_0_sqr. destruct Bs as (_ & Bx & _). assert (Z : 1 <= - (fst m - (vx s + 1000))) by lra. nra. }
  lra.
Qed.
Lemma Int_part_2 x : 2 <= x -> (2 <= Int_part x)%Z.
Proof. intros H. destruct (base_Int_part x) as (_ & C). assert (Q : 1 < IZR (Int_part x)) by lra. apply (lt_IZR 1) in Q. lia. Qed.
Lemma wanted_more l : (0 < l < 5)%nat -> (1 < wanted_trials (99 / 100) l 6)%Z.
Proof.
  intros Hl. assert (F : 0 <= 1 - (INR l / INR 6) ^ 3 <= 1) by (apply frac_range; lia).
  assert (L : 1 <= INR l <= 4) by (split; [change 1 with (INR 1)|replace 4 with (INR 4) by (cbn; ring)]; apply le_INR; lia).
  assert (Q : 1 / 5 <= 1 - (INR l / INR 6) ^ 3). { replace (INR 6) with 6 by (cbn; ring). assert (0 <= INR l / 6 <= 2 / 3) by (split; unfold Rdiv; nra). nra. }
  assert (Q' : 1 - (INR l / INR 6) ^ 3 < 1). { replace (INR 6) with 6 by (cbn; ring). assert (0 < INR l / 6) by (unfold Rdiv; nra). assert (0 < (INR l / 6) ^ 3) by (apply pow_lt; auto). lra. }
  set (q := 1 - (INR l / INR 6) ^ 3) in *. unfold wanted_trials. fold q. destruct (Req_EM_T q 0); [lra|].
  set (q2 := if Rltb (1 - 1 / 100000) q then 1 - 1 / 100000 else q). assert (B : 1 / 5 <= q2 < 1) by (unfold q2; destruct (Rltb (1 - 1 / 100000) q); lra).
  assert (N : ln q2 < 0) by (rewrite <- ln_1; apply ln_increasing; lra).
  assert (R : 2 <= ln (1 - 99 / 100) / ln q2).
  { replace (1 - 99 / 100) with (/ 100) by field. assert (ln (/ 100) <= 2 * ln q2).
    { replace (2 * ln q2) with (ln q2 + ln q2) by ring. rewrite <- ln_mult by lra. destruct (Req_dec (/ 100) (q2 * q2)) as [->|]; [lra|]. left. apply ln_increasing; [lra|]. nra. }
    apply (Rmult_le_reg_r (- ln q2)); [lra|]. replace (ln (/ 100) / ln q2 * - ln q2) with (- ln (/ 100)) by (field; lra). lra. }
  assert (2 <= round_half_up (ln (1 - 99 / 100) / ln q2))%Z; [|lia].
  unfold round_half_up. apply Int_part_2. lra.
Qed.
Lemma wrong_told cf : In cf [(0, 0); (1, 0); (0, 1); (1, 1)]%Z -> told_apart six_pts two_rig 1 1000 (astray_env log0) (wrong_one cf) (clean_one cf).
Proof.
  intros Hcf. destruct cf as (c, f). assert (Wk : forall m, working two_rig (astray_env log0) c m = m) by reflexivity.
  constructor.
  - reflexivity.
  - intros k Hk. apply In_nth_error in Hk as (j & Hj). destruct (six_id j k Hj) as (-> & L). destruct (nth_error (six_pts 0) j) as [q|] eqn:Eq; [|apply nth_error_None in Eq; cbn in Eq; lia]. exists q. split; [lia|rewrite Nat2Z.id; exact Eq].
  - intros j k m q Hk Hm (_ & Hq) N. rewrite wrong_right in N. cbn [wrong_one fst snd i_ids i_pts i_board i_cam i_frame] in *. destruct (six_id j k Hk) as (-> & L). rewrite Nat2Z.id in Hq. assert (j = 5%nat) by lia. subst j. injection Hq as <-. injection Hm as <-.
    exists (seen c f (V3 2 2 0)). rewrite Wk. split; [apply six_image; reflexivity|apply far_apart].
  - intros k before q l scene _ Sc (j & Hj & Nj). rewrite wrong_right in Nj. change (length (i_pts (wrong_one (c, f)))) with 6%nat in *. destruct k as [|k]; [|rewrite sample_later in Hj; cbn in Hj; lia].
    cbv zeta. rewrite sample_first. intros (s4 & m4 & S4 & M4 & ->) C. change (i_cam (wrong_one (c, f))) with c in *. change (i_pts (wrong_one (c, f))) with (wrong_shot c f) in *. rewrite (map_ext _ (fun m => m) Wk), map_id in *.
    change (i_ids (wrong_one (c, f))) with six_ids in Sc. change (i_board (wrong_one (c, f))) with 0%Z in Sc.
    assert (Es : scene = [V3 0 0 0; V3 1 0 0; V3 0 1 0; V3 2 1 0; V3 1 2 0; V3 2 2 0]).
    { clear - Sc. unfold six_ids in Sc. repeat match goal with H : Forall2 _ (_ :: _) _ |- _ => inversion H; subst; clear H | H : Forall2 _ [] _ |- _ => inversion H; subst; clear H end.
      repeat match goal with H : corner six_pts 0 _ ?y |- _ => destruct H as (_ & H); cbn in H; injection H as <- end. reflexivity. }
    subst scene.
    assert (E4 : s4 = [V3 2 2 0; V3 0 0 0; V3 1 0 0; V3 0 1 0]) by (apply pick_Some in S4; cbn in S4; congruence).
    assert (F4 : m4 = [seen c f (V3 0 0 0); seen c f (V3 0 0 0); seen c f (V3 1 0 0); seen c f (V3 0 1 0)]) by (apply pick_Some in M4; cbn in M4; injection M4 as <-; reflexivity). subst s4 m4.
    assert (Q : l = []); [|subst l; cbn; lia]. cbn [astray_env rs_p3p] in C.
    match type of C with context [excluded_middle_informative ?X] => destruct (excluded_middle_informative X) as [(P & RP & F)|_] end.
    + exfalso. exact (first_unfit c f P Hcf F).
    + apply (astray_explains c f _ l Hcf Sc C).
  - change (length (i_pts (wrong_one (c, f)))) with 6%nat. exists 1%nat. split; [lia|]. split.
    + intros j Hj. rewrite sample_later in Hj. apply wrong_right. cbn in Hj. lia.
    + intros l Hl. change (length (i_ids (clean_one (c, f)))) with 5%nat in Hl. change (Z.of_nat 1) with 1%Z. apply wanted_more. auto.
Qed.
