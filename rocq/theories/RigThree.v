(** A rig of three cameras, one of them turned, that all see one board in two frames, without
    noise. *)
From Coq Require Import String List ZArith QArith Lia Reals Lra Permutation Relations ClassicalEpsilon.
From Verif Require Import SMap DataModel DataSpec DetectModel RansacModel RansacSpec GeomModel GeomSpec GeomProofs GeomLog GeomMedian PropGeom CameraModel ResidualModel ResidualSpec ResidualProofs RigSpec RigExample.
Import ListNotations.
Close Scope Q_scope.
Close Scope string_scope.
Open Scope R_scope.

(** camera 2 is upside down *)
Definition sg (c : Z) : R := if Z.eqb c 2 then -1 else 1.
Definition turn (c : Z) : mat3 := M3 (sg c) 0 0 0 (sg c) 0 0 0 1.
Definition three_rig : rig :=
  mkRig (fun _ => 0%Z) (fun _ => I9 1 1 0 0 0 0 0 0 0) (fun c => (turn c, V3 (sg c * tx c) 0 0)) (fun f => (mid, V3 0 0 (tz f))) (fun _ => pid).
Definition shot3 (c f : Z) : list pt2 := map (fun q => (sg c * ((vx q + tx c) / tz f), sg c * (vy q / tz f))) five_pts.
Definition all3 : list (Z * Z) := [(0, 0); (1, 0); (2, 0); (0, 1); (1, 1); (2, 1)]%Z.
Definition three_ins : list (insertion pt2) :=
  map (fun cf : Z * Z => mkIns (fst cf) (snd cf) 0%Z (shot3 (fst cf) (snd cf)) rig_ids rig_path) all3.

Lemma sg_sq c : sg c * sg c = 1.
Proof. unfold sg. destruct (Z.eqb c 2); ring. Qed.
Lemma turn_rot c : rotation (turn c).
Proof. assert (S := sg_sq c). split; [unfold turn, mm, mtr, mid; cbn; f_equal; nra|unfold turn, det; cbn; nra]. Qed.
Lemma at_world3 c f : world_at three_rig c f = (turn c, V3 (sg c * tx c) 0 (tz f)).
Proof.
  unfold world_at, three_rig, pmul. cbn [rg_cam rg_frame fst snd]. f_equal; [unfold mm, mid, turn; cbn; f_equal; ring|]. apply vec3_eq; cbn; ring.
Qed.
Lemma at_board3 c f b : board_at three_rig c f b = (turn c, V3 (sg c * tx c) 0 (tz f)).
Proof. unfold board_at. rewrite at_world3. cbn [three_rig rg_board]. apply pmul_id_r. Qed.
Lemma shot3_image c f q : vz q = 0 -> image 0 (I9 1 1 0 0 0 0 0 0 0) (turn c, V3 (sg c * tx c) 0 (tz f)) q = Some (sg c * ((vx q + tx c) / tz f), sg c * (vy q / tz f)).
Proof.
  intros E. assert (T := tz_pos f). unfold image. replace (pact (turn c, V3 (sg c * tx c) 0 (tz f)) q) with (V3 (sg c * (vx q + tx c)) (sg c * vy q) (tz f)) by (apply vec3_eq; cbn; rewrite ?E; ring).
  cbn [vx vy vz]. destruct (Req_EM_T (tz f) 0); [lra|]. cbn. apply some_pair; cbn [fst snd]; field; lra.
Qed.
Lemma three_sighted c f b k m : sighted three_ins c f b k m <-> In (c, f) all3 /\ b = 0%Z /\ exists n q, k = Z.of_nat n /\ nth_error five_pts n = Some q /\ m = (sg c * ((vx q + tx c) / tz f), sg c * (vy q / tz f)).
Proof.
  split.
  - intros (i & j & Hi & <- & <- & <- & Hk & Hm). apply in_map_iff in Hi as ((c', f') & <- & Hi). cbn [fst snd i_cam i_frame i_board i_ids i_pts] in *. split; [auto|]. split; [auto|].
    unfold shot3 in Hm. rewrite nth_error_map in Hm. destruct (nth_error five_pts j) as [q|] eqn:Eq; [|discriminate Hm]. injection Hm as <-. exists j, q. split; [|auto].
    destruct j as [|[|[|[|[|j]]]]]; cbn in Hk; try (injection Hk as <-; reflexivity). destruct j; discriminate Hk.
  - intros (Hi & -> & n & q & -> & Hq & ->). eexists. exists n. split; [apply in_map_iff; exists (c, f); split; [reflexivity|auto]|]. cbn [fst snd i_cam i_frame i_board i_ids i_pts].
    do 3 (split; [auto|]). split; [|unfold shot3; rewrite nth_error_map, Hq; auto]. destruct n as [|[|[|[|[|n]]]]]; cbn in *; auto. destruct n; discriminate Hq.
Qed.
Lemma three_exact : exact_detections rig_pts three_rig three_ins.
Proof.
  constructor.
  - cbn. repeat constructor; cbn; intuition congruence.
  - intros i Hi. apply in_map_iff in Hi as ((c, f) & <- & _). cbn [i_ids i_pts]. split; [|split; cbn; lia]. repeat constructor; cbn; intuition lia.
  - intros c f b k m S. apply three_sighted in S as (_ & -> & n & q & -> & Hq & ->). assert (V := five_flat n q Hq). exists q. split; [split; [lia|rewrite Nat2Z.id; auto]|]. rewrite at_board3. split.
    + cbn. rewrite V. assert (T := tz_pos f). lra.
    + apply shot3_image. auto.
Qed.
Lemma three_rigid : rigid_rig three_rig.
Proof.
  split; [left; reflexivity|]. split; [|split]; intros; [apply turn_rot|apply rot_id|apply rot_id].
Qed.
Lemma three_known : Forall (known 3 1) three_ins.
Proof. repeat constructor; cbn; lia. Qed.
(** upside down is no small angle *)
Lemma upside_down_plain P : fst P = M3 (-1) 0 0 0 (-1) 0 0 0 1 -> plain (Proj2RT log0 P).
Proof.
  intros E. right. unfold Proj2RT. cbn [fst]. rewrite E. assert (L := log0_ok (M3 (-1) 0 0 0 (-1) 0 0 0 1)). specialize (L (turn_rot 2)).
  set (v := log0 _) in *. destruct (Rlt_dec dbl_eps (vdot v v)) as [H|N]; [exact H|exfalso]. apply Rnot_lt_le in N.
  unfold exp_rot in L. destruct (Req_EM_T (vnorm v) 0) as [Z|Z].
  - apply (f_equal m00) in L. cbn in L. lra.
  - assert (S1 := f_equal m00 L). assert (S2 := f_equal m11 L). assert (S3 := f_equal m22 L). cbn [m00 m11 m22 vscale vx vy vz] in S1, S2, S3.
    assert (V : vnorm v * vnorm v = vdot v v) by (unfold vnorm; apply sqrt_sqrt; unfold vdot; nra).
    assert (U : (/ vnorm v * vx v) * (/ vnorm v * vx v) + (/ vnorm v * vy v) * (/ vnorm v * vy v) + (/ vnorm v * vz v) * (/ vnorm v * vz v) = 1).
    { replace ((/ vnorm v * vx v) * (/ vnorm v * vx v) + (/ vnorm v * vy v) * (/ vnorm v * vy v) + (/ vnorm v * vz v) * (/ vnorm v * vz v)) with (vdot v v / (vnorm v * vnorm v)) by (unfold vdot; field; auto).
      rewrite V. field. intros Q. apply Z. rewrite Q in V. nra. }
    assert (C : cos (vnorm v) = -1) by nra.
    assert (0 <= vnorm v) by (unfold vnorm; apply sqrt_pos).
    assert (B : vnorm v < 1). { assert (dbl_eps < 1) by (unfold dbl_eps; lra). nra. }
    assert (G : 0 < cos (vnorm v)) by (apply cos_gt_0; assert (P2 := PI2_1); lra). lra.
Qed.
Lemma three_angles : no_tiny_angles log0 three_rig.
Proof.
  assert (Z : forall P, fst P = mid -> plain (Proj2RT log0 P)).
  { intros P E. left. unfold Proj2RT. cbn [fst]. rewrite E. unfold log0. destruct (excluded_middle_informative (mid = mid)) as [_|N]; [|congruence]. unfold vdot, vzero. cbn. ring. }
  assert (T : forall P s, s = 1 \/ s = -1 -> fst P = M3 s 0 0 0 s 0 0 0 1 -> plain (Proj2RT log0 P)).
  { intros P s [-> | ->] E; [apply Z|apply upside_down_plain]; auto. }
  assert (S : forall c, sg c = 1 \/ sg c = -1) by (intros c; unfold sg; destruct (Z.eqb c 2); auto).
  split; [|split].
  - intros c f b. rewrite at_board3. apply (T _ (sg c) (S c)). reflexivity.
  - intros c d. apply (T _ (sg c * sg d)); [destruct (S c) as [-> | ->], (S d) as [-> | ->]; [left|right|right|left]; ring|].
    cbn [three_rig rg_cam]. unfold pmul, pinv. cbn [fst snd]. rewrite rot_minv by apply turn_rot. unfold turn, mm, mtr. cbn. f_equal; ring.
  - intros b d. apply Z. cbn [three_rig rg_board]. unfold pmul, pinv, pid. cbn [fst snd]. rewrite rot_minv by apply rot_id. unfold mm, mtr, mid. cbn. f_equal; ring.
Qed.
Lemma three_In c f : In (c, f) all3 -> In (mkIns c f 0%Z (shot3 c f) rig_ids rig_path) three_ins.
Proof. intros H; apply in_map_iff; exists (c, f); auto. Qed.
Lemma three_all c f : (0 <= c < 3)%Z -> (0 <= f < 2)%Z -> In (c, f) all3.
Proof.
  intros C F. assert (D : (c = 0 \/ c = 1 \/ c = 2)%Z) by lia. assert (G : (f = 0 \/ f = 1)%Z) by lia. unfold all3.
  destruct D as [-> | [-> | ->]], G as [-> | ->]; cbn; auto 10.
Qed.
Lemma three_range c f : In (c, f) all3 -> (0 <= c < 3)%Z /\ (0 <= f < 2)%Z.
Proof. cbn. intros H. repeat destruct H as [H|H]; try (injection H as <- <-; lia). destruct H. Qed.
Lemma three_shares c d f : (0 <= c < 3)%Z -> (0 <= d < 3)%Z -> (0 <= f < 2)%Z -> shares_in three_ins c d f.
Proof.
  intros C D F. exists (mkIns c f 0%Z (shot3 c f) rig_ids rig_path), (mkIns d f 0%Z (shot3 d f) rig_ids rig_path).
  split; [apply three_In, three_all; auto|]. split; [apply three_In, three_all; auto|]. cbn. do 4 (split; [auto|]). apply rt_refl.
Qed.
Lemma three_connected : connected_rig three_ins.
Proof.
  split; [cbn; congruence|]. intros i j Hi Hj. apply in_map_iff in Hi as ((c, f) & <- & Hi). apply in_map_iff in Hj as ((d, g) & <- & Hj). cbn [i_cam fst snd]. apply rt_step.
  apply three_range in Hi as (H1 & H2). apply three_range in Hj as (H3 & H4). destruct (three_shares c d f H1 H3 H2) as (i & j & A & B & C & D & E & F & G). exists i, j. repeat (split; [congruence|]). exact G.
Qed.
Lemma three_direct : shares_with_first three_ins.
Proof.
  intros ref c (i & Hi & <-) _ (j & Hj & <-) _ _. apply in_map_iff in Hi as ((a, f) & <- & Hi). apply in_map_iff in Hj as ((d, g) & <- & Hj). cbn [i_cam fst snd].
  apply three_range in Hi as (H1 & _). apply three_range in Hj as (H3 & _). exists 0%Z, 1%Z. split; [lia|]. split; apply three_shares; auto; lia.
Qed.
(** turned back, the camera sees what a camera of [two_rig] sees *)
Lemma image_meets3 c f P q : vz q = 0 -> 0 < vz (pact P q) -> image 0 (I9 1 1 0 0 0 0 0 0 0) P q = Some (sg c * ((vx q + tx c) / tz f), sg c * (vy q / tz f)) -> meets c f (pmul (turn c, vzero) P) q.
Proof.
  intros V Z E. assert (T := tz_pos f). assert (S := sg_sq c). unfold meets. rewrite pact_mul. unfold image in E. destruct (Req_EM_T (vz (pact P q)) 0); [lra|].
  set (p := pact P q) in *. set (x := vx q) in *. set (y := vy q) in *. replace (pact (turn c, vzero) p) with (V3 (sg c * vx p) (sg c * vy p) (vz p)) by (apply vec3_eq; cbn; ring).
  cbn [vx vy vz]. cbn in E. injection E as E1 E2. ring_simplify in E1. ring_simplify in E2. split; [auto|].
  assert (X : vx p = (sg c * ((x + tx c) / tz f)) * vz p). { replace (vx p) with ((vx p / vz p) * vz p) by (field; auto). rewrite E1. field. lra. }
  assert (Y : vy p = (sg c * (y / tz f)) * vz p). { replace (vy p) with ((vy p / vz p) * vz p) by (field; auto). rewrite E2. field. lra. }
  split.
  - rewrite X. replace (tz f * (sg c * (sg c * ((x + tx c) / tz f) * vz p))) with ((sg c * sg c) * ((x + tx c) * vz p)) by (field; lra). rewrite S. ring.
  - rewrite Y. replace (tz f * (sg c * (sg c * (y / tz f) * vz p))) with ((sg c * sg c) * (y * vz p)) by (field; lra). rewrite S. ring.
Qed.
Lemma three_general : general_position rig_pts three_rig three_ins.
Proof.
  intros c f l L N S P RP H. rewrite at_world3.
  set (u := map (fun n => (0%Z, Z.of_nat n)) (seq 0 5)).
  assert (IL : incl l u).
  { intros (b, k) Hb. destruct (S b k Hb) as (m & Sm). apply three_sighted in Sm as (_ & -> & n & q & -> & Hq & _). apply in_map_iff. exists n. split; [auto|]. apply in_seq.
    assert (n < length five_pts)%nat by (apply nth_error_Some; congruence). cbn in *. lia. }
  assert (Hcf : In (c, f) all3).
  { destruct l as [|(b, k) l]; [discriminate L|]. destruct (S b k (or_introl eq_refl)) as (m & Sm). apply three_sighted in Sm. tauto. }
  assert (Dec : forall a b : Z * Z, {a = b} + {a <> b}) by (intros (a, b) (a', b'); destruct (Z.eq_dec a a'), (Z.eq_dec b b'); [left; congruence|right; congruence|right; congruence|right; congruence]).
  destruct (one_missing Dec u l) as (mm & Hmm & Miss); [repeat constructor; cbn; intuition congruence|auto|auto|cbn; lia|].
  apply in_map_iff in Hmm as (m & <- & _).
  assert (Me : forall n q, nth_error five_pts n = Some q -> n <> m -> meets c f (pmul (turn c, vzero) P) q).
  { intros n q Hq Nm. assert (Ln : (n < 5)%nat) by (assert (n < length five_pts)%nat by (apply nth_error_Some; congruence); auto).
    assert (Hl : In (0%Z, Z.of_nat n) l) by (apply Miss; [apply in_map_iff; exists n; split; [auto|apply in_seq; lia]|intros E; apply Nm; injection E; lia]).
    assert (V := five_flat n q Hq). destruct (H 0%Z (Z.of_nat n) q Hl) as (Z0 & E); [split; [lia|rewrite Nat2Z.id; auto]|]. cbn [three_rig rg_board rg_model rg_intr flat Z.eqb] in Z0, E.
    rewrite pact_id in Z0, E. apply image_meets3; auto. rewrite E. fold three_rig. rewrite at_world3. apply shot3_image; auto. }
  assert (RP' : rigid (pmul (turn c, vzero) P)) by (apply rigid_mul; [apply turn_rot|auto]).
  assert (Q : pmul (turn c, vzero) P = (mid, V3 (tx c) 0 (tz f))).
  { destruct (three_range c f Hcf) as (C & F). assert (D : (c = 0 \/ c = 1 \/ c = 2)%Z) by lia. assert (G : (f = 0 \/ f = 1)%Z) by lia.
    destruct D as [-> | [-> | ->]].
    - apply (rig_solved 0 f _ m); auto. destruct G as [-> | ->]; cbn; auto.
    - apply (rig_solved 1 f _ m); auto. destruct G as [-> | ->]; cbn; auto 6.
    - apply (rig_solved 0 f _ m); auto. destruct G as [-> | ->]; cbn; auto. }
  assert (TT : pmul (turn c, vzero) (turn c, vzero) = pid).
  { assert (S2 := sg_sq c). unfold pmul, pid, turn, GeomModel.mm, mid. cbn [fst snd]. f_equal; [cbn; f_equal; rewrite ?S2; ring|apply vec3_eq; cbn; ring]. }
  rewrite <- (pmul_id_l P), <- TT, <- pmul_assoc, Q. unfold pmul, turn, GeomModel.mm, mid. cbn [fst snd]. f_equal; [cbn; f_equal; ring|apply vec3_eq; cbn; ring].
Qed.
Lemma three_not_equal : fst (rg_cam three_rig 0) <> fst (rg_cam three_rig 2).
Proof. intros E. apply (f_equal m00) in E. cbn in E. lra. Qed.
