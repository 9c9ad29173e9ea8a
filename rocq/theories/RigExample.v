(** A rig of two cameras that see one board in two frames, without noise. *)
From Coq Require Import String List ZArith QArith Lia Reals Lra Permutation Relations ClassicalEpsilon.
From Verif Require Import SMap DataModel DataSpec DetectModel RansacModel RansacSpec GeomModel GeomSpec GeomProofs GeomLog GeomMedian PropGeom CameraModel ResidualModel ResidualSpec ResidualProofs RigSpec.
Import ListNotations.
Close Scope Q_scope.
Close Scope string_scope.
Open Scope R_scope.

(** ** OpenCV without noise exists *)
Definition intr_of (K : kmat) (D : list R) : intr := match D with [d0; d1; d2; d3; d4] => I9 (k_fx K) (k_fy K) (k_u0 K) (k_v0 K) d0 d1 d2 d3 d4 | _ => I9 0 0 0 0 0 0 0 0 0 end.
Lemma intr_of_five i : intr_of (matrix_of i) (five i) = i.
Proof. destruct i; reflexivity. Qed.
Definition ideal_env (lr : mat3 -> vec3) : rs_env par6 vec3 :=
  mkRS (fun K D scene img _ => Proj2RT lr (epsilon (inhabits pid) (fun P => rigid P /\ fits (intr_of K D) P scene img)))
       (fun _ _ _ _ P => P)
       (fun K D P q => match image 0 (intr_of K D) (matrix P) q with Some m => m | None => (0, 0) end)
       (fun _ _ m => m) (fun _ l => l) (vzero, vzero).
Lemma ideal_pnp lr : exact_pnp lr (ideal_env lr).
Proof.
  constructor.
  - intros i P q m E. cbn [ideal_env rs_project]. rewrite intr_of_five, E. auto.
  - intros i P scene img before _ RP F U. cbn [ideal_env rs_p3p]. rewrite intr_of_five. f_equal.
    destruct (epsilon_spec (inhabits pid) (fun P => rigid P /\ fits i P scene img) (ex_intro _ P (conj RP F))) as (A & B). apply U; auto.
  - intros. reflexivity.
  - intros k l. apply Permutation_refl.
Qed.
(** a logarithm that is 0 at the identity *)
Definition log0 (A : mat3) : vec3 := if excluded_middle_informative (A = mid) then vzero else log_quat A.
Lemma log0_ok : log_ok log0.
Proof.
  intros A RA. unfold log0. destruct (excluded_middle_informative (A = mid)) as [->|_]; [|apply log_quat_ok; auto].
  unfold exp_rot. destruct (Req_EM_T (vnorm vzero) 0) as [_|N]; [auto|]. exfalso. apply N. unfold vnorm, vdot, vzero. cbn. replace (0 * 0 + 0 * 0 + 0 * 0) with 0 by ring. apply sqrt_0.
Qed.

(** ** The rig *)
Definition five_pts : list vec3 := [V3 0 0 0; V3 1 0 0; V3 0 1 0; V3 2 1 0; V3 1 2 0].
Definition rig_pts (b : Z) : list vec3 := five_pts.
Definition tx (c : Z) : R := if Z.eqb c 1 then 1 else 0.
Definition tz (f : Z) : R := if Z.eqb f 1 then 2 else 1.
Definition two_rig : rig :=
  mkRig (fun _ => 0%Z) (fun _ => I9 1 1 0 0 0 0 0 0 0) (fun c => (mid, V3 (tx c) 0 0)) (fun f => (mid, V3 0 0 (tz f))) (fun _ => pid).
Definition shot (c f : Z) : list pt2 := map (fun q => ((vx q + tx c) / tz f, vy q / tz f)) five_pts.
(** all images are in this file *)
Definition rig_path : string := "a.png"%string.
Definition rig_ids : list Z := [0; 1; 2; 3; 4]%Z.
Definition rig_ins : list (insertion pt2) :=
  map (fun cf : Z * Z => mkIns (fst cf) (snd cf) 0%Z (shot (fst cf) (snd cf)) rig_ids rig_path) [(0, 0); (1, 0); (0, 1); (1, 1)]%Z.

Lemma tz_pos f : 0 < tz f.
Proof. unfold tz. destruct (Z.eqb f 1); lra. Qed.
Lemma at_world c f : world_at two_rig c f = (mid, V3 (tx c) 0 (tz f)).
Proof.
  unfold world_at, two_rig, pmul. cbn [rg_cam rg_frame fst snd]. f_equal; [unfold mm, mid; cbn; f_equal; ring|]. apply vec3_eq; cbn; ring.
Qed.
Lemma at_board c f b : board_at two_rig c f b = (mid, V3 (tx c) 0 (tz f)).
Proof. unfold board_at. rewrite at_world. cbn [two_rig rg_board]. apply pmul_id_r. Qed.
Lemma shot_image c f q : vz q = 0 -> image 0 (I9 1 1 0 0 0 0 0 0 0) (mid, V3 (tx c) 0 (tz f)) q = Some ((vx q + tx c) / tz f, vy q / tz f).
Proof.
  intros E. assert (T := tz_pos f). unfold image. replace (pact (mid, V3 (tx c) 0 (tz f)) q) with (V3 (vx q + tx c) (vy q) (tz f)) by (apply vec3_eq; cbn; rewrite ?E; ring).
  cbn [vx vy vz]. destruct (Req_EM_T (tz f) 0); [lra|]. cbn. apply some_pair; cbn [fst snd]; field; lra.
Qed.
Lemma five_flat k q : nth_error five_pts k = Some q -> vz q = 0.
Proof. destruct k as [|[|[|[|[|k]]]]]; cbn; intros H; try (injection H as <-; reflexivity). destruct k; discriminate H. Qed.
Lemma rig_sighted c f b k m : sighted rig_ins c f b k m <-> In (c, f) [(0, 0); (1, 0); (0, 1); (1, 1)]%Z /\ b = 0%Z /\ exists n q, k = Z.of_nat n /\ nth_error five_pts n = Some q /\ m = ((vx q + tx c) / tz f, vy q / tz f).
Proof.
  split.
  - intros (i & j & Hi & <- & <- & <- & Hk & Hm). apply in_map_iff in Hi as ((c', f') & <- & Hi). cbn [fst snd i_cam i_frame i_board i_ids i_pts] in *. split; [auto|]. split; [auto|].
    unfold shot in Hm. rewrite nth_error_map in Hm. destruct (nth_error five_pts j) as [q|] eqn:Eq; [|discriminate Hm]. injection Hm as <-. exists j, q. split; [|auto].
    destruct j as [|[|[|[|[|j]]]]]; cbn in Hk; try (injection Hk as <-; reflexivity). destruct j; discriminate Hk.
  - intros (Hi & -> & n & q & -> & Hq & ->). eexists. exists n. split; [apply in_map_iff; exists (c, f); split; [reflexivity|auto]|]. cbn [fst snd i_cam i_frame i_board i_ids i_pts].
    do 3 (split; [auto|]). split; [|unfold shot; rewrite nth_error_map, Hq; auto]. destruct n as [|[|[|[|[|n]]]]]; cbn in *; auto. destruct n; discriminate Hq.
Qed.
Lemma rig_exact : exact_detections rig_pts two_rig rig_ins.
Proof.
  constructor.
  - cbn. repeat constructor; cbn; intuition congruence.
  - intros i Hi. apply in_map_iff in Hi as ((c, f) & <- & _). cbn [i_ids i_pts]. split; [|split; cbn; lia]. repeat constructor; cbn; intuition lia.
  - intros c f b k m S. apply rig_sighted in S as (_ & -> & n & q & -> & Hq & ->). assert (V := five_flat n q Hq). exists q. split; [split; [lia|rewrite Nat2Z.id; auto]|]. rewrite at_board. split.
    + cbn. rewrite V. assert (T := tz_pos f). lra.
    + apply shot_image. auto.
Qed.
Lemma rig_rigid : rigid_rig two_rig.
Proof.
  assert (R : rotation mid) by apply rot_id.
  split; [left; reflexivity|]. split; [|split]; intros; exact R.
Qed.
Lemma rig_known : Forall (known 2 1) rig_ins.
Proof. repeat constructor; cbn; lia. Qed.
Lemma rig_angles : no_tiny_angles log0 two_rig.
Proof.
  assert (Z : forall P, fst P = mid -> plain (Proj2RT log0 P)).
  { intros P E. left. unfold Proj2RT. cbn [fst]. rewrite E. unfold log0. destruct (excluded_middle_informative (mid = mid)) as [_|N]; [|congruence]. unfold vdot, vzero. cbn. ring. }
  assert (I : minv mid = mid) by (rewrite rot_minv by apply rot_id; reflexivity).
  assert (M : mm mid mid = mid) by (unfold mm, mid; cbn; f_equal; ring).
  split; [|split]; intros; apply Z; unfold board_at, world_at, pmul, pinv, two_rig, pid; cbn [fst snd rg_cam rg_frame rg_board]; rewrite ?I, ?M; auto.
Qed.
Lemma rig_connected : connected_rig rig_ins.
Proof.
  assert (IN : forall c f, In (c, f) [(0, 0); (1, 0); (0, 1); (1, 1)]%Z -> In (mkIns c f 0%Z (shot c f) rig_ids rig_path) rig_ins) by (intros c f H; apply in_map_iff; exists (c, f); auto).
  split; [cbn; congruence|]. intros i j Hi Hj. apply in_map_iff in Hi as ((c, f) & <- & Hi). apply in_map_iff in Hj as ((d, g) & <- & Hj). cbn [i_cam fst snd]. apply rt_step.
  assert (Hd : In (d, f) [(0, 0); (1, 0); (0, 1); (1, 1)]%Z).
  { cbn in Hi, Hj |- *. destruct Hi as [Q|[Q|[Q|[Q|[]]]]]; injection Q as <- <-; destruct Hj as [Q|[Q|[Q|[Q|[]]]]]; injection Q as <- <-; auto. }
  exists (mkIns c f 0%Z (shot c f) rig_ids rig_path), (mkIns d f 0%Z (shot d f) rig_ids rig_path). split; [auto|]. split; [auto|]. cbn. do 3 (split; [auto|]). apply rt_refl.
Qed.

(** *** Four of the corners determine the pose *)
Lemma one_missing {A} (dec : forall a b : A, {a = b} + {a <> b}) (u l : list A) : NoDup u -> NoDup l -> incl l u -> length u = S (length l) -> exists m, In m u /\ forall x, In x u -> x <> m -> In x l.
Proof.
  intros NU NL I L. destruct (excluded_middle_informative (exists m, In m u /\ ~ In m l)) as [(m & Hm & Nm)|N].
  - exists m. split; [auto|]. intros x Hx Nx. destruct (in_dec dec x l) as [|Q]; [auto|exfalso].
    assert (LE : (length (m :: x :: l) <= length u)%nat).
    { apply NoDup_incl_length; [|intros y [<-|[<-|Hy]]; auto]. constructor; [intros [E|H]; [congruence|auto]|]. constructor; auto. }
    cbn in LE. lia.
  - exfalso. assert (LE : (length u <= length l)%nat) by (apply NoDup_incl_length; [auto|]; intros x Hx; destruct (in_dec dec x l); [auto|exfalso; apply N; eauto]). lia.
Qed.
(** from the image of (x, y, 0): linear equations *)
Definition meets (c f : Z) (P : pose) (q : vec3) : Prop :=
  0 < vz (pact P q) /\ tz f * vx (pact P q) = (vx q + tx c) * vz (pact P q) /\ tz f * vy (pact P q) = vy q * vz (pact P q).
Lemma image_meets c f P q : vz q = 0 -> 0 < vz (pact P q) -> image 0 (I9 1 1 0 0 0 0 0 0 0) P q = Some ((vx q + tx c) / tz f, vy q / tz f) -> meets c f P q.
Proof.
  intros V Z E. split; [auto|]. assert (T := tz_pos f). unfold image in E. destruct (Req_EM_T (vz (pact P q)) 0); [lra|].
  set (p := pact P q) in *. set (x := vx q) in *. set (y := vy q) in *. cbn in E. injection E as E1 E2. ring_simplify in E1. ring_simplify in E2. split.
  - replace (vx p) with ((vx p / vz p) * vz p) by (field; auto). rewrite E1. field. lra.
  - replace (vy p) with ((vy p / vz p) * vz p) by (field; auto). rewrite E2. field. lra.
Qed.
Lemma scaled_identity c f P s : rigid P -> 0 < s -> m00 (fst P) = s -> m11 (fst P) = s -> m01 (fst P) = 0 -> m10 (fst P) = 0 -> m20 (fst P) = 0 -> m21 (fst P) = 0 ->
  snd P = V3 (s * tx c) 0 (s * tz f) -> P = (mid, V3 (tx c) 0 (tz f)).
Proof.
  destruct P as (A, t). destruct A as [b00 b01 b02 b10 b11 b12 b20 b21 b22]. cbn [fst snd m00 m01 m02 m10 m11 m12 m20 m21 m22]. intros (O & D) Sp -> -> -> -> -> -> ->.
  unfold mm, mtr, mid in O. cbn in O. unfold det in D. cbn in D. injection O as O1 O2 O3 _ O4 O5 _ _ O6. 
  assert (b22 * b22 = 1) by lra. assert (b02 * b22 = 0) by lra. assert (b12 * b22 = 0) by lra. assert (B0 : b02 = 0) by nra. assert (B1 : b12 = 0) by nra. subst b02 b12.
  assert (S1 : s = 1) by nra. subst s. assert (b22 = 1) by lra. subst b22. f_equal. f_equal; ring.
Qed.
Ltac corners H := repeat match type of H with forall n q, _ => fail | _ => idtac end.
Lemma rig_solved c f P m : In (c, f) [(0, 0); (1, 0); (0, 1); (1, 1)]%Z -> rigid P -> (forall n q, nth_error five_pts n = Some q -> n <> m -> meets c f P q) -> P = (mid, V3 (tx c) 0 (tz f)).
Proof.
  intros Hcf RP H.
  assert (Lin : exists s, 0 < s /\ m00 (fst P) = s /\ m11 (fst P) = s /\ m01 (fst P) = 0 /\ m10 (fst P) = 0 /\ m20 (fst P) = 0 /\ m21 (fst P) = 0 /\ vx (snd P) = s * tx c /\ vy (snd P) = 0 /\ vz (snd P) = s * tz f).
  { exists (m00 (fst P)). assert (H0 := H 0%nat _ eq_refl). assert (H1 := H 1%nat _ eq_refl). assert (H2 := H 2%nat _ eq_refl). assert (H3 := H 3%nat _ eq_refl). assert (H4 := H 4%nat _ eq_refl). clear H.
    unfold meets in *. destruct P as (A, t). cbn [fst snd vx vy vz pact] in *. destruct A as [b00 b01 b02 b10 b11 b12 b20 b21 b22]. destruct t as [t0 t1 t2]. cbn [vx vy vz m00 m01 m02 m10 m11 m12 m20 m21 m22] in *. clear RP.
    destruct Hcf as [Q|[Q|[Q|[Q|[]]]]]; injection Q as <- <-; cbn [tx tz Z.eqb Pos.eqb] in *;
      (destruct m as [|[|[|[|m]]]];
       [clear H0; specialize (H1 ltac:(lia)); specialize (H2 ltac:(lia)); specialize (H3 ltac:(lia)); specialize (H4 ltac:(lia))
       |clear H1; specialize (H0 ltac:(lia)); specialize (H2 ltac:(lia)); specialize (H3 ltac:(lia)); specialize (H4 ltac:(lia))
       |clear H2; specialize (H0 ltac:(lia)); specialize (H1 ltac:(lia)); specialize (H3 ltac:(lia)); specialize (H4 ltac:(lia))
       |clear H3; specialize (H0 ltac:(lia)); specialize (H1 ltac:(lia)); specialize (H2 ltac:(lia)); specialize (H4 ltac:(lia))
       |clear H4; specialize (H0 ltac:(lia)); specialize (H1 ltac:(lia)); specialize (H2 ltac:(lia)); specialize (H3 ltac:(lia))]);
      repeat match goal with H : _ /\ _ |- _ => destruct H end; repeat (split; [lra|]); lra. }
  destruct Lin as (s & Sp & E0 & E1 & E2 & E3 & E4 & E5 & E6 & E7 & E8). apply (scaled_identity c f P s); auto. apply vec3_eq; auto.
Qed.
Lemma rig_general : general_position rig_pts two_rig rig_ins.
Proof.
  intros c f l L N S P RP H. rewrite at_world.
  set (u := map (fun n => (0%Z, Z.of_nat n)) (seq 0 5)).
  assert (IL : incl l u).
  { intros (b, k) Hb. destruct (S b k Hb) as (m & Sm). apply rig_sighted in Sm as (_ & -> & n & q & -> & Hq & _). apply in_map_iff. exists n. split; [auto|]. apply in_seq.
    assert (n < length five_pts)%nat by (apply nth_error_Some; congruence). cbn in *. lia. }
  assert (Hcf : In (c, f) [(0, 0); (1, 0); (0, 1); (1, 1)]%Z).
  { destruct l as [|(b, k) l]; [discriminate L|]. destruct (S b k (or_introl eq_refl)) as (m & Sm). apply rig_sighted in Sm. tauto. }
  assert (Dec : forall a b : Z * Z, {a = b} + {a <> b}) by (intros (a, b) (a', b'); destruct (Z.eq_dec a a'), (Z.eq_dec b b'); [left; congruence|right; congruence|right; congruence|right; congruence]).
  destruct (one_missing Dec u l) as (mm & Hmm & Miss); [repeat constructor; cbn; intuition congruence|auto|auto|cbn; lia|].
  apply in_map_iff in Hmm as (m & <- & _). apply (rig_solved c f P m); auto. intros n q Hq Nm.
  assert (Ln : (n < 5)%nat) by (assert (n < length five_pts)%nat by (apply nth_error_Some; congruence); auto).
  assert (Hl : In (0%Z, Z.of_nat n) l) by (apply Miss; [apply in_map_iff; exists n; split; [auto|apply in_seq; lia]|intros E; apply Nm; injection E; lia]).
  assert (V := five_flat n q Hq). destruct (H 0%Z (Z.of_nat n) q Hl) as (Z0 & E); [split; [lia|rewrite Nat2Z.id; auto]|]. cbn [two_rig rg_board rg_model rg_intr flat Z.eqb] in Z0, E.
  assert (Q : pact pid q = q) by (destruct q; apply vec3_eq; cbn; ring). rewrite Q in Z0, E. apply image_meets; auto. rewrite E. fold two_rig. rewrite at_world. apply shot_image; auto.
Qed.
