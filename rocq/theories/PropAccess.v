(** C66: the pose that was set is the pose that is read. *)
From Coq Require Import List ZArith Lia Reals Lra Classical_Prop.
From Flocq Require Import Core Relative.
From Verif Require Import SMap DetectModel GeomModel GeomSpec GeomProofs GeomQuat GeomMedian GeomLog AccessModel AccessSpec.
Import ListNotations.
Close Scope R_scope.
Open Scope nat_scope.

(** ** Rotation vectors below half a turn are determined by their matrix *)
Section Angles.
Open Scope R_scope.
Lemma vnorm_pos r : 0 <= vnorm r. Proof. apply sqrt_pos. Qed.
Lemma vnorm_0 r : vnorm r = 0 -> r = vzero.
Proof.
  intros H. assert (N := vnorm_sq r). rewrite H in N. unfold vdot in N. destruct r as [x y z]. cbn in N.
  assert (x = 0 /\ y = 0 /\ z = 0) as (-> & -> & ->) by nra. reflexivity.
Qed.
Lemma vnorm_zero : vnorm vzero = 0.
Proof. unfold vnorm. replace (vdot vzero vzero) with 0 by (unfold vdot; cbn; ring). apply sqrt_0. Qed.
Lemma exp_trace r : m00 (exp_rot r) + m11 (exp_rot r) + m22 (exp_rot r) = 1 + 2 * cos (vnorm r).
Proof.
  unfold exp_rot. destruct (Req_EM_T (vnorm r) 0) as [E|E]; [rewrite E, cos_0; cbn; ring|].
  assert (N := vnorm_sq r). set (n := vnorm r) in *. cbn [m00 m11 m22 vx vy vz vscale].
  assert (U : / n * vx r * (/ n * vx r) + / n * vy r * (/ n * vy r) + / n * vz r * (/ n * vz r) = 1).
  { unfold vdot in N. replace (/ n * vx r * (/ n * vx r) + / n * vy r * (/ n * vy r) + / n * vz r * (/ n * vz r)) with ((vx r * vx r + vy r * vy r + vz r * vz r) / (n * n)) by (field; auto). rewrite <- N. field. auto. }
  set (a := / n * vx r) in *. set (b := / n * vy r) in *. set (c := / n * vz r) in *. transitivity (3 * cos n + (1 - cos n) * (a * a + b * b + c * c)); [ring|rewrite U; ring].
Qed.
Lemma exp_skew r : vnorm r <> 0 -> let A := exp_rot r in let k := 2 * sin (vnorm r) / vnorm r in
  m21 A - m12 A = k * vx r /\ m02 A - m20 A = k * vy r /\ m10 A - m01 A = k * vz r.
Proof.
  intros E. unfold exp_rot. destruct (Req_EM_T (vnorm r) 0) as [E'|_]; [contradiction|]. cbn [m21 m12 m02 m20 m10 m01 vx vy vz vscale].
  split; [|split]; field; auto.
Qed.
Lemma exp_rot_inj r s : vnorm r < PI -> vnorm s <= PI -> exp_rot r = exp_rot s -> r = s.
Proof.
  intros Hr Hs E. assert (Pr := vnorm_pos r). assert (Ps := vnorm_pos s).
  assert (T : cos (vnorm r) = cos (vnorm s)). { assert (A := exp_trace r). assert (B := exp_trace s). rewrite E in A. lra. }
  assert (N : vnorm r = vnorm s).
  { rewrite <- (acos_cos (vnorm r)) by lra. rewrite T. apply acos_cos. lra. }
  destruct (Req_EM_T (vnorm r) 0) as [Z|Z].
  - rewrite (vnorm_0 r Z). symmetry. apply vnorm_0. congruence.
  - assert (Zs : vnorm s <> 0) by congruence. destruct (exp_skew r Z) as (A1 & A2 & A3), (exp_skew s Zs) as (B1 & B2 & B3).
    rewrite E in A1, A2, A3. rewrite <- N in B1, B2, B3. rewrite A1 in B1. rewrite A2 in B2. rewrite A3 in B3.
    assert (S : 0 < sin (vnorm r)) by (apply sin_gt_0; lra).
    assert (K : 2 * sin (vnorm r) / vnorm r <> 0). { unfold Rdiv. apply Rmult_integral_contrapositive. split; [lra|]. apply Rinv_neq_0_compat. auto. }
    apply vec3_eq; eapply Rmult_eq_reg_l; eauto.
Qed.
Lemma log_back lr r : log_ok lr -> log_short lr -> vnorm r < PI -> lr (exp_rot r) = r.
Proof.
  intros LO LS H. symmetry. assert (R := exp_rot_rotation r). apply exp_rot_inj; [auto|apply LS; auto|]. rewrite LO; auto.
Qed.
(** such a logarithm exists *)
Definition log_half (A : mat3) : vec3 :=
  match quat_of_rot A with Some q => log_of_quat (if Rlt_dec (qw q) 0 then qneg q else q) | None => vzero end.
Lemma unit_neg q : unit_quat q -> unit_quat (qneg q).
Proof. unfold unit_quat, qneg. destruct q; cbn. intros H. nra. Qed.
Lemma norm_log q : unit_quat q -> 0 <= qw q -> vnorm (log_of_quat q) <= PI.
Proof.
  intros U W. unfold unit_quat in U. destruct q as [x y z w]; cbn in U, W. unfold log_of_quat; cbn [qx qy qz qw].
  assert (W1 : 0 <= 1 - w * w) by nra. assert (N := sqrt_sqrt _ W1). set (n := sqrt (1 - w * w)) in *.
  assert (P := PI_RGT_0). destruct (Req_EM_T n 0) as [E|E]; [rewrite vnorm_zero; lra|].
  assert (Ba := acos_bound w). set (a := acos w) in *.
  assert (V : vnorm (vscale (2 * a / n) (V3 x y z)) = 2 * a).
  { unfold vnorm, vdot; cbn.
    replace (2 * a / n * x * (2 * a / n * x) + 2 * a / n * y * (2 * a / n * y) + 2 * a / n * z * (2 * a / n * z))
      with ((2 * a) * (2 * a) * ((x * x + y * y + z * z) / (n * n))) by (field; auto).
    replace (x * x + y * y + z * z) with (n * n) by lra.
    replace (n * n / (n * n)) with 1 by (field; auto). rewrite Rmult_1_r. apply sqrt_square. lra. }
  rewrite V. assert (H : a <= PI / 2); [|lra].
  destruct (Rle_dec a (PI / 2)) as [|L]; auto. exfalso. assert (C : cos a = w) by (apply cos_acos; nra). assert (cos a < 0) by (apply cos_lt_0; lra). lra.
Qed.
Lemma log_half_ok : log_ok log_half /\ log_short log_half.
Proof.
  split; intros A H; unfold log_half; destruct (quat_of_rot_main A H) as (q & -> & U & R); destruct (Rlt_dec (qw q) 0) as [L|L].
  - rewrite exp_log_of_quat; [|apply unit_neg; auto]. rewrite rot_of_quat_neg. auto.
  - rewrite exp_log_of_quat; auto.
  - apply norm_log; [apply unit_neg; auto|]. destruct q; cbn in *. lra.
  - apply norm_log; auto. lra.
Qed.
End Angles.

(** ** Histories *)
Lemma V3_eta v : V3 (vx v) (vy v) (vz v) = v. Proof. destruct v; reflexivity. Qed.
Lemma vec_back r t : pose_vec (array_of r t) = (r, t).
Proof. unfold pose_vec, array_of. cbn. rewrite !V3_eta. reflexivity. Qed.
Lemma array_mat lr P : array_of_mat lr P = array_of (lr (fst P)) (snd P). Proof. reflexivity. Qed.
Lemma tells_array {K} (ask : call K -> answer) k r t : (forall c, about k c -> ~ sets k c -> ask c = reply c (array_of r t)) -> tells ask k r t.
Proof.
  intros H. assert (X : forall c, c = GetVec k \/ c = GetMat k \/ c = GetRot k \/ c = GetTrans k -> ask c = reply c (array_of r t)).
  { intros c Q. apply H; [right; auto|]. intros [(a & b & N)|(a & N)]; destruct Q as [Q|[Q|[Q|Q]]]; rewrite N in Q; discriminate Q. }
  split; [|split; [|split]]; (rewrite X by tauto; cbn [reply]; unfold pose_mat; rewrite vec_back; reflexivity).
Qed.
Definition value_of {K} (lr : mat3 -> vec3) (c : call K) : option arr6 :=
  match c with SetVec _ r t => Some (array_of r t) | SetMat _ P => Some (array_of_mat lr P) | _ => None end.
Lemma value_sets {K} lr (k : K) c : sets k c -> exists a, value_of lr c = Some a.
Proof. intros [(r & t & ->)|(P & ->)]; cbn; eauto. Qed.

Section Histories.
Variable lr : mat3 -> vec3.

Lemma table_keep d k m : ~ sets k d -> match mfind k (fst (table_step lr d m)) with Some a => a | None => A6 0 0 0 0 0 0 end = match mfind k m with Some a => a | None => A6 0 0 0 0 0 0 end.
Proof.
  intros N. destruct d as [k' r t|k' P|k'|k'|k'|k']; cbn [table_step].
  1,2: (destruct (Z.eq_dec k k') as [->|Q]; [exfalso; apply N; unfold sets; eauto|]; cbn [fst]; rewrite mfind_mset_neq; auto).
  all: unfold at_key; destruct (mfind k' m) eqn:E; cbn [fst]; auto; (destruct (Z.eq_dec k k') as [->|Q]; [rewrite mfind_mset_eq, E; auto|rewrite mfind_mset_neq; auto]).
Qed.
Lemma table_kept l : forall k m, (forall d, In d l -> ~ sets k d) ->
  match mfind k (fold_left (fun s d => fst (table_step lr d s)) l m) with Some a => a | None => A6 0 0 0 0 0 0 end = match mfind k m with Some a => a | None => A6 0 0 0 0 0 0 end.
Proof.
  induction l as [|d l IH]; intros k m H; [reflexivity|]. cbn [fold_left]. rewrite IH by (intros; apply H; right; auto). apply table_keep. apply H. left. auto.
Qed.
Lemma table_reply c k m : about k c -> ~ sets k c -> snd (table_step lr c m) = reply c (match mfind k m with Some a => a | None => A6 0 0 0 0 0 0 end).
Proof.
  intros [H|H] N; [contradiction|]. destruct H as [-> |[-> |[-> | ->]]]; cbn [table_step]; unfold at_key; destruct (mfind k m); reflexivity.
Qed.
Lemma table_last h k c a : last_set h k c -> value_of lr c = Some a -> match mfind k (table_of lr h) with Some a => a | None => A6 0 0 0 0 0 0 end = a.
Proof.
  intros (S & before & later & -> & L) V. unfold table_of. rewrite fold_left_app. cbn [fold_left]. rewrite table_kept; auto.
  destruct S as [(r & t & ->)|(P & ->)]; cbn [table_step fst] in *; rewrite mfind_mset_eq; injection V as <-; auto.
Qed.

(** The poses of the boards of an object, of the cameras of a group and of the objects in a group observation. *)
Theorem C66_table_tells_the_last_pose : forall h k,
  (forall r t, last_set h k (SetVec k r t) -> tells (table_after lr h) k r t) /\
  (forall P, log_ok lr -> rigid P -> last_set h k (SetMat k P) ->
     exists r, tells (table_after lr h) k r (snd P) /\ RVecT2Proj r (snd P) = P) /\
  (forall r t, log_ok lr -> log_short lr -> (vnorm r < PI)%R -> last_set h k (SetMat k (RVecT2Proj r t)) -> tells (table_after lr h) k r t) /\
  (never_set h k -> tells (table_after lr h) k vzero vzero /\ table_after lr h (GetMat k) = AMat pid).
Proof.
  intros h k.
  assert (X : forall r t, match mfind k (table_of lr h) with Some a => a | None => A6 0 0 0 0 0 0 end = array_of r t -> tells (table_after lr h) k r t).
  { intros r t E. apply tells_array. intros c A N. unfold table_after. rewrite (table_reply c k _ A N), E. reflexivity. }
  split; [|split; [|split]].
  - intros r t H. apply X. apply (table_last h k _ _ H). reflexivity.
  - intros P LO RP H. exists (lr (fst P)). split; [apply X; apply (table_last h k _ _ H); reflexivity|]. unfold RVecT2Proj. rewrite LO by exact RP. destruct P; reflexivity.
  - intros r t LO LS B H. apply X. rewrite (table_last h k _ _ H eq_refl). rewrite array_mat. cbn [RVecT2Proj fst snd]. rewrite log_back; auto.
  - intros N. assert (T : tells (table_after lr h) k vzero vzero) by (apply X; unfold table_of; rewrite table_kept by exact N; reflexivity).
    split; [exact T|]. destruct T as (_ & -> & _). unfold RVecT2Proj. rewrite exp_rot_0. reflexivity.
Qed.

(** Asking is enough to add an entry. *)
Theorem C66_entries_of_a_table : forall h k, In k (mkeys (table_of lr h)) <-> exists c, In c h /\ about k c.
Proof.
  intros h k. unfold table_of.
  assert (S : forall c m, In k (mkeys (fst (table_step lr c m))) <-> about k c \/ In k (mkeys m)).
  { intros c m. assert (A : forall k', (k = k' \/ In k (mkeys m)) <-> about k c \/ In k (mkeys m) -> In k (mkeys m) <-> In k (mkeys m)) by tauto. clear A.
    destruct c as [k' r t|k' P|k'|k'|k'|k']; cbn [table_step fst].
    1,2: (rewrite mset_keys_in; split; (intros [H|H]; [left|right; auto])).
    1: subst k'; left; left; eauto. 1: destruct H as [[(a & b & H)|(a & H)]|[H|[H|[H|H]]]]; try discriminate H; congruence.
    1: subst k'; left; right; eauto. 1: destruct H as [[(a & b & H)|(a & H)]|[H|[H|[H|H]]]]; try discriminate H; congruence.
    all: unfold at_key; destruct (mfind k' m) eqn:E; cbn [fst]; rewrite ?mset_keys_in;
      (split; [intros H; try (destruct H as [->|H]; [left; right; tauto|]); auto|intros [H|H]; [destruct H as [[(a0 & b & H)|(a0 & H)]|[H|[H|[H|H]]]]; try discriminate H; injection H as ->; try (left; reflexivity); apply mfind_Some_key; eauto|auto]]). }
  assert (G : forall h m, In k (mkeys (fold_left (fun s d => fst (table_step lr d s)) h m)) <-> (exists c, In c h /\ about k c) \/ In k (mkeys m)).
  { clear h. induction h as [|c h IH]; intros m; cbn [fold_left]; [split; [auto|intros [(c & [] & _)|H]; auto]|].
    rewrite IH, S. split.
    - intros [(d & H & A)|[A|H]]; [left; exists d; split; [right|]; auto|left; exists c; split; [left|]; auto|auto].
    - intros [(d & [<-|H] & A)|H]; [auto|left; eauto|auto]. }
  rewrite G. cbn. tauto.
Qed.

(** ** Poses that are members *)
Lemma slot_kept {K} (k : K) (l : list (call K)) : forall s, (forall d, In d l -> value_of lr d = None) -> fold_left (fun s d => fst (slot_step lr d s)) l s = s.
Proof.
  induction l as [|d l IH]; intros s H; [reflexivity|]. cbn [fold_left]. assert (V := H d (or_introl eq_refl)).
  destruct d; cbn in V; try discriminate V; cbn [slot_step fst]; apply IH; intros; apply H; right; auto.
Qed.
Lemma tells_slot {K} (k : K) (ask : call K -> option answer) r t :
  (forall c, about k c -> ~ sets k c -> ask c = Some (reply c (array_of r t))) -> tells_if ask k r t.
Proof. intros H. exists (fun c => reply c (array_of r t)). split; [exact H|]. apply tells_array. auto. Qed.
Lemma slot_reply {K} (c : call K) k s : about k c -> ~ sets k c -> snd (slot_step lr c s) = option_map (reply c) s.
Proof. intros [H|H] N; [contradiction|]. destruct H as [-> |[-> |[-> | ->]]]; reflexivity. Qed.

Definition obs_slot (k : bool) (s : option arr6 * option arr6) : option arr6 := if k then snd s else fst s.
Lemma obs_keep d k s : ~ sets k d -> obs_slot k (fst (obs_step lr d s)) = obs_slot k s.
Proof.
  intros N. destruct d as [k' r t|k' P|k'|k'|k'|k'], k', k; cbn; auto; exfalso; apply N; unfold sets; eauto.
Qed.
Lemma obs_kept l : forall k s, (forall d, In d l -> ~ sets k d) -> obs_slot k (fold_left (fun s d => fst (obs_step lr d s)) l s) = obs_slot k s.
Proof.
  induction l as [|d l IH]; intros k s H; [reflexivity|]. cbn [fold_left]. rewrite IH by (intros; apply H; right; auto). apply obs_keep. apply H. left. auto.
Qed.
Lemma obs_reply c k s : about k c -> ~ sets k c -> snd (obs_step lr c s) = option_map (reply c) (obs_slot k s).
Proof. intros [H|H] N; [contradiction|]. destruct k, H as [-> |[-> |[-> | ->]]]; reflexivity. Qed.
Lemma obs_last h k c a : last_set h k c -> value_of lr c = Some a -> obs_slot k (fold_left (fun s d => fst (obs_step lr d s)) h (None, None)) = Some a.
Proof.
  intros (S & before & later & -> & L) V. rewrite fold_left_app. cbn [fold_left]. rewrite obs_kept; auto.
  destruct S as [(r & t & ->)|(P & ->)]; cbn in V; injection V as <-; destruct k; reflexivity.
Qed.

(** The pose of a board in a camera. *)
Theorem C66_board_observation_tells_the_last_pose : forall h,
  (forall r t, last_set h tt (SetVec tt r t) -> tells_if (board_after lr h) tt r t) /\
  (forall P, log_ok lr -> rigid P -> last_set h tt (SetMat tt P) ->
     exists r, tells_if (board_after lr h) tt r (snd P) /\ RVecT2Proj r (snd P) = P) /\
  (never_set h tt -> forall c, about tt c -> ~ sets tt c -> board_after lr h c = None).
Proof.
  intros h.
  assert (NV : forall d : call unit, ~ sets tt d -> value_of lr d = None) by (intros [[]|[]|[]|[]|[]|[]] N; cbn; auto; exfalso; apply N; unfold sets; eauto).
  assert (LA : forall c a, last_set h tt c -> value_of lr c = Some a -> fold_left (fun s d => fst (slot_step lr d s)) h None = Some a).
  { intros c a (S & before & later & -> & L) V. rewrite fold_left_app. cbn [fold_left]. rewrite (slot_kept tt); [|intros; apply NV; auto].
    destruct S as [(r & t & ->)|(P & ->)]; cbn in V; injection V as <-; reflexivity. }
  assert (X : forall r t, fold_left (fun s d => fst (slot_step lr d s)) h None = Some (array_of r t) -> tells_if (board_after lr h) tt r t).
  { intros r t E. apply tells_slot. intros c A N. unfold board_after, board_step. rewrite (slot_reply c tt _ A N), E. reflexivity. }
  split; [|split].
  - intros r t H. apply X. apply (LA _ _ H). reflexivity.
  - intros P LO RP H. exists (lr (fst P)). split; [apply X; apply (LA _ _ H); reflexivity|]. unfold RVecT2Proj. rewrite LO by exact RP. destruct P; reflexivity.
  - intros N c A Nc. unfold board_after, board_step. rewrite (slot_reply c tt _ A Nc). rewrite (slot_kept tt) by (intros; apply NV; auto). reflexivity.
Qed.
(** The poses of an object in a camera and in its group do not disturb each other. *)
Theorem C66_object_observation_tells_the_last_pose : forall h k,
  (forall r t, last_set h k (SetVec k r t) -> tells_if (obs_after lr h) k r t) /\
  (forall P, log_ok lr -> rigid P -> last_set h k (SetMat k P) ->
     exists r, tells_if (obs_after lr h) k r (snd P) /\ RVecT2Proj r (snd P) = P) /\
  (never_set h k -> forall c, about k c -> ~ sets k c -> obs_after lr h c = None).
Proof.
  intros h k.
  assert (X : forall r t, obs_slot k (fold_left (fun s d => fst (obs_step lr d s)) h (None, None)) = Some (array_of r t) -> tells_if (obs_after lr h) k r t).
  { intros r t E. apply tells_slot. intros c A N. unfold obs_after. rewrite (obs_reply c k _ A N), E. reflexivity. }
  split; [|split].
  - intros r t H. apply X. apply (obs_last h k _ _ H). reflexivity.
  - intros P LO RP H. exists (lr (fst P)). split; [apply X; apply (obs_last h k _ _ H); reflexivity|]. unfold RVecT2Proj. rewrite LO by exact RP. destruct P; reflexivity.
  - intros N c A Nc. unfold obs_after. rewrite (obs_reply c k _ A Nc), obs_kept by exact N. destruct k; reflexivity.
Qed.

(** ** Poses as floats *)
Lemma float_id x : is_float x -> to_float x = x.
Proof. intros H. apply round_generic; [apply valid_rnd_N|exact H]. Qed.
(** Six floats make a rigid pose, which gives the same six floats back. *)
Theorem C66_float_vectors_come_back : forall a b c d e f, log_ok lr -> log_short lr ->
  (forall x, In x [a; b; c; d; e; f] -> is_float x) -> (vnorm (V3 a b c) < PI)%R ->
  exists P, vectorProj [a; b; c; d; e; f] = Some P /\ rigid P /\ ProjToVec lr P = [a; b; c; d; e; f].
Proof.
  intros a b c d e f LO LS F B. eexists. split; [reflexivity|]. split; [apply exp_rot_rotation|].
  unfold ProjToVec, Proj2RT. cbn [fst snd]. rewrite log_back by auto. cbn [map vx vy vz]. rewrite !float_id by (apply F; cbn; tauto). reflexivity.
Qed.
(** A matrix is given with a relative error of at most one part in 2^24 in each of the six numbers (numbers
    below the smallest normal float: an absolute error of at most half the smallest float). *)
Theorem C66_floats_of_a_matrix : forall P i x y,
  nth_error [vx (lr (fst P)); vy (lr (fst P)); vz (lr (fst P)); vx (snd P); vy (snd P); vz (snd P)] i = Some x ->
  nth_error (ProjToVec lr P) i = Some y ->
  length (ProjToVec lr P) = 6 /\ is_float y /\
  ((Rabs (y - x) <= / 2 ^ 24 * Rabs x)%R \/ (Rabs x < / 2 ^ 126 /\ Rabs (y - x) <= / 2 ^ 150)%R).
Proof.
  intros P i x y Hx Hy. unfold ProjToVec, Proj2RT in *. rewrite nth_error_map, Hx in Hy. cbn [option_map] in Hy. injection Hy as <-.
  split; [reflexivity|]. split; [apply generic_format_round; [apply FLT_exp_valid; reflexivity|apply valid_rnd_N]|].
  destruct (Rle_or_lt (/ 2 ^ 126) (Rabs x)) as [L|L].
  - left. assert (T := relative_error_N_FLT radix2 (-149) 24 eq_refl (fun n => negb (Z.even n)) x).
    replace (/ 2 ^ 24)%R with (/ 2 * bpow radix2 (- (24) + 1))%R; [apply T|].
    + change (bpow radix2 (-149 + 24 - 1)) with (/ IZR (Z.pow_pos 2 126))%R. rewrite <- (pow_IZR 2 126) in * || idtac.
      replace (IZR (Z.pow_pos 2 126)) with (2 ^ 126)%R; [exact L|]. rewrite pow_IZR. reflexivity.
    + change (bpow radix2 (- (24) + 1)) with (/ IZR (Z.pow_pos 2 23))%R. replace (IZR (Z.pow_pos 2 23)) with (2 ^ 23)%R by (rewrite pow_IZR; reflexivity).
      replace (2 ^ 24)%R with (2 * 2 ^ 23)%R by (cbn; ring). rewrite Rinv_mult. reflexivity.
  - right. split; [exact L|]. 
    assert (VE : Valid_exp (FLT_exp (-149) 24)) by (apply FLT_exp_valid; reflexivity).
    assert (H := error_le_half_ulp radix2 (FLT_exp (-149) 24) (fun n => negb (Z.even n)) x).
    assert (U : (ulp radix2 (FLT_exp (-149) 24) x = bpow radix2 (-149))%R).
    { apply ulp_FLT_small; [reflexivity|]. change (bpow radix2 (-149 + 24)) with (/ IZR (Z.pow_pos 2 125))%R.
      replace (IZR (Z.pow_pos 2 125)) with (2 ^ 125)%R by (rewrite pow_IZR; reflexivity).
      apply Rlt_trans with (1 := L). apply Rinv_lt_contravar; [apply Rmult_lt_0_compat; apply pow_lt; lra|]. apply Rlt_pow; [lra|lia]. }
    rewrite U in H. unfold to_float. eapply Rle_trans; [apply H|]. change (bpow radix2 (-149)) with (/ IZR (Z.pow_pos 2 149))%R.
    replace (IZR (Z.pow_pos 2 149)) with (2 ^ 149)%R by (rewrite pow_IZR; reflexivity).
    replace (2 ^ 150)%R with (2 * 2 ^ 149)%R by (change 150%nat with (S 149); reflexivity). rewrite Rinv_mult. apply Rle_refl.
Qed.
End Histories.
Print Assumptions C66_table_tells_the_last_pose.
Print Assumptions C66_entries_of_a_table.
Print Assumptions C66_board_observation_tells_the_last_pose.
Print Assumptions C66_object_observation_tells_the_last_pose.
Print Assumptions C66_float_vectors_come_back.
Print Assumptions C66_floats_of_a_matrix.

(** The converse of the third clause of the table: at half a turn the vector may come back with the opposite sign. *)
Lemma half_turn_sign r : vnorm r = PI -> exp_rot (vscale (-1) r) = exp_rot r.
Proof.
  intros H. assert (N : vnorm (vscale (-1) r) = PI). { rewrite <- H. unfold vnorm. f_equal. unfold vdot. cbn. ring. }
  unfold exp_rot. rewrite N, H. destruct (Req_EM_T PI 0) as [E|E]; [assert (P := PI_RGT_0); lra|]. rewrite cos_PI, sin_PI. apply mat3_eq; cbn; ring.
Qed.
Lemma single_ask lr P : table_after lr [SetMat 0%Z P] (GetVec 0%Z) = AVec (lr (fst P)) (snd P).
Proof.
  unfold table_after, table_of. cbn [fold_left table_step fst]. unfold at_key. rewrite mfind_mset_eq. cbn [reply snd]. rewrite array_mat, vec_back. reflexivity.
Qed.
Theorem C66_every_rotation_vector_comes_back_refuted : exists lr h (k : Z) r t, log_ok lr /\ log_short lr /\
  last_set h k (SetMat k (RVecT2Proj r t)) /\ (vnorm r <= PI)%R /\ ~ tells (table_after lr h) k r t.
Proof.
  destruct log_half_ok as (LO & LS). set (u := V3 PI 0 0%R).
  assert (Nu : vnorm u = PI) by (unfold vnorm, u, vdot; cbn; replace (PI * PI + 0 * 0 + 0 * 0)%R with (PI * PI)%R by ring; apply sqrt_square; apply Rlt_le, PI_RGT_0).
  assert (Nv : vnorm (vscale (-1) u) = PI) by (rewrite <- Nu; unfold vnorm; f_equal; unfold vdot; cbn; ring).
  assert (D : u <> vscale (-1) u) by (intros E; apply (f_equal vx) in E; cbn in E; assert (P := PI_RGT_0); lra).
  destruct (Classical_Prop.classic (log_half (exp_rot u) = u)) as [E|E].
  - exists log_half, [SetMat 0%Z (RVecT2Proj (vscale (-1) u) vzero)], 0%Z, (vscale (-1) u), vzero. split; [auto|]. split; [auto|]. split.
    { split; [right; eauto|]. exists [], []. split; [reflexivity|]. intros d []. }
    split; [rewrite Nv; apply Rle_refl|]. intros (T & _).
    rewrite single_ask in T. cbn [RVecT2Proj fst snd] in T. rewrite half_turn_sign, E in T by auto. assert (Q : forall a b c d, AVec a b = AVec c d -> a = c) by (intros a b c d Q; injection Q; auto). exact (D (Q _ _ _ _ T)).
  - exists log_half, [SetMat 0%Z (RVecT2Proj u vzero)], 0%Z, u, vzero. split; [auto|]. split; [auto|]. split.
    { split; [right; eauto|]. exists [], []. split; [reflexivity|]. intros d []. }
    split; [rewrite Nu; apply Rle_refl|]. intros (T & _).
    rewrite single_ask in T. cbn [RVecT2Proj fst snd] in T. apply E. assert (Q : forall a b c d, AVec a b = AVec c d -> a = c) by (intros a b c d Q; injection Q; auto). exact (Q _ _ _ _ T).
Qed.
Print Assumptions C66_every_rotation_vector_comes_back_refuted.

(** a history: two cameras set, one of them twice, a third asked for *)
Example C66_example : exists lr h, log_ok lr /\ log_short lr /\
  tells (table_after lr h) 0%Z (V3 0 0 1)%R (V3 1 2 3)%R /\ tells (table_after lr h) 1%Z (V3 1 0 0)%R (V3 4 5 6)%R /\
  table_after lr h (GetMat 7%Z) = AMat pid /\ In 9%Z (mkeys (table_of lr h)) /\ ~ In 7%Z (mkeys (table_of lr h)).
Proof.
  exists log_half, [SetVec 1%Z (V3 0 0 0)%R (V3 0 0 0)%R; SetMat 0%Z (RVecT2Proj (V3 0 0 1)%R (V3 1 2 3)%R); GetMat 1%Z; GetRot 9%Z; SetVec 1%Z (V3 1 0 0)%R (V3 4 5 6)%R; GetVec 0%Z].
  split; [apply log_half_ok|]. split; [apply log_half_ok|].
  set (h := _ :: _). destruct (C66_table_tells_the_last_pose log_half h 0%Z) as (_ & _ & A & _), (C66_table_tells_the_last_pose log_half h 1%Z) as (B & _), (C66_table_tells_the_last_pose log_half h 7%Z) as (_ & _ & _ & C).
  split; [|split; [|split; [|split]]].
  - apply A; try apply log_half_ok.
    + unfold vnorm, vdot. cbn. replace (0 * 0 + 0 * 0 + 1 * 1)%R with 1%R by ring. rewrite sqrt_1. assert (P := PI2_1). lra.
    + split; [right; eauto|]. exists [SetVec 1%Z (V3 0 0 0)%R (V3 0 0 0)%R], [GetMat 1%Z; GetRot 9%Z; SetVec 1%Z (V3 1 0 0)%R (V3 4 5 6)%R; GetVec 0%Z]. split; [reflexivity|].
      intros d [<-|[<-|[<-|[<-|[]]]]] [(r & t & Q)|(P & Q)]; discriminate Q.
  - apply B. split; [left; eauto|]. exists [SetVec 1%Z (V3 0 0 0)%R (V3 0 0 0)%R; SetMat 0%Z (RVecT2Proj (V3 0 0 1)%R (V3 1 2 3)%R); GetMat 1%Z; GetRot 9%Z], [GetVec 0%Z]. split; [reflexivity|].
    intros d [<-|[]] [(r & t & Q)|(P & Q)]; discriminate Q.
  - apply C. intros d Hd [(r & t & Q)|(P & Q)]; subst d; repeat (destruct Hd as [Hd|Hd]; [discriminate Hd|]); destruct Hd.
  - apply C66_entries_of_a_table. exists (GetRot 9%Z). split; [unfold h; cbn [In]; tauto|]. right. tauto.
  - rewrite C66_entries_of_a_table. intros (c & Hc & [[(r & t & ->)|(P & ->)]|[-> |[-> |[-> | ->]]]]); repeat (destruct Hc as [Hc|Hc]; [discriminate Hc|]); destruct Hc.
Qed.
Print Assumptions C66_example.
Example C66_float_example : is_float 0 /\ is_float 1 /\ is_float (/ 2) /\ (vnorm (V3 0 1 (/ 2)) < PI)%R.
Proof.
  split; [apply generic_format_0|]. split; [|split].
  - replace 1%R with (bpow radix2 0) by reflexivity. apply generic_format_bpow. cbn. lia.
  - replace (/ 2)%R with (bpow radix2 (-1)) by (cbn; reflexivity). apply generic_format_bpow. cbn. lia.
  - assert (P := PI2_1). unfold vnorm. apply Rlt_le_trans with (sqrt (2 * 2)); [|rewrite sqrt_square; lra]. apply sqrt_lt_1_alt. unfold vdot. cbn [vx vy vz]. lra.
Qed.

(** ** C21 in rotation vectors *)
Lemma exp_neg r : exp_rot (vscale (-1) r) = mtr (exp_rot r).
Proof.
  assert (N : vnorm (vscale (-1) r) = vnorm r) by (unfold vnorm; f_equal; unfold vdot; cbn; ring).
  unfold exp_rot. rewrite N. destruct (Req_EM_T (vnorm r) 0) as [E|E]; [reflexivity|]. apply mat3_eq; cbn; ring.
Qed.
(** Below half a turn, the inverse of a pose has the opposite rotation vector, and inverting twice gives the
    vectors back. *)
Theorem C21_invert_vectors : forall lr r t, log_ok lr -> log_short lr -> (vnorm r < PI)%R ->
  fst (invertRvecT lr r t) = vscale (-1) r /\ invertRvecT lr (fst (invertRvecT lr r t)) (snd (invertRvecT lr r t)) = (r, t).
Proof.
  intros lr r t LO LS B. assert (Rr := exp_rot_rotation r).
  assert (N : (vnorm (vscale (-1) r) < PI)%R) by (replace (vnorm (vscale (-1) r)) with (vnorm r) by (unfold vnorm; f_equal; unfold vdot; cbn; ring); auto).
  assert (E : fst (pinv (RVecT2Proj r t)) = exp_rot (vscale (-1) r)).
  { rewrite exp_neg. unfold pinv, RVecT2Proj. cbn [fst]. try (apply rot_minv; auto). }
  assert (F : fst (invertRvecT lr r t) = vscale (-1) r).
  { unfold invertRvecT, Proj2RT. cbn [fst]. rewrite E. apply log_back; auto. }
  split; [exact F|]. unfold invertRvecT at 1. assert (Q : RVecT2Proj (fst (invertRvecT lr r t)) (snd (invertRvecT lr r t)) = pinv (RVecT2Proj r t)).
  { rewrite F. unfold invertRvecT, Proj2RT. cbn [fst snd]. unfold RVecT2Proj at 1. rewrite <- E. destruct (pinv (RVecT2Proj r t)); reflexivity. }
  rewrite Q, pinv_pinv by exact Rr. unfold Proj2RT, RVecT2Proj. cbn [fst snd]. rewrite log_back; auto.
Qed.
Print Assumptions C21_invert_vectors.
