From Coq Require Import List ZArith Lia Reals Lra Permutation.
From Verif Require Import SMap DataModel DetectModel DetectSpec DetectProofs GeomModel GeomSpec GeomProofs RansacModel RansacSpec RansacProofs CameraModel ResidualModel TriangModel TriangSpec.
Import ListNotations.
Open Scope R_scope.

Definition dotH (r : vec4) (y : vec3) (w : R) : R := h0 r * vx y + h1 r * vy y + h2 r * vz y + h3 r * w.
Lemma energy_cons r A v : energy (r :: A) v = dot4 r v * dot4 r v + energy A v.
Proof. reflexivity. Qed.
Lemma energy_nonneg A v : 0 <= energy A v.
Proof. induction A as [|r A IH]; [cbn; lra|]. rewrite energy_cons. pose proof (Rle_0_sqr (dot4 r v)). unfold Rsqr in *. lra. Qed.
Lemma energy_zero A v : energy A v = 0 <-> Forall (fun r => dot4 r v = 0) A.
Proof.
  induction A as [|r A IH].
  - split; cbn; auto.
  - rewrite energy_cons. pose proof (energy_nonneg A v). pose proof (Rle_0_sqr (dot4 r v)) as Q. unfold Rsqr in Q. split.
    + intros E. assert (E1 : dot4 r v * dot4 r v = 0) by lra. assert (E2 : energy A v = 0) by lra.
      constructor; [apply Rmult_integral in E1; tauto|apply IH; auto].
    + inversion 1 as [|? ? E F]; subst. apply IH in F. rewrite E, F. ring.
Qed.

(** a null vector is found if there is one *)
Lemma null_found last_row A v : svd_last_ok last_row -> dot4 v v <> 0 -> energy A v = 0 ->
  dot4 (last_row A) (last_row A) = 1 /\ Forall (fun r => dot4 r (last_row A) = 0) A.
Proof.
  intros OK Nz Ev. set (n := sqrt (dot4 v v)).
  assert (P : 0 < dot4 v v).
  { assert (0 <= dot4 v v); [|lra]. unfold dot4. pose proof (Rle_0_sqr (h0 v)). pose proof (Rle_0_sqr (h1 v)).
    pose proof (Rle_0_sqr (h2 v)). pose proof (Rle_0_sqr (h3 v)). unfold Rsqr in *. lra. }
  assert (Pn : 0 < n) by (apply sqrt_lt_R0; auto). assert (Sn : n * n = dot4 v v) by (apply sqrt_sqrt; lra).
  set (u := H4 (h0 v / n) (h1 v / n) (h2 v / n) (h3 v / n)).
  assert (Hu : forall r, dot4 r u = dot4 r v / n) by (intros r; unfold dot4, u; cbn; field; lra).
  assert (L : least A u).
  { split.
    - rewrite Hu. replace (dot4 u v) with (dot4 v u) by (unfold dot4; ring). rewrite Hu, <- Sn. field. lra.
    - intros w _. assert (E0 : energy A u = 0).
      { apply energy_zero. apply energy_zero in Ev. eapply Forall_impl; [|apply Ev]. intros r E. cbn beta in E. rewrite Hu, E. unfold Rdiv. ring. }
      rewrite E0. apply energy_nonneg. }
  destruct (OK A (ex_intro _ u L)) as (L1 & L2). split; auto. apply energy_zero.
  assert (E0 : energy A u = 0).
  { apply energy_zero. apply energy_zero in Ev. eapply Forall_impl; [|apply Ev]. intros r E. cbn beta in E. rewrite Hu, E. unfold Rdiv. ring. }
  pose proof (L2 u (proj1 L)) as Q. pose proof (energy_nonneg A (last_row A)). lra.
Qed.

Definition hom (X : vec3) : vec4 := H4 (vx X) (vy X) (vz X) 1.

(** the rows of a view *)
Lemma rows_null K r t X p : calibration_matrix K -> pinhole_image K r t X p ->
  Forall (fun row => dot4 row (hom X) = 0) (view_rows (RVecT2ProjInt r t K) p).
Proof.
  intros (fx & fy & u0 & v0 & Fx & Fy & ->) (Z & ->). cbn in Z.
  repeat constructor; unfold dot4, hom; cbn; field; intros E; apply Z; cbn; lra.
Qed.
Lemma rows_ray K r t X p y w : calibration_matrix K -> pinhole_image K r t X p ->
  Forall (fun row => dot4 row (H4 (vx y) (vy y) (vz y) w) = 0) (view_rows (RVecT2ProjInt r t K) p) ->
  exists lam, vadd (mv (exp_rot r) y) (vscale w t) = vscale lam (vadd (mv (exp_rot r) X) t).
Proof.
  intros (fx & fy & u0 & v0 & Fx & Fy & ->) (Z & Ep) F. cbn [m00 m02 m11 m12] in Ep.
  set (c := vadd (mv (exp_rot r) X) t) in *. set (q := vadd (mv (exp_rot r) y) (vscale w t)).
  assert (E1 : fst p * vz q - (fx * vx q + u0 * vz q) = 0).
  { inversion F as [|? ? A _]; subst x. eapply eq_trans; [|exact A]. unfold dot4, q. cbn. ring. }
  assert (E2 : snd p * vz q - (fy * vy q + v0 * vz q) = 0).
  { inversion F as [|? ? _ G]; subst x. inversion G as [|? ? A _]; subst x. eapply eq_trans; [|exact A]. unfold dot4, q. cbn. ring. }
  rewrite Ep in E1, E2. cbn [fst snd] in E1, E2.
  exists (vz q / vz c). apply vec3_eq; cbn [vscale vx vy vz].
  - apply (Rmult_eq_reg_l fx); [|auto]. replace (fx * (vz q / vz c * vx c)) with ((fx * (vx c / vz c)) * vz q) by (field; auto). lra.
  - apply (Rmult_eq_reg_l fy); [|auto]. replace (fy * (vz q / vz c * vy c)) with ((fy * (vy c / vz c)) * vz q) by (field; auto). lra.
  - field. auto.
Qed.

Definition centre_of (r t : vec3) : vec3 := mv (mtr (exp_rot r)) (vscale (-1) t).
Lemma centre_ok r t : camera_centre r t (centre_of r t).
Proof.
  unfold camera_centre, centre_of. rewrite <- mv_mm. destruct (exp_rot_rotation r) as (E & _). rewrite E, mv_id. apply vec3_eq; cbn; ring.
Qed.
(** in the world: y - wX is along the ray *)
Lemma ray_world r t X y w lam : vadd (mv (exp_rot r) y) (vscale w t) = vscale lam (vadd (mv (exp_rot r) X) t) ->
  vsub y (vscale w X) = vscale (lam - w) (vsub X (centre_of r t)).
Proof.
  intros E. assert (RL := rot_left _ (exp_rot_rotation r)).
  assert (Q : forall p, mv (mtr (exp_rot r)) (mv (exp_rot r) p) = p) by (intros p; rewrite <- mv_mm, RL, mv_id; auto).
  assert (E1 : vadd y (vscale w (mv (mtr (exp_rot r)) t)) = vscale lam (vadd X (mv (mtr (exp_rot r)) t))).
  { rewrite <- (Q y) at 1. rewrite <- (Q X) at 1. rewrite <- !mv_scale, <- !mv_add, <- mv_scale. rewrite E. reflexivity. }
  unfold centre_of. rewrite mv_scale. set (s := mv (mtr (exp_rot r)) t) in *.
  injection E1 as A B C. apply vec3_eq; cbn in *; lra.
Qed.
Lemma parallel_zero a b k l : vcross a b <> vzero -> vscale k a = vscale l b -> vscale k a = vzero.
Proof.
  intros N E. destruct (Req_dec k 0) as [->|K]; [apply vec3_eq; cbn; ring|]. exfalso. apply N.
  injection E as A B C.
  assert (Q : forall u v, k * u = k * v -> u = v) by (intros u v H; apply Rmult_eq_reg_l in H; auto).
  apply vec3_eq; cbn; apply Q; ring_simplify.
  - replace (k * vy a * vz b) with ((k * vy a) * vz b) by ring. replace (k * vz b * vy a) with ((k * vy a) * vz b) by ring. replace (k * vz a * vy b) with ((k * vz a) * vy b) by ring. rewrite B, C. ring.
  - replace (k * vz a * vx b) with ((k * vz a) * vx b) by ring. replace (k * vx a * vz b) with ((k * vx a) * vz b) by ring. rewrite A, C. ring.
  - replace (k * vx a * vy b) with ((k * vx a) * vy b) by ring. replace (k * vy a * vx b) with ((k * vy a) * vx b) by ring. rewrite A, B. ring.
Qed.

Lemma system_total : forall rs pts ts K, length rs = length pts -> length ts = length pts ->
  exists A, system_rows pts rs ts K = Some A /\ length A = (2 * length rs)%nat /\
    (forall k r t p row, nth_error rs k = Some r -> nth_error ts k = Some t -> nth_error pts k = Some p ->
       In row (view_rows (RVecT2ProjInt r t K) p) -> In row A) /\
    (forall row, In row A -> exists k r t p, nth_error rs k = Some r /\ nth_error ts k = Some t /\ nth_error pts k = Some p /\
       In row (view_rows (RVecT2ProjInt r t K) p)).
Proof.
  induction rs as [|r rs IH]; intros [|p pts] [|t ts] K L1 L2; cbn in L1, L2; try lia.
  - exists []. split; [auto|]. split; [auto|]. split; [intros [|k]; discriminate|intros ? []].
  - destruct (IH pts ts K) as (A & E & L & F & B); [lia|lia|]. cbn [system_rows]. rewrite E. cbn [option_map]. eexists. split; [reflexivity|].
    split; [rewrite app_length, L; cbn; lia|]. split.
    + intros [|k] r' t' p' row; cbn [nth_error]; intros H1 H2 H3 H; apply in_app_iff.
      * left. congruence.
      * right. eapply F; eauto.
    + intros row H. apply in_app_iff in H. destruct H as [H|H].
      * exists 0%nat, r, t, p. auto.
      * destruct (B row H) as (k & r' & t' & p' & H1 & H2 & H3 & H4). exists (S k), r', t', p'. auto.
Qed.

Theorem triangulate_exact last_row pts rs ts K X : svd_last_ok last_row -> calibration_matrix K ->
  length rs = length pts -> length ts = length pts ->
  exact_views pts rs ts K X ->
  (exists i j r1 r2 t1 t2, nth_error rs i = Some r1 /\ nth_error rs j = Some r2 /\ nth_error ts i = Some t1 /\ nth_error ts j = Some t2 /\
     i <> j /\ different_rays r1 t1 r2 t2 X) ->
  triangulateNView last_row pts rs ts K = Some (Finite X).
Proof.
  intros OK HK L1 L2 EX (i & j & r1 & r2 & t1 & t2 & Hi & Hj & Ti & Tj & Nij & Dr).
  destruct (system_total rs pts ts K L1 L2) as (A & E & LA & F & B). unfold triangulateNView. rewrite E.
  assert (Bi : (i < length rs)%nat) by (apply nth_error_Some; congruence). assert (Bj : (j < length rs)%nat) by (apply nth_error_Some; congruence).
  destruct (Nat.ltb_spec (length A) 4) as [Q|_]; [lia|]. f_equal.
  assert (Nu : energy A (hom X) = 0).
  { apply energy_zero. apply Forall_forall. intros row H. destruct (B row H) as (k & r & t & p & H1 & H2 & H3 & H4).
    assert (R := rows_null K r t X p HK (EX k r t p H1 H2 H3)). rewrite Forall_forall in R. auto. }
  assert (Nz : dot4 (hom X) (hom X) <> 0).
  { unfold dot4, hom; cbn. pose proof (Rle_0_sqr (vx X)). pose proof (Rle_0_sqr (vy X)). pose proof (Rle_0_sqr (vz X)). unfold Rsqr in *. lra. }
  destruct (null_found last_row A (hom X) OK Nz Nu) as (U & Z). set (v := last_row A) in *. clearbody v.
  set (y := V3 (h0 v) (h1 v) (h2 v)). set (w := h3 v).
  assert (View : forall k r t, nth_error rs k = Some r -> nth_error ts k = Some t -> exists lam, vsub y (vscale w X) = vscale lam (vsub X (centre_of r t))).
  { intros k r t H1 H2. destruct (nth_error pts k) as [p|] eqn:H3.
    2:{ apply nth_error_None in H3. assert (k < length rs)%nat by (apply nth_error_Some; congruence). lia. }
    destruct (rows_ray K r t X p y w HK (EX k r t p H1 H2 H3)) as (lam & El).
    { apply Forall_forall. intros row H. rewrite Forall_forall in Z. destruct v. apply Z. eapply F; eauto. }
    exists (lam - w). apply ray_world. auto. }
  destruct (View i r1 t1 Hi Ti) as (k1 & V1). destruct (View j r2 t2 Hj Tj) as (k2 & V2).
  assert (D0 : vsub y (vscale w X) = vzero).
  { rewrite V1. eapply parallel_zero; [apply (Dr _ _ (centre_ok r1 t1) (centre_ok r2 t2))|]. rewrite <- V1. eauto. }
  injection D0 as A1 A2 A3. fold w in A1, A2, A3. unfold dehomogenize. fold w.
  destruct (Req_EM_T w 0) as [W|W].
  - exfalso. unfold dot4 in U. fold w in U. rewrite W in *. replace (h0 v) with 0 in U by lra. replace (h1 v) with 0 in U by lra. replace (h2 v) with 0 in U by lra. lra.
  - f_equal. apply vec3_eq; cbn.
    + replace (h0 v) with (w * vx X) by lra. field; auto.
    + replace (h1 v) with (w * vy X) by lra. field; auto.
    + replace (h2 v) with (w * vz X) by lra. field; auto.
Qed.

(** *** the count *)
Lemma count_votes d thresh q : cv_coefficients d <> None -> forall rs pts ts K, length rs = length pts -> length ts = length pts ->
  exists n, count_inliers pts rs ts K d thresh q = Some n /\ votes pts rs ts K d thresh q n /\ (n <= length pts)%nat.
Proof.
  intros Hd. induction rs as [|r rs IH]; intros [|p pts] [|t ts] K L1 L2; cbn in L1, L2; try lia.
  - exists 0%nat. split; [auto|]. split; [|auto]. exists []. split; [constructor|]. split; [auto|]. intros k. split; [intros []|].
    intros (x & r & t & p & m & _ & H & _). destruct k; discriminate.
  - destruct (IH pts ts K) as (n & E & (l & ND & Ln & Hl) & Bn); [lia|lia|]. cbn [count_inliers]. rewrite E.
    assert (Sub : forall k, In (S k) (map S l) <-> agrees (p :: pts) (r :: rs) (t :: ts) K d thresh q (S k)).
    { intros k. split.
      - intros H. apply in_map_iff in H as (k' & [= ->] & H). apply Hl in H. auto.
      - intros H. apply in_map. apply Hl. auto. }
    assert (NS : NoDup (map S l)) by (apply FinFun.Injective_map_NoDup; [intros a b [= ->]; auto|auto]).
    destruct q as [x|].
    + destruct (cv_projectPoint r t K d x) as [m|] eqn:Em.
      2:{ unfold cv_projectPoint in Em. destruct (cv_coefficients d) as [d5|] eqn:Ed; [|congruence]. exfalso.
          unfold cv_coefficients in Ed. destruct d as [|? [|? [|? [|? [|? [|? ?]]]]]]; try discriminate Ed; injection Ed as <-; discriminate Em. }
      destruct (Rltb (repro_error p m) thresh) eqn:Lt.
      * exists (S n). split; [auto|]. split; [|cbn; lia]. exists (0%nat :: map S l). split; [constructor; auto; intros H; apply in_map_iff in H as (? & [=] & _)|].
        split; [cbn; rewrite map_length; lia|]. intros [|k].
        -- split; [|intros _; left; auto]. intros _. apply Rltb_true in Lt. rewrite repro_error_dist in Lt. exists x, r, t, p, m. auto 10.
        -- rewrite <- Sub. cbn. split; [intros [[=]|H]; auto|auto].
      * exists n. split; [auto|]. split; [|cbn; lia]. exists (map S l). split; [auto|]. split; [rewrite map_length; auto|]. intros [|k].
        -- split; [intros H; apply in_map_iff in H as (? & [=] & _)|].
           intros (x' & r' & t' & p' & m' & [= <-] & [= <-] & [= <-] & [= <-] & Em' & L). assert (m' = m) by congruence. subst m'.
           rewrite <- repro_error_dist in L. apply Rltb_true in L. congruence.
        -- apply Sub.
    + exists n. split; [auto|]. split; [|cbn; lia]. exists (map S l). split; [auto|]. split; [rewrite map_length; auto|]. intros [|k]; [|apply Sub].
      split; [intros H; apply in_map_iff in H as (? & [=] & _)|]. intros (x' & ? & ? & ? & ? & [=] & _).
Qed.
Lemma votes_unique pts rs ts K d thresh q n m : votes pts rs ts K d thresh q n -> votes pts rs ts K d thresh q m -> n = m.
Proof.
  intros (l & N1 & <- & H1) (l' & N2 & <- & H2). apply Nat.le_antisymm; apply NoDup_incl_length; auto; intros k Hk.
  - apply H2, H1, Hk.
  - apply H1, H2, Hk.
Qed.

Section Run.
Variables (last_row : list vec4 -> vec4) (shuffle : nat -> list nat -> list nat).
Hypothesis fair : forall n l, Permutation (shuffle n l) l.
Variables (pts : list pt2) (rs ts : list vec3) (K : mat3) (d : list R) (thresh prob : R).
Hypothesis (L1 : length rs = length pts) (L2 : length ts = length pts) (L4 : (4 <= length pts)%nat) (Hd : cv_coefficients d <> None).
Notation vt := (votes pts rs ts K d thresh).
Notation cand := (from_two_views pts rs ts K last_row).

Definition tbest (it : Z) best0 (qs : list point_t) (st : tri_state) : Prop :=
  (ts_best st = 0%nat /\ ts_point st = best0 /\ ts_N st = it /\ ts_trial st = Z.of_nat (length qs) /\ (forall q, In q qs -> vt q 0)) \/
  (exists j q n, nth_error qs j = Some q /\ vt q n /\ (0 < n)%nat /\ ts_point st = q /\ ts_best st = n /\
     ts_N st = wanted_trials prob n (length pts) /\ ts_trial st = (Z.of_nat (length qs) - 1 - Z.of_nat j)%Z /\
     (forall i q' m, nth_error qs i = Some q' -> vt q' m -> (m <= n)%nat /\ ((i < j)%nat -> (m < n)%nat))).
Record TInv it best0 qs st : Prop := {
  tv_vec : Permutation (ts_vec st) (seq 0 (length pts));
  tv_iter : ts_iter st = length qs;
  tv_cand : Forall cand qs;
  tv_best : tbest it best0 qs st }.

Lemma tstep_ok it best0 qs st : TInv it best0 qs st ->
  exists st' q, tri_step last_row shuffle pts rs ts K d thresh prob st = Some st' /\ TInv it best0 (qs ++ [q]) st'.
Proof.
  intros [Iv Ii It Ib]. unfold tri_step. set (v := shuffle (ts_iter st) (ts_vec st)).
  assert (Pv : Permutation v (seq 0 (length pts))) by (eapply Permutation_trans; [apply fair|auto]).
  assert (Lv : length v = length pts) by (rewrite (Permutation_length Pv), seq_length; auto).
  assert (Nv : NoDup v) by (eapply Permutation_NoDup; [symmetry; apply Pv|apply seq_NoDup]).
  assert (Bv : forall i, In i v -> (i < length pts)%nat).
  { intros i Hi. eapply Permutation_in in Hi; [|apply Pv]. apply in_seq in Hi. lia. }
  destruct v as [|a [|b [|c [|e v']]]] eqn:Ev; cbn in Lv; try lia.
  assert (Ha : (a < length pts)%nat) by (apply Bv; left; auto). assert (Hb : (b < length pts)%nat) by (apply Bv; right; left; auto).
  assert (Nab : a <> b) by (inversion Nv as [|? ? Q _]; subst; intros ->; apply Q; left; auto).
  destruct (nth_error pts a) as [p1|] eqn:P1; [|apply nth_error_None in P1; lia]. destruct (nth_error pts b) as [p2|] eqn:P2; [|apply nth_error_None in P2; lia].
  destruct (nth_error rs a) as [r1|] eqn:R1; [|apply nth_error_None in R1; lia]. destruct (nth_error rs b) as [r2|] eqn:R2; [|apply nth_error_None in R2; lia].
  destruct (nth_error ts a) as [t1|] eqn:T1; [|apply nth_error_None in T1; lia]. destruct (nth_error ts b) as [t2|] eqn:T2; [|apply nth_error_None in T2; lia].
  assert (K1 : pick pts [a; b] = Some [p1; p2]) by (unfold pick; cbn; rewrite P1, P2; reflexivity).
  assert (K2 : pick rs [a; b] = Some [r1; r2]) by (unfold pick; cbn; rewrite R1, R2; reflexivity).
  assert (K3 : pick ts [a; b] = Some [t1; t2]) by (unfold pick; cbn; rewrite T1, T2; reflexivity).
  rewrite K1, K2, K3.
  destruct (triangulateNView last_row [p1; p2] [r1; r2] [t1; t2] K) as [q|] eqn:Eq.
  2:{ unfold triangulateNView in Eq. cbn in Eq. discriminate Eq. }
  assert (Cq : cand q) by (exists a, b, p1, p2, r1, r2, t1, t2; auto 10).
  destruct (count_votes d thresh q Hd rs pts ts K L1 L2) as (n & -> & Vn & _).
  assert (Hsn : forall i q', nth_error (qs ++ [q]) i = Some q' -> nth_error qs i = Some q' \/ (i = length qs /\ q' = q)).
  { intros i q' Hn. destruct (Nat.lt_ge_cases i (length qs)).
    - rewrite nth_error_app1 in Hn; auto.
    - rewrite nth_error_app2 in Hn; auto. destruct (i - length qs)%nat as [|m] eqn:E; cbn in Hn.
      + injection Hn as <-. right. split; auto. lia.
      + destruct m; discriminate. }
  assert (Fq : Forall cand (qs ++ [q])) by (apply Forall_app; auto).
  destruct (Nat.ltb_spec (ts_best st) n) as [Hlt|Hge]; eexists; exists q; (split; [reflexivity|]); constructor; cbn; auto;
    try (rewrite app_length; cbn; lia).
  - right. exists (length qs), q, n. cbn. split; [rewrite nth_error_app2, Nat.sub_diag by auto; reflexivity|].
    split; [auto|]. split; [lia|]. split; [auto|]. split; [auto|]. split; [auto|]. split; [rewrite app_length; cbn; lia|].
    intros i q' m Hn Hm. apply Hsn in Hn. destruct Hn as [Hn|[-> ->]].
    + destruct Ib as [(A & _ & _ & _ & C)|(j & q0 & n0 & A & B & C & E & F & G & _ & I)].
      * rewrite (votes_unique _ _ _ _ _ _ _ _ _ Hm (C q' (nth_error_In _ _ Hn))). lia.
      * destruct (I i q' m Hn Hm). lia.
    + rewrite (votes_unique _ _ _ _ _ _ _ _ _ Hm Vn). lia.
  - destruct Ib as [(A & B & C & E & F)|(j & q0 & n0 & A & B & C & E & F & G & H & I)].
    + left. cbn. split; [auto|]. split; [auto|]. split; [auto|]. split; [rewrite app_length; cbn; lia|].
      intros q' Hq. apply in_app_iff in Hq. destruct Hq as [Hq|[<-|[]]]; [auto|]. replace 0%nat with n by lia. auto.
    + right. exists j, q0, n0. cbn. split; [rewrite nth_error_app1; auto; apply nth_error_Some; congruence|].
      split; [auto|]. split; [auto|]. split; [auto|]. split; [auto|]. split; [auto|]. split; [rewrite app_length; cbn; lia|].
      intros i q' m Hn Hm. apply Hsn in Hn. destruct Hn as [Hn|[-> ->]]; [eauto|].
      rewrite (votes_unique _ _ _ _ _ _ _ _ _ Hm Vn). assert (j < length qs)%nat by (apply nth_error_Some; congruence). split; lia.
Qed.

Lemma tloop_ok it best0 : forall left qs st, TInv it best0 qs st ->
  exists st' qs', tri_loop last_row shuffle pts rs ts K d thresh prob left st = Some st' /\ TInv it best0 qs' st' /\
    (length qs <= length qs' <= length qs + left)%nat /\
    (length qs' = (length qs + left)%nat \/ (ts_N st' <= ts_trial st')%Z).
Proof.
  induction left as [|n IH]; intros qs st HI; cbn [tri_loop].
  - exists st, qs. split; [auto|]. split; [auto|]. split; [lia|]. left; lia.
  - destruct (Z.ltb_spec (ts_trial st) (ts_N st)) as [Hlt|Hge].
    + destruct (tstep_ok it best0 qs st HI) as (st1 & q & -> & HI1).
      destruct (IH _ _ HI1) as (st' & qs' & -> & HI' & Hl & Hs). rewrite app_length in *. cbn in *.
      exists st', qs'. split; [auto|]. split; [auto|]. split; [lia|]. destruct Hs; [left; lia|right; auto].
    + exists st, qs. split; [auto|]. split; [auto|]. split; [lia|]. right; lia.
Qed.

Theorem ransacTriangulation_main it best0 :
  exists best qs, ransacTriangulation last_row shuffle pts rs ts K d thresh prob it best0 = Some (best, length qs) /\
    (length qs <= Z.to_nat it)%nat /\ Forall cand qs /\
    ((best = best0 /\ length qs = Z.to_nat it /\ forall q, In q qs -> vt q 0) \/
     exists j n, nth_error qs j = Some best /\ vt best n /\ (0 < n)%nat /\
       (forall i q m, nth_error qs i = Some q -> vt q m -> (m <= n)%nat /\ ((i < j)%nat -> (m < n)%nat)) /\
       (length qs = Z.to_nat it \/ (wanted_trials prob n (length pts) <= Z.of_nat (length qs) - 1 - Z.of_nat j)%Z)).
Proof.
  unfold ransacTriangulation. set (st0 := mkTS (seq 0 (length pts)) 0 best0 it 0 0).
  assert (I0 : TInv it best0 [] st0).
  { constructor; cbn; auto. left. cbn. intuition (auto; contradiction). }
  destruct (tloop_ok it best0 (Z.to_nat it) [] st0 I0) as (st & qs & -> & [Iv Ii It Ib] & Hl & Hs). cbn in Hl, Hs.
  cbn [option_map]. rewrite Ii.
  destruct Ib as [(A & B & C & E & F)|(j & q0 & n0 & A & B & C & E & F & G & H & I)]; exists (ts_point st), qs; (split; [reflexivity|]); (split; [lia|]); (split; [auto|]).
  - left. split; [auto|]. split; [|auto]. destruct Hs; lia.
  - right. exists j, n0. rewrite E. split; [auto|]. split; [auto|]. split; [auto|]. split; [auto|]. destruct Hs as [Hs|Hs]; [left; lia|right; lia].
Qed.
End Run.
