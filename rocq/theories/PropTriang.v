(** C57: triangulation of a point from several views. *)
From Coq Require Import List ZArith Lia Reals Lra Permutation ClassicalEpsilon.
From Verif Require Import SMap DataModel DetectModel DetectSpec GeomModel GeomSpec GeomProofs GeomMedian RansacModel RansacProofs CameraModel ResidualModel TriangModel TriangSpec TriangProofs.
Import ListNotations.
Open Scope R_scope.

(** Exact views of a point by cameras without distortion, at least two of which look along
    different lines: the linear triangulation returns the point itself. *)
Theorem C57_exact_views_give_the_point :
  forall last_row pts rs ts K X, svd_last_ok last_row -> calibration_matrix K ->
  length rs = length pts -> length ts = length pts -> exact_views pts rs ts K X ->
  (exists i j r1 r2 t1 t2, nth_error rs i = Some r1 /\ nth_error rs j = Some r2 /\ nth_error ts i = Some t1 /\ nth_error ts j = Some t2 /\
     i <> j /\ different_rays r1 t1 r2 t2 X) ->
  triangulateNView last_row pts rs ts K = Some (Finite X).
Proof. exact triangulate_exact. Qed.
Print Assumptions C57_exact_views_give_the_point.

(** One view is an exception (the fourth row of a matrix with two rows). *)
Theorem C57_one_view_is_undefined : forall last_row pts rs ts K, (length rs < 2)%nat -> triangulateNView last_row pts rs ts K = None.
Proof.
  intros last_row pts [|r [|r' rs]] ts K H; cbn in H; try lia; unfold triangulateNView; cbn [system_rows].
  - reflexivity.
  - destruct ts as [|t ts], pts as [|p pts]; reflexivity.
Qed.
Print Assumptions C57_one_view_is_undefined.

(** The robust version: at most [it] rounds; every candidate is triangulated from two
    different views; if no candidate agrees with any view the point handed in is left as it
    was, otherwise the result is the first candidate with the most votes, and the search
    ends early only after as many rounds without success as wanted. *)
Theorem C57_best_candidate_in_bounded_rounds :
  forall last_row shuffle, (forall n l, Permutation (shuffle n l) l) ->
  forall pts rs ts K d thresh prob, length rs = length pts -> length ts = length pts -> (4 <= length pts)%nat -> cv_coefficients d <> None ->
  forall it best0,
  exists best qs, ransacTriangulation last_row shuffle pts rs ts K d thresh prob it best0 = Some (best, length qs) /\
    (length qs <= Z.to_nat it)%nat /\ Forall (from_two_views pts rs ts K last_row) qs /\
    ((best = best0 /\ length qs = Z.to_nat it /\ forall q, In q qs -> votes pts rs ts K d thresh q 0) \/
     exists j n, nth_error qs j = Some best /\ votes pts rs ts K d thresh best n /\ (0 < n)%nat /\
       (forall i q m, nth_error qs i = Some q -> votes pts rs ts K d thresh q m -> (m <= n)%nat /\ ((i < j)%nat -> (m < n)%nat)) /\
       (length qs = Z.to_nat it \/ (wanted_trials prob n (length pts) <= Z.of_nat (length qs) - 1 - Z.of_nat j)%Z)).
Proof. intros. apply ransacTriangulation_main; auto. Qed.
Print Assumptions C57_best_candidate_in_bounded_rounds.

Lemma pact_vadd A t X : pact (A, t) X = vadd (mv A X) t.
Proof. apply vec3_eq; cbn; ring. Qed.
(** Exact views, every two along different lines: the robust version returns the point,
    whatever the random choices and whatever the point handed in. *)
Theorem C57_robust_exact :
  forall last_row shuffle, svd_last_ok last_row -> (forall n l, Permutation (shuffle n l) l) ->
  forall pts rs ts K X thresh prob, length rs = length pts -> length ts = length pts -> (4 <= length pts)%nat -> calibration_matrix K ->
  exact_views pts rs ts K X -> all_rays_different rs ts X -> 0 < thresh ->
  forall it best0, (0 < it)%Z ->
  exists n, ransacTriangulation last_row shuffle pts rs ts K [] thresh prob it best0 = Some (Finite X, n).
Proof.
  intros last_row shuffle OK fair pts rs ts K X thresh prob L1 L2 L4 HK EX AR Th it best0 Hit.
  assert (Hd : cv_coefficients [] <> None) by discriminate.
  assert (Cq : forall q, from_two_views pts rs ts K last_row q -> q = Finite X).
  { intros q (i & j & p1 & p2 & r1 & r2 & t1 & t2 & N & P1 & P2 & R1 & R2 & T1 & T2 & E).
    assert (E' : triangulateNView last_row [p1; p2] [r1; r2] [t1; t2] K = Some (Finite X)); [|congruence].
    apply triangulate_exact; auto.
    - intros [|[|k]] r t p; cbn; intros A B C; try (destruct k; discriminate); injection A as <-; injection B as <-; injection C as <-; [apply (EX i)|apply (EX j)]; auto.
    - exists 0%nat, 1%nat, r1, r2, t1, t2. repeat (split; [reflexivity|]). split; [auto|]. apply (AR i j); auto. }
  destruct (ransacTriangulation_main last_row shuffle fair pts rs ts K [] thresh prob L1 L2 L4 Hd it best0) as (best & qs & E & Lq & Fq & H).
  exists (length qs). rewrite E. do 2 f_equal. destruct H as [(_ & Lq' & V0)|(j & n & Nj & _)].
  - exfalso. destruct qs as [|q qs]; [cbn in Lq'; lia|]. inversion Fq as [|? ? Fq1 _]; subst. rewrite (Cq q Fq1) in V0.
    destruct (V0 (Finite X) (or_introl eq_refl)) as (l & _ & Ll & Hl). destruct l; [|discriminate Ll]. 
    destruct pts as [|p pts]; [cbn in L4; lia|]. destruct rs as [|r rs]; [discriminate L1|]. destruct ts as [|t ts]; [discriminate L2|].
    apply (Hl 0%nat). destruct (EX 0%nat r t p eq_refl eq_refl eq_refl) as (Z & Ep).
    exists X, r, t, p, p. repeat (split; [reflexivity|]). split.
    + unfold cv_projectPoint. cbn [cv_coefficients]. rewrite pact_vadd. 
      destruct (Req_EM_T _ 0) as [Q|_]; [contradiction (Z Q)|]. cbn [cv_brown option_map fst snd]. rewrite Ep. apply (f_equal Some), (f_equal2 pair); ring.
    + unfold dist2. match goal with |- sqrt ?x < _ => replace x with 0 by ring end. rewrite sqrt_0. auto.
  - rewrite Forall_forall in Fq. apply Cq. apply Fq. eapply nth_error_In; eauto.
Qed.
Print Assumptions C57_robust_exact.

(** The robust version reads four entries of a vector with one entry per view. *)
Theorem C57_fewer_than_four_views_is_undefined :
  forall last_row shuffle pts rs ts K d thresh prob it best0, (forall n l, Permutation (shuffle n l) l) ->
  (length pts < 4)%nat -> (0 < it)%Z -> ransacTriangulation last_row shuffle pts rs ts K d thresh prob it best0 = None.
Proof.
  intros last_row shuffle pts rs ts K d thresh prob it best0 fair L Hit. unfold ransacTriangulation.
  destruct (Z.to_nat it) as [|n] eqn:E; [lia|]. cbn [tri_loop ts_trial ts_N].
  destruct (Z.ltb_spec 0 it); [|lia]. unfold tri_step. cbn [ts_iter ts_vec].
  assert (Lv : length (shuffle 0%nat (seq 0 (length pts))) = length pts) by (rewrite (Permutation_length (fair _ _)), seq_length; auto).
  destruct (shuffle 0%nat (seq 0 (length pts))) as [|a [|b [|c [|e v]]]]; auto. cbn in Lv. lia.
Qed.
Print Assumptions C57_fewer_than_four_views_is_undefined.

(** ** Examples: four cameras on a line, the point in front of the first *)
Definition line_ts : list vec3 := [V3 0 0 0; V3 (-1) 0 0; V3 (-2) 0 0; V3 (-3) 0 0].
Definition line_rs : list vec3 := [vzero; vzero; vzero; vzero].
Definition line_K : mat3 := M3 1 0 0 0 1 0 0 0 1.
Definition line_X : vec3 := V3 1 0 1.
Definition line_pts : list pt2 := [(1, 0); (0, 0); (-1, 0); (-2, 0)].
Lemma line_centre t c : camera_centre vzero t c -> c = vscale (-1) t.
Proof. unfold camera_centre. rewrite exp_rot_0, mv_id. intros E. injection E as A B C. apply vec3_eq; cbn; lra. Qed.
Lemma line_rays i j r1 r2 t1 t2 X : vz X <> 0 -> i <> j -> nth_error line_rs i = Some r1 -> nth_error line_rs j = Some r2 ->
  nth_error line_ts i = Some t1 -> nth_error line_ts j = Some t2 -> different_rays r1 t1 r2 t2 X.
Proof.
  intros HX N R1 R2 T1 T2 c1 c2 C1 C2. assert (r1 = vzero /\ r2 = vzero) as [-> ->].
  { apply nth_error_In in R1, R2. cbn in R1, R2. intuition congruence. }
  apply line_centre in C1, C2. subst c1 c2. intros E. injection E as _ E _. cbn in E.
  assert (D : vz X * (vx t2 - vx t1) <> 0).
  { apply Rmult_integral_contrapositive_currified; auto.
    destruct i as [|[|[|[|i]]]], j as [|[|[|[|j]]]]; try congruence; try (destruct i; discriminate); try (destruct j; discriminate);
      injection T1 as <-; injection T2 as <-; cbn; lra. }
  assert (vz t1 = 0 /\ vz t2 = 0) as [Z1 Z2].
  { apply nth_error_In in T1, T2. cbn in T1, T2. intuition (subst; reflexivity). }
  rewrite Z1, Z2 in E. apply D. lra.
Qed.
Example line_exact : exact_views line_pts line_rs line_ts line_K line_X.
Proof.
  intros k r t p R T P. assert (r = vzero) as -> by (apply nth_error_In in R; cbn in R; intuition congruence).
  destruct k as [|[|[|[|k]]]]; cbn in T, P; try (destruct k; discriminate); injection T as <-; injection P as <-;
    unfold pinhole_image; rewrite exp_rot_0, mv_id; cbn; (split; [lra|f_equal; field]).
Qed.
Example C57_svd_exists : exists last_row, svd_last_ok last_row.
Proof. exists (fun A => epsilon (inhabits (H4 0 0 0 1)) (least A)). intros A H. apply epsilon_spec. auto. Qed.
Example C57_exact_example : forall last_row, svd_last_ok last_row -> 
  (exists n, ransacTriangulation last_row (fun _ l => l) line_pts line_rs line_ts line_K [] 1 (99 / 100) 10 NotFinite = Some (Finite line_X, n)) /\
  triangulateNView last_row [(1, 0); (0, 0)] [vzero; vzero] [V3 0 0 0; V3 (-1) 0 0] line_K = Some (Finite line_X).
Proof.
  intros last_row OK. assert (HK : calibration_matrix line_K) by (exists 1, 1, 0, 0; split; [lra|]; split; [lra|]; reflexivity). split.
  - apply C57_robust_exact; auto; try lra; try lia; try apply line_exact; try (cbn; lia).
    intros i j r1 r2 t1 t2. apply line_rays. cbn. lra.
  - apply C57_exact_views_give_the_point; auto.
    + intros [|[|k]] r t p R T P; cbn in R, T, P; try (destruct k; discriminate); [apply (line_exact 0%nat)|apply (line_exact 1%nat)]; auto.
    + exists 0%nat, 1%nat, vzero, vzero, (V3 0 0 0), (V3 (-1) 0 0). repeat (split; [reflexivity|]). split; [auto|].
      apply (line_rays 0%nat 1%nat); auto. cbn. lra.
Qed.

(** "Two views along different lines determine the point": true of the linear version,
    false of the robust version. *)
Theorem C57_two_views_suffice_refuted :
  exists pts rs ts K X, length pts = 2%nat /\ length rs = 2%nat /\ length ts = 2%nat /\ calibration_matrix K /\ exact_views pts rs ts K X /\ all_rays_different rs ts X /\
    (forall last_row, svd_last_ok last_row -> triangulateNView last_row pts rs ts K = Some (Finite X)) /\
    forall last_row shuffle d thresh prob it best0, (forall n l, Permutation (shuffle n l) l) -> (0 < it)%Z ->
      ransacTriangulation last_row shuffle pts rs ts K d thresh prob it best0 = None.
Proof.
  exists [(1, 0); (0, 0)], [vzero; vzero], [V3 0 0 0; V3 (-1) 0 0], line_K, line_X. split; [reflexivity|]. split; [reflexivity|]. split; [reflexivity|].
  split; [exists 1, 1, 0, 0; split; [lra|]; split; [lra|]; reflexivity|]. split.
  { intros [|[|k]] r t p R T P; cbn in R, T, P; try (destruct k; discriminate); [apply (line_exact 0%nat)|apply (line_exact 1%nat)]; auto. }
  split.
  { intros i j r1 r2 t1 t2 N R1 R2 T1 T2. apply (line_rays i j); auto; [cbn; lra| | | |]; destruct i as [|[|i]], j as [|[|j]]; cbn in *; auto; try (destruct i; discriminate); try (destruct j; discriminate); try congruence. }
  split; [intros last_row OK; apply C57_exact_example; auto|].
  intros. apply C57_fewer_than_four_views_is_undefined; auto.
Qed.
Print Assumptions C57_two_views_suffice_refuted.

(** "Exact views give the point" is false if the cameras have lens distortion: the images
    are triangulated as if there were none.  Four exact views, every two along different
    lines, and no order of the samples finds the point. *)
Definition bent (x : R) : R := x * (1 + x * x).
Definition bent_pts : list pt2 := [(bent 1, 0); (bent 0, 0); (bent (-1), 0); (bent (-2), 0)].
Definition bent_d : list R := [1; 0; 0; 0; 0].
Theorem C57_distorted_views_refuted :
  exists pts rs ts K d X, length rs = length pts /\ length ts = length pts /\ (4 <= length pts)%nat /\ calibration_matrix K /\
    exact_distorted_views pts rs ts K d X /\ all_rays_different rs ts X /\
    forall last_row shuffle thresh prob it best0 n, svd_last_ok last_row -> (forall n l, Permutation (shuffle n l) l) -> best0 <> Finite X ->
      ransacTriangulation last_row shuffle pts rs ts K d thresh prob it best0 <> Some (Finite X, n).
Proof.
  exists bent_pts, line_rs, line_ts, line_K, bent_d, line_X. split; [reflexivity|]. split; [reflexivity|]. split; [cbn; lia|].
  assert (HK : calibration_matrix line_K) by (exists 1, 1, 0, 0; split; [lra|]; split; [lra|]; reflexivity). split; [auto|].
  split.
  { intros k r t p R T P. assert (r = vzero) as -> by (apply nth_error_In in R; cbn in R; intuition congruence).
    assert (Z : vz (vadd (mv (exp_rot vzero) line_X) t) = 1).
    { rewrite exp_rot_0, mv_id. apply nth_error_In in T. cbn in T. intuition (subst t; cbn; ring). }
    split; [rewrite Z; lra|]. unfold cv_projectPoint. cbn [cv_coefficients bent_d]. rewrite pact_vadd. rewrite Z.
    destruct (Req_EM_T 1 0) as [Q|_]; [lra|]. rewrite exp_rot_0, mv_id. cbn [cv_brown option_map fst snd].
    destruct k as [|[|[|[|k]]]]; cbn in T, P; try (destruct k; discriminate); injection T as <-; injection P as <-;
      unfold bent; cbn; apply (f_equal Some), (f_equal2 pair); field. }
  split.
  { intros i j r1 r2 t1 t2. apply line_rays. cbn. lra. }
  intros last_row shuffle thresh prob it best0 n OK fair Hb E.
  assert (Hd : cv_coefficients bent_d <> None) by discriminate.
  destruct (ransacTriangulation_main last_row shuffle fair bent_pts line_rs line_ts line_K bent_d thresh prob eq_refl eq_refl (le_n 4) Hd it best0)
    as (best & qs & E' & _ & Fq & H).
  rewrite E in E'. injection E' as <- _.
  destruct H as [(E0 & _)|(j & m & Nj & _)]; [congruence|].
  rewrite Forall_forall in Fq. apply nth_error_In in Nj. apply Fq in Nj. clear -Nj OK HK.
  destruct Nj as (i & j & p1 & p2 & r1 & r2 & t1 & t2 & N & P1 & P2 & R1 & R2 & T1 & T2 & E).
  (* the intersection of the two lines *)
  set (u1 := fst p1). set (u2 := fst p2). set (a1 := - vx t1). set (a2 := - vx t2).
  assert (Q : forall k p t, nth_error bent_pts k = Some p -> nth_error line_ts k = Some t -> fst p = bent (1 + vx t) /\ snd p = 0 /\ vy t = 0 /\ vz t = 0).
  { intros k p t P T. destruct k as [|[|[|[|k]]]]; cbn in T, P; try (destruct k; discriminate); injection T as <-; injection P as <-; cbn; (split; [f_equal; ring|auto]). }
  destruct (Q _ _ _ P1 T1) as (U1 & S1 & Y1 & Z1). destruct (Q _ _ _ P2 T2) as (U2 & S2 & Y2 & Z2). fold u1 in U1. fold u2 in U2.
  assert (Da : vx t1 <> vx t2).
  { destruct i as [|[|[|[|i]]]], j as [|[|[|[|j]]]]; try congruence; try (destruct i; discriminate); try (destruct j; discriminate);
      injection T1 as <-; injection T2 as <-; cbn; lra. }
  assert (R12 : r1 = vzero /\ r2 = vzero) by (apply nth_error_In in R1, R2; cbn in R1, R2; intuition congruence). destruct R12 as [-> ->].
  set (x1 := 1 + vx t1) in *. set (x2 := 1 + vx t2) in *.
  set (c := 1 + (x1 * x1 + x1 * x2 + x2 * x2)).
  assert (Hx : x1 <> x2) by (unfold x1, x2; lra).
  assert (Hc : 1 < c).
  { unfold c. assert (0 < x1 * x1 + x1 * x2 + x2 * x2); [|lra].
    replace (x1 * x1 + x1 * x2 + x2 * x2) with ((x1 + x2 / 2) * (x1 + x2 / 2) + 3 / 4 * (x2 * x2)) by field.
    destruct (Req_dec x2 0) as [E0|E0].
    - assert (x1 <> 0) by lra. rewrite E0. pose proof (Rsqr_pos_lt x1 H). unfold Rsqr in *. lra.
    - pose proof (Rsqr_pos_lt x2 E0). pose proof (Rle_0_sqr (x1 + x2 / 2)). unfold Rsqr in *. lra. }
  assert (Df : u1 - u2 = (x1 - x2) * c) by (rewrite U1, U2; unfold bent, c; ring).
  set (X' := V3 (u1 / c - vx t1) 0 (/ c)).
  assert (Zc : / c <> 0) by (apply Rinv_neq_0_compat; lra).
  assert (E' : triangulateNView last_row [p1; p2] [vzero; vzero] [t1; t2] line_K = Some (Finite X')).
  { apply triangulate_exact; auto.
    - assert (I1 : forall u t p, vy t = 0 -> vz t = 0 -> snd p = 0 -> fst p = u -> u / c - vx t = vx X' -> pinhole_image line_K vzero t X' p).
      { intros u t p Yt Zt Sp Fp Ex. unfold pinhole_image. rewrite exp_rot_0, mv_id. cbn [vadd vx vy vz X' line_K m00 m02 m11 m12]. cbn [vx X'] in Ex. rewrite Yt, Zt.
        split; [lra|]. destruct p as [pu pv]. cbn in Sp, Fp. subst pu pv. rewrite <- Ex. f_equal; field; lra. }
      intros [|[|k]] r t p R T P; cbn in R, T, P; try (destruct k; discriminate); injection R as <-; injection T as <-; injection P as <-.
      + apply (I1 u1); auto.
      + apply (I1 u2); auto. cbn. replace u1 with (u2 + (x1 - x2) * c) by lra. unfold x1, x2. field. lra.
    - exists 0%nat, 1%nat, vzero, vzero, t1, t2. repeat (split; [reflexivity|]). split; [auto|]. apply (line_rays i j); auto. }
  assert (EZ : vz line_X = vz X') by (rewrite E in E'; exact (f_equal (fun o => match o with Some (Finite x) => vz x | _ => 0 end) E')).
  cbn in EZ. assert (c * 1 = c * / c) by (rewrite <- EZ; auto). rewrite Rinv_r in H by lra. lra.
Qed.
Print Assumptions C57_distorted_views_refuted.
