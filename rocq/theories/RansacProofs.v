From Coq Require Import List ZArith Lia Reals Lra Sorted Permutation Psatz.
From Verif Require Import SMap DataModel DetectModel DetectSpec DetectProofs RansacModel RansacSpec.
Import ListNotations.
Open Scope R_scope.

Lemma repro_error_dist p q : repro_error p q = dist2 p q.
Proof. unfold repro_error, dist2. f_equal. ring. Qed.

Lemma sorted_lt_ext : forall l l', StronglySorted lt l -> StronglySorted lt l' ->
  (forall k, In k l <-> In k l') -> l = l'.
Proof.
  induction l as [|a l IH]; intros l' H1 H2 H.
  - destruct l' as [|b l']; auto. exfalso. apply (H b). left; auto.
  - destruct l' as [|b l']; [exfalso; apply (H a); left; auto|].
    apply StronglySorted_inv in H1. apply StronglySorted_inv in H2. destruct H1 as [H1 F1], H2 as [H2 F2].
    rewrite Forall_forall in F1, F2.
    assert (a = b).
    { assert (A : In a (b :: l')) by (apply H; left; auto). assert (B : In b (a :: l)) by (apply H; left; auto).
      destruct A as [A|A]; auto. destruct B as [B|B]; auto. apply F2 in A. apply F1 in B. lia. }
    subst b. f_equal. apply IH; auto. intros k. split; intros Hk.
    + assert (In k (a :: l')) as [<-|]; auto. { apply H. right; auto. } apply F1 in Hk. lia.
    + assert (In k (a :: l)) as [<-|]; auto. { apply H. right; auto. } apply F2 in Hk. lia.
Qed.

Lemma combine_seq_sorted {A} : forall (l : list A) k f,
  StronglySorted lt (map fst (filter f (combine (seq k (length l)) l))) /\
  (forall i, In i (map fst (filter f (combine (seq k (length l)) l))) <->
     exists x, (k <= i)%nat /\ nth_error l (i - k) = Some x /\ f (i, x) = true).
Proof.
  induction l as [|a l IH]; intros k f; cbn [length seq combine filter map].
  - split; [constructor|]. intros i. split; [intros []|intros (x & _ & H & _)]. destruct (i - k)%nat; discriminate.
  - destruct (IH (S k) f) as [S1 S2].
    assert (Q : forall i, (In i (map fst (filter f (combine (seq (S k) (length l)) l)))) ->  (k < i)%nat).
    { intros i Hi. apply S2 in Hi. destruct Hi as (x & H & _). lia. }
    split.
    + destruct (f (k, a)); cbn; auto. constructor; auto. apply Forall_forall. intros; apply Q; auto.
    + intros i. destruct (Nat.eq_dec i k) as [->|N].
      * split.
        -- destruct (f (k, a)) eqn:E; cbn; intros H.
           ++ exists a. split; [lia|]. rewrite Nat.sub_diag. auto.
           ++ apply Q in H. lia.
        -- intros (x & _ & H1 & H2). rewrite Nat.sub_diag in H1. cbn in H1. injection H1 as <-. rewrite H2. left; auto.
      * transitivity (In i (map fst (filter f (combine (seq (S k) (length l)) l)))).
        { destruct (f (k, a)); cbn; [|tauto]. split; auto. intros [E|]; auto. lia. }
        rewrite S2. split; intros (x & A1 & B & C); exists x.
        -- split; [lia|]. split; auto. replace (i - k)%nat with (S (i - S k)) by lia. auto.
        -- split; [lia|]. split; auto. replace (i - k)%nat with (S (i - S k)) in B by lia. auto.
Qed.

Lemma pick_Some {A} (l : list A) idx r : pick l idx = Some r <-> sublist_at l idx r.
Proof.
  unfold pick, sublist_at. rewrite collect_Some. revert r.
  induction idx as [|i idx IH]; intros [|x r]; cbn.
  - split; auto.
  - split; [discriminate|inversion 1].
  - split; [discriminate|inversion 1].
  - split.
    + intros [= H1 H2]. constructor; auto. apply IH; auto.
    + inversion 1; subst. f_equal; auto. apply IH; auto.
Qed.

Lemma pick_total {A} (l : list A) idx : Forall (fun i => (i < length l)%nat) idx -> exists r, pick l idx = Some r.
Proof.
  intros H. unfold pick. destruct (collect (map (nth_error l) idx)) eqn:E; eauto.
  apply collect_None in E. apply in_map_iff in E. destruct E as (i & E & Hi).
  rewrite Forall_forall in H. apply H in Hi. apply nth_error_None in E. lia.
Qed.

Section Proofs.
Context {pose pt3 : Type}.
Variable env : rs_env pose pt3.
Hypothesis fair : fair_shuffles env.

Section Run.
Variables (K : kmat) (D : dist_t) (scene : list pt3) (img : list pt2) (thresh prob : R).
Notation cons := (consensus env K D scene img thresh).

Lemma find_inliers_spec p : length scene = length img ->
  exists l, find_inliers env K D scene img thresh p = Some l /\ cons p l.
Proof.
  intros EL. unfold find_inliers. rewrite EL, Nat.leb_refl. eexists. split; [reflexivity|].
  assert (LC : length (combine scene img) = length img) by (rewrite combine_length; lia).
  destruct (combine_seq_sorted (combine scene img) 0
     (fun '(_, (s, m)) => Rltb (repro_error m (rs_project env K D p s)) thresh)) as [S1 S2].
  rewrite LC in S1, S2. split; auto.
  assert (NE : forall i s m, nth_error (combine scene img) i = Some (s, m) <->
               nth_error scene i = Some s /\ nth_error img i = Some m).
  { clear. revert img. induction scene as [|x l IH]; intros [|y m'] i s m; destruct i; cbn; try (split; [discriminate|intros [? ?]; discriminate]).
    - split; [intros [= <- <-]; auto|intros [[= <-] [= <-]]; auto].
    - apply IH. }
  intros k. rewrite S2. unfold explained. split.
  - intros ([s m] & _ & A & B). rewrite Nat.sub_0_r in A. apply NE in A. destruct A as [A1 A2].
    exists s, m. apply Rltb_true in B. rewrite repro_error_dist in B. auto.
  - intros (s & m & A & B & C). exists (s, m). split; [lia|]. rewrite Nat.sub_0_r. split; [apply NE; auto|].
    apply Rltb_true. rewrite repro_error_dist. auto.
Qed.

Lemma consensus_unique p l l' : cons p l -> cons p l' -> l = l'.
Proof.
  intros [A B] [A' B']. apply sorted_lt_ext; auto. intros k. rewrite B, B'. tauto.
Qed.
Lemma consensus_bound p l k : cons p l -> In k l -> (k < length img)%nat.
Proof.
  intros [_ B] H. apply B in H. destruct H as (s & m & _ & H & _). apply nth_error_Some. congruence.
Qed.

Definition nbest (it : Z) best0 (qs : list pose) (st : rs_state pose) : Prop :=
  (s_inl st = [] /\ s_bestnb st = 0%nat /\ s_best st = best0 /\ s_N st = it /\
   s_trial st = Z.of_nat (length qs) /\
   (forall q l, In q qs -> cons q l -> l = [])) \/
  (exists j q l, nth_error qs j = Some q /\ cons q l /\ l <> [] /\ s_inl st = l /\ s_best st = q /\
     s_bestnb st = length l /\
     s_N st = wanted_trials prob (length l) (length scene) /\
     s_trial st = (Z.of_nat (length qs) - 1 - Z.of_nat j)%Z /\
     (forall i q' l', nth_error qs i = Some q' -> cons q' l' ->
        (length l' <= length l)%nat /\ ((i < j)%nat -> (length l' < length l)%nat))).

Record Inv it best0 (qs : list pose) (st : rs_state pose) : Prop := {
  iv_vec : Permutation (s_vec st) (seq 0 (length img));
  iv_iter : s_iter st = length qs;
  iv_cur : s_cur st = last qs (rs_uninit env);
  iv_trials : trials_from env K D scene img (rs_uninit env) qs;
  iv_best : nbest it best0 qs st }.

Lemma trials_snoc : forall qs b q, trials_from env K D scene img b qs ->
  minimal_solution env K D scene img (last qs b) q -> trials_from env K D scene img b (qs ++ [q]).
Proof.
  induction qs as [|a qs IH]; intros b q H M; cbn in *; [auto|].
  destruct H as [H1 H2]. split; auto. apply IH; auto.
  destruct qs; auto. replace (last (p :: qs) a) with (last (p :: qs) b); auto.
  clear. revert p. induction qs; intros; cbn in *; auto.
Qed.

Lemma step_ok it best0 qs st : length scene = length img -> (4 <= length img)%nat -> Inv it best0 qs st ->
  exists st' q, ransac_step env K D scene img thresh prob st = Some st' /\ Inv it best0 (qs ++ [q]) st'.
Proof.
  intros EL H4 [Iv Ii Ic It Ib]. unfold ransac_step.
  set (v := rs_shuffle env (s_iter st) (s_vec st)).
  assert (Pv : Permutation v (seq 0 (length img))) by (eapply Permutation_trans; [apply fair|auto]).
  assert (Lv : length v = length img) by (rewrite (Permutation_length Pv), seq_length; auto).
  assert (Nv : NoDup v) by (eapply Permutation_NoDup; [symmetry; apply Pv|apply seq_NoDup]).
  assert (Bv : forall i, In i v -> (i < length img)%nat).
  { intros i Hi. eapply Permutation_in in Hi; [|apply Pv]. apply in_seq in Hi. lia. }
  destruct v as [|a [|b [|c [|d v']]]] eqn:Ev; cbn in Lv; try lia. cbn [first_four].
  set (idx := [a; b; c; d]).
  assert (Hidx : Forall (fun i => (i < length img)%nat) idx).
  { apply Forall_forall. intros i Hi. apply Bv. cbn in Hi |- *. intuition auto. }
  destruct (pick_total img idx Hidx) as [i4 Hi4].
  assert (Hidx2 : Forall (fun i => (i < length scene)%nat) idx) by (rewrite EL; auto).
  destruct (pick_total scene idx Hidx2) as [s4 Hs4].
  rewrite Hi4, Hs4. set (cur := rs_p3p env K D s4 i4 (s_cur st)).
  assert (Min : minimal_solution env K D scene img (last qs (rs_uninit env)) cur).
  { exists idx, s4, i4. split; [reflexivity|]. split.
    { unfold idx. repeat match goal with H : NoDup (_ :: _) |- _ => inversion H; clear H; subst end.
      repeat constructor; cbn in *; tauto. }
    split; [apply pick_Some; auto|]. split; [apply pick_Some; auto|].
    unfold cur. rewrite Ic. reflexivity. }
  destruct (find_inliers_spec cur EL) as (il & -> & Hinl).
  assert (Hlast : last (qs ++ [cur]) (rs_uninit env) = cur) by apply last_last.
  assert (Hsn : forall i q', nth_error (qs ++ [cur]) i = Some q' ->
           nth_error qs i = Some q' \/ (i = length qs /\ q' = cur)).
  { intros i q' Hn. destruct (Nat.lt_ge_cases i (length qs)).
    - rewrite nth_error_app1 in Hn; auto.
    - rewrite nth_error_app2 in Hn; auto. destruct (i - length qs)%nat as [|m] eqn:E; cbn in Hn.
      + injection Hn as <-. right. split; auto. lia.
      + destruct m; discriminate. }
  destruct (Nat.ltb_spec (s_bestnb st) (length il)) as [Hlt|Hge].
  - eexists. exists cur. split; [reflexivity|]. constructor; cbn; auto.
    + rewrite app_length. cbn. lia.
    + apply trials_snoc; auto.
    + right. exists (length qs), cur, il. split.
      { rewrite nth_error_app2, Nat.sub_diag by auto. reflexivity. }
      split; [auto|]. split; [intros ->; cbn in Hlt; lia|]. split; [auto|]. split; [auto|]. split; [auto|].
      split; [auto|]. split; [cbn; rewrite app_length; cbn; lia|].
      intros i q' l' Hn Hc. apply Hsn in Hn. destruct Hn as [Hn|[-> ->]].
      * destruct Ib as [(A & B & _ & _ & _ & C)|(j & q & l & A & B & C & E & F & G & _ & _ & I)].
        -- apply C in Hc; [|eapply nth_error_In; eauto]. subst l'. cbn. lia.
        -- destruct (I i q' l' Hn Hc). lia.
      * rewrite (consensus_unique _ _ _ Hc Hinl). split; lia.
  - eexists. exists cur. split; [reflexivity|]. constructor; cbn; auto.
    + rewrite app_length. cbn. lia.
    + apply trials_snoc; auto.
    + destruct Ib as [(A & B & C & E & F & G)|(j & q & l & A & B & C & E & F & G & H & I & J)].
      * left. cbn. repeat (split; [auto; rewrite ?app_length; cbn; lia|]).
        intros q l Hq Hc. apply in_app_iff in Hq. destruct Hq as [Hq|[<-|[]]]; [eapply G; eauto|].
        rewrite (consensus_unique _ _ _ Hc Hinl). destruct il; auto. cbn in Hge. lia.
      * right. exists j, q, l. cbn. split.
        { rewrite nth_error_app1; auto. apply nth_error_Some. congruence. }
        split; [auto|]. split; [auto|]. split; [auto|]. split; [auto|]. split; [auto|]. split; [auto|].
        split; [rewrite app_length; cbn; lia|].
        intros i q' l' Hn Hc. apply Hsn in Hn. destruct Hn as [Hn|[-> ->]]; [eauto|].
        rewrite (consensus_unique _ _ _ Hc Hinl).
        assert (j < length qs)%nat by (apply nth_error_Some; congruence). split; lia.
Qed.

Lemma loop_ok it best0 : length scene = length img -> (4 <= length img)%nat -> forall left qs st,
  Inv it best0 qs st ->
  exists st' qs', ransac_loop env K D scene img thresh prob left st = Some st' /\ Inv it best0 qs' st' /\
    (length qs <= length qs' <= length qs + left)%nat /\
    (length qs' = (length qs + left)%nat \/ (s_N st' <= s_trial st')%Z).
Proof.
  intros EL H4. induction left as [|n IH]; intros qs st HI; cbn [ransac_loop].
  - exists st, qs. split; [auto|]. split; [auto|]. split; [lia|]. left; lia.
  - destruct (Z.ltb_spec (s_trial st) (s_N st)) as [Hlt|Hge].
    + destruct (step_ok it best0 qs st EL H4 HI) as (st1 & q & -> & HI1).
      destruct (IH _ _ HI1) as (st' & qs' & -> & HI' & Hl & Hs). rewrite app_length in *. cbn in *.
      exists st', qs'. split; [auto|]. split; [auto|]. split; [lia|]. destruct Hs; [left; lia|right; auto].
    + exists st, qs. split; [auto|]. split; [auto|]. split; [lia|]. right; lia.
Qed.

Theorem ransac_main best0 it refine : length scene = length img -> (4 <= length img)%nat ->
  exists r qs, ransacP3P env K D scene img best0 thresh it prob refine = Some r /\
    rr_trials r = length qs /\ (length qs <= Z.to_nat it)%nat /\
    trials_from env K D scene img (rs_uninit env) qs /\
    ((rr_inliers r = [] /\ rr_pose r = best0 /\ length qs = Z.to_nat it /\
      (forall q l, In q qs -> cons q l -> l = [])) \/
     (exists j q l, nth_error qs j = Some q /\ cons q l /\ l <> [] /\ rr_inliers r = l /\
        (forall i q' l', nth_error qs i = Some q' -> cons q' l' ->
           (length l' <= length l)%nat /\ ((i < j)%nat -> (length l' < length l)%nat)) /\
        ((refine = false \/ (length l < 4)%nat) /\ rr_pose r = q \/
         refine = true /\ (4 <= length l)%nat /\
         exists ls li, sublist_at scene l ls /\ sublist_at img l li /\ rr_pose r = rs_refine env K D ls li q) /\
        (length qs = Z.to_nat it \/
         (wanted_trials prob (length l) (length scene) <= Z.of_nat (length qs) - 1 - Z.of_nat j)%Z))).
Proof.
  intros EL H4. unfold ransacP3P.
  set (st0 := mkS (seq 0 (length img)) (rs_uninit env) [] 0 best0 it 0 0).
  assert (I0 : Inv it best0 [] st0).
  { constructor; cbn; auto. left. cbn. intuition (auto; contradiction). }
  destruct (loop_ok it best0 EL H4 (Z.to_nat it) [] st0 I0) as (st & qs & -> & [Iv Ii Ic It Ib] & Hl & Hs).
  cbn in Hl, Hs.
  destruct Ib as [(A & B & C & E & F & G)|(j & q & l & A & B & C & E & F & G & H & I & J)].
  - rewrite B. cbn [Nat.leb]. rewrite Bool.andb_false_r.
    exists (mkRR (s_inl st) (s_best st) (s_iter st)), qs. cbn.
    split; [auto|]. split; [auto|]. split; [lia|]. split; [auto|]. left. split; [auto|]. split; [auto|]. split; [|auto].
    destruct Hs; lia.
  - assert (Bl : Forall (fun i => (i < length img)%nat) l).
    { apply Forall_forall. intros k Hk. eapply consensus_bound; eauto. }
    assert (Bl2 : Forall (fun i => (i < length scene)%nat) l) by (rewrite EL; auto).
    destruct (pick_total img l Bl) as [li Hli]. destruct (pick_total scene l Bl2) as [ls Hls].
    rewrite E, G, Hli, Hls, F.
    assert (R0 : (length qs = Z.to_nat it \/
         (wanted_trials prob (length l) (length scene) <= Z.of_nat (length qs) - 1 - Z.of_nat j)%Z)).
    { destruct Hs as [Hs|Hs]; [left; lia|right; lia]. }
    destruct (refine && Nat.leb 4 (length l))%bool eqn:Er.
    + apply andb_prop in Er. destruct Er as [-> Er]. apply Nat.leb_le in Er.
      eexists. exists qs. split; [reflexivity|]. cbn. split; [auto|]. split; [lia|]. split; [auto|].
      right. exists j, q, l. split; [auto|]. split; [auto|]. split; [auto|]. split; [auto|]. split; [auto|].
      split; [|auto]. right. split; [auto|]. split; [auto|]. exists ls, li. rewrite <- !pick_Some. auto.
    + eexists. exists qs. split; [reflexivity|]. cbn. split; [auto|]. split; [lia|]. split; [auto|].
      right. exists j, q, l. split; [auto|]. split; [auto|]. split; [auto|]. split; [auto|]. split; [auto|].
      split; [|auto]. left. split; [|auto].
      destruct refine; auto. right. cbn [andb] in Er. apply Nat.leb_gt in Er. lia.
Qed.

(** fewer than four image points *)
Theorem ransac_too_few best0 it refine : (length img < 4)%nat -> (0 < it)%Z ->
  ransacP3P env K D scene img best0 thresh it prob refine = None.
Proof.
  intros H4 Hit. unfold ransacP3P. destruct (Z.to_nat it) as [|n] eqn:E; [lia|]. cbn [ransac_loop s_trial s_N].
  replace (0 <? it)%Z with true by (symmetry; apply Z.ltb_lt; lia).
  unfold ransac_step. cbn [s_iter s_vec].
  assert (L : length (rs_shuffle env 0 (seq 0 (length img))) = length img).
  { rewrite (Permutation_length (fair 0%nat _)), seq_length. auto. }
  destruct (rs_shuffle env 0 (seq 0 (length img))) as [|a [|b [|c [|d v]]]]; cbn in L; try reflexivity. lia.
Qed.
End Run.

(** the trial count *)
Lemma ln_upper x : 0 < x -> ln x <= x - 1.
Proof.
  intros H. destruct (Req_dec x 1) as [->|N]; [rewrite ln_1; lra|].
  apply Rnot_lt_le. intros C.
  assert (exp (x - 1) < exp (ln x)) by (apply exp_increasing; auto).
  rewrite exp_ln in H0 by auto. assert (x - 1 <> 0) by lra. apply exp_ineq1 in H1. lra.
Qed.

(** the base of the logarithm: between 1e-5 (or the exact value) and 1 - 1e-5 *)
Definition clamped (q0 : R) : R :=
  let q1 := if Req_EM_T q0 0 then 1 / 100000 else q0 in
  if Rltb (1 - 1 / 100000) q1 then 1 - 1 / 100000 else q1.
Lemma clamped_range q0 : 0 <= q0 -> 0 < clamped q0 <= 1 - 1 / 100000.
Proof.
  intros H. unfold clamped. cbv zeta.
  destruct (Req_EM_T q0 0); (destruct (Rltb (1 - 1/100000) _) eqn:E; [lra|apply Rltb_false in E; lra]).
Qed.
Lemma frac_range k n : (k <= n)%nat -> (0 < n)%nat -> 0 <= 1 - (INR k / INR n) ^ 3 <= 1.
Proof.
  intros H Hn. assert (Hp : 0 < INR n) by (apply lt_0_INR; lia).
  assert (F0 : 0 <= INR k / INR n).
  { apply Rmult_le_pos; [apply pos_INR|]. left. apply Rinv_0_lt_compat; auto. }
  assert (F1 : INR k / INR n <= 1).
  { apply (Rmult_le_reg_r (INR n)); auto. unfold Rdiv. rewrite Rmult_assoc, Rinv_l by lra.
    rewrite Rmult_1_r, Rmult_1_l. apply le_INR; auto. }
  set (f := INR k / INR n) in *. cbn. rewrite Rmult_1_r. assert (0 <= f * f <= 1) by nra. split; nra.
Qed.

Theorem wanted_trials_bounds prob k n : 0 <= prob <= 99 / 100 -> (k <= n)%nat -> (0 < n)%nat ->
  (0 <= wanted_trials prob k n <= 10000000)%Z.
Proof.
  intros Hp H Hn. unfold wanted_trials.
  fold (clamped (1 - (INR k / INR n) ^ 3)).
  pose proof (clamped_range _ (proj1 (frac_range k n H Hn))) as C.
  set (q := clamped _) in *.
  assert (L1 : ln q <= - (1 / 100000)) by (pose proof (ln_upper q); lra).
  assert (L2 : - 99 <= ln (1 - prob) <= 0).
  { split.
    - rewrite <- (Rinv_inv (1 - prob)), ln_Rinv.
      2: { apply Rinv_0_lt_compat. lra. }
      assert (I : / (1 - prob) <= 100).
      { replace 100 with (/ (1 / 100)) by field. apply Rinv_le_contravar; lra. }
      assert (0 < / (1 - prob)) by (apply Rinv_0_lt_compat; lra).
      pose proof (ln_upper _ H0). lra.
    - pose proof (ln_upper (1 - prob)). lra. }
  set (a := ln (1 - prob)) in *. set (b := ln q) in *.
  assert (X : 0 <= a / b <= 9900000).
  { replace (a / b) with ((- a) / (- b)) by (field; lra). split.
    - apply Rmult_le_pos; [lra|]. left. apply Rinv_0_lt_compat. lra.
    - apply (Rmult_le_reg_r (- b)); [lra|]. unfold Rdiv. rewrite Rmult_assoc, Rinv_l by lra. nra. }
  pose proof (nearest_round (a / b)) as N. unfold nearest in N.
  split.
  - assert (-1 < round_half_up (a / b))%Z; [|lia]. apply lt_IZR. lra.
  - assert (round_half_up (a / b) < 10000001)%Z; [|lia]. apply lt_IZR. lra.
Qed.

(** after the wanted number of trials, the chance that none was outlier-free is at most
    1 - prob, up to half a trial of rounding *)
Theorem wanted_trials_confidence prob k n (T : Z) : 0 < prob < 1 -> (k <= n)%nat -> (0 < n)%nat ->
  1 / 100000 <= 1 - (INR k / INR n) ^ 3 <= 1 - 1 / 100000 ->
  (wanted_trials prob k n <= T)%Z ->
  Rpower (1 - (INR k / INR n) ^ 3) (IZR T + / 2) <= 1 - prob.
Proof.
  intros Hp H Hn Hq HT. unfold wanted_trials in HT.
  set (q := 1 - (INR k / INR n) ^ 3) in *.
  fold (clamped q) in HT. assert (Cq : clamped q = q).
  { unfold clamped. cbv zeta. destruct (Req_EM_T q 0); [lra|]. destruct (Rltb _ q) eqn:E; auto. apply Rltb_true in E. lra. }
  rewrite Cq in HT. clearbody q.
  assert (L1 : ln q < 0) by (pose proof (ln_upper q); lra).
  pose proof (nearest_round (ln (1 - prob) / ln q)) as N. unfold nearest in N.
  apply IZR_le in HT.
  unfold Rpower. rewrite <- (exp_ln (1 - prob)) by lra.
  assert (X : (IZR T + / 2) * ln q <= ln (1 - prob)).
  { replace (ln (1 - prob)) with ((ln (1 - prob) / ln q) * ln q) by (field; lra).
    apply Rmult_le_compat_neg_l with (r := ln q) (r1 := ln (1 - prob) / ln q) (r2 := IZR T + / 2) in HT || idtac. 
    set (x := ln (1 - prob) / ln q) in *. nra. }
  destruct X as [X|X]; [left; apply exp_increasing; auto|right; rewrite X; auto].
Qed.

(** ** estimatePose of a board observation *)
Lemma zget_some {A} (l : list A) i x : zget l i = Some x <-> (0 <= i)%Z /\ nth_error l (Z.to_nat i) = Some x.
Proof. unfold zget. destruct (Z.ltb_spec i 0); split; try tauto; try discriminate; try (intros [? ?]; lia). Qed.
Lemma zget_total {A} (l : list A) ids : Forall (fun i => (0 <= i < Z.of_nat (length l))%Z) ids ->
  exists r, collect (map (zget l) ids) = Some r /\ length r = length ids.
Proof.
  intros H. destruct (collect (map (zget l) ids)) as [r|] eqn:E.
  - exists r. split; auto. apply collect_Some in E. apply (f_equal (@length _)) in E. rewrite !map_length in E. auto.
  - apply collect_None in E. apply in_map_iff in E. destruct E as (i & E & Hi).
    rewrite Forall_forall in H. apply H in Hi. unfold zget in E. destruct (Z.ltb_spec i 0); [lia|].
    apply nth_error_None in E. lia.
Qed.

Lemma sublist_at_length {A} (l : list A) idx r : sublist_at l idx r -> length r = length idx.
Proof. unfold sublist_at. induction 1; cbn; auto. Qed.

Theorem estimate_main cam board_pts pose0 thresh it (o : bobs pt2) :
  length (o_pts o) = length (o_ids o) -> (4 <= length (o_pts o))%nat ->
  Forall (fun i => (0 <= i < Z.of_nat (length board_pts))%Z) (o_ids o) ->
  exists o' p keep,
    boardobs_estimatePose env cam board_pts pose0 thresh it o = Some (o', p) /\
    o_cam o' = o_cam o /\ o_frame o' = o_frame o /\ o_board o' = o_board o /\
    StronglySorted lt keep /\ sublist_at (o_pts o) keep (o_pts o') /\ sublist_at (o_ids o) keep (o_ids o') /\
    length (o_pts o') = length keep /\ length (o_ids o') = length keep /\
    (o_valid o' = false <-> o_valid o = false \/ (length keep < 4)%nat) /\
    (exists scene r, Forall2 (fun i s => (0 <= i)%Z /\ nth_error board_pts (Z.to_nat i) = Some s) (o_ids o) scene /\
       ransacP3PDistortion env (cp_K cam) (cp_D cam) scene (o_pts o) pose0 thresh it (cp_model cam) (99/100) true = Some r /\
       p = rr_pose r /\ keep = rr_inliers r).
Proof.
  intros EL H4 Hid. unfold boardobs_estimatePose.
  destruct (zget_total board_pts (o_ids o) Hid) as (scene & Es & Ls). rewrite Es.
  assert (Fs : Forall2 (fun i s => (0 <= i)%Z /\ nth_error board_pts (Z.to_nat i) = Some s) (o_ids o) scene).
  { apply collect_Some in Es. clear - Es. revert scene Es. generalize (o_ids o).
    induction l as [|i l IH]; intros [|s r]; cbn; intros [=]; constructor; auto. apply zget_some; auto. }
  assert (R : exists r, ransacP3PDistortion env (cp_K cam) (cp_D cam) scene (o_pts o) pose0 thresh it (cp_model cam) (99/100) true = Some r
     /\ StronglySorted lt (rr_inliers r) /\ Forall (fun i => (i < length (o_pts o))%nat) (rr_inliers r)).
  { unfold ransacP3PDistortion. destruct (Z.eqb_spec (cp_model cam) 0); [|destruct (Z.eqb_spec (cp_model cam) 1)].
    - destruct (ransac_main (cp_K cam) (cp_D cam) scene (o_pts o) thresh (99/100) pose0 it true) as (r & qs & A & _ & _ & _ & B); try lia.
      exists r. split; auto. destruct B as [(-> & _)|(j & q & l & _ & B & _ & -> & _)]; [split; constructor|].
      split; [apply B|]. apply Forall_forall. intros k Hk. eapply consensus_bound; eauto.
    - destruct (ransac_main (cp_K cam) [0;0;0;0;0] scene (map (undistorted env (cp_K cam) (cp_D cam)) (o_pts o)) thresh (99/100) pose0 it true)
        as (r & qs & A & _ & _ & _ & B); rewrite ?map_length; try lia.
      exists r. split; auto. destruct B as [(-> & _)|(j & q & l & _ & B & _ & -> & _)]; [split; constructor|].
      split; [apply B|]. apply Forall_forall. intros k Hk. pose proof (consensus_bound _ _ _ _ _ _ _ _ B Hk) as Q. rewrite map_length in Q. auto.
    - eexists. split; [reflexivity|]. cbn. split; constructor. }
  destruct R as (r & Er & Sr & Br). rewrite Er.
  destruct (pick_total (o_pts o) _ Br) as [pts Hpts].
  assert (Br2 : Forall (fun i => (i < length (o_ids o))%nat) (rr_inliers r)) by (rewrite <- EL; auto).
  destruct (pick_total (o_ids o) _ Br2) as [ids Hids]. rewrite Hpts, Hids.
  apply pick_Some in Hpts. apply pick_Some in Hids.
  eexists. exists (rr_pose r), (rr_inliers r). split; [reflexivity|]. cbn -[Nat.ltb].
  split; [auto|]. split; [auto|]. split; [auto|]. split; [auto|]. split; [auto|]. split; [auto|].
  split; [eapply sublist_at_length; eauto|]. split; [eapply sublist_at_length; eauto|]. split.
  - destruct (Nat.ltb_spec (length (rr_inliers r)) 4); [split; auto|]. split; [auto|]. intros [|]; [auto|lia].
  - exists scene, r. auto.
Qed.

Lemma distortion_too_few K D scene img best0 thresh it model prob refine :
  (model = 0 \/ model = 1)%Z -> (length img < 4)%nat -> (0 < it)%Z ->
  ransacP3PDistortion env K D scene img best0 thresh it model prob refine = None.
Proof.
  intros Hm H4 Hit. unfold ransacP3PDistortion. destruct Hm as [-> | ->]; cbn [Z.eqb].
  - apply ransac_too_few; auto.
  - apply ransac_too_few; auto. rewrite map_length. auto.
Qed.
End Proofs.

(** computeReprojectionError *)
Lemma mean_nonneg l : Forall (fun x => 0 <= x) l -> 0 <= fold_right Rplus 0 l.
Proof. induction 1; cbn; lra. Qed.

Theorem reprojection_error_main {pt3} (project : pt3 -> pt2) pts3 ids pts :
  length pts = length ids -> Forall (fun i => (0 <= i < Z.of_nat (length pts3))%Z) ids ->
  exists e ds, computeReprojectionError project pts3 ids pts = Some e /\
    Forall2 (fun '(i, p) d => exists s, nth_error pts3 (Z.to_nat i) = Some s /\ d = dist2 p (project s))
            (combine ids pts) ds /\
    e = match ds with [] => 0 | _ => mean ds end /\ 0 <= e.
Proof.
  intros EL Hid. unfold computeReprojectionError.
  destruct (zget_total pts3 ids Hid) as (scene & Es & Ls). rewrite Es.
  replace (Nat.leb (length scene) (length pts)) with true by (symmetry; apply Nat.leb_le; lia).
  set (errs := map (fun '(s, p) => repro_error p (project s)) (combine scene pts)).
  eexists. exists errs. split; [reflexivity|]. split; [|split].
  - unfold errs. apply collect_Some in Es. clear - Es. revert scene pts Es.
    induction ids as [|i l IH]; intros [|s r] [|p q]; cbn; try constructor; try discriminate.
    + injection Es as E1 E2. apply zget_some in E1. exists s. split; [apply E1|]. apply repro_error_dist.
    + injection Es as E1 E2. auto.
  - destruct errs; [reflexivity|]. cbn [length Nat.ltb Nat.leb]. unfold mean. rewrite fold_left_Rplus. f_equal. lra.
  - assert (N : Forall (fun x => 0 <= x) errs).
    { unfold errs. apply Forall_forall. intros x Hx. apply in_map_iff in Hx. destruct Hx as ([s p] & <- & _).
      unfold repro_error. apply sqrt_pos. }
    destruct (Nat.ltb_spec 0 (length errs)); [|lra]. rewrite fold_left_Rplus.
    apply mean_nonneg in N. apply Rmult_le_pos; [lra|]. left. apply Rinv_0_lt_compat. apply lt_0_INR. auto.
Qed.
