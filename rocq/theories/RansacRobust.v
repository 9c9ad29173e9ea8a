(** Sample consensus on correspondences of which some are wrong. *)
From Coq Require Import List ZArith Lia Reals Lra Sorted Permutation.
From Verif Require Import SMap DataModel DetectModel DetectSpec DetectProofs RansacModel RansacSpec RansacProofs RansacExact OutlierSpec.
Import ListNotations.
Open Scope R_scope.

Section Robust.
Context {pose pt3 : Type}.
Variable env : rs_env pose pt3.
Hypothesis fair : fair_shuffles env.
Variables (K : kmat) (D : dist_t) (scene : list pt3) (img : list pt2) (thresh prob : R) (P : pose) (keep : list nat) (it : Z).
Hypothesis EL : length scene = length img.
Let n := length img.
Hypothesis CP : consensus env K D scene img thresh P keep.
Hypothesis Good : forall k before q, (Z.of_nat k < it)%Z -> incl (sample env n k) keep -> made_from env K D scene img (sample env n k) before q -> q = P.
Hypothesis Bad : forall k before q l, (Z.of_nat k < it)%Z -> ~ incl (sample env n k) keep -> made_from env K D scene img (sample env n k) before q ->
  consensus env K D scene img thresh q l -> (length l < length keep)%nat.
Variable k0 : nat.
Hypothesis L0 : (Z.of_nat k0 < it)%Z.
Hypothesis L1 : incl (sample env n k0) keep.
Hypothesis L2 : forall l, (0 < l < length keep)%nat -> (Z.of_nat k0 < wanted_trials prob l n)%Z.

Lemma order_perm k : Permutation (order env n k) (seq 0 n).
Proof. induction k as [|k IH]; cbn [order]; [auto|]. eapply Permutation_trans; [apply fair|exact IH]. Qed.
Lemma order_length k : length (order env n k) = n.
Proof. rewrite (Permutation_length (order_perm k)). apply seq_length. Qed.
Lemma keep_bound k : In k keep -> (k < n)%nat.
Proof. intros H. destruct CP as (_ & C). apply C in H as (s & m & _ & H & _). apply nth_error_Some. congruence. Qed.
Lemma keep_four : (4 <= n)%nat -> (4 <= length keep)%nat.
Proof.
  intros L. assert (N : NoDup (sample env n k0)).
  { unfold sample. assert (Q : NoDup (order env n (S k0))) by (eapply Permutation_NoDup; [apply Permutation_sym, order_perm|apply seq_NoDup]).
    rewrite <- (firstn_skipn 4 (order env n (S k0))) in Q. clear - Q. induction (firstn 4 (order env n (S k0))) as [|x l IH]; [constructor|]. inversion Q; subst. constructor; [|auto].
    intros H. apply H1. apply in_app_iff. auto. }
  assert (Q := NoDup_incl_length N L1). unfold sample in Q. rewrite firstn_length, order_length in Q. lia.
Qed.
Lemma first_sample k : (4 <= n)%nat -> first_four (order env n (S k)) = Some (sample env n k).
Proof.
  intros L. unfold sample. assert (Q := order_length (S k)). destruct (order env n (S k)) as [|a [|b [|c [|d r]]]]; cbn in Q; try lia. reflexivity.
Qed.
Lemma sample_bound k : Forall (fun i => (i < n)%nat) (sample env n k).
Proof.
  apply Forall_forall. intros x Hx. unfold sample in Hx. assert (In x (order env n (S k))) by (rewrite <- (firstn_skipn 4 (order env n (S k))); apply in_app_iff; auto).
  apply (Permutation_in _ (order_perm (S k))) in H. apply in_seq in H. lia.
Qed.

Definition found (st : rs_state pose) : Prop := s_bestnb st = length keep /\ s_inl st = keep /\ s_best st = P.
Definition searching (i : nat) (st : rs_state pose) : Prop :=
  (s_bestnb st < length keep)%nat /\ (forall j, (j < i)%nat -> ~ incl (sample env n j) keep) /\ (s_trial st <= Z.of_nat i)%Z /\
  (s_N st = it \/ exists l, (0 < l < length keep)%nat /\ s_N st = wanted_trials prob l n).
Definition at_step (i : nat) (st : rs_state pose) : Prop := s_iter st = i /\ s_vec st = order env n i /\ (found st \/ searching i st).

Lemma robust_step i st : (4 <= n)%nat -> (Z.of_nat i < it)%Z -> at_step i st ->
  exists st', ransac_step env K D scene img thresh prob st = Some st' /\ at_step (S i) st'.
Proof.
  intros N4 Hi (E1 & E2 & H). unfold ransac_step. rewrite E1, E2. change (rs_shuffle env i (order env n i)) with (order env n (S i)). rewrite first_sample by auto.
  destruct (pick_total scene (sample env n i)) as (s4 & Es); [rewrite EL; apply sample_bound|]. destruct (pick_total img (sample env n i)) as (m4 & Em); [apply sample_bound|].
  rewrite Es, Em. set (cur := rs_p3p env K D s4 m4 (s_cur st)).
  assert (Ca : made_from env K D scene img (sample env n i) (s_cur st) cur) by (exists s4, m4; rewrite <- !pick_Some; auto).
  destruct (find_inliers_spec env K D scene img thresh cur EL) as (l & -> & C).
  assert (In_dec : incl (sample env n i) keep \/ ~ incl (sample env n i) keep).
  { destruct (Forall_dec (fun j => In j keep) (fun j => in_dec Nat.eq_dec j keep) (sample env n i)) as [F|F]; [left; intros j Hj; exact (proj1 (Forall_forall _ _) F j Hj)|right; intros Q; apply F; apply Forall_forall; exact Q]. }
  destruct In_dec as [I|I].
  - assert (Ec : cur = P) by (eapply Good; eauto). assert (El : l = keep) by (rewrite Ec in C; eapply consensus_unique; eauto). rewrite El, Ec. destruct H as [(F1 & F2 & F3)|(S1 & S2 & S3 & S4)].
    + destruct (Nat.ltb_spec (s_bestnb st) (length keep)); [lia|]. eexists. split; [reflexivity|]. split; [cbn; lia|]. split; [reflexivity|]. left. split; [auto|]. split; auto.
    + destruct (Nat.ltb_spec (s_bestnb st) (length keep)); [|lia]. eexists. split; [reflexivity|]. split; [cbn; lia|]. split; [reflexivity|]. left. split; [auto|]. split; auto.
  - assert (Ll : (length l < length keep)%nat) by (eapply Bad; eauto). destruct H as [(F1 & F2 & F3)|(S1 & S2 & S3 & S4)].
    + destruct (Nat.ltb_spec (s_bestnb st) (length l)); [lia|]. eexists. split; [reflexivity|]. split; [cbn; lia|]. split; [reflexivity|]. left. split; [auto|]. split; auto.
    + assert (S2' : forall j, (j < S i)%nat -> ~ incl (sample env n j) keep) by (intros j Hj; destruct (Nat.eq_dec j i) as [->|]; [auto|apply S2; lia]).
      destruct (Nat.ltb_spec (s_bestnb st) (length l)); (eexists; split; [reflexivity|]; split; [cbn; lia|]; split; [reflexivity|]; right; split; [cbn; lia|]; split; [exact S2'|]; split; [cbn; lia|]).
      * right. exists (length l). split; [lia|]. cbn [s_N]. rewrite EL. reflexivity.
      * exact S4.
Qed.
Lemma robust_loop left : (4 <= n)%nat -> forall i st, Z.of_nat (left + i) = it -> at_step i st ->
  exists st', ransac_loop env K D scene img thresh prob left st = Some st' /\ found st'.
Proof.
  intros N4. induction left as [|left IH]; intros i st Hi A; cbn [ransac_loop].
  - exists st. split; [auto|]. destruct A as (_ & _ & [F|(_ & S & _)]); [auto|]. exfalso. apply (S k0); [lia|auto].
  - destruct (Z.ltb_spec (s_trial st) (s_N st)) as [L|L].
    + destruct (robust_step i st N4 ltac:(lia) A) as (st' & E & A'). rewrite E. apply (IH (S i)); auto. lia.
    + exists st. split; [auto|]. destruct A as (_ & _ & [F|(_ & S & T & [Q|(l & Hl & Q)])]); [auto|exfalso; lia|exfalso].
      assert (i <= k0)%nat by (destruct (Nat.le_gt_cases i k0) as [|G]; [auto|exfalso; apply (S k0); auto]). specialize (L2 l Hl). lia.
Qed.
Theorem ransac_robust best0 : (4 <= n)%nat -> exists r ls li, ransacP3P env K D scene img best0 thresh it prob true = Some r /\
  rr_inliers r = keep /\ sublist_at scene keep ls /\ sublist_at img keep li /\ rr_pose r = rs_refine env K D ls li P.
Proof.
  intros N4. assert (K4 := keep_four N4). unfold ransacP3P. fold n.
  destruct (robust_loop (Z.to_nat it) N4 0 (mkS (seq 0 n) (rs_uninit env) [] 0 best0 it 0 0)) as (st & -> & F1 & F2 & F3); [lia| |].
  { split; [auto|]. split; [auto|]. right. split; [cbn; lia|]. split; [lia|]. split; [cbn; lia|]. left. auto. }
  rewrite F1, F2, F3. cbn [andb]. destruct (Nat.leb_spec 4 (length keep)); [|lia].
  destruct (pick_total img keep) as (li & El); [apply Forall_forall; apply keep_bound|]. destruct (pick_total scene keep) as (ls & Es); [apply Forall_forall; rewrite EL; apply keep_bound|].
  rewrite El, Es. eexists. exists ls, li. split; [reflexivity|]. cbn [rr_inliers rr_pose]. split; [auto|]. rewrite <- !pick_Some. auto.
Qed.
End Robust.
