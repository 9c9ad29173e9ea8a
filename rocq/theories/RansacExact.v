(** Sample consensus on correspondences that fit a pose exactly. *)
From Coq Require Import List ZArith Lia Reals Lra Sorted Permutation.
From Verif Require Import SMap DataModel DetectModel DetectSpec DetectProofs RansacModel RansacSpec RansacProofs.
Import ListNotations.
Open Scope R_scope.

Lemma sublist_seq {A} (l : list A) : sublist_at l (seq 0 (length l)) l.
Proof.
  unfold sublist_at. assert (G : forall l pre : list A, Forall2 (fun i x => nth_error (pre ++ l) i = Some x) (seq (length pre) (length l)) l).
  { clear. induction l as [|a l IH]; intros pre; cbn [length seq]; constructor.
    - rewrite nth_error_app2, Nat.sub_diag by lia. reflexivity.
    - specialize (IH (pre ++ [a])). rewrite app_length in IH. cbn [length] in IH. rewrite Nat.add_1_r in IH. rewrite <- app_assoc in IH. exact IH. }
  exact (G l []).
Qed.
Lemma sublist_at_fun {A} (l : list A) idx : forall r r', sublist_at l idx r -> sublist_at l idx r' -> r = r'.
Proof.
  induction idx as [|i idx IH]; intros r r' H H'; inversion H; inversion H'; subst; auto. f_equal; [congruence|]. apply IH; auto.
Qed.

Section Exact.
Context {pose pt3 : Type}.
Variable env : rs_env pose pt3.
Hypothesis fair : fair_shuffles env.
Variables (K : kmat) (D : dist_t) (scene : list pt3) (img : list pt2) (thresh prob : R) (P : pose).
Hypothesis EL : length scene = length img.
Hypothesis L4 : (4 <= length img)%nat.
Hypothesis Tp : 0 < thresh.
(** every candidate is P *)
Hypothesis Min : forall before q, minimal_solution env K D scene img before q -> q = P.
(** P explains every correspondence exactly *)
Hypothesis Fit : forall i s m, nth_error scene i = Some s -> nth_error img i = Some m -> rs_project env K D P s = m.

Lemma all_explained k : (k < length img)%nat -> explained env K D scene img thresh P k.
Proof.
  intros Hk. destruct (nth_error scene k) as [s|] eqn:Es; [|apply nth_error_None in Es; lia]. destruct (nth_error img k) as [m|] eqn:Em; [|apply nth_error_None in Em; lia].
  exists s, m. split; [auto|]. split; [auto|]. rewrite (Fit k s m Es Em). unfold dist2. replace (_ + _) with 0 by ring. rewrite sqrt_0. auto.
Qed.
Lemma all_inliers l : consensus env K D scene img thresh P l -> l = seq 0 (length img).
Proof.
  intros C. apply (consensus_unique env K D scene img thresh P l); auto. split.
  - clear. generalize (length img), 0%nat. induction n as [|n IH]; intros k; cbn [seq]; constructor; auto. apply Forall_forall. intros x Hx. apply in_seq in Hx. lia.
  - intros k. rewrite in_seq. split; [intros H; apply all_explained; lia|]. intros (s & m & _ & H & _). assert (k < length img)%nat by (apply nth_error_Some; congruence). lia.
Qed.
Lemma all_trials qs : forall before, trials_from env K D scene img before qs -> forall q, In q qs -> q = P.
Proof. induction qs as [|x qs IH]; intros b T q Hq; cbn in *; [destruct Hq|]. destruct T as (T1 & T2), Hq as [<-|Hq]; eauto. Qed.
Lemma ransac_exact best0 it : (0 < it)%Z -> exists r, ransacP3P env K D scene img best0 thresh it prob true = Some r /\
  rr_inliers r = seq 0 (length img) /\ rr_pose r = rs_refine env K D scene img P.
Proof.
  intros Hit. destruct (ransac_main env fair K D scene img thresh prob best0 it true EL L4) as (r & qs & E & _ & _ & T & H). exists r. split; [auto|].
  assert (AT := all_trials qs _ T).
  assert (NE : forall x, length (seq 0 (length img)) = x -> (4 <= x)%nat) by (intros x <-; rewrite seq_length; auto).
  destruct H as [(_ & _ & Lq & Em)|(j & q & l & Hq & C & _ & Ei & _ & Hr & _)].
  - exfalso. destruct qs as [|q qs]; [cbn in Lq; lia|]. assert (q = P) by (apply AT; left; auto). subst q.
    destruct (find_inliers_spec env K D scene img thresh P EL) as (l & _ & C). assert (l = []) by (apply (Em P l); auto; left; auto). subst l.
    apply all_inliers in C. specialize (NE 0%nat). rewrite <- C in NE. specialize (NE eq_refl). lia.
  - assert (q = P) by (apply AT; eapply nth_error_In; eauto). subst q. apply all_inliers in C. subst l. split; [auto|].
    destruct Hr as [([Q|Q] & _)|(_ & _ & ls & li & S1 & S2 & ->)]; [discriminate Q|specialize (NE _ eq_refl); lia|].
    assert (ls = scene) as -> by (apply (sublist_at_fun scene (seq 0 (length img))); auto; rewrite <- EL; apply sublist_seq).
    assert (li = img) as -> by (apply (sublist_at_fun img (seq 0 (length img))); auto; apply sublist_seq). auto.
Qed.
End Exact.
