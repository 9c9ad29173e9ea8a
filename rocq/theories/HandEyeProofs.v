(** Facts about the hand-eye functions. *)
From Coq Require Import List ZArith QArith Lia Lra Reals Permutation.
From Verif Require Import SMap GraphModel DataModel DetectModel DetectProofs GeomModel GeomSpec GeomProofs GeomMedian ChainModel ChainSpec ChainProofs
  ObjectsModel ObjectsProofs GroupModel StageModel StageMain PipelineModel HandEyeModel HandEyeSpec.
Import ListNotations.
Close Scope Q_scope.
Close Scope R_scope.
Open Scope nat_scope.

Lemma poses_of_cluster_In labels c i : In i (poses_of_cluster labels c) <-> nth_error labels i = Some c.
Proof.
  unfold poses_of_cluster. rewrite filter_In, in_seq, Nat.eqb_eq. split.
  - intros ((_ & L) & E). rewrite <- E. apply nth_error_nth'. lia.
  - intros H. assert (i < length labels) by (apply nth_error_Some; congruence). split; [lia|]. apply nth_error_nth. auto.
Qed.
Lemma through_rigid lr P : log_ok lr -> rigid P -> through_rodrigues lr P = P.
Proof. intros Hl R. unfold through_rodrigues, Proj2RT. cbn. rewrite Hl by apply R. destruct P; auto. Qed.

Section F.
Variables (lr : mat3 -> vec3) (he heh : list (pose * pose) -> pose) (svd : (nat -> nat -> R) -> quat).
Variables (km : list (vec3 * vec3) -> nat -> list nat) (shuffle : nat -> list nat -> list nat) (rnd : nat -> nat -> nat -> nat).
Hypothesis Hk : kmeans_ok km.
Hypothesis Hs : shuffle_ok shuffle.
Hypothesis Hr : rnd_ok rnd.

Lemma selectPoses_ok labels it cl : (forall c, In c cl -> In c labels) ->
  exists sel, selectPoses labels (rnd it) cl = Some sel /\ length sel = length cl /\
    Forall2 (fun c i => nth_error labels i = Some c) cl sel.
Proof.
  intros I. unfold selectPoses. set (f := fun c => let l := poses_of_cluster labels c in nth_error l (rnd it c (length l))).
  destruct (collect_total f cl) as (sel & E & F).
  { intros c Hc. unfold f. cbv zeta. apply I in Hc. apply In_nth_error in Hc as (i & Hi). apply poses_of_cluster_In in Hi.
    assert (L : rnd it c (length (poses_of_cluster labels c)) < length (poses_of_cluster labels c)).
    { apply Hr. destruct (poses_of_cluster labels c); [destruct Hi|cbn; lia]. }
    destruct (nth_error (poses_of_cluster labels c) (rnd it c (length (poses_of_cluster labels c)))) eqn:E; [eauto|].
    apply nth_error_None in E. lia. }
  exists sel. split; auto. apply collect_Some in E.
  assert (Q : Forall2 (fun c i => f c = Some i) cl sel).
  { clear -E. revert sel E. induction cl as [|c cl IH]; intros [|i sel] E; try discriminate; constructor; injection E as E1 E2; auto. }
  split; [clear -Q; induction Q; cbn; auto|].
  clear -Q. induction Q as [|c i cl sel H Q IH]; constructor; auto. unfold f in H. cbv zeta in H. apply nth_error_In in H. apply poses_of_cluster_In. auto.
Qed.
Lemma preparePoses_ok p1 p2 sel : (forall i, In i sel -> i < length p1 /\ i < length p2) ->
  exists data, preparePoses lr p1 p2 sel = Some data /\
    Forall2 (fun i d => exists a b, nth_error p1 i = Some a /\ nth_error p2 i = Some b /\ d = (through_rodrigues lr (pinv a), through_rodrigues lr b)) sel data.
Proof.
  intros I. unfold preparePoses. set (f := fun i => match nth_error p1 i with Some a => _ | None => _ end).
  destruct (collect_total f sel) as (data & E & _).
  { intros i Hi. destruct (I i Hi) as (L1 & L2). unfold f. destruct (nth_error p1 i) eqn:E1; [|apply nth_error_None in E1; lia].
    destruct (nth_error p2 i) eqn:E2; [eauto|apply nth_error_None in E2; lia]. }
  exists data. split; auto. apply collect_Some in E.
  revert data E. induction sel as [|i sel IH]; intros [|d data] E; try discriminate; constructor.
  - injection E as E _. unfold f in E. destruct (nth_error p1 i) as [a|]; [|discriminate]. destruct (nth_error p2 i) as [b|]; [|discriminate]. injection E as <-. eauto.
  - apply IH; [intros; apply I; right; auto|]. injection E as _ E. auto.
Qed.

(** checkSetConsistency compares each pose with itself *)
Definition verdict (X : pose) : R := std_max 0 (err_degree lr (pmul X X)).
Lemma std_max_idem a b : std_max (std_max a b) b = std_max a b.
Proof. destruct b as [b|]; cbn; auto. destruct (Rlt_dec a b) as [H|H]; [destruct (Rlt_dec b b); auto; lra|]. destruct (Rlt_dec a b); [contradiction|auto]. Qed.
Lemma check_value p1 p2 sel X : Forall rigid p1 -> Forall rigid p2 -> (forall i, In i sel -> i < length p1 /\ i < length p2) -> 2 <= length sel ->
  checkSetConsistency lr p1 p2 sel X = Some (verdict X).
Proof.
  intros R1 R2 I L.
  set (step := fun (acc : option R) (i j : nat) => match acc with Some mx => Some (if Nat.eqb i j then mx else std_max mx (err_degree lr (pmul X X))) | None => None end).
  assert (E : checkSetConsistency lr p1 p2 sel X = fold_left (fun acc i => fold_left (fun acc j => step acc i j) (seq 0 (length sel)) acc) (seq 0 (length sel)) (Some 0%R)).
  { unfold checkSetConsistency.
    assert (Q : forall l acc, (forall i, In i l -> i < length sel) -> fold_left (fun acc i => fold_left (fun acc j =>
      match acc with
      | None => None
      | Some mx =>
          if Nat.eqb i j then Some mx else
          match nth_error sel i with
          | None => None
          | Some n =>
              match nth_error p1 n, nth_error p2 n with
              | Some p11, Some p21 =>
                  let p12 := p11 in let p22 := p21 in
                  let PP1 := pmul (pinv p12) p11 in
                  let PP2 := pmul (pinv p21) p22 in
                  Some (std_max mx (err_degree lr (pmul (pmul (pmul (pinv PP2) X) PP1) X)))
              | _, _ => None
              end
          end
      end) (seq 0 (length sel)) acc) l acc = fold_left (fun acc i => fold_left (fun acc j => step acc i j) (seq 0 (length sel)) acc) l acc).
    { induction l as [|i l IH]; intros acc Hl; cbn [fold_left]; auto. rewrite IH by (intros; apply Hl; right; auto). f_equal.
      assert (Hi : i < length sel) by (apply Hl; left; auto). generalize (seq 0 (length sel)) as js. clear IH.
      intros js. revert acc. induction js as [|j js IHj]; intros acc; cbn [fold_left]; auto. rewrite IHj. f_equal.
      unfold step. destruct acc as [mx|]; auto. destruct (Nat.eqb i j); auto.
      destruct (nth_error sel i) as [n|] eqn:En; [|apply nth_error_None in En; lia].
      assert (Hn := nth_error_In _ _ En). apply I in Hn as (L1 & L2).
      destruct (nth_error p1 n) as [a|] eqn:Ea; [|apply nth_error_None in Ea; lia]. destruct (nth_error p2 n) as [b|] eqn:Eb; [|apply nth_error_None in Eb; lia].
      cbv zeta. rewrite Forall_forall in R1, R2. rewrite (pinv_l a) by (apply R1; eapply nth_error_In; eauto). rewrite (pinv_l b) by (apply R2; eapply nth_error_In; eauto).
      assert (PI : pinv pid = pid) by (rewrite <- (pmul_id_r (pinv pid)); apply pinv_l, rigid_id). rewrite PI, pmul_id_l, pmul_id_r. auto. }
    apply Q. intros i Hi. apply in_seq in Hi. lia. }
  rewrite E. clear E. unfold verdict. set (e := err_degree lr (pmul X X)) in *.
  assert (ONE : forall i js a, exists b, (b = a \/ b = std_max a e) /\ fold_left (fun acc j => step acc i j) js (Some a) = Some b /\
     ((exists j, In j js /\ j <> i) -> b = std_max a e)).
  { intros i js. induction js as [|j js IH]; intros a; cbn [fold_left].
    - exists a. split; auto. split; auto. intros (j & [] & _).
    - unfold step at 2. destruct (Nat.eqb i j) eqn:Eij.
      + destruct (IH a) as (b & D & Eb & N). exists b. split; auto. split; auto. intros (j' & [<-|Hj] & Ne); [apply Nat.eqb_eq in Eij; lia|]. apply N. eauto.
      + destruct (IH (std_max a e)) as (b & D & Eb & N). rewrite std_max_idem in *. exists b.
        assert (b = std_max a e) by (destruct D; auto). auto. }
  destruct (length sel) as [|[|n]]; [lia|lia|]. cbn [seq fold_left].
  replace (step (step (Some 0%R) 0 0) 0 1) with (Some (std_max 0 e)) by reflexivity.
  assert (REST : forall l js, fold_left (fun acc i => fold_left (fun acc j => step acc i j) js acc) l (Some (std_max 0 e)) = Some (std_max 0 e)).
  { induction l as [|i l IH]; intros js; cbn [fold_left]; auto. destruct (ONE i js (std_max 0 e)) as (b & D & -> & _). rewrite std_max_idem in D. destruct D as [-> | ->]; apply IH. }
  assert (REST1 : forall i js, fold_left (fun acc j => step acc i j) js (Some (std_max 0 e)) = Some (std_max 0 e)).
  { intros i js. destruct (ONE i js (std_max 0 e)) as (b & D & -> & _). rewrite std_max_idem in D. destruct D as [-> | ->]; auto. }
  rewrite REST1. apply (REST (1 :: seq 2 n) (0 :: 1 :: seq 2 n)).
Qed.

Lemma check_defined p1 p2 sel X : (forall i, In i sel -> i < length p1 /\ i < length p2) -> exists e, checkSetConsistency lr p1 p2 sel X = Some e.
Proof.
  intros I. unfold checkSetConsistency.
  match goal with |- exists e, fold_left ?f ?l (Some 0%R) = Some e => assert (Q : forall l0 a, (forall i, In i l0 -> i < length sel) -> exists e, fold_left f l0 (Some a) = Some e) end.
  { induction l0 as [|i l0 IH]; intros a Hl; cbn [fold_left]; eauto.
    match goal with |- exists e, fold_left _ l0 ?x = Some e => assert (S : exists b, x = Some b) end.
    { assert (Hi : i < length sel) by (apply Hl; left; auto). generalize (seq 0 (length sel)) as js. intros js. revert a. induction js as [|j js IHj]; intros a; cbn [fold_left]; eauto.
      destruct (Nat.eqb i j); auto. destruct (nth_error sel i) as [n|] eqn:En; [|apply nth_error_None in En; lia].
      assert (Hn := nth_error_In _ _ En). apply I in Hn as (L1 & L2).
      destruct (nth_error p1 n) as [p|] eqn:Ea; [|apply nth_error_None in Ea; lia]. destruct (nth_error p2 n) as [q|] eqn:Eb; [|apply nth_error_None in Eb; lia]. apply IHj. }
    destruct S as (b & ->). apply IH. intros; apply Hl; right; auto. }
  apply Q. intros i Hi. apply in_seq in Hi. lia.
Qed.
Lemma firstn_In_sub {A} n (l : list A) x : In x (firstn n l) -> In x l.
Proof. rewrite <- (firstn_skipn n l) at 2. intros H. apply in_or_app. auto. Qed.
Lemma combine_len {A B} (a : list A) (b : list B) : length a = length b -> length (combine a b) = length a.
Proof. intros E. rewrite combine_length. lia. Qed.

(** one iteration: six different poses *)
Lemma candidate_ok p1 p2 m it : length p1 = length p2 -> 6 <= m -> m <= length p1 ->
  let labels := km (getTranslationsForClustering p1 p2) m in
  exists sel data e, length sel = 6 /\ NoDup sel /\ (forall i, In i sel -> i < length p1 /\ i < length p2) /\
    preparePoses lr p1 p2 sel = Some data /\
    checkSetConsistency lr p1 p2 sel (he data) = Some e /\
    one_candidate lr he shuffle rnd p1 p2 labels m it = Some (he data, if Rlt_dec e 15 then true else false).
Proof.
  intros EL M6 Mn labels.
  assert (LP : length (getTranslationsForClustering p1 p2) = length p1) by (unfold getTranslationsForClustering; rewrite map_length, combine_len; auto).
  destruct (Hk (getTranslationsForClustering p1 p2) m) as (LL & Cl); [lia|]. fold labels in LL, Cl.
  assert (P := Hs it (seq 0 m)). assert (Lsh : length (shuffle it (seq 0 m)) = m) by (rewrite (Permutation_length P); apply seq_length).
  set (cl := firstn 6 (shuffle it (seq 0 m))).
  assert (Lc : length cl = 6) by (unfold cl; rewrite firstn_length; lia).
  assert (NDc : NoDup cl).
  { assert (N : NoDup (shuffle it (seq 0 m))) by (eapply Permutation_NoDup; [symmetry; eauto|apply seq_NoDup]).
    rewrite <- (firstn_skipn 6 (shuffle it (seq 0 m))) in N. fold cl in N. clear -N. induction cl as [|x cl IH]; constructor; cbn in N; inversion N; subst.
    - intros H. apply H1. apply in_or_app. auto.
    - auto. }
  assert (Sub : forall c, In c cl -> In c labels).
  { intros c Hc. apply Cl. apply firstn_In_sub in Hc. eapply Permutation_in in Hc; [|exact P]. apply in_seq in Hc. lia. }
  destruct (selectPoses_ok labels it cl Sub) as (sel & Es & Ls & F).
  assert (Rng : forall i, In i sel -> i < length p1 /\ i < length p2).
  { intros i Hi. assert (i < length labels); [|lia]. clear -F Hi. induction F as [|c j cl sel H F IH]; [destruct Hi|]. destruct Hi as [<-|Hi]; auto. apply nth_error_Some. congruence. }
  destruct (preparePoses_ok p1 p2 sel Rng) as (data & Ed & _). destruct (check_defined p1 p2 sel (he data) Rng) as (e & Ee).
  exists sel, data, e. split; [congruence|]. split.
  { clear -F NDc. induction F as [|c j cl sel H F IH]; constructor; inversion NDc; subst; auto.
    intros Hj. apply H2. clear -F H Hj. induction F as [|c' j' cl sel H' F IH]; [destruct Hj|]. destruct Hj as [->|Hj]; [left; congruence|right; auto]. }
  split; [auto|]. split; [auto|]. split; [auto|].
  unfold one_candidate, selectClusters. rewrite Lsh. replace (Nat.leb 6 m) with true by (symmetry; apply Nat.leb_le; auto). fold cl. rewrite Es, Ed, Ee. auto.
Qed.
Lemma candidate_short p1 p2 labels m it : m < 6 -> one_candidate lr he shuffle rnd p1 p2 labels m it = None.
Proof.
  intros L. unfold one_candidate, selectClusters. rewrite (Permutation_length (Hs it (seq 0 m))), seq_length.
  replace (Nat.leb 6 m) with false by (symmetry; apply Nat.leb_gt; auto). auto.
Qed.
Lemma handeye_self p : handeyeCalibration lr heh p p = Some (heh (map (fun '(a, b) => (through_rodrigues lr (pinv a), through_rodrigues lr b)) (combine p p))).
Proof. unfold handeyeCalibration. rewrite Nat.leb_refl. auto. Qed.

Lemma bootstrap_cases nb_cluster nb_it p1 p2 : length p1 = length p2 -> 6 <= nb_cluster -> 6 <= length p1 ->
  exists cs, collect (map (one_candidate lr he shuffle rnd p1 p2 (km (getTranslationsForClustering p1 p2) (Nat.min nb_cluster (length p1))) (Nat.min nb_cluster (length p1))) (seq 0 nb_it)) = Some cs /\
    length cs = nb_it /\
    handeyeBootstraptTranslationCalibration lr he heh svd km shuffle rnd nb_cluster nb_it p1 p2 =
      let ok := map fst (filter snd cs) in
      if Nat.ltb 3 (length ok) then
        match getAverageRotation svd lr true (map (fun X => fst (Proj2RT lr X)) ok) with
        | Some r => Some (RVecT2Proj r (V3 (median (map (fun X => vx (snd X)) ok)) (median (map (fun X => vy (snd X)) ok)) (median (map (fun X => vz (snd X)) ok))))
        | None => None
        end
      else handeyeCalibration lr heh p1 p1.
Proof.
  intros EL N6 L6. assert (LP : length (getTranslationsForClustering p1 p2) = length p1) by (unfold getTranslationsForClustering; rewrite map_length, combine_len; auto).
  set (m := Nat.min nb_cluster (length p1)).
  destruct (collect_total (one_candidate lr he shuffle rnd p1 p2 (km (getTranslationsForClustering p1 p2) m) m) (seq 0 nb_it)) as (cs & E & _).
  { intros it _. destruct (candidate_ok p1 p2 m it) as (sel & data & e & _ & _ & _ & _ & _ & H); auto; [unfold m; lia|unfold m; lia|]. eauto. }
  exists cs. split; [auto|]. split.
  - apply collect_Some in E. apply (f_equal (@length _)) in E. rewrite !map_length, seq_length in E. auto.
  - unfold handeyeBootstraptTranslationCalibration. rewrite LP. fold m. rewrite E. auto.
Qed.
Lemma bootstrap_defined nb_cluster nb_it p1 p2 : length p1 = length p2 -> 6 <= nb_cluster -> 6 <= length p1 ->
  exists X, handeyeBootstraptTranslationCalibration lr he heh svd km shuffle rnd nb_cluster nb_it p1 p2 = Some X.
Proof.
  intros EL N6 L6. destruct (bootstrap_cases nb_cluster nb_it p1 p2 EL N6 L6) as (cs & _ & _ & ->). cbv zeta.
  destruct (Nat.ltb 3 (length (map fst (filter snd cs)))) eqn:E; [|rewrite handeye_self; eauto].
  destruct (average_rotation_total svd lr true (map (fun X => fst (Proj2RT lr X)) (map fst (filter snd cs)))) as (r & ->); [|eauto].
  apply Nat.ltb_lt in E. destruct (map fst (filter snd cs)); [cbn in E; lia|discriminate].
Qed.
Lemma bootstrap_short nb_cluster nb_it p1 p2 : Nat.min nb_cluster (Nat.min (length p1) (length p2)) < 6 -> 0 < nb_it ->
  handeyeBootstraptTranslationCalibration lr he heh svd km shuffle rnd nb_cluster nb_it p1 p2 = None.
Proof.
  intros L N. unfold handeyeBootstraptTranslationCalibration.
  assert (LP : length (getTranslationsForClustering p1 p2) = Nat.min (length p1) (length p2)) by (unfold getTranslationsForClustering; rewrite map_length, combine_length; auto).
  rewrite LP. destruct nb_it as [|nb_it]; [lia|]. cbn [seq map collect]. rewrite candidate_short by auto. auto.
Qed.
End F.
