(** Covisibility graphs whose edges mention indices that are not among the observed ones:
    addEdge creates the missing vertices. *)
From Coq Require Import List ZArith QArith Lia Reals Sorted.
From Verif Require Import SMap GraphModel GraphSpec GraphInv GraphComp GraphPath DetectModel GeomModel ChainModel ChainSpec ChainProofs ChainCam ObjectsBuild.
Import ListNotations.
Close Scope Q_scope.
Close Scope R_scope.
Open Scope nat_scope.

Definition vertices (observed : list Z) (es : smap (Z * Z) nat) : list Z := inserted (covis_ops observed es).

Section V.
Variables (observed : list Z) (es : smap (Z * Z) nat).
Hypothesis ND : NoDup observed.
Hypothesis Irr : forall a, ~ covisible es a a.
Notation V := (vertices observed es).

Lemma vertices_split : exists ph, V = observed ++ ph /\ forall x, In x ph <-> ~ In x observed /\ exists b, covisible es x b.
Proof.
  unfold vertices, inserted. rewrite covis_since, flat_map_app, !flat_map_map, keep_first_app.
  change (flat_map (fun x => op_indices (AddV x)) observed) with (flat_map (fun x : Z => [x]) observed).
  rewrite flat_map_single, map_id, keep_first_nodup by auto.
  eexists. split; [reflexivity|]. intros x. rewrite keep_first_In, app_nil_r, <- in_rev, in_flat_map. split.
  - intros (([[a b] n] & Hin & H) & N). split; auto. apply (in_map fst) in Hin. cbn in Hin, H. destruct H as [->|[->|[]]]; [exists b; left; auto|].
    exists a. right. auto.
  - intros (N & b & [C|C]); (split; auto); apply in_map_iff in C as ([k n] & E & Hin); cbn in E; subst k; [exists ((x, b), n)|exists ((b, x), n)]; (split; auto); cbn; auto.
Qed.
Lemma vertices_In x : In x V <-> In x observed \/ exists b, covisible es x b.
Proof.
  destruct vertices_split as (ph & -> & H). rewrite in_app_iff, H. split; [tauto|]. intros [A|A]; [auto|]. destruct (in_dec Z.eq_dec x observed); auto.
Qed.
Lemma proper_vertices : proper_pairs V es.
Proof.
  constructor; auto.
  - apply keep_first_NoDup.
  - intros a b H. apply vertices_In. eauto.
Qed.
Lemma nofresh_loose obs : no_fresh_self_edge (covis_ops obs es).
Proof.
  intros pre v w post E. exfalso.
  assert (In (AddE v v w) (covis_ops obs es)) as H by (rewrite E; apply in_elt).
  unfold covis_ops in H. destruct H as [H|H]; [discriminate|].
  apply in_app_or in H as [H|H]; apply in_map_iff in H as (x & E2 & Hx); [discriminate|].
  destruct x as [[a b] n]. cbn in E2. injection E2 as -> -> _. apply (in_map fst) in Hx. cbn in Hx. eapply Irr; left; eauto.
Qed.
Lemma edges_same (names : list Z) (E E' : list (nat * nat * Q)) : NoDup names ->
  (forall a b w, In (a, b, w) E -> a < length names /\ b < length names) ->
  (forall a b w, In (a, b, w) E' -> a < length names /\ b < length names) ->
  map (op_of_edge names) E = map (op_of_edge names) E' -> E = E'.
Proof.
  intros N. revert E'. induction E as [|[[a b] w] E IH]; intros [|[[a' b'] w'] E'] R R' M; cbn in M; try discriminate; auto.
  injection M as M1 M2 M3 M4. destruct (R a b w) as (A & B); [left; auto|]. destruct (R' a' b' w') as (A' & B'); [left; auto|].
  assert (a = a') by (eapply NoDup_nth; eauto). assert (b = b') by (eapply NoDup_nth; eauto). subst. f_equal.
  apply IH; auto; intros; [eapply R|eapply R']; right; eauto.
Qed.
Lemma same_graph g0 : let g := covis_graph g0 observed es in let g' := covis_graph g0 V es in
  vnames g = vnames g' /\ gedges g = gedges g' /\ forall k, idx_find (vidx g) k = idx_find (vidx g') k.
Proof.
  cbv zeta. rewrite !covis_graph_grun.
  assert (I := Ginv_run _ (nofresh_loose observed)). assert (I' := Ginv_run _ (nofresh_loose V)).
  assert (N : vnames (grun (covis_ops observed es)) = vnames (grun (covis_ops V es))).
  { rewrite (gi_names _ _ I), (gi_names _ _ I'), (covis_inserted V es proper_vertices). reflexivity. }
  split; [auto|]. split.
  - apply edges_same with (names := vnames (grun (covis_ops observed es))).
    + rewrite (gi_names _ _ I). apply keep_first_NoDup.
    + apply (gi_rng _ _ I).
    + rewrite N. apply (gi_rng _ _ I').
    + rewrite (gi_edges _ _ I). rewrite N, (gi_edges _ _ I'), !covis_since, !filter_app. f_equal.
      assert (Q : forall l, filter is_edge (map AddV l) = []) by (induction l; auto). rewrite !Q. auto.
  - intros k. destruct (idx_find (vidx (grun (covis_ops observed es))) k) as [u|] eqn:E.
    + apply (gi_idx _ _ I) in E. rewrite N in E. apply (gi_idx _ _ I') in E. auto.
    + destruct (idx_find (vidx (grun (covis_ops V es))) k) as [u|] eqn:E'; auto.
      apply (gi_idx _ _ I') in E'. rewrite <- N in E'. apply (gi_idx _ _ I) in E'. congruence.
Qed.
Lemma same_components g0 : connectedComponents (covis_graph g0 observed es) = connectedComponents (covis_graph g0 V es).
Proof. destruct (same_graph g0) as (A & B & _). unfold connectedComponents. rewrite A, B. auto. Qed.
Lemma same_path_pose step pick g0 tr a b : path_pose step pick (covis_graph g0 observed es) tr a b = path_pose step pick (covis_graph g0 V es) tr a b.
Proof. destruct (same_graph g0) as (A & B & C). unfold path_pose, shortestPathBetween. rewrite A, B, !C. auto. Qed.

(** the observed indices are 0 .. n-1 below the others; components without an observed
    index aside *)
Variable n : nat.
Hypothesis So : StronglySorted Z.lt observed.
Hypothesis Above : forall a b, covisible es a b -> In a observed \/ (Z.of_nat n <= a)%Z.
Hypothesis Below : forall a, In a observed -> (a < Z.of_nat n)%Z.
Lemma stale_mins g0 : (forall c, In c (connectedComponents (covis_graph g0 observed es)) -> (min_of c < Z.of_nat n)%Z) ->
  StronglySorted Z.lt (map min_of (connectedComponents (covis_graph g0 observed es))) /\
  forall c, In c (connectedComponents (covis_graph g0 observed es)) -> In (min_of c) observed.
Proof.
  intros Kn. rewrite same_components in *. destruct (covis_components V es proper_vertices) as (A & B & C & D & E).
  rewrite covis_graph_grun in *. set (cs := connectedComponents (grun (covis_ops V es))) in *.
  destruct vertices_split as (ph & EV & Hph).
  assert (Hph' : forall x, In x ph -> (Z.of_nat n <= x)%Z).
  { intros x Hx. apply Hph in Hx as (N & b & Hb). destruct (Above x b Hb); [contradiction|auto]. }
  assert (Mo : forall c, In c cs -> In (min_of c) observed).
  { intros c Hc. rewrite Forall_forall in D. destruct (D c Hc) as (N & Su). destruct (min_of_spec c N) as (Hm & _).
    assert (HV : In (min_of c) V) by (eapply subseq_In; eauto). rewrite EV in HV. apply in_app_or in HV as [HV|HV]; auto.
    apply Hph' in HV. specialize (Kn c Hc). lia. }
  split; [|auto].
  (* first member of each component is its minimum, and observed *)
  assert (Hd : forall c, In c cs -> min_of c = hd 0%Z c).
  { intros c Hc. rewrite Forall_forall in D. destruct (D c Hc) as (N & Su). destruct (min_of_spec c N) as (Hm & Hmin). specialize (Mo c Hc).
    rewrite EV in Su. assert (Q : exists c1 c2, c = c1 ++ c2 /\ subseq c1 observed /\ subseq c2 ph).
    { clear -Su. remember (observed ++ ph) as l eqn:El. revert observed El. induction Su as [|x l m S IH|x l m S IH]; intros o El.
      - symmetry in El. apply app_eq_nil in El as (-> & ->). exists [], []. split; auto. split; constructor.
      - destruct o as [|y o]; cbn in El.
        + subst. exists [], l. split; auto. split; [constructor|]. constructor. auto.
        + injection El as <- ->. destruct (IH o eq_refl) as (c1 & c2 & -> & S1 & S2). exists c1, c2. split; auto. split; auto. constructor. auto.
      - destruct o as [|y o]; cbn in El.
        + subst. exists [], (x :: l). split; auto. split; [constructor|]. apply ss_take. auto.
        + injection El as <- ->. destruct (IH o eq_refl) as (c1 & c2 & -> & S1 & S2). exists (x :: c1), c2. split; auto. split; auto. apply ss_take. auto. }
    destruct Q as (c1 & c2 & -> & S1 & S2). assert (So1 := subseq_sorted c1 observed S1 So).
    destruct c1 as [|y c1].
    - exfalso. cbn in Hm. assert (In (min_of c2) ph) by (eapply subseq_In; eauto). apply Hph in H as (H & _). auto.
    - cbn [app hd] in *. apply Z.le_antisymm; [apply Hmin; left; auto|]. destruct Hm as [<-|Hm]; [lia|].
      apply in_app_or in Hm as [Hm|Hm].
      + inversion So1 as [|? ? ? F]; subst. rewrite Forall_forall in F. specialize (F _ Hm). lia.
      + exfalso. assert (In (min_of (y :: c1 ++ c2)) ph) by (eapply subseq_In; eauto). apply Hph in H as (H & _). auto. }
  rewrite (map_ext_in min_of (hd 0%Z)) by auto.
  assert (Hh : forall x, In x (map (hd 0%Z) cs) -> In x observed).
  { intros x Hx. apply in_map_iff in Hx as (c & <- & Hc). rewrite <- Hd by auto. auto. }
  rewrite EV in E. revert E Hh. generalize (map (hd 0%Z) cs) as hs. clear -So Hph. intros hs E Hh.
  assert (Q : forall l, subseq l (observed ++ ph) -> (forall x, In x l -> In x observed) -> subseq l observed).
  { clear E Hh hs. assert (P : forall x, In x ph -> ~ In x observed) by (intros x Hx; apply Hph in Hx; tauto). clear Hph.
    assert (P2 : forall o l, subseq l (o ++ ph) -> (forall x, In x l -> ~ In x ph) -> subseq l o).
    { induction o as [|y o IH]; intros l S N; cbn in S.
      - destruct l as [|z l]; [constructor|]. exfalso. eapply N; [left; auto|]. eapply subseq_In; eauto. left. auto.
      - inversion S; subst; [apply ss_skip|apply ss_take]; apply IH; auto. intros z Hz. apply N. right. auto. }
    intros l S N. apply P2; auto. intros x Hx Hp. eapply P; eauto. }
  apply (subseq_sorted hs observed); auto.
Qed.
End V.
