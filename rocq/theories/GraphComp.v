(** Connected components: proofs. *)
From Coq Require Import List Arith ZArith QArith Bool Lia Relations Sorted.
From Verif Require Import GraphModel GraphSpec GraphInv.
Import ListNotations.
Close Scope Q_scope.
Open Scope nat_scope.

Definition adj (E : list (nat * nat * Q)) (u v : nat) : Prop :=
  exists w, In (u, v, w) E \/ In (v, u, w) E.
Definition reach E := clos_refl_trans nat (adj E).

Lemma adj_sym E u v : adj E u v -> adj E v u.
Proof. intros [w [H|H]]; exists w; auto. Qed.

Lemma reach_sym E u v : reach E u v -> reach E v u.
Proof.
  unfold reach; induction 1 as [x y H| |x y z _ IH1 _ IH2].
  - apply rt_step, adj_sym; auto.
  - apply rt_refl.
  - eapply rt_trans; eauto.
Qed.

Lemma reach_trans E u v w : reach E u v -> reach E v w -> reach E u w.
Proof. apply rt_trans. Qed.

Lemma out_edges_In E u v w :
  In (v, w) (out_edges E u) <-> In (u, v, w) E \/ In (v, u, w) E.
Proof.
  unfold out_edges. rewrite in_flat_map. split.
  - intros (e & Hin & H). destruct e as [[a b] q]. apply in_app_or in H.
    destruct H as [H|H]; [destruct (Nat.eqb_spec a u)|destruct (Nat.eqb_spec b u)];
      cbn in H; try tauto; destruct H as [[= <- <-]|[]]; subst; auto.
  - intros [H|H].
    + exists (u, v, w); split; auto. rewrite Nat.eqb_refl. cbn; auto.
    + exists (v, u, w); split; auto. rewrite Nat.eqb_refl. apply in_or_app; cbn; auto.
Qed.

Lemma out_edges_adj E u v : In v (map fst (out_edges E u)) <-> adj E u v.
Proof.
  rewrite in_map_iff. split.
  - intros ([x w] & <- & H). apply out_edges_In in H. exists w; auto.
  - intros [w H]. exists (v, w); split; auto. apply out_edges_In; auto.
Qed.

Lemma expand_In E S x :
  In x (expand E S) <-> In x S \/ exists u, In u S /\ adj E u x.
Proof.
  unfold expand. rewrite nodup_In, in_app_iff, in_flat_map. split.
  - intros [H|(u & Hu & H)]; auto. right; exists u; split; auto. apply out_edges_adj; auto.
  - intros [H|(u & Hu & H)]; auto. right; exists u; split; auto. apply out_edges_adj; auto.
Qed.

Lemma expand_NoDup E S : NoDup (expand E S).
Proof. apply NoDup_nodup. Qed.

Definition closed E (S : list nat) := forall u v, In u S -> adj E u v -> In v S.

Lemma closed_expand E S : closed E S -> closed E (expand E S).
Proof.
  intros Hc u v Hu Ha. apply expand_In. left.
  apply expand_In in Hu. destruct Hu as [Hu|(t & Ht & Hu)]; [apply (Hc u v); auto|].
  apply (Hc u v); auto. apply (Hc t u); auto.
Qed.

Lemma closed_visit k E : forall S, closed E S -> closed E (visit k E S).
Proof.
  induction k as [|k IH]; intros S Hc; cbn [visit]; auto.
  apply IH, closed_expand; auto.
Qed.

Lemma visit_incl k E : forall S x, In x S -> In x (visit k E S).
Proof.
  induction k as [|k IH]; intros S x Hx; cbn [visit]; auto.
  apply IH, expand_In; auto.
Qed.

Lemma expand_progress E S :
  NoDup S -> closed E S \/ length S < length (expand E S).
Proof.
  intros Hn.
  assert (Hi : incl S (expand E S)) by (intros x Hx; apply expand_In; auto).
  destruct (le_lt_dec (length (expand E S)) (length S)) as [Hle|]; auto.
  left. pose proof (NoDup_length_incl Hn Hle Hi) as Hback.
  intros u v Hu Ha. apply Hback, expand_In. eauto.
Qed.

Lemma visit_progress k E : forall S, NoDup S ->
  closed E (visit k E S) \/ length S + k <= length (visit k E S).
Proof.
  induction k as [|k IH]; intros S Hn; cbn [visit].
  - right; lia.
  - destruct (expand_progress E S Hn) as [Hc|Hl].
    + left. apply closed_visit, closed_expand; auto.
    + destruct (IH (expand E S) (expand_NoDup E S)) as [Hc|Hl2]; auto. right; lia.
Qed.

Lemma visit_NoDup k E : forall S, NoDup S -> NoDup (visit k E S).
Proof.
  induction k as [|k IH]; intros S Hn; cbn [visit]; auto. apply IH, expand_NoDup.
Qed.

Lemma visit_sound k E : forall S x, In x (visit k E S) ->
  exists s, In s S /\ reach E s x.
Proof.
  induction k as [|k IH]; intros S x Hx; cbn [visit] in Hx.
  - exists x; split; auto. apply rt_refl.
  - apply IH in Hx. destruct Hx as (s & Hs & Hr). apply expand_In in Hs.
    destruct Hs as [Hs|(u & Hu & Ha)]; [eauto|].
    exists u; split; auto. eapply rt_trans; [apply rt_step; eauto|auto].
Qed.

Definition in_range (n : nat) (E : list (nat * nat * Q)) :=
  forall a b w, In (a, b, w) E -> a < n /\ b < n.

Lemma adj_range n E u v : in_range n E -> adj E u v -> u < n /\ v < n.
Proof. intros H [w [Hi|Hi]]; apply H in Hi; lia. Qed.

Lemma reach_range n E u v : in_range n E -> u < n -> reach E u v -> v < n.
Proof.
  intros H Hu Hr. apply clos_rt_rt1n in Hr. induction Hr as [|x y z Ha _ IH]; auto.
  apply IH. eapply adj_range; eauto.
Qed.

Lemma closed_reach E S u v : closed E S -> In u S -> reach E u v -> In v S.
Proof.
  intros Hc Hu Hr. apply clos_rt_rt1n in Hr. induction Hr as [|x y z Ha _ IH]; auto.
  apply IH. eapply Hc; eauto.
Qed.

Lemma visit_reach n E v x : in_range n E -> v < n ->
  In x (visit n E [v]) <-> reach E v x.
Proof.
  intros Hr Hv. split.
  - intros H. apply visit_sound in H. destruct H as (s & [->|[]] & H); auto.
  - intros H. assert (Hn : NoDup [v]) by (constructor; [tauto|constructor]).
    destruct (visit_progress n E [v] Hn) as [Hc|Hl].
    + eapply closed_reach; eauto. apply visit_incl; cbn; auto.
    + exfalso.
      assert (Hi : incl (visit n E [v]) (seq 0 n)).
      { intros y Hy. apply visit_sound in Hy. destruct Hy as (s & [<-|[]] & Hy).
        apply in_seq. split; [lia|]. cbn. eapply reach_range; eauto. }
      pose proof (NoDup_incl_length (visit_NoDup n E [v] Hn) Hi) as Hlen.
      rewrite seq_length in Hlen. cbn in Hl. lia.
Qed.

(** ** Labelling *)
Record Linv (n : nat) E (k : nat) (lab : nat -> option nat) (cnt : nat)
       (roots : list nat) : Prop := {
  li_cnt : length roots = cnt;
  li_sorted : StronglySorted lt roots;
  li_lt : forall r, In r roots -> r < k;
  li_lab : forall x c, lab x = Some c <-> exists r, nth_error roots c = Some r /\ reach E r x;
  li_done : forall x, x < k -> lab x <> None;
  li_min : forall r x, In r roots -> reach E r x -> r <= x
}.

Lemma StronglySorted_snoc l x :
  StronglySorted lt l -> (forall y, In y l -> y < x) -> StronglySorted lt (l ++ [x]).
Proof.
  induction l as [|a r IH]; intros Hs Hl; cbn.
  - constructor; constructor.
  - inversion Hs as [|? ? Hs' Hf]; subst. constructor.
    + apply IH; auto. intros y Hy; apply Hl; cbn; auto.
    + apply Forall_app; split; auto. constructor; [|constructor]. apply Hl; cbn; auto.
Qed.

Lemma nth_error_snoc_inv {A} (l : list A) x i y :
  nth_error (l ++ [x]) i = Some y ->
  nth_error l i = Some y \/ (i = length l /\ y = x).
Proof.
  intros H. destruct (lt_dec i (length l)).
  - rewrite nth_error_app1 in H; auto.
  - rewrite nth_error_app2 in H by lia.
    destruct (i - length l) as [|j] eqn:E; cbn in H.
    + inversion H; subst. right; split; auto; lia.
    + destruct j; discriminate.
Qed.

Lemma label_from_inv n E : in_range n E ->
  forall m k lab cnt roots,
  k + m = n -> Linv n E k lab cnt roots ->
  let '(lab', cnt') := label_from n E (seq k m) lab cnt in
  exists roots', Linv n E n lab' cnt' roots'.
Proof.
  intros Hrange. induction m as [|m IH]; intros k lab cnt roots Hk HL.
  - cbn. exists roots. assert (k = n) by lia. subst k. auto.
  - cbn [seq label_from]. destruct (lab k) as [c|] eqn:Ek.
    + apply (IH (S k) lab cnt roots); [lia|].
      destruct HL as [H1 H2 H3 H4 H5 H6]. constructor; auto.
      * intros r Hr. apply H3 in Hr; lia.
      * intros x Hx. destruct (Nat.eq_dec x k) as [->|]; [congruence|]. apply H5; lia.
    + assert (Hkn : k < n) by lia.
      apply (IH (S k) _ (cnt + 1) (roots ++ [k])); [lia|].
      destruct HL as [H1 H2 H3 H4 H5 H6].
      assert (Hvis : forall x, memb x (visit n E [k]) = true <-> reach E k x).
      { intros x. rewrite memb_In. apply visit_reach; auto. }
      assert (Hun : forall x, reach E k x -> lab x = None).
      { intros x Hx. destruct (lab x) as [c|] eqn:Ex; auto.
        apply H4 in Ex. destruct Ex as (r & Hr & Hrx).
        assert (lab k = Some c).
        { apply H4. exists r; split; auto. eapply reach_trans; eauto. apply reach_sym; auto. }
        congruence. }
      constructor.
      * rewrite app_length; cbn; lia.
      * apply StronglySorted_snoc; auto.
      * intros r Hr. apply in_app_or in Hr. destruct Hr as [Hr|[<-|[]]]; [|lia].
        apply H3 in Hr; lia.
      * intros x c. destruct (memb x (visit n E [k])) eqn:Em.
        -- apply Hvis in Em. split.
           ++ intros [= <-]. exists k; split; auto. rewrite <- H1.
              rewrite nth_error_app2, Nat.sub_diag; auto.
           ++ intros (r & Hr & Hrx). apply nth_error_snoc_inv in Hr.
              destruct Hr as [Hr|[-> ->]]; [|congruence].
              assert (lab x = Some c) by (apply H4; eauto).
              rewrite (Hun x Em) in H. discriminate.
        -- assert (Hnr : ~ reach E k x) by (rewrite <- Hvis; congruence).
           rewrite H4. split.
           ++ intros (r & Hr & Hrx). exists r; split; auto.
              rewrite nth_error_app1; auto. apply nth_error_Some; congruence.
           ++ intros (r & Hr & Hrx). apply nth_error_snoc_inv in Hr.
              destruct Hr as [Hr|[-> ->]]; [eauto|contradiction].
      * intros x Hx. destruct (memb x (visit n E [k])) eqn:Em; [congruence|].
        destruct (Nat.eq_dec x k) as [->|Hne].
        -- exfalso. assert (reach E k k) by apply rt_refl. apply Hvis in H. congruence.
        -- apply H5; lia.
      * intros r x Hr Hx. apply in_app_or in Hr. destruct Hr as [Hr|[<-|[]]]; [eauto|].
        destruct (le_lt_dec k x) as [|Hlt]; auto.
        exfalso. apply (H5 x Hlt). auto.
Qed.

Lemma components_labels n E : in_range n E ->
  let '(lab, cnt) := boost_connected_components n E in
  exists roots, Linv n E n lab cnt roots.
Proof.
  intros H. unfold boost_connected_components.
  apply (label_from_inv n E H n 0 _ 0 []); [lia|].
  constructor; cbn; auto; try constructor; try tauto; try lia.
  - discriminate.
  - intros (r & Hr & _). destruct c; discriminate.
Qed.

(** ** Components as lists of vertices *)
Definition vcomponents n E : list (list nat) :=
  let '(component, num) := boost_connected_components n E in
  map (fun c => filter (fun v => match component v with
                                 | Some c' => Nat.eqb c' c
                                 | None => false end) (seq 0 n)) (seq 0 num).

Lemma connectedComponents_v g :
  connectedComponents g =
  map (map (fun v => nth v (vnames g) 0%Z)) (vcomponents (length (vnames g)) (gedges g)).
Proof.
  unfold connectedComponents, vcomponents.
  destruct (Nat.eqb_spec (length (vnames g)) 0) as [E0|_].
  - rewrite E0. reflexivity.
  - destruct (boost_connected_components _ _) as [lab cnt]. rewrite map_map. reflexivity.
Qed.

(** each vertex component is the class of its root, in index order *)
Lemma vcomponents_spec n E : in_range n E ->
  exists roots,
    StronglySorted lt roots /\ (forall r, In r roots -> r < n) /\
    (forall r x, In r roots -> reach E r x -> r <= x) /\
    (forall x, x < n -> exists r, In r roots /\ reach E r x) /\
    (forall r r', In r roots -> In r' roots -> reach E r r' -> r = r') /\
    Forall2 (fun r c => (forall x, In x c <-> reach E r x) /\ subseq c (seq 0 n)) roots
            (vcomponents n E).
Proof.
  intros H. pose proof (components_labels n E H) as HL. unfold vcomponents.
  destruct (boost_connected_components n E) as [lab cnt].
  destruct HL as [roots HL]. exists roots. destruct HL as [H1 H2 H3 H4 H5 H6].
  repeat split; auto.
  - intros x Hx. destruct (lab x) as [c|] eqn:Ex; [|exfalso; eapply H5; eauto].
    apply H4 in Ex. destruct Ex as (r & Hr & Hrx). exists r; split; auto.
    eapply nth_error_In; eauto.
  - intros r r' Hr Hr' Hre.
    assert (r <= r') by eauto. assert (r' <= r) by (eapply H6; eauto using reach_sym). lia.
  - assert (Hs : forall l, Forall (fun r => In r roots) l -> True) by auto. clear Hs.
    assert (Hgen : forall k (l : list nat), (forall i r, nth_error l i = Some r -> nth_error roots (k + i) = Some r) ->
      Forall2 (fun r c => (forall x, In x c <-> reach E r x) /\ subseq c (seq 0 n)) l
        (map (fun c => filter (fun v => match lab v with
                                 | Some c' => Nat.eqb c' c
                                 | None => false end) (seq 0 n)) (seq k (length l)))).
    { intros k l. revert k. induction l as [|r l IH]; intros k Hl; cbn; constructor.
      - assert (Hk : nth_error roots k = Some r).
        { specialize (Hl 0 r eq_refl). rewrite Nat.add_0_r in Hl. auto. }
        split.
        + intros x. rewrite filter_In, in_seq. split.
          * intros [_ Hx]. destruct (lab x) as [c|] eqn:Ex; [|discriminate].
            apply Nat.eqb_eq in Hx; subst c. apply H4 in Ex.
            destruct Ex as (r' & Hr' & Hx). congruence.
          * intros Hx. assert (Hlx : lab x = Some k) by (apply H4; eauto).
            rewrite Hlx, Nat.eqb_refl. split; auto. split; [lia|]. cbn.
            eapply reach_range; eauto. apply H3. eapply nth_error_In; eauto.
        + clear. induction (seq 0 n) as [|y t IH]; cbn; [constructor|].
          destruct (lab y) as [c|]; [destruct (Nat.eqb c k)|];
            [apply ss_take|apply ss_skip|apply ss_skip]; auto.
      - apply IH. intros i r' Hi. specialize (Hl (S i) r' Hi).
        replace (S k + i) with (k + S i) by lia. auto. }
    rewrite <- H1. apply (Hgen 0 roots). auto.
Qed.

(** ** Back to indices *)
Lemma subseq_map {A B} (f : A -> B) l m : subseq l m -> subseq (map f l) (map f m).
Proof. induction 1; cbn; [apply ss_nil|apply ss_skip|apply ss_take]; auto. Qed.

Lemma subseq_nil {A} (m : list A) : subseq [] m.
Proof. induction m; constructor; auto. Qed.

Lemma subseq_In {A} (l m : list A) x : subseq l m -> In x l -> In x m.
Proof. induction 1; cbn; intuition. Qed.

Lemma subseq_seq n : forall k l, StronglySorted lt l ->
  (forall x, In x l -> k <= x < k + n) -> subseq l (seq k n).
Proof.
  induction n as [|n IH]; intros k l Hs Hl.
  - destruct l as [|x l]; [constructor|]. specialize (Hl x (or_introl eq_refl)). lia.
  - cbn. destruct l as [|x l]; [apply ss_skip, subseq_nil|].
    inversion Hs as [|? ? Hs' Hf]; subst. rewrite Forall_forall in Hf.
    destruct (Nat.eq_dec x k) as [->|Hne].
    + apply ss_take, IH; auto. intros y Hy. specialize (Hf y Hy).
      specialize (Hl y (or_intror Hy)). lia.
    + apply ss_skip, IH; [constructor; auto; apply Forall_forall; auto|].
      intros y [<-|Hy].
      * specialize (Hl x (or_introl eq_refl)). lia.
      * specialize (Hf y Hy). pose proof (Hl x (or_introl eq_refl)).
        pose proof (Hl y (or_intror Hy)). lia.
Qed.

Lemma map_nth_seq (l : list Z) : map (fun v => nth v l 0%Z) (seq 0 (length l)) = l.
Proof.
  induction l as [|x l IH]; cbn; [reflexivity|]. f_equal.
  rewrite <- seq_shift, map_map. apply IH.
Qed.

  Lemma Forall2_in_l {A B} (R : A -> B -> Prop) l m x :
    Forall2 R l m -> In x l -> exists y, In y m /\ R x y.
  Proof.
    induction 1 as [|a b l m Hab _ IH]; cbn; [tauto|].
    intros [<-|Hx]; [eauto|]. destruct (IH Hx) as (y & Hy & Hr); eauto.
  Qed.
  Lemma Forall2_in_r {A B} (R : A -> B -> Prop) l m y :
    Forall2 R l m -> In y m -> exists x, In x l /\ R x y.
  Proof.
    induction 1 as [|a b l m Hab _ IH]; cbn; [tauto|].
    intros [<-|Hx]; [eauto|]. destruct (IH Hx) as (z & Hy & Hr); eauto.
  Qed.

  Lemma subseq_NoDup {A} (l m : list A) : subseq l m -> NoDup m -> NoDup l.
  Proof.
    induction 1 as [|x l m Hs IH|x l m Hs IH]; intros Hn; auto.
    - inversion Hn; auto.
    - inversion Hn as [|? ? Hx Hn']; subst. constructor; auto.
      intros Hi. apply Hx. eapply subseq_In; eauto.
  Qed.

Section Names.
  Variables (ops : list gop).
  Hypothesis Hns : no_fresh_self_edge ops.
  Let g := grun ops.
  Let nm (v : nat) := nth v (vnames g) 0%Z.
  Let n := length (vnames g).
  Let HI : Ginv ops g := Ginv_run ops Hns.

  Lemma g_range : in_range n (gedges g).
  Proof. intros a b w H. apply (gi_rng _ _ HI) in H. auto. Qed.

  Lemma g_NoDup : NoDup (vnames g).
  Proof. rewrite (gi_names _ _ HI). apply inserted_NoDup. Qed.

  Lemma nm_inj u v : u < n -> v < n -> nm u = nm v -> u = v.
  Proof. intros Hu Hv He. eapply NoDup_nth; eauto. apply g_NoDup. Qed.

  Lemma nm_inserted a : In a (inserted ops) <-> exists u, u < n /\ nm u = a.
  Proof.
    rewrite <- (gi_names _ _ HI). split.
    - intros H. apply (In_nth _ _ 0%Z) in H. destruct H as (u & Hu & He). eauto.
    - intros (u & Hu & <-). apply nth_In; auto.
  Qed.

  Lemma edge_name_w u v w : u < n -> v < n ->
    (In (u, v, w) (gedges g) <-> In (AddE (nm u) (nm v) w) (since_clear ops)).
  Proof.
    intros Hu Hv. split.
    - intros H. apply (in_map (op_of_edge (vnames g))) in H.
      rewrite (gi_edges _ _ HI) in H. apply filter_In in H. apply H.
    - intros H. assert (Hf : In (AddE (nm u) (nm v) w) (filter is_edge (since_clear ops)))
        by (apply filter_In; auto).
      rewrite <- (gi_edges _ _ HI) in Hf. apply in_map_iff in Hf.
      destruct Hf as ([[a b] q] & He & Hin). cbn in He. inversion He as [[Ha Hb Hq]].
      pose proof (gi_rng _ _ HI _ _ _ Hin) as [Hra Hrb].
      apply nm_inj in Ha; auto. apply nm_inj in Hb; auto. subst; auto.
  Qed.

  Lemma edge_vertices a b w : In (AddE a b w) (since_clear ops) ->
    exists u v, u < n /\ v < n /\ nm u = a /\ nm v = b /\ In (u, v, w) (gedges g).
  Proof.
    intros H. assert (Hf : In (AddE a b w) (filter is_edge (since_clear ops)))
      by (apply filter_In; auto).
    rewrite <- (gi_edges _ _ HI) in Hf. apply in_map_iff in Hf.
    destruct Hf as ([[x y] q] & He & Hin). cbn in He. inversion He as [[Ha Hb Hq]].
    pose proof (gi_rng _ _ HI _ _ _ Hin) as [Hra Hrb]. subst q. exists x, y; auto.
  Qed.

  Lemma adj_edge u v : u < n -> v < n -> adj (gedges g) u v <-> edge ops (nm u) (nm v).
  Proof.
    intros Hu Hv. unfold adj, edge, edge_w. split; intros [w H]; exists w.
    - destruct H as [H|H]; [left|right]; apply edge_name_w; auto.
    - destruct H as [H|H]; [left|right]; apply edge_name_w; auto.
  Qed.

  Lemma edge_adj a b : edge ops a b ->
    exists u v, u < n /\ v < n /\ nm u = a /\ nm v = b /\ adj (gedges g) u v.
  Proof.
    intros [w [H|H]]; apply edge_vertices in H; destruct H as (u & v & Hu & Hv & <- & <- & H).
    - exists u, v; repeat split; auto. exists w; auto.
    - exists v, u; repeat split; auto. exists w; auto.
  Qed.

  Lemma reach_linked u v : u < n -> reach (gedges g) u v -> linked ops (nm u) (nm v).
  Proof.
    intros Hu Hr. apply clos_rt_rt1n in Hr. induction Hr as [|x y z Ha _ IH].
    - apply rt_refl.
    - pose proof (adj_range _ _ _ _ g_range Ha) as [Hx Hy].
      eapply rt_trans; [apply rt_step, adj_edge; eauto|]. apply IH; auto.
  Qed.

  Lemma linked_reach u b : u < n -> linked ops (nm u) b ->
    exists v, v < n /\ nm v = b /\ reach (gedges g) u v.
  Proof.
    intros Hu Hl. apply clos_rt_rtn1 in Hl. induction Hl as [|y z Ha _ IH].
    - exists u; repeat split; auto. apply rt_refl.
    - destruct IH as (v & Hv & He & Hr).
      apply edge_adj in Ha. destruct Ha as (p & q & Hp & Hq & Hep & Heq & Ha).
      assert (p = v) by (apply nm_inj; auto; congruence). subst p.
      exists q; repeat split; auto. eapply rt_trans; [exact Hr|apply rt_step; auto].
  Qed.

  Lemma linked_iff_reach u v : u < n -> v < n ->
    linked ops (nm u) (nm v) <-> reach (gedges g) u v.
  Proof.
    intros Hu Hv. split.
    - intros H. apply linked_reach in H; auto. destruct H as (v' & Hv' & He & Hr).
      apply nm_inj in He; auto. subst; auto.
    - apply reach_linked; auto.
  Qed.

  Lemma map_NoDup_range (l : list nat) : (forall x, In x l -> x < n) -> NoDup l -> NoDup (map nm l).
  Proof.
    intros Hl Hd. induction Hd as [|x l Hx Hd IH]; cbn; constructor.
    - intros Hi. apply in_map_iff in Hi. destruct Hi as (y & He & Hy).
      apply nm_inj in He; [subst; contradiction| |]; apply Hl; cbn; auto.
    - apply IH. intros y Hy; apply Hl; cbn; auto.
  Qed.

  Lemma concat_NoDup_roots (roots : list nat) (cs : list (list nat)) :
    StronglySorted lt roots ->
    (forall r r', In r roots -> In r' roots -> reach (gedges g) r r' -> r = r') ->
    Forall2 (fun r c => (forall x, In x c <-> reach (gedges g) r x) /\ subseq c (seq 0 n)) roots cs ->
    NoDup (concat cs).
  Proof.
    intros Hs Hu HF. induction HF as [|r c roots cs [Hc Hsub] HF IH]; cbn; [constructor|].
    inversion Hs as [|? ? Hs' Hf]; subst.
    assert (HN : NoDup (concat cs)).
    { apply IH; auto. intros a b Ha Hb; apply Hu; cbn; auto. }
    assert (Hdis : forall x, In x c -> ~ In x (concat cs)).
    { intros x Hx Hi. apply in_concat in Hi. destruct Hi as (c' & Hc' & Hx').
      eapply Forall2_in_r in Hc'; eauto. destruct Hc' as (r' & Hr' & Hrc & _).
      apply Hrc in Hx'. apply Hc in Hx.
      assert (r = r').
      { apply Hu; cbn; auto. eapply reach_trans; eauto. apply reach_sym; auto. }
      subst r'. rewrite Forall_forall in Hf. specialize (Hf r Hr'). lia. }
    assert (Hnc : NoDup c) by (eapply subseq_NoDup; eauto; apply seq_NoDup).
    clear - HN Hdis Hnc. induction Hnc as [|x c Hx Hd IH]; cbn; auto.
    constructor.
    - rewrite in_app_iff. intros [H|H]; [contradiction|]. apply (Hdis x); cbn; auto.
    - apply IH. intros y Hy; apply Hdis; cbn; auto.
  Qed.

  Theorem components_main :
    let cs := connectedComponents (grun ops) in
    NoDup (concat cs) /\
    (forall v, In v (concat cs) <-> In v (inserted ops)) /\
    (forall a b, In a (inserted ops) -> In b (inserted ops) ->
       ((exists c, In c cs /\ In a c /\ In b c) <-> linked ops a b)) /\
    Forall (fun c => c <> [] /\ subseq c (inserted ops)) cs /\
    subseq (map (hd 0%Z) cs) (inserted ops).
  Proof.
    cbn zeta. fold g. rewrite connectedComponents_v. fold n.
    change (fun v => nth v (vnames g) 0%Z) with nm.
    destruct (vcomponents_spec n (gedges g) g_range)
      as (roots & Hs & Hlt & Hmin & Hcov & Huni & HF).
    set (cs := vcomponents n (gedges g)) in *.
    assert (Hcin : forall c x, In c cs -> In x c -> x < n).
    { intros c x Hc Hx. eapply Forall2_in_r in Hc; eauto. destruct Hc as (r & Hr & _ & Hsub).
      eapply subseq_In in Hsub; eauto. apply in_seq in Hsub. lia. }
    assert (Hcat : concat (map (map nm) cs) = map nm (concat cs)) by (symmetry; apply concat_map).
    split; [|split; [|split; [|split]]].
    - rewrite Hcat. apply map_NoDup_range.
      + intros x Hx. apply in_concat in Hx. destruct Hx as (c & Hc & Hx). eauto.
      + eapply concat_NoDup_roots; eauto.
    - intros v. rewrite Hcat, in_map_iff, nm_inserted. split.
      + intros (x & <- & Hx). apply in_concat in Hx. destruct Hx as (c & Hc & Hx). eauto.
      + intros (u & Hu & <-). exists u; split; auto.
        destruct (Hcov u Hu) as (r & Hr & Hru).
        eapply Forall2_in_l in Hr; eauto. destruct Hr as (c & Hc & Hrc & _).
        apply in_concat. exists c; split; auto. apply Hrc; auto.
    - intros a b Ha Hb. apply nm_inserted in Ha, Hb.
      destruct Ha as (u & Hu & <-), Hb as (v & Hv & <-).
      rewrite linked_iff_reach by auto. split.
      + intros (c & Hc & Hua & Hvb). apply in_map_iff in Hc. destruct Hc as (c0 & <- & Hc).
        apply in_map_iff in Hua, Hvb. destruct Hua as (u' & Eu & Hu'), Hvb as (v' & Ev & Hv').
        apply nm_inj in Eu; eauto. apply nm_inj in Ev; eauto. subst u' v'.
        eapply Forall2_in_r in Hc; eauto. destruct Hc as (r & Hr & Hrc & _).
        apply Hrc in Hu', Hv'. eapply reach_trans; [apply reach_sym; eauto|auto].
      + intros Huv. destruct (Hcov u Hu) as (r & Hr & Hru).
        eapply Forall2_in_l in Hr; eauto. destruct Hr as (c & Hc & Hrc & _).
        exists (map nm c). repeat split; try (apply in_map); auto; apply Hrc; auto.
        eapply reach_trans; eauto.
    - apply Forall_forall. intros c Hc. apply in_map_iff in Hc. destruct Hc as (c0 & <- & Hc).
      eapply Forall2_in_r in Hc; eauto. destruct Hc as (r & Hr & Hrc & Hsub). split.
      + destruct c0 as [|x c0]; cbn; [|discriminate].
        exfalso. apply (proj2 (Hrc r)). apply rt_refl.
      + rewrite <- (gi_names _ _ HI). fold g. rewrite <- (map_nth_seq (vnames g)).
        apply (subseq_map nm). auto.
    - assert (Hhd : map (hd 0%Z) (map (map nm) cs) = map nm roots).
      { clear - HF Hmin. revert Hmin. induction HF as [|r c roots cs [Hc Hsub] HF IH]; intros Hmin; cbn; auto.
        f_equal; [|apply IH; intros a b Ha; apply Hmin; cbn; auto].
        destruct c as [|x c]; cbn.
        - exfalso. apply (proj2 (Hc r)). apply rt_refl.
        - f_equal. assert (Hrx : r <= x) by (apply Hmin; [cbn; auto|apply Hc; cbn; auto]).
          assert (Hin : In r (x :: c)) by (apply Hc; apply rt_refl).
          destruct Hin as [->|Hin]; auto.
          assert (x < r); [|lia].
          clear - Hsub Hin. revert Hsub. generalize 0 as k. generalize n as m.
          intros m k. revert k. induction m as [|m IH]; intros k Hs; cbn in Hs.
          + inversion Hs.
          + inversion Hs as [|? ? ? Hs'|? ? ? Hs']; subst.
            * eapply IH; eauto.
            * eapply subseq_In in Hs'; eauto. apply in_seq in Hs'. lia. }
      rewrite Hhd. rewrite <- (gi_names _ _ HI). fold g. rewrite <- (map_nth_seq (vnames g)).
      apply (subseq_map nm). apply subseq_seq; auto. intros x Hx; apply Hlt in Hx. fold n. lia.
  Qed.
End Names.
