(** The state reached by a history of calls, described by the history. *)
From Coq Require Import List Arith ZArith QArith Bool Lia Relations.
From Verif Require Import GraphModel GraphSpec.
Import ListNotations.
Close Scope Q_scope.
Open Scope nat_scope.

Lemma existsb_Zeqb x l : existsb (Z.eqb x) l = true <-> In x l.
Proof.
  rewrite existsb_exists; split.
  - intros (y & Hy & E). apply Z.eqb_eq in E; subst; auto.
  - intros H; exists x; split; auto. apply Z.eqb_refl.
Qed.

Lemma memb_In x l : memb x l = true <-> In x l.
Proof.
  unfold memb; rewrite existsb_exists; split.
  - intros (y & Hy & E). apply Nat.eqb_eq in E; subst; auto.
  - intros H; exists x; split; auto. apply Nat.eqb_refl.
Qed.

Lemma memb_not_In x l : memb x l = false <-> ~ In x l.
Proof.
  rewrite <- memb_In. destruct (memb x l); split; intros; congruence.
Qed.

(** ** History vocabulary on one more call *)
Lemma since_clear_acc_snoc ops : forall acc o,
  since_clear_acc acc (ops ++ [o]) =
  match o with Clear => [] | _ => since_clear_acc acc ops ++ [o] end.
Proof.
  induction ops as [|x r IH]; intros acc o.
  - destruct o; reflexivity.
  - destruct x; cbn [app since_clear_acc]; apply IH.
Qed.

Lemma since_clear_snoc ops o :
  since_clear (ops ++ [o]) =
  match o with Clear => [] | _ => since_clear ops ++ [o] end.
Proof. apply since_clear_acc_snoc. Qed.

Lemma since_clear_acc_incl ops : forall acc o,
  In o (since_clear_acc acc ops) -> In o acc \/ In o ops.
Proof.
  induction ops as [|x r IH]; intros acc o H; cbn in H; [auto|].
  destruct x; apply IH in H; (destruct H as [H|H]; [|right; right; exact H]);
    try (apply in_app_or in H; destruct H as [H|[H|[]]]; subst; cbn; auto).
  destruct H.
Qed.

Lemma since_clear_incl ops o : In o (since_clear ops) -> In o ops.
Proof. intros H; apply since_clear_acc_incl in H. destruct H as [[]|H]; auto. Qed.

Lemma keep_first_In l : forall seen x,
  In x (keep_first seen l) <-> In x l /\ ~ In x seen.
Proof.
  induction l as [|y r IH]; intros seen x; cbn [keep_first].
  - cbn; tauto.
  - destruct (existsb (Z.eqb y) seen) eqn:E.
    + apply existsb_Zeqb in E. rewrite IH. cbn. split.
      * tauto.
      * intros [[->|H] Hn]; tauto.
    + assert (Hy : ~ In y seen) by (rewrite <- existsb_Zeqb, E; congruence).
      cbn. rewrite IH. cbn. split.
      * intros [->|[H1 H2]]; [tauto|]. tauto.
      * intros [[->|H] Hn]; [tauto|].
        destruct (Z.eq_dec y x) as [->|Hd]; [tauto|]. right; split; auto. tauto.
Qed.

Lemma keep_first_NoDup l : forall seen, NoDup (keep_first seen l).
Proof.
  induction l as [|y r IH]; intros seen; cbn [keep_first]; [constructor|].
  destruct (existsb (Z.eqb y) seen); [apply IH|].
  constructor; [|apply IH]. rewrite keep_first_In. cbn; tauto.
Qed.

Lemma keep_first_snoc l : forall seen x,
  keep_first seen (l ++ [x]) =
  keep_first seen l ++ (if existsb (Z.eqb x) (seen ++ l) then [] else [x]).
Proof.
  induction l as [|y r IH]; intros seen x.
  - cbn. rewrite app_nil_r. destruct (existsb (Z.eqb x) seen); reflexivity.
  - cbn [app keep_first]. destruct (existsb (Z.eqb y) seen) eqn:E.
    + rewrite IH. f_equal.
      replace (existsb (Z.eqb x) (seen ++ y :: r)) with (existsb (Z.eqb x) (seen ++ r)); auto.
      apply eq_true_iff_eq. rewrite !existsb_Zeqb, !in_app_iff.
      apply existsb_Zeqb in E. cbn. split; [tauto|]. intros [H|[->|H]]; auto.
    + cbn [app]. f_equal. rewrite IH. f_equal.
      replace (existsb (Z.eqb x) (seen ++ y :: r)) with (existsb (Z.eqb x) ((y :: seen) ++ r)); auto.
      apply eq_true_iff_eq. rewrite !existsb_Zeqb. cbn. rewrite !in_app_iff. cbn. tauto.
Qed.

(** indices of a list, each kept at its first occurrence *)
Definition firsts (l : list Z) := keep_first [] l.

Lemma firsts_snoc l x :
  firsts (l ++ [x]) = firsts l ++ (if existsb (Z.eqb x) (firsts l) then [] else [x]).
Proof.
  unfold firsts. rewrite keep_first_snoc. f_equal. cbn [app].
  replace (existsb (Z.eqb x) (keep_first [] l)) with (existsb (Z.eqb x) l); auto.
  apply eq_true_iff_eq. rewrite !existsb_Zeqb, keep_first_In. cbn; tauto.
Qed.

Lemma inserted_snoc_V ops v :
  inserted (ops ++ [AddV v]) =
  inserted ops ++ (if existsb (Z.eqb v) (inserted ops) then [] else [v]).
Proof.
  unfold inserted. rewrite since_clear_snoc, flat_map_app. cbn [flat_map op_indices app].
  apply firsts_snoc.
Qed.

Lemma inserted_snoc_E ops a b w :
  inserted (ops ++ [AddE a b w]) =
  let l1 := inserted ops ++ (if existsb (Z.eqb a) (inserted ops) then [] else [a]) in
  l1 ++ (if existsb (Z.eqb b) l1 then [] else [b]).
Proof.
  unfold inserted. rewrite since_clear_snoc, flat_map_app. cbn [flat_map op_indices app].
  change [a; b] with ([a] ++ [b]). rewrite app_assoc.
  fold (firsts (flat_map op_indices (since_clear ops))).
  fold (firsts ((flat_map op_indices (since_clear ops) ++ [a]) ++ [b])).
  rewrite firsts_snoc, firsts_snoc. reflexivity.
Qed.

Lemma inserted_NoDup ops : NoDup (inserted ops).
Proof. apply keep_first_NoDup. Qed.

(** ** The index map *)
Lemma idx_find_filter m k k' :
  idx_find (filter (fun p => negb (Z.eqb (fst p) k)) m) k' =
  if Z.eqb k k' then None else idx_find m k'.
Proof.
  induction m as [|[a b] r IH]; cbn [filter idx_find].
  - destruct (Z.eqb k k'); reflexivity.
  - cbn [fst]. destruct (Z.eqb_spec a k) as [->|Hn]; cbn [negb].
    + rewrite IH. destruct (Z.eqb k k'); reflexivity.
    + cbn [idx_find]. destruct (Z.eqb_spec a k') as [->|Hn'].
      * destruct (Z.eqb_spec k k'); [congruence|reflexivity].
      * apply IH.
Qed.

Lemma idx_find_set m k v k' :
  idx_find (idx_set m k v) k' = if Z.eqb k k' then Some v else idx_find m k'.
Proof.
  unfold idx_set; cbn [idx_find]. destruct (Z.eqb k k') eqn:E; [reflexivity|].
  rewrite idx_find_filter, E. reflexivity.
Qed.

Arguments idx_set : simpl never.

(** ** Invariant *)
Definition op_of_edge (names : list Z) (e : nat * nat * Q) : gop :=
  let '(a, b, w) := e in AddE (nth a names 0%Z) (nth b names 0%Z) w.

Definition is_edge (o : gop) : bool := match o with AddE _ _ _ => true | _ => false end.

Record Ginv (ops : list gop) (g : graph) : Prop := {
  gi_names : vnames g = inserted ops;
  gi_idx : forall k u, idx_find (vidx g) k = Some u <-> nth_error (vnames g) u = Some k;
  gi_rng : forall a b w, In (a, b, w) (gedges g) ->
           a < length (vnames g) /\ b < length (vnames g);
  gi_edges : map (op_of_edge (vnames g)) (gedges g) = filter is_edge (since_clear ops)
}.

Lemma nth_error_unique (l : list Z) (i j : nat) x :
  NoDup l -> nth_error l i = Some x -> nth_error l j = Some x -> i = j.
Proof.
  intros Hn Hi Hj. apply (proj1 (NoDup_nth_error l) Hn).
  - apply nth_error_Some; congruence.
  - congruence.
Qed.

Lemma op_of_edge_app names ext e :
  (forall a b w, e = (a, b, w) -> a < length names /\ b < length names) ->
  op_of_edge (names ++ ext) e = op_of_edge names e.
Proof.
  destruct e as [[a b] w]; intros H. destruct (H a b w eq_refl). cbn.
  rewrite !app_nth1; auto.
Qed.

(** What lookup_or_add followed by recording the index does. *)
Lemma idx_none_existsb g v :
  (forall k u, idx_find (vidx g) k = Some u <-> nth_error (vnames g) u = Some k) ->
  idx_find (vidx g) v = None <-> existsb (Z.eqb v) (vnames g) = false.
Proof.
  intros H. split.
  - intros Hn. destruct (existsb (Z.eqb v) (vnames g)) eqn:E; auto.
    apply existsb_Zeqb in E. apply In_nth_error in E. destruct E as [u Hu].
    apply H in Hu. congruence.
  - intros He. destruct (idx_find (vidx g) v) as [u|] eqn:E; auto.
    apply H in E. apply nth_error_In in E. apply existsb_Zeqb in E. congruence.
Qed.

Lemma Ginv_V ops g v : Ginv ops g -> Ginv (ops ++ [AddV v]) (addVertex g v).
Proof.
  intros [Hn Hi Hr He]. unfold addVertex.
  destruct (idx_find (vidx g) v) as [u|] eqn:E.
  - assert (Hex : existsb (Z.eqb v) (inserted ops) = true).
    { apply Hi in E. rewrite <- Hn. apply existsb_Zeqb. eapply nth_error_In; eauto. }
    constructor; auto.
    + rewrite inserted_snoc_V, Hex, app_nil_r; auto.
    + rewrite since_clear_snoc, filter_app. cbn. rewrite app_nil_r. auto.
  - pose proof (proj1 (idx_none_existsb g v Hi) E) as Hex.
    assert (Hd : NoDup (vnames g)) by (rewrite Hn; apply inserted_NoDup).
    assert (Hvn : ~ In v (vnames g)) by (rewrite <- existsb_Zeqb; congruence).
    cbn. constructor; cbn.
    + rewrite inserted_snoc_V, <- Hn, Hex; auto.
    + intros k u. rewrite idx_find_set.
      destruct (Z.eqb_spec v k) as [->|Hne].
      * split.
        -- intros [= <-]. rewrite nth_error_app2, Nat.sub_diag; auto.
        -- intros Hu. destruct (lt_dec u (length (vnames g))).
           ++ rewrite nth_error_app1 in Hu by auto. apply nth_error_In in Hu. contradiction.
           ++ rewrite nth_error_app2 in Hu by lia.
              destruct (u - length (vnames g)) eqn:Es; cbn in Hu.
              ** f_equal; lia.
              ** destruct n0; discriminate.
      * rewrite Hi. split.
        -- intros Hu. rewrite nth_error_app1; auto. apply nth_error_Some; congruence.
        -- intros Hu. destruct (lt_dec u (length (vnames g))).
           ++ rewrite nth_error_app1 in Hu by auto; auto.
           ++ rewrite nth_error_app2 in Hu by lia.
              destruct (u - length (vnames g)) as [|n']; cbn in Hu;
                [congruence|destruct n'; discriminate].
    + intros a b w Hin. apply Hr in Hin. rewrite app_length; cbn; lia.
    + rewrite since_clear_snoc, filter_app. cbn. rewrite app_nil_r, <- He.
      apply map_ext_in. intros e Hin. apply op_of_edge_app.
      intros a b w ->. eapply Hr; eauto.
Qed.

(** addEdge on distinct indices = insert both vertices, then the edge. *)
Lemma addEdge_split ops g a b w :
  Ginv ops g -> (a = b -> In a (inserted ops)) ->
  exists u1 u2,
    vnames (addEdge g a b w) = vnames (addVertex (addVertex g a) b) /\
    gedges (addEdge g a b w) = gedges g ++ [(u1, u2, w)] /\
    nth_error (vnames (addEdge g a b w)) u1 = Some a /\
    nth_error (vnames (addEdge g a b w)) u2 = Some b /\
    (forall k, idx_find (vidx (addEdge g a b w)) k =
               idx_find (vidx (addVertex (addVertex g a) b)) k).
Proof.
  intros HI Hab'.
  pose proof (Ginv_V _ _ a HI) as HI1.
  pose proof (Ginv_V _ _ b HI1) as HI2.
  pose proof (gi_idx _ _ HI2) as Hi2.
  unfold addEdge, lookup_or_add.
  destruct (idx_find (vidx g) a) as [ua|] eqn:Ea.
  - (* a known *)
    assert (E1 : addVertex g a = g) by (unfold addVertex; rewrite Ea; auto).
    rewrite E1 in *.
    destruct (idx_find (vidx g) b) as [ub|] eqn:Eb.
    + assert (E2 : addVertex g b = g) by (unfold addVertex; rewrite Eb; auto).
      rewrite E2 in *. exists ua, ub.
      cbn [vnames gedges vidx]. repeat split.
      * apply Hi2; auto. 
      * apply Hi2; auto.
      * intros k. rewrite !idx_find_set.
        destruct (Z.eqb_spec b k) as [->|]; auto.
        destruct (Z.eqb_spec a k) as [->|]; auto.
    + exists ua, (length (vnames g)).
      unfold addVertex in *. rewrite Eb in *. cbn in *. repeat split.
      * rewrite nth_error_app1; [apply (gi_idx _ _ HI); auto|].
        apply (gi_idx _ _ HI) in Ea. apply nth_error_Some; congruence.
      * rewrite nth_error_app2, Nat.sub_diag; auto.
      * intros k. rewrite !idx_find_set.
        destruct (Z.eqb_spec b k) as [->|Hbk]; auto.
        destruct (Z.eqb_spec a k) as [->|]; auto.
  - assert (Hab : a <> b).
    { intros Heq. specialize (Hab' Heq). rewrite <- (gi_names _ _ HI) in Hab'.
      apply (idx_none_existsb g a (gi_idx _ _ HI)) in Ea.
      apply existsb_Zeqb in Hab'. congruence. }
    assert (E1 : addVertex g a = mkG (vnames g ++ [a]) (gedges g) (idx_set (vidx g) a (length (vnames g)))).
    { unfold addVertex. rewrite Ea. reflexivity. }
    rewrite E1 in *. unfold boost_add_vertex. cbn [vnames gedges vidx].
    assert (Eb' : idx_find (vidx (mkG (vnames g ++ [a]) (gedges g) (idx_set (vidx g) a (length (vnames g))))) b
                  = idx_find (vidx g) b).
    { cbn [vidx]. rewrite idx_find_set. destruct (Z.eqb_spec a b); [congruence|auto]. }
    unfold addVertex in *. rewrite Eb' in *. clear Eb'.
    destruct (idx_find (vidx g) b) as [ub|] eqn:Eb.
    + exists (length (vnames g)), ub. cbn [vnames gedges vidx] in *. repeat split.
      * rewrite nth_error_app2, Nat.sub_diag; auto.
      * apply (gi_idx _ _ HI) in Eb. rewrite nth_error_app1; auto. apply nth_error_Some; congruence.
      * intros k. rewrite !idx_find_set.
        destruct (Z.eqb_spec b k) as [->|]; auto.
        destruct (Z.eqb_spec a k) as [->|]; auto. congruence.
    + exists (length (vnames g)), (S (length (vnames g))).
      cbn [boost_add_vertex vnames gedges vidx] in *.
      rewrite app_length; cbn [length]. rewrite Nat.add_1_r. repeat split.
      * rewrite <- app_assoc, nth_error_app2, Nat.sub_diag; auto.
      * rewrite nth_error_app2; rewrite app_length; cbn [length]; [|lia].
        replace (S (length (vnames g)) - (length (vnames g) + 1)) with 0 by lia. auto.
Qed.

Lemma Ginv_E ops g a b w :
  (a = b -> In a (inserted ops)) -> Ginv ops g -> Ginv (ops ++ [AddE a b w]) (addEdge g a b w).
Proof.
  intros Hab HI.
  destruct (addEdge_split ops g a b w HI Hab) as (u1 & u2 & Hn & He & H1 & H2 & Hi).
  pose proof (Ginv_V _ _ a HI) as HI1.
  pose proof (Ginv_V _ _ b HI1) as HI2.
  assert (Hext : exists ext, vnames (addEdge g a b w) = vnames g ++ ext).
  { rewrite (gi_names _ _ HI2) in Hn. rewrite Hn.
    rewrite inserted_snoc_V, inserted_snoc_V, <- (gi_names _ _ HI).
    rewrite <- app_assoc. eauto. }
  destruct Hext as [ext Hext].
  constructor.
  - rewrite Hn, (gi_names _ _ HI2). rewrite inserted_snoc_E, inserted_snoc_V, inserted_snoc_V.
    reflexivity.
  - intros k u. rewrite Hi, Hn. apply HI2.
  - intros x y z Hin. rewrite He in Hin. apply in_app_or in Hin.
    destruct Hin as [Hin|[[= <- <- <-]|[]]].
    + apply (gi_rng _ _ HI) in Hin. rewrite Hext, app_length; lia.
    + split; apply nth_error_Some; congruence.
  - rewrite He, map_app, since_clear_snoc, filter_app. f_equal.
    + rewrite <- (gi_edges _ _ HI), Hext. apply map_ext_in. intros e Hin.
      apply op_of_edge_app. intros x y z ->. eapply (gi_rng _ _ HI); eauto.
    + cbn. rewrite (nth_error_nth _ _ _ H1), (nth_error_nth _ _ _ H2). reflexivity.
Qed.

Lemma grun_snoc ops o : grun (ops ++ [o]) = gstep (grun ops) o.
Proof. unfold grun. rewrite fold_left_app. reflexivity. Qed.

Lemma Ginv_run ops : no_fresh_self_edge ops -> Ginv ops (grun ops).
Proof.
  induction ops as [|o ops IH] using rev_ind; intros Hs.
  - constructor; cbn; auto.
    + intros k u; split; [discriminate|destruct u; discriminate].
    + tauto.
  - rewrite grun_snoc.
    assert (Hs' : no_fresh_self_edge ops).
    { intros pre v w post Heq. apply (Hs pre v w (post ++ [o])). rewrite Heq, <- app_assoc. auto. }
    specialize (IH Hs'). destruct o as [v|a b w|]; cbn [gstep].
    + apply Ginv_V; auto.
    + apply Ginv_E; auto. intros ->. apply (Hs ops b w []). auto.
    + unfold clearGraph. constructor; cbn; try rewrite since_clear_snoc; auto.
      * unfold inserted. rewrite since_clear_snoc. reflexivity.
      * intros k u; split; [discriminate|destruct u; discriminate].
      * tauto.
Qed.
