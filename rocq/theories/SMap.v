(** std::map<K, V> as an association list kept in strictly increasing key order,
    so that folding over the list is iterating the map. *)
From Coq Require Export List Arith ZArith Bool Lia Sorted.
Export ListNotations.
Open Scope nat_scope.

(** Key types with their operator< . *)
Class KeyOrd (K : Type) := {
  kcmp : K -> K -> comparison;
  kcmp_eq : forall a b, kcmp a b = Eq <-> a = b;
  kcmp_trans : forall a b c, kcmp a b = Lt -> kcmp b c = Lt -> kcmp a c = Lt;
  kcmp_opp : forall a b, kcmp b a = CompOpp (kcmp a b)
}.

Global Instance KeyZ : KeyOrd Z.
Proof.
  refine {| kcmp := Z.compare |}.
  - intros; apply Z.compare_eq_iff.
  - intros a b c; rewrite !Z.compare_lt_iff; lia.
  - intros; apply Z.compare_antisym.
Defined.

Definition pair_cmp (a b : Z * Z) : comparison :=
  match Z.compare (fst a) (fst b) with
  | Eq => Z.compare (snd a) (snd b)
  | c => c
  end.

(** std::pair<int,int> compares lexicographically. *)
Global Instance KeyZZ : KeyOrd (Z * Z).
Proof.
  refine {| kcmp := pair_cmp |}; unfold pair_cmp.
  - intros [a1 a2] [b1 b2]; cbn. destruct (Z.compare_spec a1 b1); cbn.
    + rewrite Z.compare_eq_iff. subst. split; [intros ->; auto|intros [= ->]; auto].
    + split; [discriminate|intros [= -> _]; lia].
    + split; [discriminate|intros [= -> _]; lia].
  - intros [a1 a2] [b1 b2] [c1 c2]; cbn.
    destruct (Z.compare_spec a1 b1), (Z.compare_spec b1 c1), (Z.compare_spec a1 c1);
      try lia; try discriminate; auto; rewrite ?Z.compare_lt_iff; lia.
  - intros [a1 a2] [b1 b2]; cbn. rewrite (Z.compare_antisym a1 b1).
    destruct (Z.compare a1 b1); cbn; auto. apply Z.compare_antisym.
Defined.

Definition smap (K V : Type) := list (K * V).

Section Map.
  Context {K V : Type} {O : KeyOrd K}.

  (** find / operator[] read on a present key *)
  Fixpoint mfind (k : K) (m : smap K V) : option V :=
    match m with
    | [] => None
    | (k', v) :: r => match kcmp k k' with Eq => Some v | _ => mfind k r end
    end.

  (** m[k] = v *)
  Fixpoint mset (k : K) (v : V) (m : smap K V) : smap K V :=
    match m with
    | [] => [(k, v)]
    | (k', v') :: r =>
        match kcmp k k' with
        | Lt => (k, v) :: m
        | Eq => (k, v) :: r
        | Gt => (k', v') :: mset k v r
        end
    end.

  Definition mkeys (m : smap K V) : list K := map fst m.
  Definition mvals (m : smap K V) : list V := map snd m.
  Definition klt (a b : K) : Prop := kcmp a b = Lt.
  Definition msorted (m : smap K V) : Prop := StronglySorted klt (mkeys m).

  Lemma kcmp_refl k : kcmp k k = Eq.
  Proof. apply kcmp_eq; auto. Qed.
  Lemma klt_irrefl k : ~ klt k k.
  Proof. unfold klt. rewrite kcmp_refl. discriminate. Qed.
  Lemma klt_neq a b : klt a b -> a <> b.
  Proof. intros H ->. eapply klt_irrefl; eauto. Qed.
  Lemma kcmp_gt a b : kcmp a b = Gt <-> klt b a.
  Proof.
    unfold klt. rewrite (kcmp_opp a b). destruct (kcmp a b); cbn; split; congruence.
  Qed.
  Lemma kcmp_neq a b : a <> b -> kcmp a b <> Eq.
  Proof. intros H E. apply kcmp_eq in E. auto. Qed.
  Lemma key_dec (a b : K) : {a = b} + {a <> b}.
  Proof.
    destruct (kcmp a b) eqn:E; [left; apply kcmp_eq; auto| |];
      right; intros ->; rewrite kcmp_refl in E; discriminate.
  Qed.

  Lemma mfind_mset_eq k v m : mfind k (mset k v m) = Some v.
  Proof.
    induction m as [|[k' v'] r IH]; cbn.
    - rewrite kcmp_refl; auto.
    - destruct (kcmp k k') eqn:E; cbn; rewrite ?kcmp_refl; auto. rewrite E; auto.
  Qed.

  Lemma mfind_mset_neq k k' v m : k' <> k -> mfind k' (mset k v m) = mfind k' m.
  Proof.
    intros Hn. induction m as [|[a b] r IH]; cbn.
    - destruct (kcmp k' k) eqn:E; auto. apply kcmp_eq in E. contradiction.
    - destruct (kcmp k a) eqn:E; cbn.
      + apply kcmp_eq in E; subst a. destruct (kcmp k' k) eqn:E2; auto.
        apply kcmp_eq in E2. contradiction.
      + destruct (kcmp k' k) eqn:E2; auto. apply kcmp_eq in E2. contradiction.
      + rewrite IH. auto.
  Qed.

  Lemma mset_keys_in k v m x : In x (mkeys (mset k v m)) <-> x = k \/ In x (mkeys m).
  Proof.
    induction m as [|[a b] r IH]; cbn.
    - intuition.
    - destruct (kcmp k a) eqn:E; cbn.
      + apply kcmp_eq in E; subst a. intuition.
      + intuition.
      + unfold mkeys in IH. rewrite IH. intuition.
  Qed.

  Lemma mset_sorted k v m : msorted m -> msorted (mset k v m).
  Proof.
    unfold msorted. induction m as [|[a b] r IH]; cbn; intros H.
    - constructor; constructor.
    - inversion H as [|? ? Hr Hf]; subst. destruct (kcmp k a) eqn:E; cbn.
      + apply kcmp_eq in E; subst a. constructor; auto.
      + constructor; auto. constructor; auto.
        eapply Forall_impl; [|exact Hf]. intros x Hx. eapply kcmp_trans; eauto.
      + apply kcmp_gt in E. constructor; auto.
        apply Forall_forall. intros x Hx. apply (mset_keys_in k v r x) in Hx.
        destruct Hx as [->|Hx]; auto. rewrite Forall_forall in Hf. auto.
  Qed.

  Lemma mfind_In k v m : mfind k m = Some v -> In (k, v) m.
  Proof.
    induction m as [|[a b] r IH]; cbn; [discriminate|].
    destruct (kcmp k a) eqn:E; auto. apply kcmp_eq in E; subst. intros [= ->]; auto.
  Qed.

  Lemma In_mfind k v m : msorted m -> In (k, v) m -> mfind k m = Some v.
  Proof.
    unfold msorted. induction m as [|[a b] r IH]; cbn; intros H Hin; [tauto|].
    inversion H as [|? ? Hr Hf]; subst. destruct Hin as [[= <- <-]|Hin].
    - rewrite kcmp_refl; auto.
    - assert (Hk : klt a k).
      { rewrite Forall_forall in Hf. apply Hf. change k with (fst (k, v)). apply in_map; auto. }
      destruct (kcmp k a) eqn:E; auto.
      apply kcmp_eq in E; subst. exfalso; eapply klt_irrefl; eauto.
  Qed.

  Lemma mfind_None k m : mfind k m = None <-> ~ In k (mkeys m).
  Proof.
    induction m as [|[a b] r IH]; cbn; [tauto|].
    destruct (kcmp k a) eqn:E.
    - apply kcmp_eq in E; subst. split; [discriminate|]. intros H; exfalso; apply H; auto.
    - rewrite IH. assert (a <> k) by (intros ->; rewrite kcmp_refl in E; discriminate).
      unfold mkeys. tauto.
    - rewrite IH. assert (a <> k) by (intros ->; rewrite kcmp_refl in E; discriminate).
      unfold mkeys. tauto.
  Qed.

  Lemma mfind_Some_key k m : In k (mkeys m) <-> exists v, mfind k m = Some v.
  Proof.
    destruct (mfind k m) as [v|] eqn:E.
    - split; [eauto|]. intros _. apply mfind_In in E. change k with (fst (k, v)). apply in_map; auto.
    - apply mfind_None in E. split; [contradiction|]. intros [v Hv]; discriminate.
  Qed.

  (** setting a key beyond the last one appends *)
  Lemma mset_append k v m : (forall x, In x (mkeys m) -> klt x k) -> mset k v m = m ++ [(k, v)].
  Proof.
    induction m as [|[a b] r IH]; cbn; intros H; auto.
    assert (Ha : klt a k) by auto. apply kcmp_gt in Ha. rewrite Ha.
    f_equal. apply IH. auto.
  Qed.

  Lemma msorted_NoDup m : msorted m -> NoDup (mkeys m).
  Proof.
    unfold msorted. induction (mkeys m) as [|x l IH]; intros H; constructor.
    - inversion H as [|? ? Hr Hf]; subst. intros Hin. rewrite Forall_forall in Hf.
      eapply klt_irrefl; eauto.
    - apply IH. inversion H; auto.
  Qed.

  Lemma msorted_ext m1 m2 : msorted m1 -> msorted m2 ->
    (forall k, mfind k m1 = mfind k m2) -> m1 = m2.
  Proof.
    revert m2. induction m1 as [|[a b] r IH]; intros [|[c d] r2] H1 H2 Hf; auto.
    - specialize (Hf c). cbn in Hf. rewrite kcmp_refl in Hf. discriminate.
    - specialize (Hf a). cbn in Hf. rewrite kcmp_refl in Hf. discriminate.
    - unfold msorted in *. cbn in H1, H2.
      inversion H1 as [|? ? H1r H1f]; subst. inversion H2 as [|? ? H2r H2f]; subst.
      rewrite Forall_forall in H1f, H2f.
      assert (Hac : a = c).
      { destruct (kcmp a c) eqn:E.
        - apply kcmp_eq; auto.
        - exfalso. pose proof (Hf a) as Ha. cbn in Ha. rewrite kcmp_refl, E in Ha.
          symmetry in Ha. apply mfind_In in Ha. apply (in_map fst) in Ha. cbn in Ha.
          specialize (H2f a Ha). apply (klt_irrefl a). eapply kcmp_trans; eauto.
        - exfalso. apply kcmp_gt in E. pose proof (Hf c) as Hc. cbn in Hc.
          rewrite kcmp_refl in Hc. unfold klt in E. rewrite E in Hc.
          apply mfind_In in Hc. apply (in_map fst) in Hc. cbn in Hc.
          specialize (H1f c Hc). apply (klt_irrefl c). eapply kcmp_trans; eauto. }
      subst c. pose proof (Hf a) as Ha. cbn in Ha. rewrite kcmp_refl in Ha. inversion Ha; subst d.
      f_equal. apply IH; auto. intros k. specialize (Hf k). cbn in Hf.
      destruct (kcmp k a) eqn:E; auto.
      apply kcmp_eq in E; subst k.
      assert (H1n : mfind a r = None).
      { apply mfind_None. intros Hin. apply (klt_irrefl a). auto. }
      assert (H2n : mfind a r2 = None).
      { apply mfind_None. intros Hin. apply (klt_irrefl a). auto. }
      congruence.
  Qed.

  Lemma mset_keys_existing k v m : msorted m -> In k (mkeys m) -> mkeys (mset k v m) = mkeys m.
  Proof.
    unfold msorted. induction m as [|[a b] r IH]; cbn; intros Hs H; [tauto|].
    inversion Hs as [|? ? Hr Hf]; subst. destruct (kcmp k a) eqn:E; cbn.
    - apply kcmp_eq in E; subst; auto.
    - exfalso. destruct H as [->|H]; [rewrite kcmp_refl in E; discriminate|].
      rewrite Forall_forall in Hf. specialize (Hf k H). apply (klt_irrefl k).
      eapply kcmp_trans; eauto.
    - destruct H as [->|H]; [rewrite kcmp_refl in E; discriminate|].
      f_equal. apply IH; auto.
  Qed.
End Map.

Arguments mset_sorted {K V O}.

(** ** Tables indexed 0,1,2,...: the idiom table[table.size()] = x *)
Definition dpush {V} (m : smap Z V) (x : V) : smap Z V := mset (Z.of_nat (length m)) x m.

(** the table holding the list [l] under keys 0..length l - 1 *)
Fixpoint dense_from {V} (k : nat) (l : list V) : smap Z V :=
  match l with
  | [] => []
  | x :: r => (Z.of_nat k, x) :: dense_from (S k) r
  end.
Definition dense {V} (l : list V) : smap Z V := dense_from 0 l.

Lemma dense_from_length {V} (l : list V) : forall k, length (dense_from k l) = length l.
Proof. induction l; intros; cbn; auto. Qed.

Lemma dense_from_keys {V} (l : list V) : forall k x,
  In x (mkeys (dense_from k l)) -> (Z.of_nat k <= x < Z.of_nat (k + length l))%Z.
Proof.
  induction l as [|a l IH]; intros k x; cbn; [tauto|]. intros [<-|H]; [lia|].
  apply IH in H. lia.
Qed.

Lemma dense_from_app {V} (l1 : list V) : forall k l2,
  dense_from k (l1 ++ l2) = dense_from k l1 ++ dense_from (k + length l1) l2.
Proof.
  induction l1 as [|a l1 IH]; intros k l2; cbn.
  - rewrite Nat.add_0_r; auto.
  - rewrite IH. replace (k + S (length l1)) with (S k + length l1) by lia. auto.
Qed.

Lemma dpush_dense {V} (l : list V) x : dpush (dense l) x = dense (l ++ [x]).
Proof.
  unfold dpush, dense. rewrite mset_append.
  - rewrite dense_from_app, dense_from_length. reflexivity.
  - intros k Hk. apply dense_from_keys in Hk. cbn in Hk. unfold klt, kcmp; cbn.
    rewrite dense_from_length. apply Z.compare_lt_iff. lia.
Qed.

Lemma dense_vals {V} (l : list V) : mvals (dense l) = l.
Proof.
  unfold dense, mvals. generalize 0. induction l as [|a l IH]; intros k; cbn; auto. f_equal; auto.
Qed.

Lemma dense_length {V} (l : list V) : length (dense l) = length l.
Proof. apply dense_from_length. Qed.

Lemma dense_from_sorted {V} (l : list V) : forall k, msorted (dense_from k l).
Proof.
  unfold msorted. induction l as [|a l IH]; intros k; cbn; constructor; [apply IH|].
  apply Forall_forall. intros x Hx. apply dense_from_keys in Hx.
  unfold klt, kcmp; cbn. apply Z.compare_lt_iff. lia.
Qed.

Lemma dense_sorted {V} (l : list V) : msorted (dense l).
Proof. apply dense_from_sorted. Qed.

Lemma dense_from_find {V} (l : list V) : forall k i,
  mfind (Z.of_nat (k + i)) (dense_from k l) = nth_error l i.
Proof.
  induction l as [|a l IH]; intros k i.
  - destruct i; auto.
  - cbn [dense_from mfind]. destruct i as [|i]; cbn.
    + rewrite Nat.add_0_r, Z.compare_refl. auto.
    + destruct (Z.compare_spec (Z.of_nat (k + S i)) (Z.of_nat k)); try lia.
      replace (k + S i) with (S k + i) by lia. apply IH.
Qed.

Lemma dense_find {V} (l : list V) i : mfind (Z.of_nat i) (dense l) = nth_error l i.
Proof. apply (dense_from_find l 0 i). Qed.
