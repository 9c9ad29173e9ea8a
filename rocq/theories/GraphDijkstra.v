(** Dijkstra's loop: invariant and consequences. *)
From Coq Require Import List Arith ZArith QArith Bool Lia Relations Permutation.
From Verif Require Import GraphModel GraphSpec GraphInv GraphComp.
Import ListNotations.
Close Scope Q_scope.
Open Scope nat_scope.

Lemma NoDup_snoc {A} (l : list A) x : NoDup l -> ~ In x l -> NoDup (l ++ [x]).
Proof.
  intros H Hx. apply (Permutation_NoDup (l := x :: l)).
  - apply Permutation_cons_append.
  - constructor; auto.
Qed.

Section Dij.
  Variables (n : nat) (E : list (nat * nat * Q)) (s : nat).
  Hypothesis Hrng : in_range n E.
  Hypothesis Hs : s < n.
  Hypothesis Hpos : forall a b w, In (a, b, w) E -> (0 <= trunc w)%Z.

  Definition ew (u v : nat) (w : Q) := In (u, v, w) E \/ In (v, u, w) E.

  Lemma ew_pos u v w : ew u v w -> (0 <= trunc w)%Z.
  Proof. intros [H|H]; eauto. Qed.
  Lemma ew_rng u v w : ew u v w -> u < n /\ v < n.
  Proof. intros [H|H]; apply Hrng in H; lia. Qed.

  Record Dinv (st : dstate) : Prop := {
    di_nodup : NoDup (dblack st ++ dqueue st);
    di_rng : forall v, In v (dblack st ++ dqueue st) -> v < n;
    di_start : (dblack st = [] /\ dqueue st = [s]) \/ In s (dblack st);
    di_s : ddist st s = Some 0%Z;
    di_seen : forall v, In v (dblack st ++ dqueue st) <-> ddist st v <> None;
    di_white : forall v, ~ In v (dblack st ++ dqueue st) -> dpred st v = v;
    di_pred : forall v, In v (dblack st ++ dqueue st) -> v <> s ->
      exists w z, In (dpred st v) (dblack st) /\ ew (dpred st v) v w /\
        ddist st (dpred st v) = Some z /\ ddist st v = Some (z + trunc w)%Z;
    di_order : forall l1 v l2, dblack st = l1 ++ v :: l2 -> v <> s -> In (dpred st v) l2;
    di_edge : forall u v w, In u (dblack st) -> ew u v w ->
      In v (dblack st ++ dqueue st) /\
      exists a b, ddist st u = Some a /\ ddist st v = Some b /\ (b <= a + trunc w)%Z;
    di_mono : forall u v a b, In u (dblack st) -> In v (dqueue st) ->
      ddist st u = Some a -> ddist st v = Some b -> (a <= b)%Z;
    di_nonneg : forall v a, ddist st v = Some a -> (0 <= a)%Z
  }.

  (** state while the out-edges of [u] are scanned *)
  Record Rinv (B : list nat) (d0 : nat -> option Z) (p0 : nat -> nat)
         (u : nat) (du : Z) (done : nat * Q -> Prop) (st : dstate) : Prop := {
    ri_black : dblack st = B;
    ri_nodup : NoDup (u :: B ++ dqueue st);
    ri_rng : forall v, In v (dqueue st) -> v < n;
    ri_keep : forall v, In v (u :: B) -> ddist st v = d0 v /\ dpred st v = p0 v;
    ri_seen : forall v, In v (u :: B ++ dqueue st) <-> ddist st v <> None;
    ri_white : forall v, ~ In v (u :: B ++ dqueue st) -> dpred st v = v;
    ri_pred : forall v, In v (dqueue st) ->
      exists w z, In (dpred st v) (u :: B) /\ ew (dpred st v) v w /\
        ddist st (dpred st v) = Some z /\ ddist st v = Some (z + trunc w)%Z;
    ri_ge : forall v b, In v (dqueue st) -> ddist st v = Some b -> (du <= b)%Z;
    ri_edge : forall x v w, In x B -> ew x v w ->
      In v (u :: B ++ dqueue st) /\
      exists a b, ddist st x = Some a /\ ddist st v = Some b /\ (b <= a + trunc w)%Z;
    ri_done : forall v w, done (v, w) -> 
      In v (u :: B ++ dqueue st) /\
      exists b, ddist st v = Some b /\ (b <= du + trunc w)%Z
  }.

  Lemma relax_inv B d0 p0 u du done st v w :
    Rinv B d0 p0 u du done st ->
    d0 u = Some du -> ew u v w ->
    (forall x b, In x (u :: B) -> d0 x = Some b -> (b <= du)%Z) ->
    Rinv B d0 p0 u du (fun e => done e \/ e = (v, w)) (relax u du st (v, w)).
  Proof.
    intros [HB Hnd Hr Hk Hse Hw Hp Hg He Hd] Hdu Hew Hle.
    pose proof (ew_pos _ _ _ Hew) as Hwpos. pose proof (ew_rng _ _ _ Hew) as [Hun Hvn].
    assert (Hu : ddist st u = Some du).
    { destruct (Hk u (or_introl eq_refl)) as [-> _]. auto. }
    unfold relax. rewrite HB.
    destruct (memb v (u :: B)) eqn:Em.
    - (* finished target *)
      apply memb_In in Em. constructor; auto.
      intros v' w' [H|[= -> ->]]; [auto|].
      assert (Hin : In v (u :: B ++ dqueue st)).
      { destruct Em as [->|Em]; [left; auto|right; apply in_or_app; auto]. }
      split; auto.
      destruct (ddist st v) as [b|] eqn:Ev.
      + exists b; split; auto. destruct (Hk v Em) as [Hkv _].
        assert (b <= du)%Z; [|lia]. eapply Hle; [exact Em|congruence].
      + exfalso. apply Hse in Hin. contradiction.
    - apply memb_not_In in Em.
      assert (Hnu : v <> u) by (intros ->; apply Em; cbn; auto).
      assert (HnB : ~ In v B) by (intros H; apply Em; cbn; auto).
      set (q := if memb v (dqueue st) then dqueue st else dqueue st ++ [v]).
      assert (Hq : forall x, In x q <-> In x (dqueue st) \/ x = v).
      { intros x. unfold q. destruct (memb v (dqueue st)) eqn:Eq.
        - apply memb_In in Eq. split; [auto|]. intros [H| ->]; auto.
        - rewrite in_app_iff. cbn. split; intros [H|H]; auto. destruct H as [->|[]]; auto. }
      assert (Hqnd : NoDup (u :: B ++ q)).
      { unfold q. destruct (memb v (dqueue st)) eqn:Eq; auto.
        apply memb_not_In in Eq.
        rewrite app_assoc. change (u :: (B ++ dqueue st) ++ [v]) with ((u :: B ++ dqueue st) ++ [v]).
        apply NoDup_snoc; auto.
        intros [H|H]; [congruence|]. apply in_app_or in H. tauto. }
      assert (Hqin : forall x, In x (u :: B ++ q) <-> In x (u :: B ++ dqueue st) \/ x = v).
      { intros x. cbn. rewrite !in_app_iff, Hq. tauto. }
      destruct (dlt (du + trunc w) (ddist st v)) eqn:Elt.
      + (* improved *)
        assert (Hupd : forall x, x <> v -> upd (ddist st) v (Some (du + trunc w)%Z) x = ddist st x).
        { intros x Hx. unfold upd. destruct (Nat.eqb_spec x v); congruence. }
        assert (Hupv : upd (ddist st) v (Some (du + trunc w)%Z) v = Some (du + trunc w)%Z).
        { unfold upd. rewrite Nat.eqb_refl. auto. }
        assert (Hpu : forall x, x <> v -> upd (dpred st) v u x = dpred st x).
        { intros x Hx. unfold upd. destruct (Nat.eqb_spec x v); congruence. }
        assert (Hpv : upd (dpred st) v u v = u).
        { unfold upd. rewrite Nat.eqb_refl. auto. }
        assert (Hdec : forall b, ddist st v = Some b -> (du + trunc w < b)%Z).
        { intros b Hb. rewrite Hb in Elt. cbn in Elt. apply Z.ltb_lt in Elt. auto. }
        constructor; cbn [ddist dpred dblack dqueue]; auto.
        * intros x Hx. apply Hq in Hx. destruct Hx as [Hx| ->]; auto.
        * intros x Hx. assert (x <> v) by (intros ->; tauto).
          rewrite Hupd, Hpu; auto.
        * intros x. rewrite Hqin. destruct (Nat.eq_dec x v) as [->|Hx].
          -- rewrite Hupv. split; [congruence|auto].
          -- rewrite Hupd by auto. rewrite <- Hse. tauto.
        * intros x Hx. rewrite Hqin in Hx. rewrite Hpu by tauto. apply Hw. tauto.
        * intros x Hx. apply Hq in Hx. destruct (Nat.eq_dec x v) as [->|Hxv].
          -- exists w, du. rewrite Hpv, Hupv, Hupd by auto. cbn; auto.
          -- destruct Hx as [Hx|]; [|contradiction].
             destruct (Hp x Hx) as (w' & z & H1 & H2 & H3 & H4).
             exists w', z. rewrite Hpu, (Hupd x) by auto.
             rewrite Hupd by (intros Heq; rewrite Heq in H1; tauto). auto.
        * intros x b Hx Hb. destruct (Nat.eq_dec x v) as [->|Hxv].
          -- rewrite Hupv in Hb. inversion Hb; subst. lia.
          -- rewrite Hupd in Hb by auto. apply Hq in Hx. destruct Hx as [Hx|]; [|contradiction].
             eapply Hg; eauto.
        * intros x y w' Hx Hxy. destruct (He x y w' Hx Hxy) as (Hy & a & b & Ha & Hb & Hab).
          split; [apply Hqin; auto|]. 
          assert (x <> v) by (intros ->; tauto).
          destruct (Nat.eq_dec y v) as [->|Hyv].
          -- exists a, (du + trunc w)%Z. rewrite Hupd, Hupv by auto. repeat split; auto.
             specialize (Hdec b Hb). lia.
          -- exists a, b. rewrite !Hupd by auto. auto.
        * intros y w' [H|[= -> ->]].
          -- destruct (Hd y w' H) as (Hy & b & Hb & Hab). split; [apply Hqin; auto|].
             destruct (Nat.eq_dec y v) as [->|Hyv].
             ++ exists (du + trunc w)%Z. rewrite Hupv. split; auto. specialize (Hdec b Hb). lia.
             ++ exists b. rewrite Hupd by auto. auto.
          -- split; [apply Hqin; auto|]. exists (du + trunc w)%Z. rewrite Hupv. split; auto. lia.
      + (* not improved: v already has a distance *)
        destruct (ddist st v) as [b0|] eqn:Ev; [|discriminate].
        cbn in Elt. apply Z.ltb_ge in Elt.
        assert (Hvin : In v (u :: B ++ dqueue st)) by (apply Hse; congruence).
        assert (Hvq : In v (dqueue st)).
        { destruct Hvin as [H|H]; [congruence|]. apply in_app_or in H. tauto. }
        assert (Eq : q = dqueue st).
        { unfold q. destruct (memb v (dqueue st)) eqn:E'; auto. apply memb_not_In in E'. contradiction. }
        rewrite Eq. constructor; cbn [ddist dpred dblack dqueue]; auto.
        intros y w' [H|[= -> ->]]; [auto|]. split; auto. exists b0; split; auto.
  Qed.

  Lemma relax_all B d0 p0 u du : d0 u = Some du ->
    (forall x b, In x (u :: B) -> d0 x = Some b -> (b <= du)%Z) ->
    forall es done st,
    (forall v w, In (v, w) es -> ew u v w) ->
    Rinv B d0 p0 u du done st ->
    Rinv B d0 p0 u du (fun e => done e \/ In e es) (fold_left (relax u du) es st).
  Proof.
    intros Hdu Hle. induction es as [|[v w] es IH]; intros done st Hes HR; cbn [fold_left].
    - destruct HR; constructor; auto. intros v w [H|[]]; auto.
    - assert (HR' := relax_inv B d0 p0 u du done st v w HR Hdu
                       (Hes v w (or_introl eq_refl)) Hle).
      apply IH in HR'; [|intros; apply Hes; cbn; auto].
      destruct HR' as [R1 R2 R3 R4 R5 R6 R7 R8 R9 R10]. constructor; auto.
      intros v' w' H. apply R10. cbn in H. destruct H as [H|[H|H]]; auto.
  Qed.

  Lemma filter_neq_In u l x : In x (filter (fun y => negb (Nat.eqb y u)) l) <-> In x l /\ x <> u.
  Proof.
    rewrite filter_In. destruct (Nat.eqb_spec x u); cbn; intuition congruence.
  Qed.

  Lemma dpop_inv st u :
    Dinv st -> In u (dqueue st) ->
    (forall v, In v (dqueue st) -> dle (ddist st u) (ddist st v) = true) ->
    Dinv (dpop E u st) /\ dblack (dpop E u st) = u :: dblack st.
  Proof.
    intros [I1 I2 I3 I4 I5 I6 I7 I8 I9 I10 I11] Hu Hmin.
    set (B := dblack st).
    assert (Hseen : ddist st u <> None) by (apply I5, in_or_app; auto).
    destruct (ddist st u) as [du|] eqn:Edu; [|contradiction].
    assert (HuB : ~ In u B).
    { intros H. clear - I1 H Hu. unfold B in H. apply in_split in H. destruct H as (l1 & l2 & H).
      rewrite H in I1. rewrite <- app_assoc in I1. apply NoDup_remove_2 in I1. apply I1.
      rewrite !in_app_iff. auto. }
    set (q0 := filter (fun x => negb (Nat.eqb x u)) (dqueue st)).
    assert (Hq0 : forall x, In x (B ++ dqueue st) <-> In x (u :: B ++ q0)).
    { intros x. cbn. rewrite !in_app_iff. unfold q0. rewrite filter_neq_In.
      split.
      - destruct (Nat.eq_dec x u) as [->|]; auto. intros [H|H]; auto.
      - intros [<-|[H|[H _]]]; auto. }
    assert (Hnd0 : NoDup (u :: B ++ q0)).
    { constructor.
      - rewrite in_app_iff. unfold q0. rewrite filter_neq_In. tauto.
      - unfold q0, B. clear - I1. revert I1. generalize (dblack st) as b.
        induction b as [|y b IH]; cbn; intros H.
        + apply NoDup_filter; auto.
        + inversion H as [|? ? Hy Hn]; subst. constructor; auto.
          rewrite in_app_iff, filter_neq_In in *. tauto. }
    assert (HR0 : Rinv B (ddist st) (dpred st) u du (fun _ => False)
                    (mkD (ddist st) (dpred st) B q0)).
    { constructor; cbn [ddist dpred dblack dqueue]; auto.
      - intros v Hv. apply I2, in_or_app. unfold q0 in Hv. apply filter_neq_In in Hv. tauto.
      - intros v. rewrite <- Hq0. apply I5.
      - intros v Hv. apply I6. unfold B in Hq0. rewrite Hq0. auto.
      - intros v Hv. unfold q0 in Hv. apply filter_neq_In in Hv. destruct Hv as [Hv Hvu].
        assert (Hvs : v <> s).
        { intros ->. destruct I3 as [[_ Hq]|Hb].
          - rewrite Hq in *. destruct Hu as [Hu|[]]. congruence.
          - clear - I1 Hb Hv. apply in_split in Hb. destruct Hb as (l1 & l2 & H).
            rewrite H in I1. rewrite <- app_assoc in I1. apply NoDup_remove_2 in I1. apply I1.
            rewrite !in_app_iff. auto. }
        destruct (I7 v) as (w & z & H1 & H2 & H3 & H4); auto.
        { apply in_or_app; auto. }
        exists w, z. cbn. auto.
      - intros v b Hv Hb. unfold q0 in Hv. apply filter_neq_In in Hv. destruct Hv as [Hv _].
        specialize (Hmin v Hv). rewrite Hb in Hmin. cbn in Hmin.
        apply Z.leb_le in Hmin. auto.
      - intros x v w Hx Hxv. destruct (I9 x v w Hx Hxv) as (Hv & H). split; auto.
        apply Hq0; auto.
      - tauto. }
    assert (Hle : forall x b, In x (u :: B) -> ddist st x = Some b -> (b <= du)%Z).
    { intros x b [<-|Hx] Hb; [rewrite Edu in Hb; inversion Hb; lia|].
      eapply I10; eauto. }
    assert (Hes : forall v w, In (v, w) (out_edges E u) -> ew u v w).
    { intros v w H. apply out_edges_In in H. auto. }
    pose proof (relax_all B (ddist st) (dpred st) u du Edu Hle (out_edges E u) _ _ Hes HR0) as HR.
    unfold dpop. rewrite Edu. fold q0. fold B.
    set (st2 := fold_left (relax u du) (out_edges E u) (mkD (ddist st) (dpred st) B q0)) in *.
    destruct HR as [R1 R2 R3 R4 R5 R6 R7 R8 R9 R10].
    split; [|cbn; rewrite R1; auto].
    assert (Hsin : In s (u :: B)).
    { destruct I3 as [[_ Hq]|Hb]; [|right; auto]. rewrite Hq in Hu.
      destruct Hu as [->|[]]; left; auto. }
    assert (Hkd : forall v, In v (u :: B) -> ddist st2 v = ddist st v) by (intros; apply R4; auto).
    assert (Hkp : forall v, In v (u :: B) -> dpred st2 v = dpred st v) by (intros; apply R4; auto).
    constructor; cbn [ddist dpred dblack dqueue]; rewrite ?R1.
    - exact R2.
    - intros v Hv. destruct Hv as [<-|Hv]; [apply I2, in_or_app; auto|].
      apply in_app_or in Hv. destruct Hv as [Hv|Hv]; auto. apply I2, in_or_app; auto.
    - right; auto.
    - rewrite Hkd; auto.
    - exact R5.
    - exact R6.
    - intros v Hv Hvs. destruct Hv as [<-|Hv]; [|apply in_app_or in Hv; destruct Hv as [Hv|Hv]].
      + destruct (I7 u) as (w & z & H1 & H2 & H3 & H4); auto.
        { apply in_or_app; auto. }
        exists w, z. rewrite Hkp by (left; auto). rewrite !Hkd by (cbn; auto). cbn; auto.
      + destruct (I7 v) as (w & z & H1 & H2 & H3 & H4); auto.
        { apply in_or_app; auto. }
        exists w, z. rewrite Hkp by (right; auto). rewrite !Hkd by (cbn; auto). cbn; auto.
      + apply R7; auto.
    - intros l1 v l2 Hl Hvs.
      assert (Hvin : In v (u :: B)) by (rewrite Hl; apply in_or_app; cbn; auto).
      rewrite Hkp by auto. destruct l1 as [|x l1]; cbn in Hl; inversion Hl; subst.
      + destruct (I7 v) as (w & z & H1 & _); auto. apply in_or_app; auto.
      + eapply I8; eauto.
    - intros x v w Hx Hxv. destruct Hx as [<-|Hx].
      + destruct (R10 v w) as (Hv & b & Hb & Hab).
        { right. apply out_edges_In. auto. }
        split; auto. exists du, b. rewrite Hkd by (left; auto). auto.
      + apply R9; auto.
    - intros x v a b Hx Hv Ha Hb.
      assert (a <= du)%Z by (eapply Hle; [exact Hx|rewrite <- Hkd; auto]).
      assert (du <= b)%Z by (eapply R8; eauto). lia.
    - intros v a Ha.
      assert (Hv : In v (u :: B ++ dqueue st2)) by (apply R5; congruence).
      destruct Hv as [<-|Hv]; [rewrite Hkd in Ha by (left; auto); eauto|].
      apply in_app_or in Hv. destruct Hv as [Hv|Hv].
      + rewrite Hkd in Ha by (right; auto). eauto.
      + assert (du <= a)%Z by (eapply R8; eauto). assert (0 <= du)%Z by eauto. lia.
  Qed.

  Lemma dinit_inv : Dinv (dinit s).
  Proof.
    unfold dinit. constructor; cbn [ddist dpred dblack dqueue app].
    - constructor; [tauto|constructor].
    - intros v [<-|[]]; auto.
    - auto.
    - unfold upd. rewrite Nat.eqb_refl. auto.
    - intros v. unfold upd. destruct (Nat.eqb_spec v s) as [->|Hn]; cbn; split; try congruence; auto.
      intros [H|[]]; congruence.
    - auto.
    - intros v [->|[]]; congruence.
    - intros l1 v l2 H. destruct l1; discriminate.
    - intros u v w [].
    - intros u v a b [].
    - intros v a. unfold upd. destruct (Nat.eqb v s); intros [= <-]. lia.
  Qed.

  Lemma Dinv_length st : Dinv st -> length (dblack st ++ dqueue st) <= n.
  Proof.
    intros HI. assert (Hi : incl (dblack st ++ dqueue st) (seq 0 n)).
    { intros v Hv. apply in_seq. split; [lia|]. cbn. apply (di_rng _ HI); auto. }
    pose proof (NoDup_incl_length (di_nodup _ HI) Hi) as H. rewrite seq_length in H. auto.
  Qed.

  Lemma no_neg_edge u : existsb (fun e => Z.ltb (trunc (snd e)) 0) (out_edges E u) = false.
  Proof.
    destruct (existsb _ _) eqn:Ex; auto. apply existsb_exists in Ex.
    destruct Ex as ([v w] & Hin & H). apply out_edges_In in Hin. cbn in H.
    apply Z.ltb_lt in H. destruct Hin as [Hin|Hin]; apply Hpos in Hin; lia.
  Qed.

  Lemma dloop_inv pick : good_heap pick ->
    forall fuel st, Dinv st -> n < fuel + length (dblack st) + 1 ->
    exists st', dloop fuel pick E st = Some (Some st') /\ Dinv st' /\ dqueue st' = [].
  Proof.
    intros Hp. induction fuel as [|f IH]; intros st HI Hf.
    - cbn. destruct (dqueue st) as [|x q] eqn:Eq; [eauto|].
      exfalso. pose proof (Dinv_length st HI) as Hl. rewrite Eq, app_length in Hl. cbn in Hl. lia.
    - cbn [dloop]. destruct (dqueue st) as [|x q] eqn:Eq; [eauto|].
      assert (Hne : dqueue st <> []) by (rewrite Eq; discriminate).
      destruct (Hp st Hne) as [Hin Hmin]. rewrite no_neg_edge.
      destruct (dpop_inv st (pick st) HI Hin Hmin) as [HI' Hb].
      apply IH; auto. rewrite Hb. cbn. lia.
  Qed.

  (** ** What the final state says *)
  Section Final.
    Variable st : dstate.
    Hypothesis HI : Dinv st.
    Hypothesis Hq : dqueue st = [].

    Lemma fin_In v : In v (dblack st ++ dqueue st) <-> In v (dblack st).
    Proof. rewrite Hq, app_nil_r. tauto. Qed.

    Lemma fin_s : In s (dblack st).
    Proof. destruct (di_start _ HI) as [[_ H]|H]; auto. rewrite Hq in H. discriminate. Qed.

    Lemma fin_reach v : reach E s v -> In v (dblack st).
    Proof.
      intros H. apply clos_rt_rtn1 in H. induction H as [|y z Ha _ IH]; [apply fin_s|].
      destruct Ha as [w Ha]. destruct (di_edge _ HI y z w IH Ha) as [H _].
      apply fin_In; auto.
    Qed.

    Lemma fin_black_reach_aux : forall l2 l1, dblack st = l1 ++ l2 ->
      forall v, In v l2 -> reach E s v.
    Proof.
      induction l2 as [|x l2 IH]; intros l1 Hb v Hv; [destruct Hv|].
      assert (Hb' : dblack st = (l1 ++ [x]) ++ l2) by (rewrite <- app_assoc; auto).
      destruct Hv as [<-|Hv]; [|eapply IH; eauto].
      destruct (Nat.eq_dec x s) as [->|Hxs]; [apply rt_refl|].
      pose proof (di_order _ HI l1 x l2 Hb Hxs) as Hp.
      destruct (di_pred _ HI x) as (w & z & _ & Hew & _); auto.
      { rewrite Hb. rewrite !in_app_iff. cbn. auto. }
      eapply rt_trans; [eapply IH; eauto|]. apply rt_step. exists w; auto.
    Qed.

    Lemma fin_black_reach v : In v (dblack st) -> reach E s v.
    Proof. apply (fin_black_reach_aux (dblack st) []). auto. Qed.

    Lemma fin_unreach v : ~ reach E s v -> dpred st v = v.
    Proof.
      intros H. apply (di_white _ HI). rewrite fin_In. intros Hb. apply H, fin_black_reach; auto.
    Qed.

    (** vertices of the walk, source first *)
    Fixpoint walk (fuel : nat) (cur : nat) : option (list nat) :=
      match fuel with
      | 0 => None
      | S f => if Nat.eqb cur s then Some [s]
               else match walk f (dpred st cur) with
                    | Some l => Some (l ++ [cur])
                    | None => None
                    end
      end.

    Lemma getPath_walk names fuel cur :
      getPath fuel names (dpred st) s cur =
      option_map (map (fun v => nth v names 0%Z)) (walk fuel cur).
    Proof.
      revert cur; induction fuel as [|f IH]; intros cur; cbn; auto.
      destruct (Nat.eqb cur s); auto. rewrite IH. destruct (walk f (dpred st cur)); cbn; auto.
      rewrite map_app. auto.
    Qed.

    (** minimal and realised costs *)
    Inductive vcost : list nat -> Z -> Prop :=
    | vc_one a : vcost [a] 0%Z
    | vc_step a b w l q : ew a b w -> vcost (b :: l) q -> vcost (a :: b :: l) (trunc w + q)%Z.

    Lemma vcost_snoc l : forall b q v w, 
      vcost (l ++ [b]) q -> ew b v w -> vcost ((l ++ [b]) ++ [v]) (q + trunc w)%Z.
    Proof.
      induction l as [|a l IH]; intros b q v w Hc Hw.
      - cbn in *. inversion Hc; subst. rewrite Z.add_comm.
        eapply vc_step; eauto. constructor.
      - cbn [app] in *. destruct (l ++ [b]) as [|y r] eqn:El; [destruct l; discriminate|].
        inversion Hc as [|? ? ? ? ? Hw' Hc']; subst.
        cbn [app]. rewrite <- Z.add_assoc. constructor; auto.
        change (y :: r ++ [v]) with ((y :: r) ++ [v]). rewrite <- El. eapply IH; eauto.
        rewrite El; auto.
    Qed.

    Lemma walk_source (l2 : list nat) : exists l k, length l = k /\ k <= S (length l2) /\
        (forall fuel, k <= fuel -> walk fuel s = Some l) /\
        hd_error l = Some s /\ (exists l', l = l' ++ [s]) /\ NoDup l /\
        (forall x, In x l -> In x (s :: l2)) /\
        exists q, vcost l q /\ ddist st s = Some q.
    Proof.
      exists [s], 1. split; [auto|]. split; [lia|]. split.
      { intros [|f] Hf; [lia|]; cbn; rewrite Nat.eqb_refl; auto. }
      split; [auto|]. split; [exists []; auto|]. split.
      { constructor; [tauto|constructor]. }
      split; [intros x [<-|[]]; cbn; auto|].
      exists 0%Z; split; [constructor|apply (di_s _ HI)].
    Qed.

    Lemma walk_black : forall l2 l1 v, dblack st = l1 ++ v :: l2 ->
      exists l k, length l = k /\ k <= S (length l2) /\
        (forall fuel, k <= fuel -> walk fuel v = Some l) /\
        hd_error l = Some s /\ (exists l', l = l' ++ [v]) /\ NoDup l /\
        (forall x, In x l -> In x (v :: l2)) /\
        exists q, vcost l q /\ ddist st v = Some q.
    Proof.
      (* strong induction on the length of l2 *)
      assert (H : forall m l2 l1 v, length l2 <= m -> dblack st = l1 ++ v :: l2 ->
      exists l k, length l = k /\ k <= S (length l2) /\
        (forall fuel, k <= fuel -> walk fuel v = Some l) /\
        hd_error l = Some s /\ (exists l', l = l' ++ [v]) /\ NoDup l /\
        (forall x, In x l -> In x (v :: l2)) /\
        exists q, vcost l q /\ ddist st v = Some q).
      { induction m as [|m IH]; intros l2 l1 v Hm Hb;
          (destruct (Nat.eq_dec v s) as [->|Hvs];
           [exact (walk_source l2)
           |]).
        - exfalso. destruct l2; [|cbn in Hm; lia].
          apply (di_order _ HI l1 v [] Hb Hvs).
        - pose proof (di_order _ HI l1 v l2 Hb Hvs) as Hp.
          destruct (di_pred _ HI v) as (w & z & _ & Hew & Hz & Hv); auto.
          { rewrite Hb. rewrite !in_app_iff. cbn. auto. }
          apply in_split in Hp. destruct Hp as (a & b & Hp).
          assert (Hlen : length b <= m).
          { apply (f_equal (@length nat)) in Hp. rewrite app_length in Hp. cbn in Hp. lia. }
          destruct (IH b (l1 ++ v :: a) (dpred st v) Hlen) as
            (l & k & Hk & Hkb & Hw & Hhd & Hlast & Hnd & Hin & q & Hq1 & Hq2).
          { rewrite Hb, Hp, <- app_assoc. auto. }
          assert (Hvl2 : ~ In v l2).
          { pose proof (di_nodup _ HI) as Hn. rewrite Hq, app_nil_r, Hb in Hn.
            apply NoDup_remove_2 in Hn. rewrite in_app_iff in Hn. tauto. }
          assert (Hll : forall x, In x l -> In x l2).
          { intros x Hx. apply Hin in Hx. rewrite Hp, in_app_iff. auto. }
          exists (l ++ [v]), (S k). repeat split.
          + rewrite app_length; cbn; lia.
          + apply (f_equal (@length nat)) in Hp. rewrite app_length in Hp. cbn in Hp. lia.
          + intros [|f] Hf; [lia|]. cbn. destruct (Nat.eqb_spec v s); [contradiction|].
            rewrite Hw by lia. auto.
          + destruct l; [discriminate|]. auto.
          + exists l; auto.
          + apply NoDup_snoc; auto.
          + intros x Hx. apply in_app_or in Hx. destruct Hx as [Hx|[<-|[]]]; cbn; auto.
          + destruct Hlast as [l' ->]. exists (q + trunc w)%Z. split.
            * apply vcost_snoc; auto.
            * rewrite Hv. f_equal. rewrite Hq2 in Hz. inversion Hz; auto. }
      intros l2 l1 v Hb. eapply H; eauto.
    Qed.

    Lemma fin_walk v : reach E s v ->
      exists l, (forall fuel, n <= fuel -> walk fuel v = Some l) /\
        hd_error l = Some s /\ (exists l', l = l' ++ [v]) /\ NoDup l /\
        exists q, vcost l q /\ ddist st v = Some q.
    Proof.
      intros Hr. apply fin_reach in Hr. apply in_split in Hr. destruct Hr as (l1 & l2 & Hb).
      destruct (walk_black l2 l1 v Hb) as (l & k & H1 & H2 & H3 & H4 & H5 & H6 & H7 & H8).
      exists l. repeat split; auto. intros fuel Hf. apply H3.
      pose proof (Dinv_length st HI) as Hl. rewrite Hq, app_nil_r, Hb, app_length in Hl.
      cbn in Hl. lia.
    Qed.

    Lemma fin_diverge v : v <> s -> ~ reach E s v -> forall fuel, walk fuel v = None.
    Proof.
      intros Hvs Hr. pose proof (fin_unreach v Hr) as Hp.
      induction fuel as [|f IH]; cbn; auto.
      destruct (Nat.eqb_spec v s); [contradiction|]. rewrite Hp, IH. auto.
    Qed.

    (** every path from the source costs at least the distance of its end *)
    Lemma vcost_lower l : forall a q, vcost l q -> hd_error l = Some a -> In a (dblack st) ->
      forall b, hd_error (rev l) = Some b ->
      exists da db, ddist st a = Some da /\ ddist st b = Some db /\ (db <= da + q)%Z.
    Proof.
      induction l as [|x l IH]; intros a q Hc Ha Hin b Hb; [discriminate|].
      inversion Ha; subst x. inversion Hc as [a0 Hx1 Hx2|a0 y w l0 q0 Hew Hc' Hx1 Hx2]; subst.
      - cbn in Hb. inversion Hb; subst.
        assert (Hn : ddist st b <> None) by (apply (di_seen _ HI), fin_In; auto).
        destruct (ddist st b) as [z|]; [|contradiction]. exists z, z. repeat split; auto. lia.
      - destruct (di_edge _ HI a y w Hin Hew) as (Hy & da & dy & Hda & Hdy & Hle).
        apply fin_In in Hy.
        destruct (IH y q0 Hc' eq_refl Hy b) as (dy' & db & Hdy' & Hdb & Hle').
        { cbn [rev] in Hb. destruct (rev l0 ++ [y]) as [|z r] eqn:Er.
          - destruct (rev l0); discriminate.
          - cbn [rev]. rewrite Er. cbn in Hb. auto. }
        exists da, db. repeat split; auto. rewrite Hdy in Hdy'. inversion Hdy'; subst. lia.
    Qed.
  End Final.
End Dij.
