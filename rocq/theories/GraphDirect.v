(** Vertices that the start reaches by an edge of smallest (truncated) weight: the shortest
    path to them is that edge. *)
From Coq Require Import List Arith ZArith QArith Bool Lia Relations.
From Verif Require Import GraphModel GraphSpec GraphInv GraphComp GraphDijkstra GraphPath.
Import ListNotations.
Close Scope Q_scope.
Open Scope nat_scope.

Section Direct.
  Variables (n : nat) (E : list (nat * nat * Q)) (s v : nat) (k : Z).
  Hypothesis Hrng : in_range n E.
  Hypothesis Hs : s < n.
  Hypothesis Hpos : forall a b w, In (a, b, w) E -> (0 <= trunc w)%Z.
  Hypothesis Hmin : forall a b w, In (a, b, w) E -> (k <= trunc w)%Z.
  Hypothesis Hvs : v <> s.

  Definition from_start (st : dstate) : Prop := ddist st v = Some k /\ dpred st v = s.

  Lemma out_edges_min u x w : In (x, w) (out_edges E u) -> (k <= trunc w)%Z.
  Proof. intros H. apply out_edges_In in H. destruct H as [H|H]; eauto. Qed.
  Lemma relax_keeps u du st x w : (0 <= du)%Z -> (k <= trunc w)%Z -> from_start st -> from_start (relax u du st (x, w)).
  Proof.
    intros Hd Hk (A & B). unfold relax. destruct (memb x (u :: dblack st)); [split; auto|].
    destruct (dlt (du + trunc w) (ddist st x)) eqn:L; [|split; auto]. unfold from_start. cbn [ddist dpred]. unfold upd.
    destruct (Nat.eqb_spec v x) as [->|N]; [|split; auto]. rewrite A in L. cbn in L. apply Z.ltb_lt in L. lia.
  Qed.
  Lemma relaxes_keep u du : (0 <= du)%Z -> forall es st, (forall x w, In (x, w) es -> (k <= trunc w)%Z) -> from_start st -> from_start (fold_left (relax u du) es st).
  Proof.
    intros Hd. induction es as [|(x, w) es IH]; intros st H F; cbn [fold_left]; auto. apply IH; [intros; eapply H; right; eauto|].
    apply relax_keeps; auto. eapply H; left; eauto.
  Qed.
  Lemma dpop_keeps u st : Dinv n E s st -> from_start st -> from_start (dpop E u st).
  Proof.
    intros D F. unfold dpop. set (du := match ddist st u with Some d => d | None => 0%Z end).
    assert (Hd : (0 <= du)%Z) by (unfold du; destruct (ddist st u) eqn:Eu; [eapply di_nonneg; eauto|lia]).
    unfold from_start. cbn [ddist dpred]. apply (relaxes_keep u du Hd (out_edges E u)); [apply out_edges_min|]. exact F.
  Qed.
  (** the edges of the start *)
  Definition via_start (b : bool) (st : dstate) : Prop :=
    dblack st = [] /\ match ddist st v with None => b = false | Some d => dpred st v = s /\ (k <= d)%Z /\ (b = true -> d = k) end.
  Lemma relax_start b st x w : (k <= trunc w)%Z -> via_start b st -> via_start (orb b (andb (Nat.eqb x v) (Z.eqb (trunc w) k))) (relax s 0 st (x, w)).
  Proof.
    intros Hk (A & B). unfold relax. rewrite A. destruct (memb x [s]) eqn:M.
    - apply memb_In in M. destruct M as [<-|[]]. destruct (Nat.eqb_spec s v) as [->|_]; [congruence|]. cbn [andb]. rewrite orb_false_r. split; auto.
    - destruct (dlt (0 + trunc w) (ddist st x)) eqn:L; unfold via_start; cbn [ddist dpred dblack]; (split; [auto|]).
      + unfold upd. rewrite (Nat.eqb_sym v x). destruct (Nat.eqb_spec x v) as [->|N].
        * cbn [andb]. split; [auto|]. split; [lia|]. intros Q. apply orb_true_iff in Q as [->|Q].
          -- destruct (ddist st v) as [d|]; [|discriminate B]. destruct B as (_ & _ & B). rewrite (B eq_refl) in L. cbn in L. apply Z.ltb_lt in L. lia.
          -- apply Z.eqb_eq in Q. lia.
        * cbn [andb]. rewrite orb_false_r. auto.
      + destruct (Nat.eqb_spec x v) as [->|N]; [|cbn [andb]; rewrite orb_false_r; auto]. cbn [andb]. destruct (ddist st v) as [d|]; [|discriminate L].
        destruct B as (B1 & B2 & B3). split; [auto|]. split; [auto|]. intros Q. apply orb_true_iff in Q as [->|Q]; auto.
        apply Z.eqb_eq in Q. cbn in L. apply Z.ltb_ge in L. lia.
  Qed.
  Lemma relaxes_start : forall es b st, (forall x w, In (x, w) es -> (k <= trunc w)%Z) -> via_start b st ->
    (b = true \/ exists w, In (v, w) es /\ trunc w = k) -> via_start true (fold_left (relax s 0) es st).
  Proof.
    induction es as [|(x, w) es IH]; intros b st H F G; cbn [fold_left].
    - destruct G as [->|(w & [] & _)]. auto.
    - apply (IH (orb b (andb (Nat.eqb x v) (Z.eqb (trunc w) k)))); [intros; eapply H; right; eauto|apply relax_start; auto; eapply H; left; eauto|].
      destruct G as [->|(w' & [Q|Q] & Ek)]; [left; auto| |right; eauto].
      left. injection Q as -> ->. rewrite Nat.eqb_refl, Ek, Z.eqb_refl. apply orb_true_r.
  Qed.
  Lemma first_pop w : ew E s v w -> trunc w = k -> from_start (dpop E s (dinit s)).
  Proof.
    intros He Hk. unfold dpop. assert (Z0 : match ddist (dinit s) s with Some d => d | None => 0%Z end = 0%Z) by (unfold dinit; cbn [ddist]; unfold upd; rewrite Nat.eqb_refl; auto).
    rewrite Z0. cbv zeta. set (st1 := {| ddist := ddist (dinit s); dpred := dpred (dinit s); dblack := dblack (dinit s); dqueue := _ |}).
    assert (V : via_start true (fold_left (relax s 0) (out_edges E s) st1)).
    { apply (relaxes_start _ false); [apply out_edges_min| |right; exists w; split; [apply out_edges_In; exact He|auto]].
      split; [reflexivity|]. unfold st1, dinit. cbn [ddist]. unfold upd. destruct (Nat.eqb_spec v s); [congruence|]. reflexivity. }
    destruct V as (_ & V). unfold from_start. cbn [ddist dpred]. destruct (ddist (fold_left (relax s 0) (out_edges E s) st1) v) as [d|]; [|discriminate V]. destruct V as (V1 & _ & V3). rewrite (V3 eq_refl). auto.
  Qed.
  Lemma dloop_keeps pick : good_heap pick -> forall fuel st st', Dinv n E s st -> from_start st -> dloop fuel pick E st = Some (Some st') -> from_start st'.
  Proof.
    intros Hp. induction fuel as [|f IH]; intros st st' D F H; cbn [dloop] in H.
    - destruct (dqueue st); [injection H as <-; auto|discriminate H].
    - destruct (dqueue st) as [|x q] eqn:Q; [injection H as <-; auto|]. destruct (existsb _ _); [discriminate H|].
      assert (P := Hp st). rewrite Q in P. destruct P as (P1 & P2); [intros X; discriminate X|]. rewrite <- Q in P1, P2.
      apply (IH (dpop E (pick st) st) st'); auto.
      + apply (dpop_inv n E s Hrng Hs Hpos); auto.
      + apply dpop_keeps; auto.
  Qed.
  Lemma run_direct pick fuel w st : good_heap pick -> ew E s v w -> trunc w = k ->
    dloop fuel pick E (dinit s) = Some (Some st) -> dpred st v = s.
  Proof.
    intros Hp He Hk H. destruct fuel as [|f]; [discriminate H|]. cbn [dloop dinit dqueue] in H.
    destruct (existsb _ _); [discriminate H|]. assert (P := Hp (dinit s)). destruct P as (P1 & P2); [intros X; discriminate X|].
    assert (Ep : pick (dinit s) = s) by (cbn in P1; destruct P1 as [P1|[]]; auto).
    fold (dinit s) in H. rewrite Ep in H.
    apply (dloop_keeps pick Hp f (dpop E s (dinit s)) st); auto; [|apply (first_pop w); auto].
    apply (dpop_inv n E s Hrng Hs Hpos); [apply dinit_inv; auto|cbn; auto|]. rewrite Ep in P2. exact P2.
  Qed.
End Direct.

(** in terms of the history of calls *)
Theorem path_direct ops pick a b w : no_fresh_self_edge ops -> nonneg_weights ops -> good_heap pick -> a <> b ->
  In (AddE a b w) (since_clear ops) \/ In (AddE b a w) (since_clear ops) ->
  (forall x y w', In (AddE x y w') (since_clear ops) -> (trunc w <= trunc w')%Z) ->
  forall fuel, length (inserted ops) <= fuel -> shortestPathBetween pick fuel (grun ops) a b = Path [a; b].
Proof.
  intros Hns Hnn Hp N He Hm fuel Hf.
  assert (V : exists u v, u < length (vnames (grun ops)) /\ v < length (vnames (grun ops)) /\ nth u (vnames (grun ops)) 0%Z = a /\ nth v (vnames (grun ops)) 0%Z = b /\ ew (gedges (grun ops)) u v w).
  { destruct He as [He|He]; apply (edge_vertices ops Hns) in He as (u & v & Hu & Hv & Eu & Ev & Hi); [exists u, v|exists v, u]; repeat (split; [auto|]); [left|right]; auto. }
  destruct V as (u & v & Hu & Hv & Eu & Ev & Hew).
  assert (Nv : v <> u) by (intros ->; congruence).
  destruct (run_dijkstra ops pick Hns Hnn Hp u Hu) as (st & Hrun & HD & Hq).
  assert (Hpr : dpred st v = u).
  { apply (run_direct _ (gedges (grun ops)) u v (trunc w) (g_range ops Hns) Hu (g_pos ops Hns Hnn)) with (pick := pick) (w := w) (fuel := length (vnames (grun ops))); auto.
    intros x y w' H. assert (R := g_range ops Hns x y w' H). apply (edge_name_w ops Hns) in H; try (apply R). eapply Hm; eauto. }
  unfold shortestPathBetween. rewrite (proj2 (find_name ops Hns u a)), (proj2 (find_name ops Hns v b)) by auto.
  rewrite Hrun. rewrite <- (gi_names _ _ (Ginv_run ops Hns)) in Hf.
  assert (F2 : 2 <= fuel) by lia. destruct fuel as [|[|fuel]]; try lia. cbn [getPath]. destruct (Nat.eqb_spec v u); [congruence|].
  rewrite Hpr, Nat.eqb_refl. cbn [app]. rewrite Eu, Ev. reflexivity.
Qed.
