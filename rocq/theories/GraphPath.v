(** shortestPathBetween in terms of the history of calls. *)
From Coq Require Import List Arith ZArith QArith Bool Lia Lqa Relations.
From Verif Require Import GraphModel GraphSpec GraphInv GraphComp GraphDijkstra.
Import ListNotations.
Close Scope Q_scope.
Open Scope nat_scope.

Lemma trunc_nonneg w : (0 <= w)%Q -> (0 <= trunc w)%Z.
Proof.
  unfold Qle, trunc; cbn. intros H. apply Z.quot_pos; lia.
Qed.

Definition truncated (w : Q) : Q := inject_Z (trunc w).

Section P.
  Variables (ops : list gop) (pick : dstate -> nat).
  Hypothesis Hns : no_fresh_self_edge ops.
  Hypothesis Hnn : nonneg_weights ops.
  Hypothesis Hpick : good_heap pick.
  Let g := grun ops.
  Let nm (v : nat) := nth v (vnames g) 0%Z.
  Let n := length (vnames g).
  Let HI : Ginv ops g := Ginv_run ops Hns.

  Lemma g_pos a b w : In (a, b, w) (gedges g) -> (0 <= trunc w)%Z.
  Proof.
    intros H. apply trunc_nonneg. pose proof (gi_rng _ _ HI _ _ _ H) as [Ha Hb].
    apply (edge_name_w ops Hns) in H; auto. apply since_clear_incl in H. eapply Hnn; eauto.
  Qed.

  Lemma find_name v a : idx_find (vidx g) a = Some v <-> (v < n /\ nm v = a).
  Proof.
    rewrite (gi_idx _ _ HI). split.
    - intros H. split; [apply nth_error_Some; congruence|]. apply nth_error_nth; auto.
    - intros [Hv <-]. apply nth_error_nth'; auto.
  Qed.

  Lemma find_none a : ~ In a (inserted ops) -> idx_find (vidx g) a = None.
  Proof.
    intros H. destruct (idx_find (vidx g) a) as [v|] eqn:E; auto.
    apply find_name in E. exfalso. apply H. apply (nm_inserted ops Hns). eauto.
  Qed.

  Lemma missing_path fuel a b :
    ~ In a (inserted ops) \/ ~ In b (inserted ops) ->
    shortestPathBetween pick fuel g a b = Path [].
  Proof.
    intros [H|H]; apply find_none in H; unfold shortestPathBetween; rewrite H; auto.
    destruct (idx_find (vidx g) a); auto.
  Qed.

  Lemma run_dijkstra s : s < n ->
    exists st, dloop n pick (gedges g) (dinit s) = Some (Some st) /\
               Dinv n (gedges g) s st /\ dqueue st = [].
  Proof.
    intros Hs. apply (dloop_inv n (gedges g) s (g_range ops Hns) Hs g_pos pick Hpick).
    - apply dinit_inv; auto.
    - unfold dinit. cbn [dblack length]. lia.
  Qed.

  Lemma vertex_path_chain : forall l q, vcost (gedges g) l q -> 
    (forall x, In x l -> x < n) -> chain (edge ops) (map nm l).
  Proof.
    intros l q H. induction H as [a|a b w l q Hew Hc IH]; intros Hl; cbn; auto.
    split.
    - apply (adj_edge ops Hns); try (apply Hl; cbn; auto). exists w; auto.
    - apply IH. intros x Hx. apply Hl. right; auto.
  Qed.

  Lemma vcost_rng : forall l q, vcost (gedges g) l q -> forall a, hd_error l = Some a -> a < n ->
    forall x, In x l -> x < n.
  Proof.
    intros l q H. induction H as [a|a b w l q Hew Hc IH]; intros a0 Ha Hlt x Hx.
    - inversion Ha; subst. destruct Hx as [<-|[]]; auto.
    - inversion Ha; subst. destruct Hx as [<-|Hx]; auto.
      apply (IH b); auto.
      apply (ew_rng n (gedges g) a0 (g_range ops Hns) Hlt) in Hew. tauto.
  Qed.

  Lemma hd_error_map {A B} (f : A -> B) l : hd_error (map f l) = option_map f (hd_error l).
  Proof. destruct l; auto. Qed.

  Lemma path_cost_v : forall l q, vcost (gedges g) l q -> (forall x, In x l -> x < n) ->
    exists q', path_cost ops truncated (map nm l) q' /\ (q' == inject_Z q)%Q.
  Proof.
    intros l q H. induction H as [a|a b w l q Hew Hc IH]; intros Hl.
    - exists 0%Q. split; [constructor|reflexivity].
    - destruct IH as (q' & Hq' & He); [intros x Hx; apply Hl; right; auto|].
      exists (truncated w + q')%Q. split.
      + cbn [map]. constructor; auto.
        destruct Hew as [Hew|Hew]; [left|right]; apply (edge_name_w ops Hns); auto;
          apply Hl; cbn; auto.
      + rewrite He. unfold truncated. rewrite <- inject_Z_plus. reflexivity.
  Qed.

  Lemma path_cost_back : forall ls c, path_cost ops truncated ls c ->
    forall a, hd_error ls = Some (nm a) -> a < n ->
    exists l q, map nm l = ls /\ vcost (gedges g) l q /\ hd_error l = Some a /\
                (forall x, In x l -> x < n) /\ (c == inject_Z q)%Q.
  Proof.
    intros ls c H. induction H as [x|x y w l q Hew Hc IH]; intros a Ha Hlt.
    - exists [a], 0%Z. inversion Ha. repeat split; auto; try constructor.
      intros z [<-|[]]; auto.
    - inversion Ha; subst x.
      assert (Hb : exists b, b < n /\ nm b = y /\ ew (gedges g) a b w).
      { destruct Hew as [Hew|Hew]; apply (edge_vertices ops Hns) in Hew;
          destruct Hew as (u & v & Hu & Hv & Hnu & Hnv & Hin).
        - apply (nm_inj ops Hns) in Hnu; auto. subst u. exists v; repeat split; auto. left; auto.
        - apply (nm_inj ops Hns) in Hnv; auto. subst v. exists u; repeat split; auto. right; auto. }
      destruct Hb as (b & Hbn & <- & Hab).
      destruct (IH b eq_refl Hbn) as (l0 & q0 & Hm & Hv & Hh & Hl0 & Hq).
      destruct l0 as [|b' l0]; [discriminate|]. inversion Hh; subst b'.
      exists (a :: b :: l0), (trunc w + q0)%Z. repeat split.
      + cbn [map] in *. rewrite Hm. auto.
      + constructor; auto.
      + intros z [<-|Hz]; auto.
      + rewrite Hq, inject_Z_plus. reflexivity.
  Qed.

  Lemma hd_rev_last {A} (l' : list A) v : hd_error (rev (l' ++ [v])) = Some v.
  Proof. rewrite rev_app_distr. reflexivity. Qed.

  Theorem path_main a b :
    In a (inserted ops) -> In b (inserted ops) -> linked ops a b ->
    exists l q,
      (forall fuel, length (inserted ops) <= fuel ->
         shortestPathBetween pick fuel g a b = Path l) /\
      simple_path ops a b l /\
      path_cost ops truncated l q /\
      (forall l' q', hd_error l' = Some a -> hd_error (rev l') = Some b ->
                     path_cost ops truncated l' q' -> (q <= q')%Q).
  Proof.
    intros Ha Hb Hl. apply (nm_inserted ops Hns) in Ha, Hb.
    destruct Ha as (s & Hs & Ea), Hb as (t & Ht & Eb). fold g in Hs, Ht, Ea, Eb.
    fold n in Hs, Ht. fold (nm s) in Ea. fold (nm t) in Eb.
    assert (Hr : reach (gedges g) s t).
    { apply (linked_iff_reach ops Hns); auto. fold g. fold (nm s) (nm t). congruence. }
    destruct (run_dijkstra s Hs) as (st & Hrun & HD & Hq).
    destruct (fin_walk n (gedges g) s Hs st HD Hq t Hr)
      as (l & Hw & Hhd & [l' Hlast] & Hnd & q & Hc & Hd).
    assert (Hlr : forall x, In x l -> x < n) by (eapply vcost_rng; eauto).
    destruct (path_cost_v l q Hc Hlr) as (q' & Hpc & Hqe).
    exists (map nm l), q'. split; [|split; [|split]].
    - intros fuel Hf. unfold shortestPathBetween.
      rewrite (proj2 (find_name s a)), (proj2 (find_name t b)) by auto.
      fold n. rewrite Hrun, getPath_walk.
      rewrite Hw; [reflexivity|].
      unfold n. rewrite (gi_names _ _ HI). auto.
    - unfold simple_path. split; [|split; [|split]].
      + rewrite hd_error_map, Hhd. cbn. f_equal; auto.
      + rewrite <- map_rev, hd_error_map, Hlast, hd_rev_last. cbn. f_equal; auto.
      + eapply vertex_path_chain; eauto.
      + apply (map_NoDup_range ops Hns); auto.
    - auto.
    - intros l2 q2 Hh2 Hr2 Hc2. rewrite <- Ea in Hh2.
      destruct (path_cost_back l2 q2 Hc2 s Hh2 Hs) as (lv & qv & Hm & Hv & Hhv & Hlv & Hqv).
      assert (Hrv : hd_error (rev lv) = Some t).
      { rewrite <- Hm, <- map_rev, hd_error_map in Hr2.
        destruct (hd_error (rev lv)) as [x|] eqn:Ex; [|discriminate].
        cbn in Hr2. inversion Hr2 as [Hx]. f_equal. apply (nm_inj ops Hns); auto.
        - apply Hlv. apply in_rev. destruct (rev lv); inversion Ex; cbn; auto.
        - fold g. fold (nm x) (nm t). congruence. }
      destruct (vcost_lower n (gedges g) s Hs st HD Hq lv s qv Hv Hhv) with (b := t)
        as (da & db & Hda & Hdb & Hle); auto.
      { apply (fin_s _ _ _ _ HD Hq). }
      rewrite (di_s _ _ _ _ HD) in Hda. inversion Hda; subst da.
      rewrite Hd in Hdb. inversion Hdb; subst db.
      rewrite Hqe, Hqv. rewrite <- Zle_Qle. lia.
  Qed.

  Theorem no_path_main a b :
    In a (inserted ops) -> In b (inserted ops) -> ~ linked ops a b ->
    forall fuel, shortestPathBetween pick fuel g a b = WalkNotEnded.
  Proof.
    intros Ha Hb Hl fuel. apply (nm_inserted ops Hns) in Ha, Hb.
    destruct Ha as (s & Hs & Ea), Hb as (t & Ht & Eb). fold g in Hs, Ht, Ea, Eb.
    fold n in Hs, Ht. fold (nm s) in Ea. fold (nm t) in Eb.
    assert (Hr : ~ reach (gedges g) s t).
    { intros Hr. apply Hl. rewrite <- Ea, <- Eb. apply (linked_iff_reach ops Hns); auto. }
    assert (Hts : t <> s) by (intros ->; apply Hr; apply rt_refl).
    destruct (run_dijkstra s Hs) as (st & Hrun & HD & Hq).
    unfold shortestPathBetween.
    rewrite (proj2 (find_name s a)), (proj2 (find_name t b)) by auto.
    fold n. rewrite Hrun, getPath_walk.
    rewrite (fin_diverge n (gedges g) s st HD Hq t Hts Hr). reflexivity.
  Qed.
End P.

(** ** Integer weights: the true weight is minimised *)
Definition same_weight (w : Q) : Q := w.

Lemma path_cost_integer ops : (forall a b w, In (AddE a b w) ops -> (truncated w == w)%Q) ->
  forall l q, path_cost ops same_weight l q ->
  exists q', path_cost ops truncated l q' /\ (q == q')%Q.
Proof.
  intros Hint l q H. induction H as [a|a b w l q He Hc (q' & Hq' & Eq)].
  - exists 0%Q. split; [constructor|reflexivity].
  - exists (truncated w + q')%Q. split; [constructor; auto|].
    rewrite Eq. unfold same_weight. destruct He as [He|He]; apply since_clear_incl, Hint in He;
      rewrite He; reflexivity.
Qed.

Lemma path_cost_integer_back ops : (forall a b w, In (AddE a b w) ops -> (truncated w == w)%Q) ->
  forall l q, path_cost ops truncated l q ->
  exists q', path_cost ops same_weight l q' /\ (q == q')%Q.
Proof.
  intros Hint l q H. induction H as [a|a b w l q He Hc (q' & Hq' & Eq)].
  - exists 0%Q. split; [constructor|reflexivity].
  - exists (w + q')%Q. split; [apply (pc_step ops same_weight); auto|].
    rewrite Eq. destruct He as [He|He]; apply since_clear_incl, Hint in He;
      rewrite He; reflexivity.
Qed.

Theorem path_integer_min ops pick a b :
  no_fresh_self_edge ops -> nonneg_weights ops -> good_heap pick ->
  (forall a b w, In (AddE a b w) ops -> (truncated w == w)%Q) ->
  In a (inserted ops) -> In b (inserted ops) -> linked ops a b ->
  exists l q,
    (forall fuel, length (inserted ops) <= fuel ->
       shortestPathBetween pick fuel (grun ops) a b = Path l) /\
    path_cost ops same_weight l q /\
    (forall l' q', hd_error l' = Some a -> hd_error (rev l') = Some b ->
                   path_cost ops same_weight l' q' -> (q <= q')%Q).
Proof.
  intros Hns Hnn Hp Hint Ha Hb Hl.
  destruct (path_main ops pick Hns Hnn Hp a b Ha Hb Hl) as (l & q & H1 & H2 & H3 & H4).
  destruct (path_cost_integer_back ops Hint l q H3) as (q' & Hq' & Eq).
  exists l, q'. split; [auto|split; [auto|]].
  intros l2 q2 Hh Hr Hc.
  destruct (path_cost_integer ops Hint l2 q2 Hc) as (q2' & Hq2' & Eq2).
  rewrite <- Eq, Eq2. eapply H4; eauto.
Qed.

(** ** pick_first is a good heap *)
Lemma dle_refl x : dle x x = true.
Proof. destruct x; cbn; auto. apply Z.leb_refl. Qed.
Lemma dle_trans x y z : dle x y = true -> dle y z = true -> dle x z = true.
Proof. destruct x, y, z; cbn; auto; try congruence. rewrite !Z.leb_le. lia. Qed.
Lemma dle_total x y : dle x y = false -> dle y x = true.
Proof. destruct x, y; cbn; auto; try congruence. rewrite Z.leb_gt, Z.leb_le. lia. Qed.

Lemma argmin_spec d l : forall best,
  (argmin d best l = best \/ In (argmin d best l) l) /\
  dle (d (argmin d best l)) (d best) = true /\
  forall v, In v l -> dle (d (argmin d best l)) (d v) = true.
Proof.
  induction l as [|x l IH]; intros best; cbn [argmin].
  - split; [auto|split; [apply dle_refl|cbn; tauto]].
  - destruct (dle (d best) (d x)) eqn:E; destruct (IH (if true then best else x)) as (H1 & H2 & H3);
    [|destruct (IH x) as (G1 & G2 & G3)].
    + split; [cbn; intuition|]. split; auto. intros v [<-|Hv]; auto. eapply dle_trans; eauto.
    + apply dle_total in E. split; [cbn; destruct G1 as [->|]; auto|].
      split; [eapply dle_trans; eauto|]. intros v [<-|Hv]; auto.
Qed.

Lemma pick_first_good : good_heap pick_first.
Proof.
  intros st Hne. unfold pick_first. destruct (dqueue st) as [|v q] eqn:E; [congruence|].
  destruct (argmin_spec (ddist st) q v) as (H1 & H2 & H3). split.
  - cbn. destruct H1 as [->|H]; auto.
  - intros x [<-|Hx]; auto.
Qed.

(** ** A fresh self edge always gives the index two vertices *)
Lemma connectedComponents_all g v u1 u2 :
  (forall a b w, In (a, b, w) (gedges g) -> a < length (vnames g) /\ b < length (vnames g)) ->
  u1 < u2 -> u2 < length (vnames g) ->
  nth u1 (vnames g) 0%Z = v -> nth u2 (vnames g) 0%Z = v ->
  exists l1 l2 l3, concat (connectedComponents g) = l1 ++ v :: l2 ++ v :: l3.
Proof.
  intros Hrng Hlt Hu2 E1 E2.
  rewrite connectedComponents_v, <- concat_map.
  destruct (vcomponents_spec (length (vnames g)) (gedges g) Hrng)
    as (roots & Hs & Hlr & Hmin & Hcov & Huni & HF).
  set (cs := vcomponents (length (vnames g)) (gedges g)) in *.
  assert (Hin : forall x, x < length (vnames g) -> In x (concat cs)).
  { intros x Hx. destruct (Hcov x Hx) as (r & Hr & Hrx).
    eapply Forall2_in_l in Hr; eauto. destruct Hr as (c & Hc & Hrc & _).
    apply in_concat. exists c; split; auto. apply Hrc; auto. }
  pose proof (Hin u1 ltac:(lia)) as H1. pose proof (Hin u2 Hu2) as H2.
  apply in_split in H1. destruct H1 as (a & b & Hc). rewrite Hc in H2.
  apply in_app_or in H2. destruct H2 as [H2|[H2|H2]]; [|lia|].
  - apply in_split in H2. destruct H2 as (a1 & a2 & Ha). rewrite Hc, Ha.
    rewrite !map_app. cbn [map]. rewrite E1, E2, <- app_assoc. cbn [app].
    repeat eexists.
  - apply in_split in H2. destruct H2 as (b1 & b2 & Hb). rewrite Hc, Hb.
    rewrite !map_app. cbn [map]. rewrite map_app. cbn [map]. rewrite E1, E2. repeat eexists.
Qed.

Theorem fresh_self_edge_duplicates ops v w :
  no_fresh_self_edge ops -> ~ In v (inserted ops) ->
  exists l1 l2 l3,
    concat (connectedComponents (grun (ops ++ [AddE v v w]))) = l1 ++ v :: l2 ++ v :: l3.
Proof.
  intros Hns Hv. pose proof (Ginv_run ops Hns) as HI.
  rewrite grun_snoc. cbn [gstep].
  assert (Hf : idx_find (vidx (grun ops)) v = None).
  { apply (idx_none_existsb _ _ (gi_idx _ _ HI)). rewrite (gi_names _ _ HI).
    destruct (existsb (Z.eqb v) (inserted ops)) eqn:E; auto. apply existsb_Zeqb in E. tauto. }
  set (g := grun ops) in *.
  assert (Hn : vnames (addEdge g v v w) = vnames g ++ [v] ++ [v]).
  { unfold addEdge, lookup_or_add. rewrite Hf. cbn [boost_add_vertex vidx].
    rewrite Hf. cbn. rewrite <- app_assoc. auto. }
  assert (He : gedges (addEdge g v v w) = gedges g ++ [(length (vnames g), S (length (vnames g)), w)]).
  { unfold addEdge, lookup_or_add. rewrite Hf. cbn [boost_add_vertex vidx].
    rewrite Hf. cbn. rewrite app_length. cbn. rewrite Nat.add_1_r. auto. }
  apply (connectedComponents_all (addEdge g v v w) v (length (vnames g)) (S (length (vnames g)))).
  - intros a b q. rewrite He, Hn, !app_length. cbn [length].
    intros H. apply in_app_or in H. destruct H as [H|[[= <- <- <-]|[]]]; [|lia].
    apply (gi_rng _ _ HI) in H. lia.
  - lia.
  - rewrite Hn, !app_length. cbn. lia.
  - rewrite Hn, app_nth2, Nat.sub_diag; auto.
  - rewrite Hn, app_nth2; [|lia]. replace (S (length (vnames g)) - length (vnames g)) with 1 by lia.
    reflexivity.
Qed.

(** ** The weight is not minimised: witness *)
Definition ops_trunc : list gop :=
  [AddE 0 1 (1 # 2); AddE 0 2 (1 # 10); AddE 2 1 (1 # 10)].

Lemma dloop_S f pick E st :
  dqueue st <> [] ->
  dloop (S f) pick E st =
  (if existsb (fun e => Z.ltb (trunc (snd e)) 0) (out_edges E (pick st))
   then Some None else dloop f pick E (dpop E (pick st) st)).
Proof. intros H. cbn [dloop]. destruct (dqueue st); congruence. Qed.

Lemma ops_trunc_path pick : good_heap pick ->
  forall fuel, 3 <= fuel -> shortestPathBetween pick fuel (grun ops_trunc) 0 1 = Path [0%Z; 1%Z].
Proof.
  intros Hp fuel Hf.
  set (E := gedges (grun ops_trunc)).
  unfold shortestPathBetween.
  change (idx_find (vidx (grun ops_trunc)) 0) with (Some 0).
  change (idx_find (vidx (grun ops_trunc)) 1) with (Some 1). cbv beta iota.
  change (length (vnames (grun ops_trunc))) with 3. fold E.
  change (vnames (grun ops_trunc)) with [0%Z; 1%Z; 2%Z].
  assert (Hok : forall u, existsb (fun e => Z.ltb (trunc (snd e)) 0) (out_edges E u) = false).
  { intros u. unfold E, out_edges. cbn.
    destruct u as [|[|[|u]]]; reflexivity. }
  assert (P0 : pick (dinit 0) = 0).
  { destruct (Hp (dinit 0)) as [[H|[]] _]; [discriminate|auto]. }
  rewrite dloop_S by discriminate. rewrite Hok, P0.
  set (st1 := dpop E 0 (dinit 0)).
  assert (Q1 : dqueue st1 = [1; 2]) by reflexivity.
  rewrite dloop_S by (rewrite Q1; discriminate). rewrite Hok.
  destruct (Hp st1) as [Hin1 _]; [rewrite Q1; discriminate|]. rewrite Q1 in Hin1.
  destruct Hin1 as [H1|[H1|[]]]; rewrite <- H1.
  - set (st2 := dpop E 1 st1).
    assert (Q2 : dqueue st2 = [2]) by reflexivity.
    rewrite dloop_S by (rewrite Q2; discriminate). rewrite Hok.
    destruct (Hp st2) as [Hin2 _]; [rewrite Q2; discriminate|]. rewrite Q2 in Hin2.
    destruct Hin2 as [H2|[]]; rewrite <- H2.
    destruct fuel as [|[|[|f]]]; try lia. reflexivity.
  - set (st2 := dpop E 2 st1).
    assert (Q2 : dqueue st2 = [1]) by reflexivity.
    rewrite dloop_S by (rewrite Q2; discriminate). rewrite Hok.
    destruct (Hp st2) as [Hin2 _]; [rewrite Q2; discriminate|]. rewrite Q2 in Hin2.
    destruct Hin2 as [H2|[]]; rewrite <- H2.
    destruct fuel as [|[|[|f]]]; try lia. reflexivity.
Qed.

Lemma ops_trunc_nofresh : no_fresh_self_edge ops_trunc.
Proof.
  intros pre v w post H. unfold ops_trunc in H.
  destruct pre as [|o1 pre]; [inversion H; subst; discriminate|].
  destruct pre as [|o2 pre]; [inversion H; subst; discriminate|].
  destruct pre as [|o3 pre]; [inversion H; subst; discriminate|].
  inversion H. destruct pre; discriminate.
Qed.

Theorem not_min_weight :
  exists ops a b, no_fresh_self_edge ops /\ nonneg_weights ops /\
    forall pick, good_heap pick -> forall fuel, length (inserted ops) <= fuel ->
    exists l, shortestPathBetween pick fuel (grun ops) a b = Path l /\
    exists l' q', hd_error l' = Some a /\ hd_error (rev l') = Some b /\
      path_cost ops same_weight l' q' /\
      forall q, path_cost ops same_weight l q -> (q' < q)%Q.
Proof.
  exists ops_trunc, 0%Z, 1%Z. split; [apply ops_trunc_nofresh|]. split.
  - intros a b w H. cbn in H.
    destruct H as [[= _ _ <-]|[[= _ _ <-]|[[= _ _ <-]|[]]]]; discriminate.
  - intros pick Hp fuel Hf. exists [0%Z; 1%Z]. split; [apply ops_trunc_path; auto|].
    exists [0%Z; 2%Z; 1%Z], ((1#10) + ((1#10) + 0))%Q. repeat split.
    + change (1#10)%Q with (same_weight (1#10)) at 1. constructor; [left; cbn; auto|].
      change (1#10)%Q with (same_weight (1#10)). constructor; [left; cbn; auto|constructor].
    + intros q H. inversion H as [|? ? w ? q0 Hew Hc]; subst. inversion Hc; subst.
      destruct Hew as [Hew|Hew]; cbn in Hew;
        destruct Hew as [[= <-]|[Hew|[Hew|[]]]]; try discriminate; reflexivity.
Qed.
