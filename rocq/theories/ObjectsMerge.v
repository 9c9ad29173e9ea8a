(** Merging 3D objects. *)
From Coq Require Import List ZArith QArith Lia Reals Permutation Sorted.
From Verif Require Import SMap GraphModel GraphSpec GraphComp DataModel DataSpec DetectModel DetectProofs GeomModel GeomSpec GeomProofs
  ChainModel ChainSpec ChainProofs ChainCam ObjectsModel ObjectsSpec ObjectsProofs ObjectsSave ObjectsBuild.
Import ListNotations.
Close Scope Q_scope.
Close Scope R_scope.
Open Scope nat_scope.

Lemma NoDup_concat_intro {A} (ll : list (list A)) :
  (forall i l, nth_error ll i = Some l -> NoDup l) ->
  (forall i j l l' x, nth_error ll i = Some l -> nth_error ll j = Some l' -> In x l -> In x l' -> i = j) -> NoDup (concat ll).
Proof.
  induction ll as [|l ll IH]; intros H1 H2; cbn; [constructor|]. apply NoDup_app_intro'.
  - apply (H1 0); auto.
  - apply IH; [intros i; apply (H1 (S i))|]. intros i j x y z A1 A2 A3 A4. assert (Hs : S i = S j) by exact (H2 (S i) (S j) x y z A1 A2 A3 A4). lia.
  - intros x Hx Hc. apply in_concat in Hc as (l' & Hl' & Hx'). apply In_nth_error in Hl' as (j & Hj).
    assert (Hs : 0 = S j) by exact (H2 0 (S j) l l' x eq_refl Hj Hx Hx'). lia.
Qed.
Lemma NoDup_concat_part {A} (ll : list (list A)) i l : NoDup (concat ll) -> nth_error ll i = Some l -> NoDup l.
Proof.
  revert i. induction ll as [|x ll IH]; intros i N H; [destruct i; discriminate|]. cbn in N. apply NoDup_app_inv in N as (N1 & N2 & _).
  destruct i; cbn in H; [injection H as <-; auto|eauto].
Qed.
Lemma sorted_nth (l : list Z) : StronglySorted Z.lt l -> forall i j a b, i < j -> nth_error l i = Some a -> nth_error l j = Some b -> (a < b)%Z.
Proof.
  induction 1; intros i j x y L Hi Hj; [destruct i; discriminate|].
  destruct i as [|i], j as [|j]; cbn in Hi, Hj; try lia.
  - injection Hi as <-. rewrite Forall_forall in H0. apply H0. eapply nth_error_In; eauto.
  - eapply IHStronglySorted; [|eauto|eauto]. lia.
Qed.
Lemma dense_In {V} (l : list V) k v : In (k, v) (dense l) <-> exists i, k = Z.of_nat i /\ nth_error l i = Some v.
Proof.
  split.
  - intros H. assert (Hk : In k (mkeys (dense l))) by (apply (in_map fst) in H; auto).
    apply dense_from_keys in Hk. exists (Z.to_nat k). split; [lia|].
    assert (F := In_mfind k v (dense l) (dense_sorted l) H).
    replace k with (Z.of_nat (Z.to_nat k)) in F by lia. rewrite dense_find in F. auto.
  - intros (i & -> & H). apply mfind_In. rewrite dense_find. auto.
Qed.

Section Merge.
  Variables (bpts : Z -> list vec3) (bss : list (list (Z * pose))) (ol : list obj3d).
  Hypothesis OK : objects_ok bpts bss ol.
  Variables (observed : list Z) (es : smap (Z * Z) nat) (tr : smap (Z * Z) pose).
  Hypothesis PP : proper_pairs observed es.
  Hypothesis So : StronglySorted Z.lt observed.
  Hypothesis Known : forall j, In j observed -> exists o, mfind j (dense ol) = Some o.
  Hypothesis Keys : mkeys tr = mkeys es.
  Hypothesis Both : both_orders es.
  Variable pick : dstate -> nat.
  Hypothesis Hpick : good_heap pick.
  Variable g0 : graph.
  Notation g := (covis_graph g0 observed es).
  Notation comps := (connectedComponents g).

  Lemma ok_len : length bss = length ol.
  Proof. apply (Forall2_nth (well_built bpts)). apply OK. Qed.
  Lemma ok_wb j bs o : nth_error bss j = Some bs -> nth_error ol j = Some o -> well_built bpts bs o.
  Proof. apply (Forall2_nth (well_built bpts)). apply OK. Qed.
  Lemma ok_or j o : nth_error ol j = Some o -> origin_ok o.
  Proof. intros H. apply nth_error_In in H. generalize (ok_origin _ _ _ OK). rewrite Forall_forall. auto. Qed.
  Lemma ok_board_unique i j bs bs' b P P' : nth_error bss i = Some bs -> nth_error bss j = Some bs' ->
    In (b, P) bs -> In (b, P') bs' -> i = j.
  Proof.
    intros H1 H2 H3 H4. assert (N := ok_disjoint _ _ _ OK). rewrite concat_map in N.
    apply (NoDup_concat_unique (map (map fst) bss) i j (map fst bs) (map fst bs') b N).
    - rewrite nth_error_map, H1. auto.
    - rewrite nth_error_map, H2. auto.
    - apply (in_map fst) in H3. auto.
    - apply (in_map fst) in H4. auto.
  Qed.

  Lemma moved_boards_ok T bs o : well_built bpts bs o -> exists ms, moved_boards T o = Some ms /\
    map fst ms = mkeys (ob_boards o) /\
    forall b Q, In (b, Q) ms <-> exists P, In (b, P) bs /\ Q = pmul T P.
  Proof.
    intros W. set (f := fun b => (b, pmul T (match mfind b (ob_poses o) with Some P => P | None => pid end))).
    assert (FP : forall b, In b (mkeys (ob_boards o)) -> exists P, In (b, P) bs /\ mfind b (ob_poses o) = Some P).
    { intros b Hb. destruct (keys_In_bs _ _ _ _ W Hb) as (P & HP). exists P. split; auto. apply W; auto. }
    exists (map f (mkeys (ob_boards o))). split; [|split].
    - unfold moved_boards. apply collect_map_Some. intros b Hb. destruct (FP b Hb) as (P & _ & E). unfold f. rewrite E. auto.
    - rewrite map_map. cbn. apply map_id.
    - intros b Q. rewrite in_map_iff. split.
      + intros (b' & E & Hb). destruct (FP b' Hb) as (P & HP & EP). unfold f in E. rewrite EP in E. injection E as -> <-. eauto.
      + intros (P & HP & ->). exists b. unfold f. assert (E : mfind b (ob_poses o) = Some P) by (apply W; auto).
        rewrite E. split; auto. apply W. apply (in_map fst) in HP. auto.
  Qed.

  Lemma pmul_id_id : pmul pid pid = pid. Proof. apply pmul_id_l. Qed.

  (** boards of the merged object *)
  Definition merged_in (c : list Z) (b : Z) (Q : pose) : Prop :=
    exists j bs T P, In (Z.of_nat j) c /\ nth_error bss j = Some bs /\ In (b, P) bs /\
      path_pose step_inv pick g tr (min_of c) (Z.of_nat j) = Some T /\ Q = pmul T P.

  Lemma find_pose ps k : NoDup (map fst ps) ->
    match find (fun p : Z * pose => Z.eqb (fst p) k) ps with
    | Some p => p = (k, snd p) /\ In (k, snd p) ps
    | None => ~ In k (map fst ps)
    end.
  Proof.
    intros _. destruct (find (fun p : Z * pose => Z.eqb (fst p) k) ps) as [p|] eqn:E.
    - apply find_some in E as (H & E). apply Z.eqb_eq in E. destruct p as [x T]. cbn in *. subst. auto.
    - intros H. apply in_map_iff in H as (p & Ep & H). apply find_none with (x := p) in E; auto. apply Z.eqb_neq in E. auto.
  Qed.

  Lemma merge_component_ok i c : In c comps ->
    exists o bs', merge_component bpts pick g tr (dense ol) i c = Some o /\ well_built bpts bs' o /\
      (forall b Q, In (b, Q) bs' <-> merged_in c b Q) /\
      ob_id o = Z.of_nat i /\ origin_ok o /\
      (exists r, mfind (min_of c) (dense ol) = Some r /\ ob_ref o = ob_ref r).
  Proof.
    intros Hc. destruct (component_total observed es tr PP Keys Both pick Hpick g0 step_inv c Hc) as (ps & E & K).
    destruct (comp_facts observed es PP g0 c Hc) as (N & Iobs & _).
    destruct (comps_sorted observed es PP So g0 c Hc) as (_ & Sc & _).
    destruct (min_of_spec c N) as (Hm & Hmin).
    destruct (Known (min_of c) (Iobs _ Hm)) as (r & Er).
    assert (NDp : NoDup (map fst ps)) by (rewrite K; apply sorted_lt_NoDup; auto).
    assert (PI : forall m T, In (m, T) ps -> In m c /\ path_pose step_inv pick g tr (min_of c) m = Some T)
      by (intros m T; apply (component_poses_In observed es tr pick g0 step_inv c ps); auto).
    (* contribution of each object *)
    set (contrib := fun e : Z * obj3d => match find (fun p : Z * pose => Z.eqb (fst p) (ob_id (snd e))) ps with
                         | Some p => moved_boards (snd p) (snd e) | None => Some [] end).
    assert (CO : forall j o, nth_error ol j = Some o -> exists bs ms, nth_error bss j = Some bs /\ contrib (Z.of_nat j, o) = Some ms /\
        NoDup (map fst ms) /\ forall b Q, In (b, Q) ms <-> exists T P, In (Z.of_nat j) c /\ In (b, P) bs /\
          path_pose step_inv pick g tr (min_of c) (Z.of_nat j) = Some T /\ Q = pmul T P).
    { intros j o Ho. destruct (nth_error_length_ex ol bss j o (eq_sym ok_len) Ho) as (bs & Hb).
      assert (W := ok_wb j bs o Hb Ho). assert (Id := ok_ids _ _ _ OK j o Ho).
      exists bs. unfold contrib. cbn [snd]. rewrite Id. assert (FS := find_pose ps (Z.of_nat j) NDp).
      destruct (find _ ps) as [[x T]|] eqn:EF; cbn [snd] in *.
      - destruct FS as (Ex & Hin). injection Ex as ->. destruct (PI _ _ Hin) as (Hj & HT).
        destruct (moved_boards_ok T bs o W) as (ms & Em & Km & Im). exists ms. split; [auto|]. split; [auto|].
        split; [rewrite Km; apply msorted_NoDup, W|]. intros b Q. rewrite Im. split.
        + intros (P & HP & ->). exists T, P. auto.
        + intros (T' & P & _ & HP & HT' & ->). exists P. split; auto. congruence.
      - exists []. split; [auto|]. split; [auto|]. split; [constructor|]. intros b Q. split; [intros []|].
        intros (T & P & Hj & _). exfalso. apply FS. rewrite K. auto. }
    assert (TOT : exists lls, collect (map contrib (dense ol)) = Some lls /\ length lls = length ol /\
        forall j o, nth_error ol j = Some o -> exists ms, nth_error lls j = Some ms /\ contrib (Z.of_nat j, o) = Some ms).
    { destruct (collect_numbered (fun j o => contrib (Z.of_nat j, o)) ol) as (lls & E1 & E2 & E3).
      - intros j o Ho. destruct (CO j o Ho) as (bs & ms & _ & Em & _). eauto.
      - exists lls. split; auto. rewrite <- E1. f_equal. unfold dense. clear. generalize 0 as s.
        induction ol as [|o l IH]; intros s; cbn; auto. f_equal. apply IH. }
    destruct TOT as (lls & EL & LL & HL).
    assert (IN : forall b Q, In (b, Q) (concat lls) <-> merged_in c b Q).
    { intros b Q. rewrite in_concat. split.
      - intros (ms & Hms & Hin). apply In_nth_error in Hms as (j & Hj).
        destruct (nth_error_length_ex lls ol j ms LL Hj) as (o & Ho). destruct (HL j o Ho) as (ms' & Hj' & Ec).
        assert (ms' = ms) by congruence. subst ms'. destruct (CO j o Ho) as (bs & ms' & Hb & Ec' & _ & Im).
        assert (ms' = ms) by congruence. subst ms'. apply Im in Hin as (T & P & H1 & H2 & H3 & H4). exists j, bs, T, P. auto.
      - intros (j & bs & T & P & H1 & H2 & H3 & H4 & ->). destruct (nth_error_length_ex bss ol j bs ok_len H2) as (o & Ho).
        destruct (HL j o Ho) as (ms & Hj & Ec). exists ms. split; [eapply nth_error_In; eauto|].
        destruct (CO j o Ho) as (bs' & ms' & Hb & Ec' & _ & Im). assert (ms' = ms) by congruence. subst ms'.
        assert (bs' = bs) by congruence. subst bs'. apply Im. exists T, P. auto. }
    assert (ND : NoDup (map fst (concat lls))).
    { rewrite concat_map. apply NoDup_concat_intro.
      - intros j l Hl. rewrite nth_error_map in Hl. destruct (nth_error lls j) as [ms|] eqn:Ej; [|discriminate]. injection Hl as <-.
        destruct (nth_error_length_ex lls ol j ms LL Ej) as (o & Ho). destruct (HL j o Ho) as (ms' & Hj' & Ec).
        destruct (CO j o Ho) as (bs & ms'' & Hb & Ec' & Nd & _). assert (ms'' = ms) by congruence. subst. auto.
      - intros j j' l l' x Hl Hl' Hx Hx'. rewrite nth_error_map in Hl, Hl'.
        destruct (nth_error lls j) as [ms|] eqn:Ej; [|discriminate]. injection Hl as <-.
        destruct (nth_error lls j') as [ms'|] eqn:Ej'; [|discriminate]. injection Hl' as <-.
        destruct (nth_error_length_ex lls ol j ms LL Ej) as (o & Ho). destruct (HL j o Ho) as (m1 & Hj1 & Ec1).
        destruct (nth_error_length_ex lls ol j' ms' LL Ej') as (o' & Ho'). destruct (HL j' o' Ho') as (m2 & Hj2 & Ec2).
        destruct (CO j o Ho) as (bs & m3 & Hb & Ec3 & _ & Im). destruct (CO j' o' Ho') as (bs' & m4 & Hb' & Ec4 & _ & Im').
        assert (m3 = ms) by congruence. assert (m4 = ms') by congruence. subst m3 m4.
        apply in_map_iff in Hx as ([b Q] & Eb & Hx). apply in_map_iff in Hx' as ([b' Q'] & Eb' & Hx'). cbn in Eb, Eb'. subst b b'.
        apply Im in Hx as (T & P & _ & HP & _). apply Im' in Hx' as (T' & P' & _ & HP' & _). eapply ok_board_unique; eauto. }
    set (nb := fold_left (fun n c0 => n + match mfind c0 (dense ol) with Some o => length (ob_boards o) | None => 0 end) c 0).
    destruct (build_ok bpts (concat lls) nb (ob_ref r) (Z.of_nat i) ND) as (W & E1 & E2 & E3).
    exists (fst (fold_left (place_board bpts) (concat lls) (new_object nb (ob_ref r) (Z.of_nat i), 0))), (concat lls).
    split.
    { unfold merge_component. rewrite E, Er. 
      assert (EM : map (fun '(_, o) => match find (fun p : Z * pose => Z.eqb (fst p) (ob_id o)) ps with
                         | Some p => moved_boards (snd p) o | None => Some [] end) (dense ol) = map contrib (dense ol))
        by (apply map_ext; intros [k o]; auto).
      rewrite EM, EL. reflexivity. }
    set (o := fst _) in *. clearbody o.
    split; [auto|]. split; [auto|]. split; [auto|]. split; [|eauto].
    assert (MK : exists jm, min_of c = Z.of_nat jm /\ nth_error ol jm = Some r).
    { apply mfind_In, dense_In in Er. destruct Er as (jm & -> & Hr). eauto. }
    destruct MK as (jm & Ejm & Hjm). assert (OR := ok_or jm r Hjm).
    destruct (nth_error_length_ex ol bss jm r (eq_sym ok_len) Hjm) as (bsm & Hbm). assert (Wm := ok_wb jm bsm r Hbm Hjm).
    assert (ID : merged_in c (ob_ref r) pid).
    { exists jm, bsm, pid, pid. rewrite <- Ejm. split; [auto|]. split; [auto|]. split; [apply Wm, OR|].
      split; [apply (component_origin observed es tr PP pick Hpick g0 step_inv c Hc)|]. symmetry. apply pmul_id_id. }
    apply IN in ID. constructor; rewrite ?E2.
    - apply (wb_boards _ _ _ W). apply (in_map fst) in ID. auto.
    - intros b Hb. apply (wb_boards _ _ _ W) in Hb. apply in_map_iff in Hb as ([b' Q] & Eb & Hb). cbn in Eb. subst b'.
      apply IN in Hb as (j & bs & T & P & H1 & H2 & H3 & H4 & _).
      destruct (nth_error_length_ex bss ol j bs ok_len H2) as (o' & Ho'). assert (OR' := ok_or j o' Ho').
      assert (W' := ok_wb j bs o' H2 Ho').
      assert (B1 : (ob_ref o' <= b)%Z) by (apply OR'; apply W'; apply (in_map fst) in H3; auto).
      assert (B2 : (ob_ref r <= ob_ref o')%Z).
      { specialize (Hmin _ H1). rewrite Ejm in Hmin. destruct (Nat.eq_dec jm j) as [->|Nj]; [assert (r = o') by congruence; subst; lia|].
        assert (ob_ref r < ob_ref o')%Z; [|lia].
        apply (sorted_nth (map ob_ref ol) (ok_refs _ _ _ OK) jm j); [lia| |]; rewrite nth_error_map; [rewrite Hjm|rewrite Ho']; auto. }
      lia.
    - apply W. auto.
  Qed.

  Lemma mergeObjects_ok : exists ol' bss', mergeObjects bpts pick g tr (dense ol) = Some (dense ol') /\
    objects_ok bpts bss' ol' /\ length ol' = length comps /\
    forall i c bs', nth_error comps i = Some c -> nth_error bss' i = Some bs' -> forall b Q, In (b, Q) bs' <-> merged_in c b Q.
  Proof.
    destruct (collect_numbered (merge_component bpts pick g tr (dense ol)) comps) as (ol' & E & L & H).
    { intros i c Hi. apply nth_error_In in Hi. destruct (merge_component_ok i c Hi) as (o & bs & Eo & _). eauto. }
    assert (HB : exists bss', length bss' = length comps /\ forall i c, nth_error comps i = Some c -> exists o bs, nth_error ol' i = Some o /\ nth_error bss' i = Some bs /\
      well_built bpts bs o /\ (forall b Q, In (b, Q) bs <-> merged_in c b Q) /\
      ob_id o = Z.of_nat i /\ origin_ok o /\
      (exists r, mfind (min_of c) (dense ol) = Some r /\ ob_ref o = ob_ref r)).
    { assert (G : forall s cs, (forall i c, nth_error cs i = Some c -> In c comps /\ nth_error comps (s + i) = Some c) ->
        exists bss', length bss' = length cs /\ forall i c, nth_error cs i = Some c -> exists o bs, nth_error ol' (s + i) = Some o /\ nth_error bss' i = Some bs /\
        well_built bpts bs o /\ (forall b Q, In (b, Q) bs <-> merged_in c b Q) /\
        ob_id o = Z.of_nat (s + i) /\ origin_ok o /\
        (exists r, mfind (min_of c) (dense ol) = Some r /\ ob_ref o = ob_ref r)).
      { intros s cs. revert s. induction cs as [|c cs IH]; intros s Hs.
        - exists []. split; auto. intros [|i] c Hi; discriminate.
        - destruct (IH (S s)) as (bss' & LB & IB).
          { intros i c' Hi. destruct (Hs (S i) c' Hi) as (A & B). split; auto. rewrite <- B. f_equal. lia. }
          destruct (Hs 0 c eq_refl) as (A & B). destruct (merge_component_ok (s + 0) c A) as (o & bs & Eo & R).
          destruct (H (s + 0) c B) as (o' & Ho' & Eo'). assert (o' = o) by congruence. subst o'.
          exists (bs :: bss'). split; [cbn; auto|]. intros [|i] c' Hi; cbn in Hi.
          + injection Hi as <-. exists o, bs. cbn. auto.
          + destruct (IB i c' Hi) as (o2 & bs2 & A1 & A2 & A3 & A4 & A5 & A6). exists o2, bs2. cbn.
            replace (s + S i) with (S s + i) by lia. split; [auto|]. split; [auto|]. split; [auto|]. split; [auto|]. split; [|auto]. auto. }
      destruct (G 0 comps) as (bss' & LB & IB); [intros i c Hi; split; auto; eapply nth_error_In; eauto|]. exists bss'. split; auto. }
    destruct HB as (bss' & LB & HB). exists ol', bss'. split; [unfold mergeObjects; rewrite E; auto|].
    assert (LO : length bss' = length ol') by lia.
    split; [|split; [auto|]].
    - constructor.
      + apply Forall2_nth. split; auto. intros i bs o Hb Ho. destruct (nth_error_length_ex bss' comps i bs LB Hb) as (c & Hc).
        destruct (HB i c Hc) as (o' & bs' & A1 & A2 & A3 & _). congruence.
      + rewrite concat_map. apply NoDup_concat_intro.
        * intros i l Hl. rewrite nth_error_map in Hl. destruct (nth_error bss' i) as [bs|] eqn:Eb; [|discriminate]. injection Hl as <-.
          destruct (nth_error_length_ex bss' comps i bs LB Eb) as (c & Hc). destruct (HB i c Hc) as (o' & bs' & A1 & A2 & A3 & _).
          assert (bs' = bs) by congruence. subst. apply A3.
        * intros i i' l l' x Hl Hl' Hx Hx'. rewrite nth_error_map in Hl, Hl'.
          destruct (nth_error bss' i) as [bs|] eqn:Eb; [|discriminate]. injection Hl as <-.
          destruct (nth_error bss' i') as [bs'|] eqn:Eb'; [|discriminate]. injection Hl' as <-.
          destruct (nth_error_length_ex bss' comps i bs LB Eb) as (c & Hc). destruct (HB i c Hc) as (o1 & b1 & A1 & A2 & A3 & A4 & _).
          destruct (nth_error_length_ex bss' comps i' bs' LB Eb') as (c' & Hc'). destruct (HB i' c' Hc') as (o2 & b2 & B1 & B2 & B3 & B4 & _).
          assert (b1 = bs) by congruence. assert (b2 = bs') by congruence. subst b1 b2.
          apply in_map_iff in Hx as ([b Q] & Ex & Hx). apply in_map_iff in Hx' as ([b' Q'] & Ex' & Hx'). cbn in Ex, Ex'. subst b b'.
          apply A4 in Hx as (j & bj & T & P & J1 & J2 & J3 & _). apply B4 in Hx' as (j' & bj' & T' & P' & K1 & K2 & K3 & _).
          assert (j = j') by (eapply ok_board_unique; eauto). subst j'.
          destruct (comps_partition observed es PP g0) as (ND & _).
          eapply NoDup_concat_unique; eauto.
      + apply Forall_forall. intros o Ho. apply In_nth_error in Ho as (i & Ho).
        destruct (nth_error_length_ex ol' comps i o L Ho) as (c & Hc). destruct (HB i c Hc) as (o' & bs' & A1 & A2 & A3 & A4 & A5 & A6 & _). congruence.
      + assert (F : forall i c o, nth_error comps i = Some c -> nth_error ol' i = Some o -> exists jm r, min_of c = Z.of_nat jm /\ nth_error ol jm = Some r /\ ob_ref o = ob_ref r).
        { intros i c o Hc Ho. destruct (HB i c Hc) as (o' & bs' & A1 & A2 & A3 & A4 & A5 & A6 & (r & A7 & A8)).
          assert (o' = o) by congruence. subst o'. apply mfind_In, dense_In in A7 as (jm & Ej & Hr). eauto. }
        assert (SM := comps_mins observed es PP So g0). revert F SM L. generalize comps as cs.
        clear -OK. revert ol'. intros ol'. induction ol' as [|o ol' IH]; intros cs F SM L; [constructor|].
        destruct cs as [|c cs]; [discriminate|]. cbn [map] in SM |- *. inversion SM; subst. constructor.
        * apply IH with (cs := cs); auto. intros i. apply (F (S i)).
        * apply Forall_forall. intros x Hx. apply in_map_iff in Hx as (o' & <- & Ho'). apply In_nth_error in Ho' as (i & Ho').
          destruct (nth_error_length_ex ol' cs i o' ltac:(auto) Ho') as (c' & Hc').
          destruct (F 0 c o eq_refl eq_refl) as (j1 & r1 & M1 & R1 & E1). destruct (F (S i) c' o' Hc' Ho') as (j2 & r2 & M2 & R2 & E2).
          rewrite E1, E2. rewrite Forall_forall in H2. assert (min_of c < min_of c')%Z by (apply H2; apply in_map; eapply nth_error_In; eauto).
          apply (sorted_nth (map ob_ref ol) (ok_refs _ _ _ OK) j1 j2); [lia| |]; rewrite nth_error_map; [rewrite R1|rewrite R2]; auto.
      + intros i o Ho. destruct (nth_error_length_ex ol' comps i o L Ho) as (c & Hc). destruct (HB i c Hc) as (o' & bs' & A1 & A2 & A3 & A4 & A5 & _). congruence.
    - intros i c bs' Hc Hb. destruct (HB i c Hc) as (o' & b2 & A1 & A2 & A3 & A4 & _). assert (b2 = bs') by congruence. subst. auto.
  Qed.
End Merge.
