(** Merging camera groups; the proof follows ObjectsMerge. *)
From Coq Require Import List ZArith QArith Lia Reals Permutation Sorted.
From Verif Require Import SMap GraphModel GraphSpec GraphComp DataModel DataSpec DetectModel DetectProofs GeomModel GeomSpec GeomProofs
  ChainModel ChainSpec ChainProofs ChainCam ObjectsModel ObjectsSpec ObjectsProofs ObjectsSave ObjectsBuild ObjectsMerge
  GroupModel GroupSpec GroupProofs.
Import ListNotations.
Close Scope Q_scope.
Close Scope R_scope.
Open Scope nat_scope.

Lemma gkeys_In bs o b : grouped bs o -> In b (mkeys (cg_map o)) -> exists P, In (b, P) bs.
Proof.
  intros W H. apply (gr_map _ _ W) in H. apply in_map_iff in H as ([b' P] & E & H). cbn in E. subst. eauto.
Qed.

Lemma nodup_left {A} (l1 l2 : list A) : NoDup (l1 ++ l2) -> NoDup l1.
Proof. induction l1 as [|x l IH]; cbn; intros H; [constructor|]. inversion H; subst. constructor; auto. intros I. apply H2. apply in_or_app. auto. Qed.
Lemma nodup_right {A} (l1 l2 : list A) : NoDup (l1 ++ l2) -> NoDup l2.
Proof. induction l1 as [|x l IH]; cbn; auto. intros H. inversion H; subst. auto. Qed.

Section Merge.
  Variables (bss : list (list (Z * pose))) (ol : list cgroup).
  Hypothesis OK : groups_ok bss ol.
  Variables (observed : list Z) (es : smap (Z * Z) nat) (tr : smap (Z * Z) pose).
  Hypothesis PP : proper_pairs observed es.
  Variable pick : dstate -> nat.
  Hypothesis Hpick : good_heap pick.
  Variable g0 : graph.
  Notation g := (covis_graph g0 observed es).
  Notation comps := (connectedComponents g).
  Hypothesis Total : forall c, In c comps -> exists ps, component_poses step_fwd pick g tr c = Some ps.
  Hypothesis Mins : StronglySorted Z.lt (map min_of comps).
  Hypothesis Known : forall c, In c comps -> exists o, mfind (min_of c) (dense ol) = Some o.

  Lemma gk_len : length bss = length ol.
  Proof. apply (Forall2_nth (grouped)). apply OK. Qed.
  Lemma gk_wb j bs o : nth_error bss j = Some bs -> nth_error ol j = Some o -> grouped bs o.
  Proof. apply (Forall2_nth (grouped)). apply OK. Qed.
  Lemma gk_or j o : nth_error ol j = Some o -> group_origin o.
  Proof. intros H. apply nth_error_In in H. generalize (gk_origin _ _ OK). rewrite Forall_forall. auto. Qed.
  Lemma gk_unique i j bs bs' b P P' : nth_error bss i = Some bs -> nth_error bss j = Some bs' ->
    In (b, P) bs -> In (b, P') bs' -> i = j.
  Proof.
    intros H1 H2 H3 H4. assert (N := gk_disjoint _ _ OK). rewrite concat_map in N.
    apply (NoDup_concat_unique (map (map fst) bss) i j (map fst bs) (map fst bs') b N).
    - rewrite nth_error_map, H1. auto.
    - rewrite nth_error_map, H2. auto.
    - apply (in_map fst) in H3. auto.
    - apply (in_map fst) in H4. auto.
  Qed.

  Lemma moved_cameras_ok T bs o : grouped bs o -> exists ms, moved_cameras T o = Some ms /\
    map fst ms = mkeys (cg_map o) /\
    forall b Q, In (b, Q) ms <-> exists P, In (b, P) bs /\ Q = pmul P T.
  Proof.
    intros W. set (f := fun b => (b, pmul (match mfind b (cg_poses o) with Some P => P | None => pid end) T)).
    assert (FP : forall b, In b (mkeys (cg_map o)) -> exists P, In (b, P) bs /\ mfind b (cg_poses o) = Some P).
    { intros b Hb. destruct (gkeys_In _ _ _ W Hb) as (P & HP). exists P. split; auto. apply W; auto. }
    exists (map f (mkeys (cg_map o))). split; [|split].
    - unfold moved_cameras. apply collect_map_Some. intros b Hb. destruct (FP b Hb) as (P & _ & E). unfold f. rewrite E. auto.
    - rewrite map_map. cbn. apply map_id.
    - intros b Q. rewrite in_map_iff. split.
      + intros (b' & E & Hb). destruct (FP b' Hb) as (P & HP & EP). unfold f in E. rewrite EP in E. injection E as -> <-. eauto.
      + intros (P & HP & ->). exists b. unfold f. assert (E : mfind b (cg_poses o) = Some P) by (apply W; auto).
        rewrite E. split; auto. apply W. apply (in_map fst) in HP. auto.
  Qed.

  Lemma pmul_id_id : pmul pid pid = pid. Proof. apply pmul_id_l. Qed.

  (** boards of the merged object *)
  Definition gmerged_in (c : list Z) (b : Z) (Q : pose) : Prop :=
    exists j bs T P, In (Z.of_nat j) c /\ nth_error bss j = Some bs /\ In (b, P) bs /\
      path_pose step_fwd pick g tr (min_of c) (Z.of_nat j) = Some T /\ Q = pmul P T.

  Lemma gfind_pose ps k : NoDup (map fst ps) ->
    match find (fun p : Z * pose => Z.eqb (fst p) k) ps with
    | Some p => p = (k, snd p) /\ In (k, snd p) ps
    | None => ~ In k (map fst ps)
    end.
  Proof.
    intros _. destruct (find (fun p : Z * pose => Z.eqb (fst p) k) ps) as [p|] eqn:E.
    - apply find_some in E as (H & E). apply Z.eqb_eq in E. destruct p as [x T]. cbn in *. subst. auto.
    - intros H. apply in_map_iff in H as (p & Ep & H). apply find_none with (x := p) in E; auto. apply Z.eqb_neq in E. auto.
  Qed.

  Lemma merge_group_ok i c : In c comps ->
    exists o bs', merge_group pick g tr (dense ol) i c = Some o /\ grouped bs' o /\
      (forall b Q, In (b, Q) bs' <-> gmerged_in c b Q) /\
      cg_id o = Z.of_nat i /\ group_origin o /\
      (exists r, mfind (min_of c) (dense ol) = Some r /\ cg_ref o = cg_ref r).
  Proof.
    intros Hc. destruct (Total c Hc) as (ps & E). assert (K := component_poses_fst step_fwd pick g tr c ps E).
    destruct (comp_facts observed es PP g0 c Hc) as (N & Iobs & _).
    destruct (min_of_spec c N) as (Hm & Hmin).
    destruct (Known c Hc) as (r & Er).
    assert (NDp : NoDup (map fst ps)).
    { rewrite K. destruct (comps_partition observed es PP g0) as (ND & _). clear -ND Hc. apply in_split in Hc as (l1 & l2 & E).
      rewrite E, concat_app in ND. cbn [concat] in ND. apply nodup_right in ND. eapply nodup_left; eauto. }
    assert (PI : forall m T, In (m, T) ps -> In m c /\ path_pose step_fwd pick g tr (min_of c) m = Some T)
      by (intros m T; apply (component_poses_In observed es tr pick g0 step_fwd c ps); auto).
    (* contribution of each object *)
    set (contrib := fun e : Z * cgroup => match find (fun p : Z * pose => Z.eqb (fst p) (cg_id (snd e))) ps with
                         | Some p => moved_cameras (snd p) (snd e) | None => Some [] end).
    assert (CO : forall j o, nth_error ol j = Some o -> exists bs ms, nth_error bss j = Some bs /\ contrib (Z.of_nat j, o) = Some ms /\
        NoDup (map fst ms) /\ forall b Q, In (b, Q) ms <-> exists T P, In (Z.of_nat j) c /\ In (b, P) bs /\
          path_pose step_fwd pick g tr (min_of c) (Z.of_nat j) = Some T /\ Q = pmul P T).
    { intros j o Ho. destruct (nth_error_length_ex ol bss j o (eq_sym gk_len) Ho) as (bs & Hb).
      assert (W := gk_wb j bs o Hb Ho). assert (Id := gk_ids _ _ OK j o Ho).
      exists bs. unfold contrib. cbn [snd]. rewrite Id. assert (FS := gfind_pose ps (Z.of_nat j) NDp).
      destruct (find _ ps) as [[x T]|] eqn:EF; cbn [snd] in *.
      - destruct FS as (Ex & Hin). injection Ex as ->. destruct (PI _ _ Hin) as (Hj & HT).
        destruct (moved_cameras_ok T bs o W) as (ms & Em & Km & Im). exists ms. split; [auto|]. split; [auto|].
        split; [rewrite Km; apply msorted_NoDup, W|]. intros b Q. rewrite Im. split.
        + intros (P & HP & ->). exists T, P. auto.
        + intros (T' & P & _ & HP & HT' & ->). exists P. split; auto. congruence.
      - exists []. split; [auto|]. split; [auto|]. split; [constructor|]. intros b Q. split; [intros []|].
        intros (T & P & Hj & _). exfalso. apply FS. rewrite K. auto. }
    assert (TOT : exists lls, collect (map contrib (dense ol)) = Some lls /\ length lls = length ol /\
        forall j o, nth_error ol j = Some o -> exists ms, nth_error lls j = Some ms /\ contrib (Z.of_nat j, o) = Some ms).
    { destruct (collect_numbered (fun j o => contrib (Z.of_nat j, o)) ol) as (lls & E1 & E2 & E3).
      - intros j o Ho. destruct (CO j o Ho) as (bs & ms & _ & Em & _). eauto.
      - exists lls. split; auto. rewrite <- E1. f_equal. unfold dense. clear. generalize 0 as s.
        induction ol as [|o l IH]; intros s; cbn; auto. f_equal. apply IH. }
    destruct TOT as (lls & EL & LL & HL).
    assert (IN : forall b Q, In (b, Q) (concat lls) <-> gmerged_in c b Q).
    { intros b Q. rewrite in_concat. split.
      - intros (ms & Hms & Hin). apply In_nth_error in Hms as (j & Hj).
        destruct (nth_error_length_ex lls ol j ms LL Hj) as (o & Ho). destruct (HL j o Ho) as (ms' & Hj' & Ec).
        assert (ms' = ms) by congruence. subst ms'. destruct (CO j o Ho) as (bs & ms' & Hb & Ec' & _ & Im).
        assert (ms' = ms) by congruence. subst ms'. apply Im in Hin as (T & P & H1 & H2 & H3 & H4). exists j, bs, T, P. auto.
      - intros (j & bs & T & P & H1 & H2 & H3 & H4 & ->). destruct (nth_error_length_ex bss ol j bs gk_len H2) as (o & Ho).
        destruct (HL j o Ho) as (ms & Hj & Ec). exists ms. split; [eapply nth_error_In; eauto|].
        destruct (CO j o Ho) as (bs' & ms' & Hb & Ec' & _ & Im). assert (ms' = ms) by congruence. subst ms'.
        assert (bs' = bs) by congruence. subst bs'. apply Im. exists T, P. auto. }
    assert (ND : NoDup (map fst (concat lls))).
    { rewrite concat_map. apply NoDup_concat_intro.
      - intros j l Hl. rewrite nth_error_map in Hl. destruct (nth_error lls j) as [ms|] eqn:Ej; [|discriminate]. injection Hl as <-.
        destruct (nth_error_length_ex lls ol j ms LL Ej) as (o & Ho). destruct (HL j o Ho) as (ms' & Hj' & Ec).
        destruct (CO j o Ho) as (bs & ms'' & Hb & Ec' & Nd & _). assert (ms'' = ms) by congruence. subst. auto.
      - intros j j' l l' x Hl Hl' Hx Hx'. rewrite nth_error_map in Hl, Hl'.
        destruct (nth_error lls j) as [ms|] eqn:Ej; [|discriminate]. injection Hl as <-.
        destruct (nth_error lls j') as [ms'|] eqn:Ej'; [|discriminate]. injection Hl' as <-.
        destruct (nth_error_length_ex lls ol j ms LL Ej) as (o & Ho). destruct (HL j o Ho) as (m1 & Hj1 & Ec1).
        destruct (nth_error_length_ex lls ol j' ms' LL Ej') as (o' & Ho'). destruct (HL j' o' Ho') as (m2 & Hj2 & Ec2).
        destruct (CO j o Ho) as (bs & m3 & Hb & Ec3 & _ & Im). destruct (CO j' o' Ho') as (bs' & m4 & Hb' & Ec4 & _ & Im').
        assert (m3 = ms) by congruence. assert (m4 = ms') by congruence. subst m3 m4.
        apply in_map_iff in Hx as ([b Q] & Eb & Hx). apply in_map_iff in Hx' as ([b' Q'] & Eb' & Hx'). cbn in Eb, Eb'. subst b b'.
        apply Im in Hx as (T & P & _ & HP & _). apply Im' in Hx' as (T' & P' & _ & HP' & _). eapply gk_unique; eauto. }
    destruct (gbuild_ok (concat lls) (cg_ref r) (Z.of_nat i) ND) as (W & E1 & E2).
    exists (fold_left place_camera (concat lls) (new_group (cg_ref r) (Z.of_nat i))), (concat lls).
    split.
    { unfold merge_group. rewrite E, Er. 
      assert (EM : map (fun '(_, o) => match find (fun p : Z * pose => Z.eqb (fst p) (cg_id o)) ps with
                         | Some p => moved_cameras (snd p) o | None => Some [] end) (dense ol) = map contrib (dense ol))
        by (apply map_ext; intros [k o]; auto).
      rewrite EM, EL. reflexivity. }
    set (o := fold_left place_camera _ _) in *. clearbody o.
    split; [auto|]. split; [auto|]. split; [auto|]. split; [|eauto].
    assert (MK : exists jm, min_of c = Z.of_nat jm /\ nth_error ol jm = Some r).
    { apply mfind_In, dense_In in Er. destruct Er as (jm & -> & Hr). eauto. }
    destruct MK as (jm & Ejm & Hjm). assert (OR := gk_or jm r Hjm).
    destruct (nth_error_length_ex ol bss jm r (eq_sym gk_len) Hjm) as (bsm & Hbm). assert (Wm := gk_wb jm bsm r Hbm Hjm).
    assert (ID : gmerged_in c (cg_ref r) pid).
    { exists jm, bsm, pid, pid. rewrite <- Ejm. split; [auto|]. split; [auto|]. split; [apply Wm, OR|].
      split; [apply (component_origin observed es tr PP pick Hpick g0 step_fwd c Hc)|]. symmetry. apply pmul_id_id. }
    apply IN in ID. constructor; rewrite ?E2.
    - rewrite (gr_cams _ _ W). apply (in_map fst) in ID. auto.
    - intros b Hb. rewrite (gr_cams _ _ W) in Hb. apply in_map_iff in Hb as ([b' Q] & Eb & Hb). cbn in Eb. subst b'.
      apply IN in Hb as (j & bs & T & P & H1 & H2 & H3 & H4 & _).
      destruct (nth_error_length_ex bss ol j bs gk_len H2) as (o' & Ho'). assert (OR' := gk_or j o' Ho').
      assert (W' := gk_wb j bs o' H2 Ho').
      assert (B1 : (cg_ref o' <= b)%Z) by (apply OR'; rewrite (gr_cams _ _ W'); apply (in_map fst) in H3; auto).
      assert (B2 : (cg_ref r <= cg_ref o')%Z).
      { specialize (Hmin _ H1). rewrite Ejm in Hmin. destruct (Nat.eq_dec jm j) as [->|Nj]; [assert (r = o') by congruence; subst; lia|].
        assert (cg_ref r < cg_ref o')%Z; [|lia].
        apply (sorted_nth (map cg_ref ol) (gk_refs _ _ OK) jm j); [lia| |]; rewrite nth_error_map; [rewrite Hjm|rewrite Ho']; auto. }
      lia.
    - apply W. auto.
  Qed.

  Lemma mergeCameraGroup_ok : exists ol' bss', mergeCameraGroup pick g tr (dense ol) = Some (dense ol') /\
    groups_ok bss' ol' /\ length ol' = length comps /\
    forall i c bs', nth_error comps i = Some c -> nth_error bss' i = Some bs' -> forall b Q, In (b, Q) bs' <-> gmerged_in c b Q.
  Proof.
    destruct (collect_numbered (merge_group pick g tr (dense ol)) comps) as (ol' & E & L & H).
    { intros i c Hi. apply nth_error_In in Hi. destruct (merge_group_ok i c Hi) as (o & bs & Eo & _). eauto. }
    assert (HB : exists bss', length bss' = length comps /\ forall i c, nth_error comps i = Some c -> exists o bs, nth_error ol' i = Some o /\ nth_error bss' i = Some bs /\
      grouped bs o /\ (forall b Q, In (b, Q) bs <-> gmerged_in c b Q) /\
      cg_id o = Z.of_nat i /\ group_origin o /\
      (exists r, mfind (min_of c) (dense ol) = Some r /\ cg_ref o = cg_ref r)).
    { assert (G : forall s cs, (forall i c, nth_error cs i = Some c -> In c comps /\ nth_error comps (s + i) = Some c) ->
        exists bss', length bss' = length cs /\ forall i c, nth_error cs i = Some c -> exists o bs, nth_error ol' (s + i) = Some o /\ nth_error bss' i = Some bs /\
        grouped bs o /\ (forall b Q, In (b, Q) bs <-> gmerged_in c b Q) /\
        cg_id o = Z.of_nat (s + i) /\ group_origin o /\
        (exists r, mfind (min_of c) (dense ol) = Some r /\ cg_ref o = cg_ref r)).
      { intros s cs. revert s. induction cs as [|c cs IH]; intros s Hs.
        - exists []. split; auto. intros [|i] c Hi; discriminate.
        - destruct (IH (S s)) as (bss' & LB & IB).
          { intros i c' Hi. destruct (Hs (S i) c' Hi) as (A & B). split; auto. rewrite <- B. f_equal. lia. }
          destruct (Hs 0 c eq_refl) as (A & B). destruct (merge_group_ok (s + 0) c A) as (o & bs & Eo & R).
          destruct (H (s + 0) c B) as (o' & Ho' & Eo'). assert (o' = o) by congruence. subst o'.
          exists (bs :: bss'). split; [cbn; auto|]. intros [|i] c' Hi; cbn in Hi.
          + injection Hi as <-. exists o, bs. cbn. auto.
          + destruct (IB i c' Hi) as (o2 & bs2 & A1 & A2 & A3 & A4 & A5 & A6). exists o2, bs2. cbn.
            replace (s + S i) with (S s + i) by lia. split; [auto|]. split; [auto|]. split; [auto|]. split; [auto|]. split; [|auto]. auto. }
      destruct (G 0 comps) as (bss' & LB & IB); [intros i c Hi; split; auto; eapply nth_error_In; eauto|]. exists bss'. split; auto. }
    destruct HB as (bss' & LB & HB). exists ol', bss'. split; [unfold mergeCameraGroup; rewrite E; auto|].
    assert (LO : length bss' = length ol') by lia.
    split; [|split; [auto|]].
    - constructor.
      + apply Forall2_nth. split; auto. intros i bs o Hb Ho. destruct (nth_error_length_ex bss' comps i bs LB Hb) as (c & Hc).
        destruct (HB i c Hc) as (o' & bs' & A1 & A2 & A3 & _). congruence.
      + rewrite concat_map. apply NoDup_concat_intro.
        * intros i l Hl. rewrite nth_error_map in Hl. destruct (nth_error bss' i) as [bs|] eqn:Eb; [|discriminate]. injection Hl as <-.
          destruct (nth_error_length_ex bss' comps i bs LB Eb) as (c & Hc). destruct (HB i c Hc) as (o' & bs' & A1 & A2 & A3 & _).
          assert (bs' = bs) by congruence. subst. apply A3.
        * intros i i' l l' x Hl Hl' Hx Hx'. rewrite nth_error_map in Hl, Hl'.
          destruct (nth_error bss' i) as [bs|] eqn:Eb; [|discriminate]. injection Hl as <-.
          destruct (nth_error bss' i') as [bs'|] eqn:Eb'; [|discriminate]. injection Hl' as <-.
          destruct (nth_error_length_ex bss' comps i bs LB Eb) as (c & Hc). destruct (HB i c Hc) as (o1 & b1 & A1 & A2 & A3 & A4 & _).
          destruct (nth_error_length_ex bss' comps i' bs' LB Eb') as (c' & Hc'). destruct (HB i' c' Hc') as (o2 & b2 & B1 & B2 & B3 & B4 & _).
          assert (b1 = bs) by congruence. assert (b2 = bs') by congruence. subst b1 b2.
          apply in_map_iff in Hx as ([b Q] & Ex & Hx). apply in_map_iff in Hx' as ([b' Q'] & Ex' & Hx'). cbn in Ex, Ex'. subst b b'.
          apply A4 in Hx as (j & bj & T & P & J1 & J2 & J3 & _). apply B4 in Hx' as (j' & bj' & T' & P' & K1 & K2 & K3 & _).
          assert (j = j') by (eapply gk_unique; eauto). subst j'.
          destruct (comps_partition observed es PP g0) as (ND & _).
          eapply NoDup_concat_unique; eauto.
      + apply Forall_forall. intros o Ho. apply In_nth_error in Ho as (i & Ho).
        destruct (nth_error_length_ex ol' comps i o L Ho) as (c & Hc). destruct (HB i c Hc) as (o' & bs' & A1 & A2 & A3 & A4 & A5 & A6 & _). congruence.
      + assert (F : forall i c o, nth_error comps i = Some c -> nth_error ol' i = Some o -> exists jm r, min_of c = Z.of_nat jm /\ nth_error ol jm = Some r /\ cg_ref o = cg_ref r).
        { intros i c o Hc Ho. destruct (HB i c Hc) as (o' & bs' & A1 & A2 & A3 & A4 & A5 & A6 & (r & A7 & A8)).
          assert (o' = o) by congruence. subst o'. apply mfind_In, dense_In in A7 as (jm & Ej & Hr). eauto. }
        assert (SM := Mins). revert F SM L. generalize comps as cs.
        clear -OK. revert ol'. intros ol'. induction ol' as [|o ol' IH]; intros cs F SM L; [constructor|].
        destruct cs as [|c cs]; [discriminate|]. cbn [map] in SM |- *. inversion SM; subst. constructor.
        * apply IH with (cs := cs); auto. intros i. apply (F (S i)).
        * apply Forall_forall. intros x Hx. apply in_map_iff in Hx as (o' & <- & Ho'). apply In_nth_error in Ho' as (i & Ho').
          destruct (nth_error_length_ex ol' cs i o' ltac:(auto) Ho') as (c' & Hc').
          destruct (F 0 c o eq_refl eq_refl) as (j1 & r1 & M1 & R1 & E1). destruct (F (S i) c' o' Hc' Ho') as (j2 & r2 & M2 & R2 & E2).
          rewrite E1, E2. rewrite Forall_forall in H2. assert (min_of c < min_of c')%Z by (apply H2; apply in_map; eapply nth_error_In; eauto).
          apply (sorted_nth (map cg_ref ol) (gk_refs _ _ OK) j1 j2); [lia| |]; rewrite nth_error_map; [rewrite R1|rewrite R2]; auto.
      + intros i o Ho. destruct (nth_error_length_ex ol' comps i o L Ho) as (c & Hc). destruct (HB i c Hc) as (o' & bs' & A1 & A2 & A3 & A4 & A5 & _). congruence.
    - intros i c bs' Hc Hb. destruct (HB i c Hc) as (o' & b2 & A1 & A2 & A3 & A4 & _). assert (b2 = bs') by congruence. subst. auto.
  Qed.
End Merge.
