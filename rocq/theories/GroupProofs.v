(** Construction and merging of camera groups. *)
From Coq Require Import List ZArith QArith Lia Reals Permutation Sorted.
From Verif Require Import SMap GraphModel GraphSpec GraphComp DataModel DataSpec DetectModel DetectProofs GeomModel GeomSpec GeomProofs
  ChainModel ChainSpec ChainProofs ChainCam ObjectsModel ObjectsSpec ObjectsProofs ObjectsSave ObjectsBuild ObjectsMerge
  GroupModel GroupSpec.
Import ListNotations.
Close Scope Q_scope.
Close Scope R_scope.
Open Scope nat_scope.

Lemma grouped_new ref id : grouped [] (new_group ref id).
Proof.
  constructor; cbn [new_group cg_cams cg_map cg_poses map mkeys mfind]; auto.
  - constructor.
  - tauto.
  - constructor.
  - intros c P. split; [discriminate|intros []].
Qed.
Lemma place_camera_ok cs G c P : grouped cs G -> ~ In c (map fst cs) ->
  grouped (cs ++ [(c, P)]) (place_camera G (c, P)).
Proof.
  intros W N. constructor; cbn [place_camera cg_cams cg_map cg_poses fst snd]; rewrite ?map_app; cbn [map fst].
  - apply NoDup_app_intro'; [apply W|constructor; auto; constructor|]. intros x Hx [<-|[]]. auto.
  - rewrite (gr_cams _ _ W). auto.
  - intros x. rewrite mset_keys_in, (gr_map _ _ W), in_app_iff. cbn. intuition.
  - apply mset_sorted. apply W.
  - intros x Q. destruct (Z.eq_dec x c) as [->|Nx].
    + rewrite mfind_mset_eq. rewrite in_app_iff. cbn. split.
      * intros [= ->]. auto.
      * intros [H|[[= ->]|[]]]; auto. exfalso. apply N. apply (in_map fst) in H. auto.
    + rewrite mfind_mset_neq by auto. rewrite (gr_poses _ _ W), in_app_iff. cbn. split; auto.
      intros [H|[[= -> ->]|[]]]; auto. congruence.
Qed.
Lemma place_cameras_ok cs : forall cs0 G, grouped cs0 G -> NoDup (map fst (cs0 ++ cs)) ->
  let G' := fold_left place_camera cs G in
  grouped (cs0 ++ cs) G' /\ cg_id G' = cg_id G /\ cg_ref G' = cg_ref G.
Proof.
  induction cs as [|[c P] cs IH]; intros cs0 G W N; cbn [fold_left]; [rewrite app_nil_r; auto|].
  assert (N' : ~ In c (map fst cs0)).
  { rewrite map_app in N. apply NoDup_app_inv in N as (_ & _ & N). intros H. apply (N c); auto. left; auto. }
  destruct (IH (cs0 ++ [(c, P)]) (place_camera G (c, P))) as (A & B & C).
  - apply place_camera_ok; auto.
  - rewrite <- app_assoc. auto.
  - rewrite <- app_assoc in A. auto.
Qed.
Lemma gbuild_ok cs ref id : NoDup (map fst cs) ->
  let G := fold_left place_camera cs (new_group ref id) in grouped cs G /\ cg_id G = id /\ cg_ref G = ref.
Proof. intros N. apply (place_cameras_ok cs [] (new_group ref id)); [apply grouped_new|auto]. Qed.

Section Init.
  Variables (observed : list Z) (es : smap (Z * Z) nat) (tr : smap (Z * Z) pose).
  Hypothesis PP : proper_pairs observed es.
  Hypothesis So : StronglySorted Z.lt observed.
  Hypothesis Keys : mkeys tr = mkeys es.
  Hypothesis Both : both_orders es.
  Variable pick : dstate -> nat.
  Hypothesis Hpick : good_heap pick.
  Variable g0 : graph.
  Notation g := (covis_graph g0 observed es).
  Notation comps := (connectedComponents g).

  Lemma init_group_ok i c : In c comps ->
    exists o bs, init_group pick g tr i c = Some o /\ grouped bs o /\ map fst bs = c /\
      component_poses step_fwd pick g tr c = Some bs /\
      cg_id o = Z.of_nat i /\ cg_ref o = min_of c /\ group_origin o.
  Proof.
    intros Hc. destruct (component_total observed es tr PP Keys Both pick Hpick g0 step_fwd c Hc) as (bs & E & K).
    destruct (comps_sorted observed es PP So g0 c Hc) as (N & S & M).
    assert (ND : NoDup (map fst bs)) by (rewrite K; apply sorted_lt_NoDup; auto).
    destruct (gbuild_ok bs (min_of c) (Z.of_nat i) ND) as (W & E1 & E2).
    unfold init_group. rewrite E. cbn [option_map].
    set (o := fold_left place_camera bs (new_group (min_of c) (Z.of_nat i))) in *. clearbody o.
    exists o, bs. split; [auto|]. split; [auto|]. split; [auto|]. split; [auto|]. split; [auto|]. split; [auto|].
    destruct (min_of_spec c N) as (Hm & Hmin).
    constructor; rewrite ?E2, ?(gr_cams _ _ W), ?K; auto.
    apply (gr_poses _ _ W). rewrite <- K in Hm. apply in_map_iff in Hm as ([m T] & Em & Hin). cbn in Em. subst m.
    rewrite K in *. destruct (component_poses_In observed es tr pick g0 step_fwd c bs _ _ E Hin) as (_ & P).
    rewrite (component_origin observed es tr PP pick Hpick g0 step_fwd c Hc) in P. injection P as <-. auto.
  Qed.

  Lemma initCameraGroup_ok : exists gl css, initCameraGroup pick g tr = Some (dense gl) /\ groups_ok css gl /\
    map (map fst) css = comps /\
    (forall i c G, nth_error comps i = Some c -> nth_error gl i = Some G -> cg_ref G = min_of c) /\
    forall i c cs k P, nth_error comps i = Some c -> nth_error css i = Some cs -> In (k, P) cs ->
      path_pose step_fwd pick g tr (min_of c) k = Some P.
  Proof.
    destruct (collect_numbered (init_group pick g tr) comps) as (ol & E & L & H).
    { intros i c Hi. apply nth_error_In in Hi. destruct (init_group_ok i c Hi) as (o & bs & Eo & _). eauto. }
    assert (HB : exists bss, length bss = length comps /\ forall i c, nth_error comps i = Some c -> exists bs, nth_error bss i = Some bs /\ component_poses step_fwd pick g tr c = Some bs).
    { destruct (collect_numbered (fun _ c => component_poses step_fwd pick g tr c) comps) as (bss & _ & LB & HB).
      - intros i c Hi. apply nth_error_In in Hi. destruct (init_group_ok i c Hi) as (o & bs & _ & _ & _ & Eb & _). eauto.
      - exists bss. split; auto. }
    destruct HB as (bss & LB & HB).
    assert (G : forall i c, nth_error comps i = Some c -> exists o bs, nth_error ol i = Some o /\ nth_error bss i = Some bs /\
      grouped bs o /\ map fst bs = c /\ component_poses step_fwd pick g tr c = Some bs /\
      cg_id o = Z.of_nat i /\ cg_ref o = min_of c /\ group_origin o).
    { intros i c Hi. destruct (H i c Hi) as (o & Ho & Eo). destruct (HB i c Hi) as (bs & Hb & Eb).
      assert (Hin := nth_error_In _ _ Hi). destruct (init_group_ok i c Hin) as (o' & bs' & Eo' & W & K & Eb' & R).
      rewrite Eo in Eo'. injection Eo' as <-. rewrite Eb in Eb'. injection Eb' as <-. exists o, bs. auto 10. }
    assert (C : map (map fst) bss = comps).
    { revert G LB. clear. generalize comps as cs. intros cs G LB.
      assert (F : Forall2 (fun bs c => map fst bs = c) bss cs).
      { apply Forall2_nth. split; auto. intros i bs c Hb Hc. destruct (G i c Hc) as (o & bs' & _ & Hb' & _ & K & _). congruence. }
      clear -F. induction F; cbn; congruence. }
    assert (LO : length ol = length bss) by lia.
    exists ol, bss. split; [unfold initCameraGroup; rewrite E; auto|]. split; [|split; [auto|split]].
    - constructor.
      + apply Forall2_nth. split; auto. intros i bs o Hb Ho.
        destruct (nth_error_length_ex bss comps i bs LB Hb) as (c & Hc). destruct (G i c Hc) as (o' & bs' & A1 & A2 & A3 & _). congruence.
      + rewrite concat_map, C. apply (comps_partition observed es PP g0).
      + apply Forall_forall. intros o Ho. apply In_nth_error in Ho as (i & Ho).
        destruct (nth_error_length_ex ol comps i o L Ho) as (c & Hc). destruct (G i c Hc) as (o' & bs' & A1 & A2 & A3 & A4 & A5 & A6 & A7 & A8). congruence.
      + assert (M : map cg_ref ol = map min_of comps).
        { assert (F : Forall2 (fun o c => cg_ref o = min_of c) ol comps).
          { apply Forall2_nth. split; auto. intros i o c Ho Hc. destruct (G i c Hc) as (o' & bs' & A1 & A2 & A3 & A4 & A5 & A6 & A7 & _). congruence. }
          clear -F. induction F; cbn; congruence. }
        rewrite M. apply comps_mins; auto.
      + intros i o Ho. destruct (nth_error_length_ex ol comps i o L Ho) as (c & Hc). destruct (G i c Hc) as (o' & bs' & A1 & A2 & A3 & A4 & A5 & A6 & _). congruence.
    - intros i c o Hc Ho. destruct (G i c Hc) as (o' & bs' & A1 & A2 & A3 & A4 & A5 & A6 & A7 & _).
      assert (o' = o) by congruence. subst. auto.
    - intros i c bs b P Hc Hb Hin. destruct (G i c Hc) as (o' & bs' & A1 & A2 & A3 & A4 & A5 & _).
      assert (bs' = bs) by congruence. subst. eapply component_poses_In; eauto.
  Qed.
End Init.
