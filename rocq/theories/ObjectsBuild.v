(** Construction and merging of 3D objects from covisibility components. *)
From Coq Require Import List ZArith QArith Lia Reals Permutation Sorted.
From Verif Require Import SMap GraphModel GraphSpec GraphComp DataModel DataSpec DetectModel DetectProofs GeomModel GeomSpec GeomProofs
  ChainModel ChainSpec ChainProofs ChainCam ObjectsModel ObjectsSpec ObjectsProofs.
Import ListNotations.
Close Scope Q_scope.
Close Scope R_scope.
Open Scope nat_scope.

Lemma subseq_sorted (l m : list Z) : subseq l m -> StronglySorted Z.lt m -> StronglySorted Z.lt l.
Proof.
  induction 1; intros S; [constructor| |]; inversion S; subst; auto.
  constructor; auto. rewrite Forall_forall in *. intros y Hy. apply H3. eapply subseq_In; eauto.
Qed.
Lemma min_of_sorted c : StronglySorted Z.lt c -> c <> [] -> min_of c = hd 0%Z c.
Proof.
  intros S N. destruct (min_of_spec c N) as (H1 & H2). destruct c as [|a c]; [congruence|]. cbn [hd].
  inversion S; subst. rewrite Forall_forall in *. destruct H1 as [H1|H1]; auto.
  specialize (H2 a (or_introl eq_refl)). apply H4 in H1. lia.
Qed.
Lemma sorted_lt_NoDup l : StronglySorted Z.lt l -> NoDup l.
Proof.
  induction 1; constructor; auto. intros Hi. rewrite Forall_forall in H0. apply H0 in Hi. lia.
Qed.

Lemma collect_numbered {A B} (f : nat -> A -> option B) cs :
  (forall i c, nth_error cs i = Some c -> exists o, f i c = Some o) ->
  exists l, collect (map (fun '(i, c) => f i c) (combine (seq 0 (length cs)) cs)) = Some l /\ length l = length cs /\
    forall i c, nth_error cs i = Some c -> exists o, nth_error l i = Some o /\ f i c = Some o.
Proof.
  intros H.
  assert (G : forall s, (forall i c, nth_error cs i = Some c -> exists o, f (s + i) c = Some o) ->
     exists l, collect (map (fun '(i, c) => f i c) (combine (seq s (length cs)) cs)) = Some l /\ length l = length cs /\
     forall i c, nth_error cs i = Some c -> exists o, nth_error l i = Some o /\ f (s + i) c = Some o).
  { clear H. induction cs as [|c cs IH]; intros s H.
    - exists []. split; [reflexivity|]. split; auto. intros [|i] c E; discriminate.
    - destruct (H 0 c eq_refl) as (o & E). rewrite Nat.add_0_r in E.
      destruct (IH (S s)) as (l & E1 & E2 & E3).
      { intros i c' Hi. destruct (H (S i) c' Hi) as (o' & Eo). exists o'. rewrite <- Eo. f_equal. lia. }
      exists (o :: l). cbn [length seq combine map]. split; [|split].
      + apply collect_Some in E1. apply collect_Some. cbn [map]. rewrite E, E1. auto.
      + cbn. auto.
      + intros [|i] c' Hi; cbn in Hi |- *.
        * injection Hi as <-. rewrite Nat.add_0_r. eauto.
        * destruct (E3 _ _ Hi) as (o' & A1 & B1). exists o'. split; auto. rewrite <- B1. f_equal. lia. }
  apply (G 0). intros i c Hi. apply H. auto.
Qed.

Section Components.
  Variables (observed : list Z) (es : smap (Z * Z) nat) (tr : smap (Z * Z) pose).
  Hypothesis PP : proper_pairs observed es.
  Hypothesis So : StronglySorted Z.lt observed.
  Variable g0 : graph.
  Notation g := (covis_graph g0 observed es).
  Notation comps := (connectedComponents g).

  Lemma comps_partition : NoDup (concat comps) /\ (forall v, In v (concat comps) <-> In v observed) /\
    (forall a b, In a observed -> In b observed -> ((exists c, In c comps /\ In a c /\ In b c) <-> connected es a b)).
  Proof. destruct (covis_components observed es PP) as (A & B & C & _). split; [exact A|]. split; [exact B|exact C]. Qed.
  Lemma comps_sorted c : In c comps -> c <> [] /\ StronglySorted Z.lt c /\ min_of c = hd 0%Z c.
  Proof.
    intros Hc. destruct (covis_components observed es PP) as (_ & _ & _ & D & _). rewrite Forall_forall in D.
    destruct (D c Hc) as (D1 & D2). assert (S := subseq_sorted _ _ D2 So). split; auto. split; auto. apply min_of_sorted; auto.
  Qed.
  Lemma comps_mins : StronglySorted Z.lt (map min_of comps).
  Proof.
    rewrite (map_ext_in min_of (hd 0%Z)) by (intros c Hc; apply comps_sorted; auto).
    destruct (covis_components observed es PP) as (_ & _ & _ & _ & E). eapply subseq_sorted; eauto.
  Qed.
End Components.

Lemma NoDup_app_inv {A} (l1 l2 : list A) : NoDup (l1 ++ l2) -> NoDup l1 /\ NoDup l2 /\ forall x, In x l1 -> In x l2 -> False.
Proof.
  induction l1 as [|a l1 IH]; cbn; intros H; [split; [constructor|]; split; auto|].
  inversion H; subst. destruct (IH H3) as (I1 & I2 & I3). split; [constructor; auto; intros Hi; apply H2; apply in_or_app; auto|].
  split; auto. intros x [<-|Hx] H4; [apply H2; apply in_or_app; auto|eauto].
Qed.
Lemma NoDup_concat_unique {A} (ll : list (list A)) i j l l' x : NoDup (concat ll) ->
  nth_error ll i = Some l -> nth_error ll j = Some l' -> In x l -> In x l' -> i = j.
Proof.
  revert i j. induction ll as [|y ll IH]; intros i j N H1 H2 Hx Hx'; [destruct i; discriminate|].
  cbn in N. apply NoDup_app_inv in N as (N1 & N2 & N3). destruct i as [|i], j as [|j]; cbn in H1, H2; auto.
  - injection H1 as <-. exfalso. apply (N3 x); auto. apply in_concat. exists l'. split; auto. eapply nth_error_In; eauto.
  - injection H2 as <-. exfalso. apply (N3 x); auto. apply in_concat. exists l. split; auto. eapply nth_error_In; eauto.
Qed.


Lemma Forall2_nth {A B} (R : A -> B -> Prop) l m : Forall2 R l m <->
  length l = length m /\ forall i a b, nth_error l i = Some a -> nth_error m i = Some b -> R a b.
Proof.
  split.
  - induction 1; [split; auto; intros [|i]; discriminate|]. destruct IHForall2 as (L & I). split; [cbn; auto|].
    intros [|i] a b; cbn; [intros [= <-] [= <-]; auto|apply I].
  - revert m. induction l as [|a l IH]; intros [|b m] (L & H); cbn in L; try lia; [constructor|].
    constructor; [apply (H 0); auto|]. apply IH. split; [lia|]. intros i. apply (H (S i)).
Qed.
Lemma nth_error_length_ex {A B} (l : list A) (m : list B) i a : length l = length m -> nth_error l i = Some a -> exists b, nth_error m i = Some b.
Proof.
  intros L H. destruct (nth_error m i) eqn:E; eauto. apply nth_error_None in E.
  assert (i < length l) by (apply nth_error_Some; congruence). lia.
Qed.
(** positions of equal keys in lists without repeated keys *)
Lemma NoDup_fst_unique {A B} (l : list (A * B)) k v v' : NoDup (map fst l) -> In (k, v) l -> In (k, v') l -> v = v'.
Proof.
  induction l as [|[a b] l IH]; cbn; intros N H1 H2; [destruct H1|]. inversion N; subst.
  destruct H1 as [H1|H1], H2 as [H2|H2]; auto.
  - congruence.
  - injection H1 as -> ->. exfalso. apply H3. apply (in_map fst) in H2; auto.
  - injection H2 as -> ->. exfalso. apply H3. apply (in_map fst) in H1; auto.
Qed.

Section Init.
  Variables (observed : list Z) (es : smap (Z * Z) nat) (tr : smap (Z * Z) pose) (bpts : Z -> list vec3).
  Hypothesis PP : proper_pairs observed es.
  Hypothesis So : StronglySorted Z.lt observed.
  Hypothesis Keys : mkeys tr = mkeys es.
  Hypothesis Both : both_orders es.
  Variable pick : dstate -> nat.
  Hypothesis Hpick : good_heap pick.
  Variable g0 : graph.
  Notation g := (covis_graph g0 observed es).
  Notation comps := (connectedComponents g).

  Lemma init_object_ok i c : In c comps ->
    exists o bs, init_object bpts pick g tr i c = Some o /\ well_built bpts bs o /\ map fst bs = c /\
      component_poses step_inv pick g tr c = Some bs /\
      ob_id o = Z.of_nat i /\ ob_ref o = min_of c /\ ob_nb_boards o = length c /\ origin_ok o.
  Proof.
    intros Hc. destruct (component_total observed es tr PP Keys Both pick Hpick g0 step_inv c Hc) as (bs & E & K).
    destruct (comps_sorted observed es PP So g0 c Hc) as (N & S & M).
    assert (ND : NoDup (map fst bs)) by (rewrite K; apply sorted_lt_NoDup; auto).
    destruct (build_ok bpts bs (length c) (min_of c) (Z.of_nat i) ND) as (W & E1 & E2 & E3).
    unfold init_object. rewrite E. cbn [option_map].
    set (o := fst (fold_left (place_board bpts) bs (new_object (length c) (min_of c) (Z.of_nat i), 0))) in *. clearbody o.
    exists o, bs. split; [auto|]. split; [auto|]. split; [auto|]. split; [auto|]. split; [auto|]. split; [auto|]. split; [auto|].
    destruct (min_of_spec c N) as (Hm & Hmin).
    constructor; rewrite ?E2.
    - apply (wb_boards _ _ _ W). rewrite K. auto.
    - intros b Hb. apply (wb_boards _ _ _ W) in Hb. rewrite K in Hb. auto.
    - apply (wb_poses _ _ _ W). rewrite <- K in Hm. apply in_map_iff in Hm as ([m T] & Em & Hin). cbn in Em. subst m.
      rewrite K in *. destruct (component_poses_In observed es tr pick g0 step_inv c bs _ _ E Hin) as (_ & P).
      rewrite (component_origin observed es tr PP pick Hpick g0 step_inv c Hc) in P. injection P as <-. auto.
  Qed.

  Lemma init3DObjects_ok : exists ol bss, init3DObjects bpts pick g tr = Some (dense ol) /\ objects_ok bpts bss ol /\
    map (map fst) bss = comps /\
    (forall i c o, nth_error comps i = Some c -> nth_error ol i = Some o ->
       ob_ref o = min_of c /\ ob_nb_boards o = length c) /\
    forall i c bs b P, nth_error comps i = Some c -> nth_error bss i = Some bs -> In (b, P) bs ->
      path_pose step_inv pick g tr (min_of c) b = Some P.
  Proof.
    destruct (collect_numbered (init_object bpts pick g tr) comps) as (ol & E & L & H).
    { intros i c Hi. apply nth_error_In in Hi. destruct (init_object_ok i c Hi) as (o & bs & Eo & _). eauto. }
    (* the placed boards of every component *)
    assert (HB : exists bss, length bss = length comps /\ forall i c, nth_error comps i = Some c -> exists bs, nth_error bss i = Some bs /\ component_poses step_inv pick g tr c = Some bs).
    { destruct (collect_numbered (fun _ c => component_poses step_inv pick g tr c) comps) as (bss & _ & LB & HB).
      - intros i c Hi. apply nth_error_In in Hi. destruct (init_object_ok i c Hi) as (o & bs & _ & _ & _ & Eb & _). eauto.
      - exists bss. split; auto. }
    destruct HB as (bss & LB & HB).
    assert (G : forall i c, nth_error comps i = Some c -> exists o bs, nth_error ol i = Some o /\ nth_error bss i = Some bs /\
      well_built bpts bs o /\ map fst bs = c /\ component_poses step_inv pick g tr c = Some bs /\
      ob_id o = Z.of_nat i /\ ob_ref o = min_of c /\ ob_nb_boards o = length c /\ origin_ok o).
    { intros i c Hi. destruct (H i c Hi) as (o & Ho & Eo). destruct (HB i c Hi) as (bs & Hb & Eb).
      assert (Hin := nth_error_In _ _ Hi). destruct (init_object_ok i c Hin) as (o' & bs' & Eo' & W & K & Eb' & R).
      rewrite Eo in Eo'. injection Eo' as <-. rewrite Eb in Eb'. injection Eb' as <-. exists o, bs. auto 10. }
    assert (C : map (map fst) bss = comps).
    { revert G LB. clear. generalize comps as cs. intros cs G LB.
      assert (F : Forall2 (fun bs c => map fst bs = c) bss cs).
      { apply Forall2_nth. split; auto. intros i bs c Hb Hc. destruct (G i c Hc) as (o & bs' & _ & Hb' & _ & K & _). congruence. }
      clear -F. induction F; cbn; congruence. }
    assert (LO : length ol = length bss) by lia.
    exists ol, bss. split; [unfold init3DObjects; rewrite E; auto|]. split; [|split; [auto|split]].
    - constructor.
      + apply Forall2_nth. split; auto. intros i bs o Hb Ho. 
        destruct (nth_error_length_ex bss comps i bs LB Hb) as (c & Hc). destruct (G i c Hc) as (o' & bs' & A1 & A2 & A3 & _). congruence.
      + rewrite concat_map, C. apply comps_partition; auto.
      + apply Forall_forall. intros o Ho. apply In_nth_error in Ho as (i & Ho).
        destruct (nth_error_length_ex ol comps i o L Ho) as (c & Hc). destruct (G i c Hc) as (o' & bs' & A1 & A2 & A3 & A4 & A5 & A6 & A7 & A8 & A9). congruence.
      + assert (M : map ob_ref ol = map min_of comps).
        { assert (F : Forall2 (fun o c => ob_ref o = min_of c) ol comps).
          { apply Forall2_nth. split; auto. intros i o c Ho Hc. destruct (G i c Hc) as (o' & bs' & A1 & A2 & A3 & A4 & A5 & A6 & A7 & _). congruence. }
          clear -F. induction F; cbn; congruence. }
        rewrite M. apply comps_mins; auto.
      + intros i o Ho. destruct (nth_error_length_ex ol comps i o L Ho) as (c & Hc). destruct (G i c Hc) as (o' & bs' & A1 & A2 & A3 & A4 & A5 & A6 & _). congruence.
    - intros i c o Hc Ho. destruct (G i c Hc) as (o' & bs' & A1 & A2 & A3 & A4 & A5 & A6 & A7 & A8 & _).
      assert (o' = o) by congruence. subst. auto.
    - intros i c bs b P Hc Hb Hin. destruct (G i c Hc) as (o' & bs' & A1 & A2 & A3 & A4 & A5 & _).
      assert (bs' = bs) by congruence. subst. eapply component_poses_In; eauto.
  Qed.
End Init.
