(** Refinement of parts that share no parameters: each solves its own problem and leaves
    the others alone. *)
From Coq Require Import List ZArith Reals Lia Lra.
From Verif Require Import SMap DataModel DetectModel RansacModel GeomModel ObjectsModel ObjectsSpec ObjectsMain GroupModel GroupSpec PipelineModel PipelineSpec PipelineProofs EstimateAll
  StageModel StageSpec StageProofs StageCams CameraModel ResidualModel ResidualSpec ResidualProofs ResidualMain ResidualGroup ResidualSolve ResidualAvg.
Import ListNotations.
Close Scope R_scope.
Open Scope nat_scope.

Lemma eval_live p1 p2 b : (forall k, In k (live_keys b) -> pa_pose p1 k = pa_pose p2 k) -> (forall c, In c (intr_keys b) -> pa_intr p1 c = pa_intr p2 c) ->
  eval p1 b = eval p2 b.
Proof.
  intros HP HI.
  destruct b as [m q dt kp c|m q i rb dt kp kb|m q i rc dt kc kp|m q i rc rb dt kc kp kb|m q rc rb dt kc kp kb c]; cbn [live_keys intr_keys eval] in *.
  - rewrite (HP kp), (HI c) by (left; auto). auto.
  - rewrite (HP kp) by (left; auto). destruct rb; auto. rewrite (HP kb) by (right; left; auto). auto.
  - rewrite (HP kp) by (left; auto). destruct rc; auto. rewrite (HP kc) by (right; left; auto). auto.
  - rewrite (HP kp) by (left; auto). unfold ReprojectionError_CameraGroupAndObjectRef.
    destruct rc, rb; cbn [app] in HP; auto; rewrite ?(HP kc) by (cbn; tauto); rewrite ?(HP kb) by (cbn; tauto); auto.
  - rewrite (HP kp), (HI c) by (left; auto). unfold ReprojectionError_CameraGroupAndObjectRefAndIntrinsics.
    destruct rc, rb; cbn [app] in HP; auto; rewrite ?(HP kc) by (cbn; tauto); rewrite ?(HP kb) by (cbn; tauto); auto.
Qed.
Lemma cost_ext p1 p2 bs : (forall b, In b bs -> eval p1 b = eval p2 b) -> cost p1 bs = cost p2 bs.
Proof. intros H. unfold cost. f_equal. f_equal. apply map_ext_in. auto. Qed.

Section Each.
Context {A : Type}.
Variables (solve : list block -> params -> params) (problem : params -> A -> option (list block)).
Hypothesis CE : ceres solve.
(** [l]: the elements; their problems do not share parameters, and are the same for all
    parameters that come up (invariant I) *)
Variables (I : params -> Prop) (l : list A) (prob : A -> list block).
Hypothesis ND : NoDup l.
Hypothesis PR : forall a q, In a l -> I q -> problem q a = Some (prob a).
Hypothesis IS : forall a q, In a l -> I q -> I (solve (prob a) q).
Hypothesis DK : forall a a' b b' k, In a l -> In a' l -> a <> a' -> In b (prob a) -> In b' (prob a') -> In k (live_keys b) -> ~ In k (live_keys b').
Hypothesis DI : forall a a' b b' c, In a l -> In a' l -> a <> a' -> In b (prob a) -> In b' (prob a') -> In c (intr_keys b) -> ~ In c (intr_keys b').

Lemma other_cost a a' q : In a l -> In a' l -> a <> a' -> cost (solve (prob a') q) (prob a) = cost q (prob a).
Proof.
  intros Ha Ha' N. apply cost_ext. intros b Hb. apply eval_live.
  - intros k Hk. apply (ce_flat _ CE). intros b' Hb'. apply indep_live. exact (DK a a' b b' k Ha Ha' N Hb Hb' Hk).
  - intros c Hc. apply (ce_intr _ CE). intros b' Hb'. exact (DI a a' b b' c Ha Ha' N Hb Hb' Hc).
Qed.
Lemma solve_each_cost p p' a c : I p -> solve_each solve problem l p = Some p' -> In a l -> cost p (prob a) = Some c ->
  I p' /\ exists c', cost p' (prob a) = Some c' /\ (c' <= c)%R.
Proof.
  unfold solve_each. 
  assert (G : forall l', NoDup l' -> (forall x, In x l' -> In x l) -> forall p c, I p ->
    fold_left (fun acc x => match acc with Some r => option_map (fun bs => solve bs r) (problem r x) | None => None end) l' (Some p) = Some p' ->
    In a l -> cost p (prob a) = Some c -> I p' /\ exists c', cost p' (prob a) = Some c' /\ (c' <= c)%R).
  { clear p c. intros l' Nl. induction Nl as [|x l' Hx Nl IH]; intros Sub p c Hp E Ha Hc; cbn [fold_left] in E.
    - injection E as <-. split; auto. exists c. split; auto. lra.
    - assert (Hxl : In x l) by (apply Sub; left; auto). rewrite (PR x p Hxl Hp) in E. cbn [option_map] in E.
      assert (Hq := IS x p Hxl Hp).
      assert (C1 : exists c1, cost (solve (prob x) p) (prob a) = Some c1 /\ (c1 <= c)%R).
      { destruct (Classical_Prop.classic (x = a)) as [->|N].
        - apply (ce_cost _ CE). auto.
        - exists c. rewrite other_cost by auto. split; auto. lra. }
      destruct C1 as (c1 & E1 & L1). destruct (IH (fun y Hy => Sub y (or_intror Hy)) _ c1 Hq E Ha E1) as (R1 & c' & R2 & R3).
      split; auto. exists c'. split; auto. lra. }
  intros Hp E Ha Hc. apply (G l ND (fun x H => H) p c); auto.
Qed.
End Each.

Section S.
Variables (bpts : Z -> list vec3) (t : tables pt2) (cams : Z -> Z).
Variables (bss : list (list (Z * pose))) (ol : list obj3d) (css : list (list (Z * pose))) (gl : list cgroup) (s : calib pt2).
Hypothesis CO : calib_ok bpts t bss ol css gl s.
Hypothesis TR : forall o, In o (mvals (t_obs t)) -> trimmed bpts o.
Hypothesis FR : forall oo, In oo (ot_all (ca_oobs s)) -> In (oo_frame oo) (mkeys (t_frames t)).

Lemma NoDup_ids {V} (f : V -> Z) (l : list V) : (forall i v, nth_error l i = Some v -> f v = Z.of_nat i) -> NoDup l.
Proof.
  intros H. apply NoDup_nth_error. intros i j Hi E. destruct (nth_error l i) as [v|] eqn:Ei; [|apply nth_error_None in Ei; lia].
  assert (A := H i v Ei). assert (B := H j v (eq_sym E)). lia.
Qed.
Lemma NoDup_groups : NoDup (mvals (ca_groups s)).
Proof. rewrite (co_groups _ _ _ _ _ _ _ CO), dense_vals. apply (NoDup_ids cg_id). apply (gk_ids _ _ (co_groups_ok _ _ _ _ _ _ _ CO)). Qed.
Lemma NoDup_objs : NoDup (mvals (ca_objs s)).
Proof. rewrite (co_objs _ _ _ _ _ _ _ CO), dense_vals. apply (NoDup_ids ob_id). apply (ok_ids _ _ _ (co_objects _ _ _ _ _ _ _ CO)). Qed.

Definition same_intr (p q : params) : Prop := forall c, pa_intr q c = pa_intr p c.
Lemma gather_ext' {A B} (f g : A -> option (list B)) l : (forall a, In a l -> f a = g a) -> gather f l = gather g l.
Proof. intros H. unfold gather. f_equal. f_equal. apply map_ext_in. auto. Qed.
Lemma object_problem_intr p q o : same_intr p q -> object_problem bpts t cams q (ca_oobs s) o = object_problem bpts t cams p (ca_oobs s) o.
Proof.
  intros H. unfold object_problem. apply gather_ext'. intros n _. destruct (nth_error (ot_all (ca_oobs s)) n); auto. apply gather_ext'. intros k _.
  destruct (nth_error (mvals (t_obs t)) k); auto. rewrite H. auto.
Qed.
Lemma group_problem_intr p q G : same_intr p q -> group_problem cams q s G = group_problem cams p s G.
Proof. intros H. unfold group_problem. apply gather_ext'. intros (k, n) _. destruct (view_data s n) as [(oo, o)|]; auto. rewrite H. auto. Qed.
Lemma group_objects_problem_intr p q G : same_intr p q -> group_objects_problem bpts cams q s G = group_objects_problem bpts cams p s G.
Proof. intros H. unfold group_objects_problem. apply gather_ext'. intros (k, n) _. destruct (view_data s n) as [(oo, o)|]; auto. rewrite H. auto. Qed.

(** objects *)
Lemma objects_cost solve p p' k o bs c : ceres solve -> refineAllObject3D solve bpts t cams s p = Some p' -> In (k, o) (ca_objs s) ->
  object_problem bpts t cams p (ca_oobs s) o = Some bs -> cost p bs = Some c ->
  object_problem bpts t cams p' (ca_oobs s) o = Some bs /\ exists c', cost p' bs = Some c' /\ (c' <= c)%R.
Proof.
  intros CE E Ho Eb Ec. assert (Hm : In o (mvals (ca_objs s))) by (apply (in_map snd) in Ho; auto).
  set (prob := fun o => match object_problem bpts t cams p (ca_oobs s) o with Some bs => bs | None => [] end).
  assert (PB : forall o, object_problem bpts t cams p (ca_oobs s) o = Some (prob o)).
  { intros x. unfold prob. destruct (object_problem_total bpts t cams s TR p x) as (y & ->). auto. }
  assert (Epb : prob o = bs) by (unfold prob; rewrite Eb; auto). subst bs.
  assert (SH : forall x b, In x (mvals (ca_objs s)) -> In b (prob x) -> (forall key, In key (live_keys b) -> (exists n oo, key = KObjObs n /\ nth_error (ot_all (ca_oobs s)) n = Some oo /\ oo_obj oo = ob_id x) \/ exists bd, key = KBoard (ob_id x) bd) /\ intr_keys b = []).
  { intros x b Hx Hb. apply (objs_vals bpts t bss ol css gl s CO) in Hx.
    apply (object_problem_In bpts t cams bss ol css gl s CO TR p x (prob x) b Hx (PB x)) in Hb as (n & oo & j & bo & m & q & H1 & H2 & _ & _ & _ & _ & ->).
    split; [|auto]. intros key. cbn [live_keys In]. intros [<-|H]; [left; eauto|]. destruct (negb _); [|destruct H]. destruct H as [<-|[]]. right. eauto. }
  destruct (solve_each_cost solve (fun p o => object_problem bpts t cams p (ca_oobs s) o) CE (same_intr p) (mvals (ca_objs s)) prob NoDup_objs) with (p := p) (p' := p') (a := o) (c := c) as (R1 & R2); auto.
  - intros a q _ H. rewrite (object_problem_intr p q a H). auto.
  - intros a q Ha H c0. rewrite (ce_intr _ CE); [auto|]. intros b Hb. destruct (SH a b Ha Hb) as (_ & ->). intros [].
  - intros a a' b b' key Ha Ha' N Hb Hb' Hk Hk'.
    assert (IDS : ob_id a <> ob_id a').
    { intros Eq. apply N. apply (same_object bpts t bss ol css gl s CO); auto; apply (objs_vals bpts t bss ol css gl s CO); auto. }
    destruct (SH a b Ha Hb) as (K & _), (SH a' b' Ha' Hb') as (K' & _).
    destruct (K key Hk) as [(n & oo & -> & H1 & H2)|(bd & ->)], (K' _ Hk') as [(n' & oo' & Q & H1' & H2')|(bd' & Q)]; try discriminate Q; injection Q; intros; subst; congruence.
  - intros a a' b b' c0 Ha Ha' N Hb Hb' Hk Hk'. destruct (SH a b Ha Hb) as (_ & K). rewrite K in Hk. destruct Hk.
  - intros c0. auto.
  - split; [rewrite (object_problem_intr p p' o R1); auto|auto].
Qed.

(** camera groups, boards held fixed *)
Lemma groups_cost solve p p' k G bs c : ceres solve -> refineAllCameraGroup solve cams s p = Some p' -> In (k, G) (ca_groups s) ->
  group_problem cams p s G = Some bs -> cost p bs = Some c ->
  group_problem cams p' s G = Some bs /\ exists c', cost p' bs = Some c' /\ (c' <= c)%R.
Proof.
  intros CE E Ho Eb Ec. assert (Hm : In G (mvals (ca_groups s))) by (apply (in_map snd) in Ho; auto).
  set (prob := fun G => match group_problem cams p s G with Some bs => bs | None => [] end).
  assert (PB : forall G, In G (mvals (ca_groups s)) -> group_problem cams p s G = Some (prob G)).
  { intros x Hx. unfold prob. apply (groups_vals bpts t bss ol css gl s CO) in Hx. destruct (group_problem_total bpts t cams bss ol css gl s CO TR FR p x Hx) as (y & ->). auto. }
  assert (Epb : prob G = bs) by (unfold prob; rewrite Eb; auto). subst bs.
  assert (SH : forall x b, In x (mvals (ca_groups s)) -> In b (prob x) -> (forall key, In key (live_keys b) -> (exists f o, key = KGroup (cg_id x, f) o) \/ exists cm, key = KCam (cg_id x) cm) /\ intr_keys b = []).
  { intros x b Hx Hb. 
    destruct (group_shape bpts t cams bss ol css gl s CO TR p x (prob x) b (PB x Hx) Hb) as (n & oo & q & m & kk & H1 & H2 & ->).
    apply (groups_vals bpts t bss ol css gl s CO) in Hx. apply (views_In bpts t cams bss ol css gl s CO FR x kk n Hx) in H2 as (oo' & _ & -> & _).
    split; [|auto]. intros key. cbn [live_keys In]. intros [<-|H]; [left; eauto|]. destruct (negb _); [|destruct H]. destruct H as [<-|[]]. right. eauto. }
  destruct (solve_each_cost solve (fun p G => group_problem cams p s G) CE (same_intr p) (mvals (ca_groups s)) prob NoDup_groups) with (p := p) (p' := p') (a := G) (c := c) as (R1 & R2); auto.
  - intros a q Ha H. rewrite (group_problem_intr p q a H). auto.
  - intros a q Ha H c0. rewrite (ce_intr _ CE); [auto|]. intros b Hb. destruct (SH a b Ha Hb) as (_ & ->). intros [].
  - intros a a' b b' key Ha Ha' N Hb Hb' Hk Hk'.
    assert (IDS : cg_id a <> cg_id a').
    { intros Eq. apply N. apply (same_group_id bpts t bss ol css gl s CO); auto; apply (groups_vals bpts t bss ol css gl s CO); auto. }
    destruct (SH a b Ha Hb) as (K & _), (SH a' b' Ha' Hb') as (K' & _).
    destruct (K key Hk) as [(f & o & ->)|(cm & ->)], (K' _ Hk') as [(f' & o' & Q)|(cm' & Q)]; try discriminate Q; injection Q; intros; congruence.
  - intros a a' b b' c0 Ha Ha' N Hb Hb' Hk Hk'. destruct (SH a b Ha Hb) as (_ & K). rewrite K in Hk. destruct Hk.
  - intros c0. auto.
  - split; [rewrite (group_problem_intr p p' G R1); auto|auto].
Qed.
End S.
