(** Facts about the selection of object pairs and common frames (McCalib.cpp 1229-1499). *)
From Coq Require Import List ZArith QArith Lia Reals Sorted.
From Verif Require Import SMap GraphModel DataModel DetectModel GeomModel ChainModel ObjectsModel ObjectsSpec ObjectsProofs ObjectsMerge GroupModel GroupSpec
  StageModel StageCams StageMerge PipelineModel PipelineProofs HandEyeModel HandEyeSpec.
Import ListNotations.
Close Scope Q_scope.
Close Scope R_scope.
Open Scope nat_scope.

Section P.
Context {pt : Type}.
Variables (all : list (objobs pt)) (frames : list Z) (gl : list cgroup) (gt : gtables).
Hypothesis GT : gtables_ok all frames gl gt.
Hypothesis Fr : forall oo, In oo all -> In (oo_frame oo) frames.

Lemma fold_keys (l : list Z) m : msorted m -> msorted (fold_left (fun m f => mset f tt m) l m) /\
  forall f, In f (mkeys (fold_left (fun m f => mset f tt m) l m)) <-> In f l \/ In f (mkeys m).
Proof.
  revert m. induction l as [|a l IH]; intros m S; cbn [fold_left].
  - split; auto. intros f. cbn. tauto.
  - destruct (IH (mset a tt m) (mset_sorted _ _ _ S)) as (A & B). split; auto. intros f. rewrite B, mset_keys_in. cbn. intuition congruence.
Qed.
Lemma group_frames_In g f : In f (group_frames gt g) <-> In f (ptable g (gt_gframes gt)).
Proof. unfold group_frames. destruct (fold_keys (ptable g (gt_gframes gt)) []) as (_ & ->); [constructor|]. cbn. tauto. Qed.
Lemma group_frames_sorted g : StronglySorted Z.lt (group_frames gt g).
Proof. unfold group_frames. destruct (fold_keys (ptable g (gt_gframes gt)) []) as (S & _); [constructor|]. exact S. Qed.
Lemma filter_SS {A} (R : A -> A -> Prop) (f : A -> bool) l : StronglySorted R l -> StronglySorted R (filter f l).
Proof.
  induction 1 as [|x l S IH F]; cbn; [constructor|]. destruct (f x); auto. constructor; auto. rewrite Forall_forall in *. intros y Hy. apply filter_In in Hy. apply F, Hy.
Qed.
Lemma common_frames_sorted g1 g2 : StronglySorted Z.lt (common_frames gt g1 g2).
Proof. apply filter_SS, group_frames_sorted. Qed.
Lemma common_frames_In g1 g2 f : In f (common_frames gt g1 g2) <-> In f (ptable g1 (gt_gframes gt)) /\ In f (ptable g2 (gt_gframes gt)).
Proof.
  unfold common_frames. rewrite filter_In, group_frames_In, existsb_exists. split.
  - intros (A & x & B & E). apply Z.eqb_eq in E. subst. rewrite group_frames_In in B. auto.
  - intros (A & B). split; auto. exists f. rewrite group_frames_In. split; auto. apply Z.eqb_refl.
Qed.
Lemma group_obs_of_find g f : group_obs_of gt g f = mfind (g, f) (gt_obs gt).
Proof.
  unfold group_obs_of. destruct (find (fun k => Z.eqb (fst k) g) (ptable f (gt_frames gt))) as [k|] eqn:E.
  - apply find_some in E as (H & E). apply Z.eqb_eq in E. apply (gto_frames _ _ _ _ GT) in H as (H & _). destruct k as [a b]. cbn in *. subst. auto.
  - destruct (mfind (g, f) (gt_obs gt)) as [go|] eqn:Ef; auto. exfalso.
    assert (K : In (g, f) (mkeys (gt_obs gt))) by (apply mfind_Some_key; eauto).
    assert (H : In (g, f) (ptable f (gt_frames gt))) by (apply (gto_frames _ _ _ _ GT); auto).
    apply (find_none _ _ E) in H. cbn in H. apply Z.eqb_neq in H. auto.
Qed.

(** number of observations of object o by G in frame f *)
Definition cnt (G : cgroup) (o f : Z) : nat := length (filter (fun oo => seen_by G f oo && Z.eqb (oo_obj oo) o) all).
Lemma obs_exists i G f oo : nth_error gl i = Some G -> In oo all -> seen_by G f oo = true -> exists go, mfind (Z.of_nat i, f) (gt_obs gt) = Some go.
Proof.
  intros HG Ho Sb. apply mfind_Some_key. apply (gto_keys _ _ _ _ GT). exists i, G. split; auto. split; auto.
  assert (F := Sb). apply seen_by_iff in F as (<- & _). split; eauto.
Qed.
Definition getn (k : Z * Z) (m : smap (Z * Z) nat) : nat := match mfind k m with Some n => n | None => 0 end.
Definition eqk (k k' : Z * Z) : bool := (Z.eqb (fst k) (fst k') && Z.eqb (snd k) (snd k'))%bool.
Lemma eqk_eq k k' : eqk k k' = true <-> k = k'.
Proof. unfold eqk. destruct k, k'. cbn. rewrite Bool.andb_true_iff, !Z.eqb_eq. split; [intros (-> & ->); auto|intros E; injection E; auto]. Qed.
Lemma getn_bump k k' m : msorted m -> getn k (bump k' m) = getn k m + (if eqk k' k then 1 else 0).
Proof.
  intros S. unfold getn, bump. destruct (eqk k' k) eqn:E.
  - apply eqk_eq in E. subst. rewrite mfind_mset_eq. lia.
  - rewrite mfind_mset_neq; [lia|]. intros ->. rewrite (proj2 (eqk_eq _ _) eq_refl) in E. discriminate.
Qed.
Definition bumps (l : list (Z * Z)) (m : smap (Z * Z) nat) := fold_left (fun m k => bump k m) l m.
Lemma bumps_spec l : forall m, msorted m -> msorted (bumps l m) /\ forall k, getn k (bumps l m) = getn k m + length (filter (fun k' => eqk k' k) l).
Proof.
  induction l as [|a l IH]; intros m S; cbn [bumps fold_left]; [split; auto; intros; cbn; lia|].
  destruct (IH (bump a m)) as (A & B); [apply mset_sorted; auto|]. split; [exact A|]. intros k. unfold bumps in B. rewrite B, getn_bump by auto. cbn. destruct (eqk a k); cbn; lia.
Qed.
Lemma bumps_app l1 l2 m : bumps (l1 ++ l2) m = bumps l2 (bumps l1 m).
Proof. unfold bumps. apply fold_left_app. Qed.
(** the keys counted in one frame *)
Definition keys_of (A B : list (objobs pt)) : list (Z * Z) := map (fun '(x, y) => (oo_obj x, oo_obj y)) (list_prod A B).
Definition at_ (l : list nat) : list (objobs pt) := flat_map (fun n => match nth_error all n with Some x => [x] | None => [] end) l.
Lemma count_frame_bumps a b m : count_frame all a b m = bumps (keys_of (at_ (go_nums a)) (at_ (go_nums b))) m.
Proof.
  unfold count_frame. revert m. induction (go_nums a) as [|n l IH]; intros m; cbn [fold_left]; auto.
  rewrite IH. change (at_ (n :: l)) with ((match nth_error all n with Some x => [x] | None => [] end) ++ at_ l). destruct (nth_error all n) as [x|]; [|auto].
  cbn [app]. unfold keys_of. cbn [list_prod]. rewrite map_app, bumps_app. f_equal. clear IH. revert m.
  induction (go_nums b) as [|n2 l2 IH2]; intros m; cbn [fold_left]; auto. rewrite IH2.
  change (at_ (n2 :: l2)) with ((match nth_error all n2 with Some x => [x] | None => [] end) ++ at_ l2). destruct (nth_error all n2) as [y|]; auto.
Qed.
Lemma filter_prod {A B} (p : A -> bool) (q : B -> bool) la lb :
  length (filter (fun '(x, y) => (p x && q y)%bool) (list_prod la lb)) = length (filter p la) * length (filter q lb).
Proof.
  induction la as [|a la IH]; cbn; auto. rewrite filter_app, app_length, IH.
  assert (E : length (filter (fun '(x, y) => (p x && q y)%bool) (map (fun y => (a, y)) lb)) = if p a then length (filter q lb) else 0).
  { clear IH. induction lb as [|b lb IH]; cbn; [destruct (p a); auto|]. destruct (p a), (q b); cbn in *; auto. }
  rewrite E. destruct (p a); cbn; lia.
Qed.
Lemma filter_map_len {A B} (f : A -> B) p l : length (filter p (map f l)) = length (filter (fun x => p (f x)) l).
Proof. induction l as [|a l IH]; cbn; auto. destruct (p (f a)); cbn; auto. Qed.
Lemma filter_filter {A} (p q : A -> bool) l : filter q (filter p l) = filter (fun x => p x && q x)%bool l.
Proof. induction l as [|a l IH]; cbn; auto. destruct (p a); cbn; [destruct (q a); cbn; rewrite IH; auto|auto]. Qed.
Lemma keys_count G1 G2 f k : length (filter (fun k' => eqk k' k) (keys_of (filter (seen_by G1 f) all) (filter (seen_by G2 f) all))) = cnt G1 (fst k) f * cnt G2 (snd k) f.
Proof.
  unfold keys_of. rewrite filter_map_len.
  rewrite (filter_ext _ (fun '(x, y) => (Z.eqb (oo_obj x) (fst k) && Z.eqb (oo_obj y) (snd k))%bool)) by (intros [x y]; reflexivity).
  rewrite (filter_prod (fun x : objobs pt => Z.eqb (oo_obj x) (fst k)) (fun y : objobs pt => Z.eqb (oo_obj y) (snd k))). rewrite !filter_filter. reflexivity.
Qed.

Lemma cnt_pos i G o f : nth_error gl i = Some G -> mfind (Z.of_nat i, f) (gt_obs gt) = None -> cnt G o f = 0.
Proof.
  intros HG N. unfold cnt. destruct (filter _ all) as [|x l] eqn:E; auto. exfalso.
  assert (H : In x (x :: l)) by (left; auto). rewrite <- E in H. apply filter_In in H as (H & P). apply andb_prop in P as (P & _).
  destruct (obs_exists i G f x HG H P) as (go & Eg). congruence.
Qed.
Lemma obs_nums i G f go : nth_error gl i = Some G -> mfind (Z.of_nat i, f) (gt_obs gt) = Some go -> at_ (go_nums go) = filter (seen_by G f) all.
Proof. intros HG H. destruct (gto_obs _ _ _ _ GT i f G go HG H) as (_ & -> & _). apply where_filter. Qed.

Fixpoint total (h : Z -> nat) (l : list Z) : nat := match l with [] => 0 | f :: r => h f + total h r end.
Lemma count_pairs_spec objs i1 i2 G1 G2 : nth_error gl i1 = Some G1 -> nth_error gl i2 = Some G2 ->
  msorted (no_counts objs) -> (forall k, getn k (no_counts objs) = 0) ->
  msorted (count_pairs all gt objs (Z.of_nat i1) (Z.of_nat i2)) /\
  forall k, getn k (count_pairs all gt objs (Z.of_nat i1) (Z.of_nat i2)) =
            total (fun f => cnt G1 (fst k) f * cnt G2 (snd k) f) (common_frames gt (Z.of_nat i1) (Z.of_nat i2)).
Proof.
  intros H1 H2 S0 Z0. unfold count_pairs.
  assert (Q : forall l m, msorted m -> let m' := fold_left (fun m f => match group_obs_of gt (Z.of_nat i1) f, group_obs_of gt (Z.of_nat i2) f with
                        | Some a, Some b => count_frame all a b m
                        | _, _ => m end) l m in
     msorted m' /\ forall k, getn k m' = getn k m + total (fun f => cnt G1 (fst k) f * cnt G2 (snd k) f) l).
  { induction l as [|f l IH]; intros m S; cbv zeta; cbn [fold_left total]; [split; auto|].
    rewrite !group_obs_of_find. destruct (mfind (Z.of_nat i1, f) (gt_obs gt)) as [a|] eqn:Ea; [destruct (mfind (Z.of_nat i2, f) (gt_obs gt)) as [b|] eqn:Eb|].
    - rewrite count_frame_bumps, (obs_nums i1 G1 f a H1 Ea), (obs_nums i2 G2 f b H2 Eb).
      destruct (bumps_spec (keys_of (filter (seen_by G1 f) all) (filter (seen_by G2 f) all)) m S) as (A & B).
      destruct (IH _ A) as (C & D). split; [exact C|]. intros k. cbv zeta in D. rewrite D, B, keys_count. lia.
    - destruct (IH m S) as (C & D). split; [exact C|]. intros k. cbv zeta in D. rewrite D, (cnt_pos i2 G2 (snd k) f H2 Eb). lia.
    - destruct (IH m S) as (C & D). split; [exact C|]. intros k. cbv zeta in D. rewrite D, (cnt_pos i1 G1 (fst k) f H1 Ea). lia. }
  destruct (Q (common_frames gt (Z.of_nat i1) (Z.of_nat i2)) (no_counts objs) S0) as (A & B). cbv zeta in A, B. split; [exact A|]. intros k. rewrite B, Z0. lia.
Qed.
Lemma no_counts_zero objs : msorted (no_counts objs) /\ forall k, getn k (no_counts objs) = 0.
Proof.
  unfold no_counts.
  assert (Q : forall ls ks (m : smap (Z * Z) nat), msorted m -> (forall k, getn k m = 0) ->
    let m' := fold_left (fun m o1 => fold_left (fun m o2 => if Z.eqb o1 o2 then m else mset (o1, o2) 0 m) ls m) ks m in msorted m' /\ forall k, getn k m' = 0).
  { intros ls ks. induction ks as [|a ks IH]; intros m S Z; cbv zeta; cbn [fold_left]; auto.
    apply IH.
    - clear IH. revert m S Z. induction ls as [|b ls IHl]; intros m S Z; cbn [fold_left]; auto.
      destruct (Z.eqb a b); auto. apply IHl; [apply mset_sorted; auto|]. intros k. unfold getn in *. destruct (eqk (a, b) k) eqn:E.
      + apply eqk_eq in E. subst. rewrite mfind_mset_eq. auto.
      + rewrite mfind_mset_neq; auto. intros ->. rewrite (proj2 (eqk_eq _ _) eq_refl) in E. discriminate.
    - clear IH. revert m S Z. induction ls as [|b ls IHl]; intros m S Z; cbn [fold_left]; auto.
      destruct (Z.eqb a b); auto. apply IHl; [apply mset_sorted; auto|]. intros k. unfold getn in *. destruct (eqk (a, b) k) eqn:E.
      + apply eqk_eq in E. subst. rewrite mfind_mset_eq. auto.
      + rewrite mfind_mset_neq; auto. intros ->. rewrite (proj2 (eqk_eq _ _) eq_refl) in E. discriminate. }
  apply (Q (mkeys objs) (mkeys objs) []); [constructor|auto].
Qed.

(** splitting a count by frame *)
Lemma total_zero h l : (forall f, In f l -> h f = 0) -> total h l = 0.
Proof. induction l as [|a l IH]; intros H; cbn; auto. rewrite H, IH; auto; [intros; apply H; right; auto|left; auto]. Qed.
Lemma total_ext h g l : (forall f, In f l -> h f = g f) -> total h l = total g l.
Proof. induction l as [|a l IH]; intros H; cbn; auto. rewrite H, IH; auto; [intros; apply H; right; auto|left; auto]. Qed.
Lemma total_add h g l : total (fun f => h f + g f) l = total h l + total g l.
Proof. induction l as [|a l IH]; cbn; auto. rewrite IH. lia. Qed.
Lemma total_unit x l : NoDup l -> In x l -> total (fun f => if Z.eqb x f then 1 else 0) l = 1.
Proof.
  induction 1 as [|a l Na ND IH]; intros Hx; [destruct Hx|]. cbn. destruct Hx as [->|Hx].
  - rewrite Z.eqb_refl, total_zero; auto. intros f Hf. destruct (Z.eqb_spec x f); subst; [contradiction|auto].
  - destruct (Z.eqb_spec x a); subst; [contradiction|]. rewrite IH; auto.
Qed.
Lemma split_frames {A} (fr : A -> Z) (p : A -> bool) (L : list A) (Fs : list Z) : NoDup Fs -> (forall x, In x L -> p x = true -> In (fr x) Fs) ->
  length (filter p L) = total (fun f => length (filter (fun x => p x && Z.eqb (fr x) f)%bool L)) Fs.
Proof.
  intros ND. induction L as [|a L IH]; intros I.
  - cbn. symmetry. apply total_zero. auto.
  - rewrite (total_ext _ (fun f => length (filter (fun x => p x && Z.eqb (fr x) f)%bool L) + (if (p a && Z.eqb (fr a) f)%bool then 1 else 0))).
    2:{ intros f _. cbn. destruct (p a && Z.eqb (fr a) f)%bool; cbn; lia. }
    rewrite total_add, <- IH by (intros; apply I; auto; right; auto). cbn. destruct (p a) eqn:E; cbn.
    + rewrite total_unit; auto; [lia|]. apply I; auto. left; auto.
    + rewrite total_zero; auto.
Qed.
Lemma views_total i1 i2 G1 G2 o1 o2 : nth_error gl i1 = Some G1 -> nth_error gl i2 = Some G2 ->
  views_together all G1 G2 o1 o2 = total (fun f => cnt G1 o1 f * cnt G2 o2 f) (common_frames gt (Z.of_nat i1) (Z.of_nat i2)).
Proof.
  intros H1 H2. unfold views_together.
  rewrite (split_frames (fun xy => oo_frame (fst xy)) _ _ (common_frames gt (Z.of_nat i1) (Z.of_nat i2))).
  - apply total_ext. intros f _. unfold cnt. rewrite <- (filter_prod (fun oo : objobs pt => seen_by G1 f oo && Z.eqb (oo_obj oo) o1)%bool (fun oo : objobs pt => seen_by G2 f oo && Z.eqb (oo_obj oo) o2)%bool).
    f_equal. apply filter_ext. intros [x y]. unfold seen_by. cbn [fst snd]. 
    destruct (Z.eqb_spec (oo_frame x) f); destruct (Z.eqb_spec (oo_frame y) f); destruct (Z.eqb_spec (oo_frame x) (oo_frame y)); subst; try congruence; cbn;
    rewrite ?Bool.andb_true_r, ?Bool.andb_false_r, ?Bool.andb_false_l; auto.
  - assert (S := common_frames_sorted (Z.of_nat i1) (Z.of_nat i2)). clear - S. induction S as [|a l S IH F]; constructor; auto. rewrite Forall_forall in F. intros H. apply F in H. lia.
  - intros [x y] Hxy P. cbn [fst]. apply in_prod_iff in Hxy as (Hx & Hy). apply andb_prop in P as (P & P3). apply andb_prop in P as (P1 & P2). apply andb_prop in P2 as (P2 & _). apply andb_prop in P3 as (P3 & _). apply Z.eqb_eq in P1.
    apply common_frames_In.
    assert (S1 : seen_by G1 (oo_frame x) x = true) by (unfold seen_by; rewrite Z.eqb_refl, P2; auto).
    assert (S2 : seen_by G2 (oo_frame x) y = true) by (unfold seen_by; rewrite P1, Z.eqb_refl, P3; auto).
    destruct (obs_exists i1 G1 _ x H1 Hx S1) as (a & Ea). destruct (obs_exists i2 G2 _ y H2 Hy S2) as (b & Eb).
    split; apply (gto_gframes _ _ _ _ GT); apply mfind_Some_key; eauto.
Qed.
(** what findPairObjectForNonOverlap counts *)
Theorem counts_are_views objs i1 i2 G1 G2 o1 o2 : nth_error gl i1 = Some G1 -> nth_error gl i2 = Some G2 ->
  getn (o1, o2) (count_pairs all gt objs (Z.of_nat i1) (Z.of_nat i2)) = views_together all G1 G2 o1 o2.
Proof.
  intros H1 H2. destruct (no_counts_zero objs) as (A & B). destruct (count_pairs_spec objs i1 i2 G1 G2 H1 H2 A B) as (_ & ->). cbn [fst snd]. symmetry. apply views_total; auto.
Qed.

(** the first key with the largest count *)
Lemma arg_max_spec m : msorted m -> let r := arg_max m in
  (forall k, getn k m <= snd r) /\ (r = ((0, 0)%Z, 0) \/ (0 < snd r /\ getn (fst r) m = snd r /\ forall k, getn k m = snd r -> lex_le (fst r) k)).
Proof.
  intros S. unfold arg_max.
  set (f := fun (best kn : Z * Z * nat) => if Nat.ltb (snd best) (snd kn) then kn else best).
  assert (Q : forall m1 m2, m = m1 ++ m2 -> forall r, (forall k n, In (k, n) m1 -> n <= snd r) ->
     (r = ((0, 0)%Z, 0) \/ (0 < snd r /\ In r m1 /\ forall k, In (k, snd r) m1 -> lex_le (fst r) k)) ->
     let r' := fold_left f m2 r in (forall k n, In (k, n) m -> n <= snd r') /\ (r' = ((0, 0)%Z, 0) \/ (0 < snd r' /\ In r' m /\ forall k, In (k, snd r') m -> lex_le (fst r') k))).
  { intros m1 m2. revert m1. induction m2 as [|[k n] m2 IH]; intros m1 E r L C; cbv zeta; cbn [fold_left].
    - rewrite app_nil_r in E. subst. auto.
    - apply (IH (m1 ++ [(k, n)])); [rewrite <- app_assoc; auto| |]; unfold f; cbn [snd]; destruct (Nat.ltb_spec (snd r) n) as [Lt|Ge].
      + intros k' n' H. apply in_app_or in H as [H|[H|[]]]; [apply L in H; cbn; lia|]. injection H as <- <-. cbn. lia.
      + intros k' n' H. apply in_app_or in H as [H|[H|[]]]; [apply L in H; lia|]. injection H as <- <-. lia.
      + right. cbn [fst snd]. split; [lia|]. split; [apply in_or_app; right; left; auto|]. intros k' H. apply in_app_or in H as [H|[H|[]]]; [apply L in H; lia|]. injection H as <-. right. lia.
      + destruct C as [C|(C1 & C2 & C3)]; [left; auto|right]. split; auto. split; [apply in_or_app; auto|]. intros k' H. apply in_app_or in H as [H|[H|[]]]; [auto|].
        injection H as <- En. (* k is after the key of r *)
        assert (S' : StronglySorted (fun a b => kcmp a b = Lt) (mkeys (m1 ++ (k, n) :: m2))) by (rewrite <- E; exact S).
        unfold mkeys in S'. rewrite map_app in S'. cbn [map] in S'. cbn [fst] in S'. clear - S' C2. destruct r as [rk rn]. cbn [fst snd] in *.
        assert (Hk : In rk (map fst m1)) by (apply in_map_iff; exists (rk, rn); auto). clear C2.
        induction (map fst m1) as [|a l IH]; [destruct Hk|]. cbn [app] in S'. apply StronglySorted_inv in S' as (S' & F). destruct Hk as [->|Hk]; [|apply IH; auto].
        rewrite Forall_forall in F. assert (H := F k ltac:(apply in_or_app; right; left; auto)). unfold kcmp, lex_le in *. cbn in H. unfold pair_cmp in H.
        destruct (Z.compare_spec (fst rk) (fst k)); try discriminate; [destruct (Z.compare_spec (snd rk) (snd k)); try discriminate; lia|lia]. }
  destruct (Q [] m eq_refl ((0, 0)%Z, 0)) as (A & B); [intros k n []|left; auto|]. cbv zeta. fold f. set (r := fold_left f m ((0, 0)%Z, 0)) in *. clearbody r. clear Q.
  split.
  - intros k. unfold getn. destruct (mfind k m) as [n|] eqn:E; [|lia]. apply mfind_In in E. eauto.
  - destruct B as [B|(B1 & B2 & B3)]; [auto|right]. split; auto. destruct r as [k n]. cbn [fst snd] in *. split.
    + unfold getn. rewrite (In_mfind _ _ _ S B2). auto.
    + intros k' E. unfold getn in E. destruct (mfind k' m) as [n'|] eqn:E'; [|lia]. subst. apply B3. apply mfind_In; auto.
Qed.

(** ** Common poses *)
Definition both_seen (g1 g2 o1 o2 f : Z) : bool :=
  match group_obs_of gt g1 f, group_obs_of gt g2 f with
  | Some a, Some b => existsb (Z.eqb o1) (go_ids a) && existsb (Z.eqb o2) (go_ids b)
  | _, _ => false end.
Lemma common_poses_map gp g1 g2 o1 o2 : common_poses gt gp g1 g2 o1 o2 =
  map (fun f => (gp (g1, f) o1, gp (g2, f) o2)) (filter (both_seen g1 g2 o1 o2) (common_frames gt g1 g2)).
Proof.
  unfold common_poses, both_seen. induction (common_frames gt g1 g2) as [|f l IH]; cbn; auto. rewrite IH.
  destruct (group_obs_of gt g1 f), (group_obs_of gt g2 f); auto. destruct (existsb _ _ && existsb _ _)%bool; auto.
Qed.
Lemma ids_iff i G f go o : nth_error gl i = Some G -> mfind (Z.of_nat i, f) (gt_obs gt) = Some go -> existsb (Z.eqb o) (go_ids go) = true <-> sees_in all G o f.
Proof.
  intros HG H. destruct (gto_obs _ _ _ _ GT i f G go HG H) as (_ & E1 & E2). rewrite existsb_exists. split.
  - intros (x & Hx & E). apply Z.eqb_eq in E. subst x. assert (Hs : In (Some o) (map Some (go_ids go))) by (apply in_map; auto). rewrite E2, E1 in Hs.
    apply in_map_iff in Hs as (n & En & Hn). apply where_In in Hn as (oo & Eo & Sb). rewrite Eo in En. injection En as <-.
    apply seen_by_iff in Sb as (A & B). exists oo. split; [eapply nth_error_In; eauto|]. auto.
  - intros (oo & Ho & Ef & Ec & Eo). apply In_nth_error in Ho as (n & Hn).
    assert (Sb : seen_by G f oo = true) by (apply seen_by_iff; auto).
    assert (Hi : In n (go_nums go)) by (rewrite E1; apply where_In; eauto).
    assert (Hs : In (Some o) (map Some (go_ids go))). { rewrite E2. apply in_map_iff. exists n. rewrite Hn. cbn. rewrite Eo. auto. }
    apply in_map_iff in Hs as (x & Ex & Hx). injection Ex as ->. exists o. split; auto. apply Z.eqb_refl.
Qed.
Lemma frames_seen i1 i2 G1 G2 o1 o2 : nth_error gl i1 = Some G1 -> nth_error gl i2 = Some G2 ->
  let F := filter (both_seen (Z.of_nat i1) (Z.of_nat i2) o1 o2) (common_frames gt (Z.of_nat i1) (Z.of_nat i2)) in
  StronglySorted Z.lt F /\ forall f, In f F <-> sees_in all G1 o1 f /\ sees_in all G2 o2 f.
Proof.
  intros H1 H2 F. split; [apply filter_SS, common_frames_sorted|]. intros f. unfold F. rewrite filter_In. split.
  - intros (_ & B). unfold both_seen in B. rewrite !group_obs_of_find in B.
    destruct (mfind (Z.of_nat i1, f) (gt_obs gt)) as [a|] eqn:Ea; [|discriminate]. destruct (mfind (Z.of_nat i2, f) (gt_obs gt)) as [b|] eqn:Eb; [|discriminate].
    apply andb_prop in B as (B1 & B2). split; [apply (ids_iff i1 G1 f a o1 H1 Ea)|apply (ids_iff i2 G2 f b o2 H2 Eb)]; auto.
  - intros (S1 & S2). assert (E1 := S1). assert (E2 := S2). destruct E1 as (x & Hx & Fx & Cx & _). destruct E2 as (y & Hy & Fy & Cy & _).
    destruct (obs_exists i1 G1 f x H1 Hx) as (a & Ea); [apply seen_by_iff; auto|]. destruct (obs_exists i2 G2 f y H2 Hy) as (b & Eb); [apply seen_by_iff; auto|].
    split.
    + apply common_frames_In. split; apply (gto_gframes _ _ _ _ GT); apply mfind_Some_key; eauto.
    + unfold both_seen. rewrite !group_obs_of_find, Ea, Eb. apply andb_true_intro. split; [apply (ids_iff i1 G1 f a o1 H1 Ea)|apply (ids_iff i2 G2 f b o2 H2 Eb)]; auto.
Qed.
End P.
