(** Poses of objects in group observations. *)
From Coq Require Import List ZArith Lia Reals Lra Permutation Sorted FunctionalExtensionality.
From Verif Require Import SMap GraphModel DataModel DetectModel DetectSpec DetectProofs GeomModel GeomSpec GeomProofs GeomQuat GeomMedian ChainModel
  ObjectsModel ObjectsSpec ObjectsProofs ObjectsSave GroupModel GroupSpec StageCams.
Import ListNotations.
Close Scope R_scope.
Open Scope nat_scope.

(** ** repeating a list *)
Definition times {A} (k : nat) (l : list A) : list A := concat (repeat l k).
Lemma times_map {A B} (f : A -> B) k l : map f (times k l) = times k (map f l).
Proof. unfold times. induction k; cbn; auto. rewrite map_app, IHk. auto. Qed.
Lemma times_length {A} k (l : list A) : length (times k l) = k * length l.
Proof. unfold times. induction k; cbn; auto. rewrite app_length, IHk. auto. Qed.
Lemma times_In {A} k (l : list A) x : In x (times k l) <-> 0 < k /\ In x l.
Proof.
  unfold times. induction k; cbn; [split; [tauto|lia]|]. rewrite in_app_iff, IHk. split; [intros [|]; split; auto; try lia; tauto|].
  intros (_ & H). auto.
Qed.
Lemma times_perm {A} k (l l' : list A) : Permutation l l' -> Permutation (times k l) (times k l').
Proof. intros P. unfold times. induction k; cbn; auto. apply Permutation_app; auto. Qed.
(** each element k times *)
Definition spread {A} (k : nat) (l : list A) : list A := flat_map (fun x => repeat x k) l.
Lemma spread_S {A} k (l : list A) : Permutation (spread (S k) l) (l ++ spread k l).
Proof.
  unfold spread. induction l as [|x l IH]; auto. cbn [flat_map repeat app]. constructor. rewrite IH.
  rewrite !app_assoc. apply Permutation_app_tail. apply Permutation_app_comm.
Qed.
Lemma times_spread {A} k (l : list A) : Permutation (times k l) (spread k l).
Proof.
  induction k; [unfold times, spread; cbn; rewrite flat_map_concat_map; clear; induction l; cbn; auto|].
  apply Permutation_sym. rewrite spread_S. change (times (S k) l) with (l ++ times k l). apply Permutation_app_head. apply Permutation_sym. auto.
Qed.
Lemma spread_length {A} k (l : list A) : length (spread k l) = length l * k.
Proof. unfold spread. induction l; cbn; auto. rewrite app_length, repeat_length, IHl. auto. Qed.
Lemma spread_sorted k l : StronglySorted Rle l -> StronglySorted Rle (spread k l).
Proof.
  unfold spread. induction 1 as [|x l Hs IH Hf]; cbn; [constructor|].
  assert (F : Forall (Rle x) (flat_map (fun x => repeat x k) l)).
  { apply Forall_forall. intros y Hy. apply in_flat_map in Hy as (z & Hz & Hy). apply repeat_spec in Hy. subst. rewrite Forall_forall in Hf. auto. }
  clear Hf. generalize k at 1. intros j. induction j; cbn; auto. constructor; auto. apply Forall_app. split; auto.
  apply Forall_forall. intros y Hy. apply repeat_spec in Hy. subst. apply Rle_refl.
Qed.
Lemma repeat_snoc {A} (x : A) k : repeat x (S k) = repeat x k ++ [x].
Proof. induction k; cbn; auto. f_equal. auto. Qed.
Lemma is_median_times v m k : 0 < k -> is_median v m -> is_median (times k v) m.
Proof.
  intros Hk (s & (P & SS) & H). exists (spread k s). split; [split; [eapply perm_trans; [apply times_perm; exact P|apply times_spread]|apply spread_sorted; auto]|].
  destruct H as [(l & x & r & -> & L & ->)|(l & x & y & r & -> & L & ->)].
  - unfold spread. rewrite flat_map_app. cbn [flat_map]. fold (spread k l). fold (spread k r).
    destruct (Nat.Even_or_Odd k) as [(j & ->)|(j & ->)].
    + right. exists (spread (2 * j) l ++ repeat x (j - 1)), x, x, (repeat x (j - 1) ++ spread (2 * j) r). split; [|split].
      * replace (repeat x (2 * j)) with (repeat x (j - 1) ++ x :: x :: repeat x (j - 1)); [rewrite <- !app_assoc; auto|].
        replace (2 * j) with ((j - 1) + S (S (j - 1))) by lia. rewrite repeat_app. auto.
      * rewrite !app_length, !repeat_length, !spread_length. lia.
      * lra.
    + left. exists (spread (2 * j + 1) l ++ repeat x j), x, (repeat x j ++ spread (2 * j + 1) r). split; [|split; auto].
      * replace (repeat x (2 * j + 1)) with (repeat x j ++ x :: repeat x j); [rewrite <- !app_assoc; auto|].
        replace (2 * j + 1) with (j + S j) by lia. rewrite repeat_app. auto.
      * rewrite !app_length, !repeat_length, !spread_length. lia.
  - right. unfold spread. rewrite flat_map_app. cbn [flat_map]. fold (spread k l). fold (spread k r).
    exists (spread k l ++ repeat x (k - 1)), x, y, (repeat y (k - 1) ++ spread k r). split; [|split; auto].
    + replace (repeat x k) with (repeat x (k - 1) ++ [x]) by (rewrite <- repeat_snoc; f_equal; lia).
      replace (repeat y k) with (y :: repeat y (k - 1)) by (change (y :: repeat y (k - 1)) with (repeat y (S (k - 1))); f_equal; lia).
      rewrite <- !app_assoc. auto.
    + rewrite !app_length, !repeat_length, !spread_length. lia.
Qed.
Lemma median_times v k : 0 < k -> v <> [] -> median (times k v) = median v.
Proof.
  intros Hk Hv. assert (N : times k v <> []). { destruct k; [lia|]. destruct v; [congruence|]. discriminate. }
  eapply is_median_unique; [apply median_spec; auto|]. apply is_median_times; auto. apply median_spec; auto.
Qed.
Lemma sum_app l c : fold_right Rplus c l = (fold_right Rplus 0 l + c)%R.
Proof. induction l; cbn; [lra|rewrite IHl; lra]. Qed.
Lemma sum_times k l : fold_right Rplus 0%R (times k l) = (INR k * fold_right Rplus 0 l)%R.
Proof.
  induction k; [cbn; lra|]. change (times (S k) l) with (l ++ times k l). rewrite fold_right_app, IHk, S_INR, sum_app. lra.
Qed.
Lemma mean_times k l : 0 < k -> l <> [] -> mean (times k l) = mean l.
Proof.
  intros Hk Hl. unfold mean. rewrite sum_times, times_length, mult_INR.
  assert (INR k <> 0%R) by (apply not_0_INR; lia). assert (INR (length l) <> 0%R) by (apply not_0_INR; destruct l; cbn; [congruence|lia]).
  field. auto.
Qed.
Lemma collect_app {A} (l1 l2 : list (option A)) : collect (l1 ++ l2) =
  match collect l1, collect l2 with Some a, Some b => Some (a ++ b) | _, _ => None end.
Proof.
  induction l1 as [|[x|] l1 IH]; cbn; auto; [destruct (collect l2); auto|]. rewrite IH. destruct (collect l1), (collect l2); auto.
Qed.
Lemma collect_times {A} k (l : list (option A)) : 0 < k -> collect (times k l) = option_map (times k) (collect l).
Proof.
  intros Hk. destruct k; [lia|]. clear Hk. induction k.
  - unfold times. cbn. rewrite app_nil_r. destruct (collect l); cbn; [rewrite app_nil_r|]; auto.
  - change (times (S (S k)) l) with (l ++ times (S k) l). rewrite collect_app, IHk. destruct (collect l); auto.
Qed.
Lemma average_rotation_times svd lr uq k rs : 0 < k -> getAverageRotation svd lr uq (times k rs) = getAverageRotation svd lr uq rs.
Proof.
  intros Hk. destruct rs as [|r0 rs0]; [unfold times; replace (concat (repeat [] k)) with (@nil vec3); auto; clear; induction k; cbn; auto|].
  unfold getAverageRotation. destruct uq.
  - rewrite times_map, collect_times by auto. destruct (collect (map (fun r => quat_of_rot (exp_rot r)) (r0 :: rs0))) as [[|q qs]|] eqn:E; cbn [option_map]; auto.
    + cbn in E. destruct (quat_of_rot (exp_rot r0)); [|discriminate]. destruct (collect (map (fun r => quat_of_rot (exp_rot r)) rs0)); discriminate.
    + destruct (times k (q :: qs)) as [|q' qs'] eqn:E2; [destruct k; [lia|discriminate]|]. rewrite <- E2.
      f_equal. f_equal. f_equal. f_equal. apply functional_extensionality. intros i. apply functional_extensionality. intros j.
      rewrite !avg_entry, times_map. apply mean_times; auto. discriminate.
  - rewrite !times_map, !median_times by (auto; discriminate). auto.
Qed.

(** ** positions of the observations of an object *)
Lemma unique_In l x : In x (unique l) <-> In x l.
Proof.
  induction l as [|a l IH]; [tauto|]. cbn [unique]. destruct l as [|b l]; [tauto|]. destruct (Z.eqb_spec a b) as [->|N].
  - rewrite IH. cbn. tauto.
  - cbn [In]. rewrite IH. cbn. tauto.
Qed.
Definition places (ids : list Z) (o : Z) : list nat := where_ (fun i => Z.eqb i o) ids.
Lemma places_nonempty ids o : In o ids <-> places ids o <> [].
Proof.
  unfold places. split.
  - intros H E. apply In_nth_error in H as (n & Hn). assert (I : In n (where_ (fun i => Z.eqb i o) ids)) by (apply where_In; exists o; split; auto; apply Z.eqb_refl).
    rewrite E in I. auto.
  - intros H. destruct (where_ (fun i => Z.eqb i o) ids) as [|n l] eqn:E; [congruence|].
    assert (I : In n (where_ (fun i => Z.eqb i o) ids)) by (rewrite E; left; auto). apply where_In in I as (x & Hx & P). apply Z.eqb_eq in P. subst. eapply nth_error_In; eauto.
Qed.
Lemma inner_fold u (L : list (nat * Z)) : forall m : smap Z (list nat), msorted m ->
  let m' := fold_left (fun m jo => if Z.eqb (snd jo) u then mset u (ptable u m ++ [fst jo]) m else m) L m in
  let js := map fst (filter (fun e => Z.eqb (snd e) u) L) in
  msorted m' /\ (forall k, k <> u -> mfind k m' = mfind k m) /\
  mfind u m' = match js with [] => mfind u m | _ => Some (ptable u m ++ js) end.
Proof.
  induction L as [|[j o] L IH]; intros m Sm; cbn [fold_left filter map fst snd].
  - split; [auto|]. split; auto.
  - destruct (Z.eqb o u); [|apply IH; auto]. cbn [map fst]. cbv zeta.
    set (m1 := mset u (ptable u m ++ [j]) m). destruct (IH m1) as (A & B & C); [apply mset_sorted; auto|].
    split; [auto|]. split; [intros k Hk; rewrite B by auto; apply mfind_mset_neq; auto|].
    rewrite C. assert (E1 : mfind u m1 = Some (ptable u m ++ [j])) by apply mfind_mset_eq.
    assert (E : ptable u m1 = ptable u m ++ [j]) by (unfold ptable at 1; rewrite E1; auto).
    destruct (map fst (filter (fun e => Z.eqb (snd e) u) L)); [auto|]. rewrite E, <- app_assoc. auto.
Qed.
Lemma obs_positions_ok ids : msorted (obs_positions ids) /\
  (forall o, ~ In o ids -> mfind o (obs_positions ids) = None) /\
  forall o, In o ids -> exists k, 0 < k /\ mfind o (obs_positions ids) = Some (times k (places ids o)).
Proof.
  unfold obs_positions. set (F := fun m u => fold_left _ (combine (seq 0 (length ids)) ids) m).
  assert (G : forall us m, (forall u, In u us -> In u ids) -> msorted m -> 
     (forall o l, mfind o m = Some l -> exists k, 0 < k /\ l = times k (places ids o)) ->
     let m' := fold_left F us m in msorted m' /\ (forall o l, mfind o m' = Some l -> exists k, 0 < k /\ l = times k (places ids o)) /\
       forall o, mfind o m' <> None <-> In o us \/ mfind o m <> None).
  { induction us as [|u us IH]; intros m Hu Sm Hm; cbn [fold_left].
    - split; [auto|]. split; [auto|]. intros o. split; auto. intros [[]|]; auto.
    - assert (Iu : In u ids) by (apply Hu; left; auto).
      destruct (inner_fold u (combine (seq 0 (length ids)) ids) m Sm) as (A & B & C). fold (F m u) in A, B, C.
      change (map fst (filter (fun e => Z.eqb (snd e) u) (combine (seq 0 (length ids)) ids))) with (places ids u) in C.
      assert (C' : mfind u (F m u) = Some (ptable u m ++ places ids u)).
      { rewrite C. apply places_nonempty in Iu. destruct (places ids u); [congruence|auto]. } clear C.
      destruct (IH (F m u)) as (A2 & B2 & C2); auto.
      + intros x Hx. apply Hu. right. auto.
      + intros o l H. destruct (Z.eq_dec o u) as [->|N].
        * rewrite C' in H. injection H as <-. unfold ptable. destruct (mfind u m) as [l|] eqn:E.
          -- destruct (Hm u l E) as (k & Hk & ->). exists (S k). split; [lia|].
             unfold times. rewrite (repeat_snoc (places ids u) k), concat_app. cbn. rewrite app_nil_r. auto.
          -- exists 1. split; auto. unfold times. cbn. rewrite app_nil_r. auto.
        * rewrite B in H by auto. eauto.
      + split; [auto|]. split; [auto|]. intros o. rewrite C2. cbn [In]. destruct (Z.eq_dec o u) as [->|N].
        * rewrite C'. split; auto. intros _. right. discriminate.
        * rewrite B by auto. intuition congruence. }
  destruct (G (unique ids) []) as (A & B & C).
  - intros u Hu. apply (proj1 (unique_In ids u)). auto.
  - constructor.
  - intros o l H. discriminate.
  - split; [auto|]. split.
    + intros o Ho. destruct (mfind o (fold_left F (unique ids) [])) eqn:E; auto. exfalso.
      assert (N : mfind o (fold_left F (unique ids) []) <> None) by congruence. apply C in N as [N|N]; [apply Ho, unique_In; auto|]. apply N. auto.
    + intros o Ho. assert (N : mfind o (fold_left F (unique ids) []) <> None) by (apply C; left; apply unique_In; auto).
      destruct (mfind o (fold_left F (unique ids) [])) as [l|] eqn:E; [|congruence]. destruct (B o l E) as (k & Hk & ->). eauto.
Qed.

(** ** the pose *)
Definition last_of_ref (ref : Z) (view : nat -> Z * (vec3 * vec3)) (js : list nat) : option (vec3 * vec3) :=
  fold_left (fun acc j => if Z.eqb ref (fst (view j)) then Some (snd (view j)) else acc) js None.
Lemma last_acc ref view js : forall acc,
  fold_left (fun acc j => if Z.eqb ref (fst (view j)) then Some (snd (view j)) else acc) js acc =
  match last_of_ref ref view js with Some p => Some p | None => acc end.
Proof.
  unfold last_of_ref. induction js as [|j js IH]; intros acc; cbn [fold_left]; auto. rewrite IH, (IH (if Z.eqb ref (fst (view j)) then _ else None)).
  destruct (fold_left _ js None); auto. destruct (Z.eqb ref (fst (view j))); auto.
Qed.
Lemma last_times ref view k js : 0 < k -> last_of_ref ref view (times k js) = last_of_ref ref view js.
Proof.
  intros Hk. destruct k; [lia|]. clear Hk. induction k.
  - unfold times. cbn. rewrite app_nil_r. auto.
  - change (times (S (S k)) js) with (js ++ times (S k) js). unfold last_of_ref at 1. rewrite fold_left_app, last_acc, IHk.
    fold (last_of_ref ref view js). destruct (last_of_ref ref view js); auto.
Qed.
Lemma last_spec ref view js : 
  match last_of_ref ref view js with
  | Some p => exists l j r, js = l ++ j :: r /\ fst (view j) = ref /\ snd (view j) = p /\ forall i, In i r -> fst (view i) <> ref
  | None => forall i, In i js -> fst (view i) <> ref
  end.
Proof.
  induction js as [|j js IH]; [intros i []|]. change (last_of_ref ref view (j :: js)) with
    (fold_left (fun acc j => if Z.eqb ref (fst (view j)) then Some (snd (view j)) else acc) js (if Z.eqb ref (fst (view j)) then Some (snd (view j)) else None)).
  rewrite last_acc. destruct (last_of_ref ref view js) as [p|].
  - destruct IH as (l & i & r & -> & A & B & C). exists (j :: l), i, r. auto.
  - destruct (Z.eqb_spec ref (fst (view j))) as [E|N].
    + exists [], j, js. auto.
    + intros i [<-|H]; auto.
Qed.
Lemma vsum_fold (view : nat -> Z * (vec3 * vec3)) js : forall a, fold_left (fun acc j => vadd acc (snd (snd (view j)))) js a =
  V3 (vx a + fold_right Rplus 0 (map (fun j => vx (snd (snd (view j)))) js))%R
     (vy a + fold_right Rplus 0 (map (fun j => vy (snd (snd (view j)))) js))%R
     (vz a + fold_right Rplus 0 (map (fun j => vz (snd (snd (view j)))) js))%R.
Proof.
  induction js as [|j js IH]; intros a; cbn [fold_left map fold_right]; [destruct a; cbn; f_equal; lra|]. rewrite IH. unfold vadd. cbn. f_equal; lra.
Qed.
(** mean of the translations *)
Definition mean_trans (view : nat -> Z * (vec3 * vec3)) (js : list nat) : vec3 :=
  V3 (mean (map (fun j => vx (snd (snd (view j)))) js)) (mean (map (fun j => vy (snd (snd (view j)))) js)) (mean (map (fun j => vz (snd (snd (view j)))) js)).
Lemma group_pose_spec svd lr uq ref view js : group_pose svd lr uq ref view js =
  match last_of_ref ref view js with
  | Some p => Some p
  | None => option_map (fun r => (r, mean_trans view js)) (getAverageRotation svd lr uq (map (fun j => fst (snd (view j))) js))
  end.
Proof.
  unfold group_pose. fold (last_of_ref ref view js). destruct (last_of_ref ref view js); auto. rewrite vsum_fold. cbn [vx vy vz vzero]. unfold mean_trans, mean.
  rewrite !map_length, !Rplus_0_l. auto.
Qed.
Lemma group_pose_times svd lr uq ref view k js : 0 < k -> js <> [] -> group_pose svd lr uq ref view (times k js) = group_pose svd lr uq ref view js.
Proof.
  intros Hk Hj. rewrite !group_pose_spec, last_times by auto. destruct (last_of_ref ref view js); auto.
  unfold mean_trans. rewrite !times_map, average_rotation_times, !mean_times by (first [assumption | destruct js; [congruence|discriminate]]). auto.
Qed.

Lemma compute_fold svd lr uq ref (view : nat -> Z * (vec3 * vec3)) : forall (L : list (Z * list nat)) st,
  NoDup (map fst L) -> (forall o o' js js' j, In (o, js) L -> In (o', js') L -> In j js -> In j js' -> o = o') -> msorted (fst st) ->
  let r := fold_left (fun st '(o, js) => let p := group_pose svd lr uq ref view js in
     (mset o p (fst st), fun j => if existsb (Nat.eqb j) js then p else snd st j)) L st in
  (forall o, ~ In o (map fst L) -> mfind o (fst r) = mfind o (fst st)) /\
  (forall o js, In (o, js) L -> mfind o (fst r) = Some (group_pose svd lr uq ref view js)) /\
  (forall o js j, In (o, js) L -> In j js -> snd r j = group_pose svd lr uq ref view js) /\
  (forall j, (forall o js, In (o, js) L -> ~ In j js) -> snd r j = snd st j).
Proof.
  induction L as [|[o js] L IH]; intros st ND DJ Sm; cbn [fold_left].
  - split; [auto|]. split; [intros ? ? []|]. split; [intros ? ? ? []|auto].
  - inversion ND as [|? ? Nin ND']; subst. set (st1 := (mset o (group_pose svd lr uq ref view js) (fst st), _)).
    destruct (IH st1) as (A & B & C & D); auto.
    + intros o1 o2 js1 js2 j H1 H2. apply DJ; right; auto.
    + cbn. apply mset_sorted. auto.
    + cbv zeta. split; [|split; [|split]].
      * intros o' H. rewrite A by (intros H'; apply H; right; auto). cbn. apply mfind_mset_neq. intros ->. apply H. left. auto.
      * intros o' js' [[= <- <-]|H]; [|auto]. rewrite A by auto. cbn. apply mfind_mset_eq.
      * intros o' js' j [[= <- <-]|H] Hj; [|eauto].
        rewrite D; [|intros o2 js2 H2 Hj2; apply Nin; rewrite (DJ o o2 js js2 j (or_introl eq_refl) (or_intror H2) Hj Hj2); apply (in_map fst) in H2; auto].
        cbn. replace (existsb (Nat.eqb j) js) with true; auto. symmetry. apply existsb_exists. exists j. split; auto. apply Nat.eqb_refl.
      * intros j H. rewrite D by (intros o2 js2 H2; apply (H o2); right; auto). cbn. replace (existsb (Nat.eqb j) js) with false; auto.
        symmetry. apply Bool.not_true_iff_false. intros E. apply existsb_exists in E as (x & Hx & E). apply Nat.eqb_eq in E. subst. eapply H; [left; reflexivity|auto].
Qed.
Lemma computeObjectsPose_ok svd lr uq ref ids view :
  let r := computeObjectsPose svd lr uq ref ids view in
  (forall o, mfind o (fst r) = if in_dec Z.eq_dec o ids then Some (group_pose svd lr uq ref view (places ids o)) else None) /\
  (forall j o, nth_error ids j = Some o -> snd r j = group_pose svd lr uq ref view (places ids o)).
Proof.
  intros r. subst r. unfold computeObjectsPose. destruct (obs_positions_ok ids) as (Sm & NI & P).
  assert (ENT : forall o js, In (o, js) (obs_positions ids) -> exists k, 0 < k /\ js = times k (places ids o) /\ In o ids).
  { intros o js H. apply In_mfind in H; auto. destruct (in_dec Z.eq_dec o ids) as [I|N]; [|rewrite NI in H by auto; discriminate].
    destruct (P o I) as (k & Hk & E). rewrite H in E. injection E as ->. eauto. }
  destruct (compute_fold svd lr uq ref view (obs_positions ids) ([], fun j => Some (snd (view j)))) as (A & B & C & _).
  - apply msorted_NoDup. auto.
  - intros o o' js js' j H H' Hj Hj'. apply ENT in H as (k & Hk & -> & _). apply ENT in H' as (k' & Hk' & -> & _).
    apply times_In in Hj as (_ & Hj). apply times_In in Hj' as (_ & Hj'). apply where_In in Hj as (x & Hx & E). apply where_In in Hj' as (y & Hy & E').
    apply Z.eqb_eq in E, E'. congruence.
  - constructor.
  - split.
    + intros o. destruct (in_dec Z.eq_dec o ids) as [I|N].
      * destruct (P o I) as (k & Hk & E). etransitivity; [apply (B o (times k (places ids o))); apply mfind_In; auto|]. f_equal. apply group_pose_times; auto. apply places_nonempty; auto.
      * etransitivity; [apply A|reflexivity]. intros H. apply in_map_iff in H as ([o' js] & Eo & H). cbn in Eo. subst. apply ENT in H as (_ & _ & _ & H). auto.
    + intros j o H. assert (I : In o ids) by (eapply nth_error_In; eauto). destruct (P o I) as (k & Hk & E).
      etransitivity; [apply (C o (times k (places ids o)) j)|apply group_pose_times; auto; apply places_nonempty; auto]; [apply mfind_In; auto|].
      apply times_In. split; auto. apply where_In. exists o. split; auto. apply Z.eqb_refl.
Qed.

(** noise-free: every view of the object has the pose (A, t) *)
Lemma group_pose_exact svd lr uq ref view js A t : svd_ok svd -> log_ok lr -> js <> [] -> rotation A ->
  (forall j, In j js -> snd (view j) = (lr A, t)) -> group_pose svd lr uq ref view js = Some (lr A, t).
Proof.
  intros Hs Hl Hj HA H. rewrite group_pose_spec. assert (L := last_spec ref view js). destruct (last_of_ref ref view js) as [p|].
  - destruct L as (l & j & rr & -> & _ & <- & _). rewrite (H j); [auto|]. apply in_or_app; right; left; auto.
  - assert (MT : mean_trans view js = t).
    { unfold mean_trans. rewrite (mean_const _ js (vx t)), (mean_const _ js (vy t)), (mean_const _ js (vz t)); auto; try (intros j Hj'; rewrite (H j Hj'); auto). destruct t; auto. }
    rewrite MT. assert (N : map (fun j => fst (snd (view j))) js <> []) by (destruct js; [congruence|discriminate]). destruct uq.
    + destruct (quat_average_log svd lr (map (fun j => fst (snd (view j))) js) A Hs Hl N) as (-> & _); auto.
      intros x Hx. apply in_map_iff in Hx as (j & <- & Hj'). rewrite (H j Hj'). apply Hl. auto.
    + rewrite (vec_average_same svd lr _ (lr A)); auto. intros x Hx. apply in_map_iff in Hx as (j & <- & Hj'). rewrite (H j Hj'). auto.
Qed.
