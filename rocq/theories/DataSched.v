From Coq Require Import String Permutation.
From Verif Require Import SMap DataModel DataSpec GraphSpec GraphInv DataProofs.
Local Open Scope list_scope.
Open Scope nat_scope.

Section S.
Context {pt : Type}.
Notation insertion := (insertion pt).

Lemma interleave_perm {A} (ts : list (list A)) s : interleave ts s -> Permutation s (concat ts).
Proof.
  induction 1 as [ts H|ts1 x t ts2 s H IH].
  - replace (concat ts) with (@nil A); [constructor|].
    induction H as [|t ts Ht _ IH]; cbn; auto. rewrite Ht, <- IH. auto.
  - rewrite concat_app in *. cbn [concat app] in *.
    rewrite IH. apply Permutation_middle.
Qed.

(** the part of a schedule belonging to one task is that task *)
Lemma interleave_filter {A} (p : A -> bool) ts s : interleave ts s ->
  forall k, (forall j task x, nth_error ts j = Some task -> In x task -> p x = Nat.eqb j k) ->
  filter p s = nth k ts [].
Proof.
  induction 1 as [ts H|ts1 x t ts2 s H IH]; intros k Hp.
  - cbn. rewrite Forall_forall in H.
    destruct (nth_in_or_default k ts []) as [Hin|He]; [|auto]. symmetry; apply H; auto.
  - assert (Hx : p x = Nat.eqb (List.length ts1) k).
    { apply (Hp (List.length ts1) (x :: t) x); [|cbn; auto].
      rewrite nth_error_app2, Nat.sub_diag; auto. }
    assert (Hrest : filter p s = nth k (ts1 ++ t :: ts2) []).
    { apply IH. intros j task y Hj Hy.
      destruct (lt_eq_lt_dec j (List.length ts1)) as [[Hlt|He]|Hgt].
      - apply (Hp j task y); auto. rewrite nth_error_app1 in * by auto. auto.
      - subst j. rewrite nth_error_app2, Nat.sub_diag in Hj by auto. cbn in Hj.
        inversion Hj; subst task. apply (Hp (List.length ts1) (x :: t) y); [|cbn; auto].
        rewrite nth_error_app2, Nat.sub_diag; auto.
      - apply (Hp j task y); auto. rewrite nth_error_app2 in * by lia.
        destruct (j - List.length ts1) eqn:E; [lia|]. cbn in *. auto. }
    cbn [filter]. rewrite Hx, Hrest.
    destruct (Nat.eqb_spec (List.length ts1) k) as [<-|Hne].
    + rewrite !app_nth2, Nat.sub_diag by lia. reflexivity.
    + destruct (lt_dec k (List.length ts1)).
      * rewrite !app_nth1 by auto. auto.
      * rewrite !app_nth2 by lia. destruct (k - List.length ts1) eqn:E; [lia|]. reflexivity.
Qed.

Lemma by_frame_nat k j : Z.eqb (Z.of_nat j) (Z.of_nat k) = Nat.eqb j k.
Proof.
  destruct (Nat.eqb_spec j k) as [->|H]; [apply Z.eqb_refl|]. apply Z.eqb_neq. lia.
Qed.

Lemma camera_filter c (ts : list (list insertion)) s f :
  tasks_of_camera c ts -> interleave ts s ->
  filter (by_frame f) s = if (f <? 0)%Z then [] else nth (Z.to_nat f) ts [].
Proof.
  intros Hw Hi. destruct (Z.ltb_spec f 0) as [Hneg|Hpos].
  - apply filter_none. intros i Hin. apply (Permutation_in _ (interleave_perm _ _ Hi)) in Hin.
    apply in_concat in Hin. destruct Hin as (task & Ht & Hin).
    apply In_nth_error in Ht. destruct Ht as [k Hk]. destruct (Hw k task i Hk Hin) as [_ Hf].
    unfold by_frame. apply Z.eqb_neq. lia.
  - apply (interleave_filter (by_frame f) ts s Hi).
    intros j task x Hj Hx. destruct (Hw j task x Hj Hx) as [_ Hf].
    unfold by_frame. rewrite Hf. rewrite <- by_frame_nat, Z2Nat.id by auto. auto.
Qed.

Lemma concat_filter {A} (p : A -> bool) ll : filter p (concat ll) = concat (map (filter p) ll).
Proof. induction ll; cbn; auto. rewrite filter_app, IHll. auto. Qed.

Lemma detection_filter cams (s1 s2 : list insertion) f :
  (forall c ts, nth_error cams c = Some ts -> tasks_of_camera (Z.of_nat c) ts) ->
  detection_run cams s1 -> detection_run cams s2 ->
  filter (by_frame f) s1 = filter (by_frame f) s2.
Proof.
  intros Hw (ss1 & H1 & ->) (ss2 & H2 & ->). rewrite !concat_filter. f_equal.
  assert (Hgen : forall k, (forall c ts, nth_error cams c = Some ts -> tasks_of_camera (Z.of_nat (k + c)) ts) ->
    map (filter (by_frame f)) ss1 = map (filter (by_frame f)) ss2).
  { clear Hw. revert ss2 H2. induction H1 as [|ts s1 cams ss1 Hi HF IH]; intros ss2 H2 k Hw;
      inversion H2 as [|? s2 ? ss2' Hi2 HF2]; subst; cbn; auto.
    f_equal.
    - rewrite (camera_filter (Z.of_nat k) ts s1 f), (camera_filter (Z.of_nat k) ts s2 f); auto.
      + specialize (Hw 0 ts eq_refl). rewrite Nat.add_0_r in Hw. auto.
      + specialize (Hw 0 ts eq_refl). rewrite Nat.add_0_r in Hw. auto.
    - apply (IH _ HF2 (S k)). intros c ts' Hc. specialize (Hw (S c) ts' Hc).
      replace (S k + c) with (k + S c) by lia. auto. }
  apply (Hgen 0). auto.
Qed.

Lemma detection_perm cams (s : list insertion) :
  detection_run cams s -> Permutation s (concat (map (@concat _) cams)).
Proof.
  intros (ss & HF & ->). induction HF as [|ts s cams ss Hi HF IH]; cbn; auto.
  apply Permutation_app; auto. apply interleave_perm; auto.
Qed.

Lemma contents_positions (ins : list insertion) p k pre :
  List.length pre = k ->
  map (nth_error (map new_obs (pre ++ ins))) (positions_from k p ins) =
  map (fun i => Some (new_obs i)) (filter p ins).
Proof.
  revert k pre. induction ins as [|i ins IH]; intros k pre Hl; cbn; auto.
  rewrite map_app.
  assert (Hr : map (nth_error (map new_obs (pre ++ i :: ins))) (positions_from (S k) p ins) =
               map (fun i => Some (new_obs i)) (filter p ins)).
  { replace (pre ++ i :: ins) with ((pre ++ [i]) ++ ins) by (rewrite <- app_assoc; auto).
    apply IH. rewrite app_length. cbn. lia. }
  rewrite Hr. destruct (p i); cbn; auto. f_equal.
  rewrite map_app. cbn. rewrite nth_error_app2; rewrite map_length; [|lia].
  replace (k - List.length pre) with 0 by lia. auto.
Qed.

Lemma contents_holds nc nb (ins : list insertion) t p tab :
  holds nc nb ins t -> tab = dense (positions p ins) ->
  contents t tab = map (fun i => Some (new_obs i)) (filter p ins).
Proof.
  intros H ->. unfold contents. rewrite (hd_obs _ _ _ _ H), !dense_vals.
  apply (contents_positions ins p 0 []). auto.
Qed.

Lemma find_filter {A} (p : A -> bool) l : find p l = hd_error (filter p l).
Proof. induction l as [|x l IH]; cbn; auto. destruct (p x); auto. Qed.

Lemma filter_rev' {A} (p : A -> bool) l : filter p (rev l) = rev (filter p l).
Proof.
  induction l as [|x l IH]; cbn; auto. rewrite filter_snoc, IH.
  destruct (p x); cbn; auto. rewrite app_nil_r. auto.
Qed.

Lemma filter_and {A} (p q : A -> bool) l :
  filter (fun x => p x && q x) l = filter p (filter q l).
Proof.
  induction l as [|x l IH]; cbn; auto. destruct (q x); cbn; rewrite ?andb_true_r, ?andb_false_r; auto.
  destruct (p x); rewrite IH; auto.
Qed.

Lemma filter_perm {A} (p : A -> bool) l1 l2 : Permutation l1 l2 -> Permutation (filter p l1) (filter p l2).
Proof.
  induction 1 as [|x l1 l2 H IH|x y l|l1 l2 l3 H1 IH1 H2 IH2]; cbn; auto.
  - destruct (p x); auto.
  - destruct (p x), (p y); auto. apply perm_swap.
  - etransitivity; eauto.
Qed.

Theorem same_from_filters nc nb (s1 s2 : list insertion) t1 t2 :
  Permutation s1 s2 -> (forall f, filter (by_frame f) s1 = filter (by_frame f) s2) ->
  holds nc nb s1 t1 -> frame_tables s1 t1 ->
  holds nc nb s2 t2 -> frame_tables s2 t2 -> same_tables t1 t2.
Proof.
  intros Hp Hff H1 F1 H2 F2.
  assert (Hfind : forall f, find (by_frame f) s1 = find (by_frame f) s2).
  { intros f. rewrite !find_filter, Hff. auto. }
  assert (Hcf : forall c f, filter (by_cam_frame c f) s1 = filter (by_cam_frame c f) s2).
  { intros c f. unfold by_cam_frame. rewrite !filter_and, Hff. auto. }
  assert (Hlp : forall c f, latest_path s1 c f = latest_path s2 c f).
  { intros c f. unfold latest_path. rewrite !find_filter, !filter_rev', Hcf. auto. }
  assert (Hin : forall P : insertion -> Prop, (exists i, In i s1 /\ P i) <-> (exists i, In i s2 /\ P i)).
  { intros P. split; intros (i & Hi & HP); exists i; split; auto.
    - eapply Permutation_in; eauto.
    - eapply Permutation_in; [apply Permutation_sym|]; eauto. }
  constructor.
  - rewrite (hd_obs _ _ _ _ H1), (hd_obs _ _ _ _ H2), !dense_vals. apply Permutation_map; auto.
  - rewrite (hd_cam_keys _ _ _ _ H1), (hd_cam_keys _ _ _ _ H2). auto.
  - intros c r1 r2 E1 E2. split.
    + rewrite (contents_holds nc nb s1 t1 (by_cam c)); auto; [|apply (hd_cam _ _ _ _ H1); auto].
      rewrite (contents_holds nc nb s2 t2 (by_cam c)); auto; [|apply (hd_cam _ _ _ _ H2); auto].
      apply Permutation_map, filter_perm; auto.
    + intros f. rewrite (ft_cam _ _ F1 _ _ f E1), (ft_cam _ _ F2 _ _ f E2), Hfind. tauto.
  - rewrite (hd_board_keys _ _ _ _ H1), (hd_board_keys _ _ _ _ H2). auto.
  - intros c r1 r2 E1 E2. split.
    + rewrite (contents_holds nc nb s1 t1 (by_board c)); auto; [|apply (hd_board _ _ _ _ H1); auto].
      rewrite (contents_holds nc nb s2 t2 (by_board c)); auto; [|apply (hd_board _ _ _ _ H2); auto].
      apply Permutation_map, filter_perm; auto.
    + intros f. rewrite (ft_board _ _ F1 _ _ f E1), (ft_board _ _ F2 _ _ f E2), Hfind. tauto.
  - intros f. rewrite (hd_frame_keys _ _ _ _ H1), (hd_frame_keys _ _ _ _ H2). apply Hin.
  - intros f r1 r2 E1 E2.
    destruct (hd_frame _ _ _ _ H1 _ _ E1) as (A1 & A2 & A3 & A4 & A5 & A6).
    destruct (hd_frame _ _ _ _ H2 _ _ E2) as (B1 & B2 & B3 & B4 & B5 & B6).
    rewrite (contents_holds nc nb s1 t1 (by_frame f)), (contents_holds nc nb s2 t2 (by_frame f)); auto.
    assert (Hcc : f_cams r1 = f_cams r2) by (rewrite A4, B4, Hff; auto).
    repeat split; auto.
    + rewrite Hff; auto.
    + rewrite A3, B3, Hff; auto.
    + rewrite A5, B5, Hcc; auto.
    + intros c. rewrite A6, B6. auto.
  - intros [c f]. rewrite (hd_camobs_keys _ _ _ _ H1), (hd_camobs_keys _ _ _ _ H2).
    apply (Hin (fun i => i_cam i = c /\ i_frame i = f)).
  - intros [c f] r1 r2 E1 E2.
    destruct (hd_camobs _ _ _ _ H1 _ _ _ E1) as (A1 & A2 & A3).
    destruct (hd_camobs _ _ _ _ H2 _ _ _ E2) as (B1 & B2 & B3).
    rewrite (contents_holds nc nb s1 t1 (by_cam_frame c f)),
            (contents_holds nc nb s2 t2 (by_cam_frame c f)); auto.
    repeat split.
    + rewrite Hcf; auto.
    + rewrite A2, B2, Hcf; auto.
    + congruence.
Qed.

Theorem schedules_agree nc nb cams (s1 s2 : list insertion) :
  (forall c ts, nth_error cams c = Some ts -> tasks_of_camera (Z.of_nat c) ts) ->
  Forall (known nc nb) (concat (map (@concat _) cams)) ->
  detection_run cams s1 -> detection_run cams s2 ->
  exists t1 t2, insert_all (init_tables nc nb) s1 = Some t1 /\
                insert_all (init_tables nc nb) s2 = Some t2 /\ same_tables t1 t2.
Proof.
  intros Hw Hk H1 H2.
  assert (K : forall s, detection_run cams s -> Forall (known nc nb) s).
  { intros s Hs. rewrite Forall_forall in *. intros x Hx. apply Hk.
    eapply Permutation_in; [apply detection_perm; eauto|auto]. }
  destruct (insert_all_from_init nc nb s1 (K s1 H1)) as (t1 & E1 & A1 & B1).
  destruct (insert_all_from_init nc nb s2 (K s2 H2)) as (t2 & E2 & A2 & B2).
  exists t1, t2. split; [auto|split; [auto|]].
  apply (same_from_filters nc nb s1 s2 t1 t2); auto.
  - rewrite (detection_perm _ _ H1), (detection_perm _ _ H2); auto.
  - intros f; apply (detection_filter cams); auto.
Qed.

(** sequential detection is one of the runs *)
Lemma interleave_sequential {A} (ts : list (list A)) : interleave ts (concat ts).
Proof.
  assert (H : forall (pre : list (list A)) ts, Forall (fun t => t = []) pre ->
     interleave (pre ++ ts) (concat ts)).
  { intros pre ts0. revert pre. induction ts0 as [|t ts0 IH]; intros pre Hpre.
    - rewrite app_nil_r. constructor; auto.
    - cbn. induction t as [|x t IHt]; cbn.
      + replace (pre ++ [] :: ts0) with ((pre ++ [[]]) ++ ts0) by (rewrite <- app_assoc; auto).
        apply IH. apply Forall_app. auto.
      + apply il_step. auto. }
  apply (H [] ts). constructor.
Qed.

Lemma sequential_run (cams : list (list (list insertion))) :
  detection_run cams (concat (map (@concat _) cams)).
Proof.
  exists (map (@concat _) cams). split; auto.
  induction cams as [|ts cams IH]; cbn; constructor; auto. apply interleave_sequential.
Qed.
End S.
