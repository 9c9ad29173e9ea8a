(** From the observation tables to the inputs of the covisibility stages. *)
From Coq Require Import List ZArith QArith Lia Reals Permutation Sorted.
From Verif Require Import SMap GraphModel GraphSpec GraphComp DataModel DataSpec DataProofs DetectModel DetectProofs
  GeomModel GeomSpec GeomProofs
  ChainModel ChainSpec ChainProofs ChainCam ObjectsModel ObjectsSpec ObjectsProofs ObjectsSave ObjectsBuild ObjectsMerge ObjectsObs
  GroupModel GroupSpec GroupProofs StageModel StageSpec.
Import ListNotations.
Close Scope Q_scope.
Close Scope R_scope.
Open Scope nat_scope.

Section S.
Context {pt : Type}.
Implicit Types (t : tables pt) (ins : list (insertion pt)).

Lemma positions_from_In p ins : forall k n, In n (positions_from k p ins) <->
  exists j i, n = k + j /\ nth_error ins j = Some i /\ p i = true.
Proof.
  induction ins as [|i ins IH]; intros k n; cbn [positions_from].
  - split; [intros []|intros ([|j] & i & _ & H & _); discriminate].
  - rewrite in_app_iff, IH. split.
    + intros [H|(j & i' & -> & H1 & H2)].
      * destruct (p i) eqn:E; [|destruct H]. destruct H as [<-|[]]. exists 0, i. split; [lia|auto].
      * exists (S j), i'. split; [lia|auto].
    + intros ([|j] & i' & -> & H1 & H2); cbn in H1.
      * left. injection H1 as ->. rewrite H2. left. lia.
      * right. exists j, i'. split; [lia|auto].
Qed.
Lemma positions_In p ins n : In n (positions p ins) <-> exists i, nth_error ins n = Some i /\ p i = true.
Proof.
  unfold positions. rewrite positions_from_In. split.
  - intros (j & i & -> & H). eauto.
  - intros (i & H). exists n, i. auto.
Qed.
Lemma positions_from_NoDup p ins : forall k, NoDup (positions_from k p ins).
Proof.
  induction ins as [|i ins IH]; intros k; cbn [positions_from]; [constructor|].
  destruct (p i); cbn; auto. constructor; auto. intros H. apply positions_from_In in H as (j & i' & E & _). lia.
Qed.

Variables (nc nb : nat) (ins : list (insertion pt)) (t : tables pt).
Hypothesis AD : after_detection nc nb ins t.

Lemma ad_holds : exists t0, holds nc nb ins t0 /\ relabelled t0 t.
Proof.
  destruct AD as (K & t0 & E & R). destruct (insert_all_from_init nc nb ins K) as (t1 & E1 & H & _).
  assert (t1 = t0) by congruence. subst. eauto.
Qed.
Lemma ad_obs n : option_map (fun o => fst (obs_says o)) (nth_error (mvals (t_obs t)) n) =
  option_map (fun i : insertion pt => fst (ins_says i)) (nth_error ins n).
Proof.
  destruct ad_holds as (t0 & H & R). assert (E := f_equal (fun l => nth_error l n) (rl_obs _ _ R)). cbn beta in E.
  rewrite !nth_error_map in E. rewrite E, (hd_obs _ _ _ _ H), dense_vals, nth_error_map. destruct (nth_error ins n); auto.
Qed.
(** observation n is about what insertion n was about *)
Lemma ad_obs_ins n o : obs_at t n o -> exists i, nth_error ins n = Some i /\ o_cam o = i_cam i /\ o_frame o = i_frame i /\ o_board o = i_board i.
Proof.
  intros H. assert (E := ad_obs n). unfold obs_at in H. rewrite H in E. cbn in E. destruct (nth_error ins n) as [i|]; [|discriminate].
  cbn in E. injection E as E1 E2 E3. eauto 10.
Qed.
Lemma ad_ins_obs n i : nth_error ins n = Some i -> exists o, obs_at t n o /\ o_cam o = i_cam i /\ o_frame o = i_frame i /\ o_board o = i_board i.
Proof.
  intros H. assert (E := ad_obs n). rewrite H in E. cbn in E. unfold obs_at. destruct (nth_error (mvals (t_obs t)) n) as [o|]; [|discriminate].
  cbn in E. injection E as E1 E2 E3. eauto 10.
Qed.

Lemma ad_linked : linked_up t.
Proof.
  destruct ad_holds as (t0 & H & R).
  assert (KEY : forall c f, (exists i, In i ins /\ i_cam i = c /\ i_frame i = f) <->
     exists n b, nth_error (mvals (t_obs t)) n = Some b /\ o_cam b = c /\ o_frame b = f).
  { intros c f. split.
    - intros (i & Hi & E1 & E2). apply In_nth_error in Hi as (n & Hn). destruct (ad_ins_obs n i Hn) as (o & Ho & A & B & _).
      exists n, o. unfold obs_at in Ho. intuition congruence.
    - intros (n & b & Hn & E1 & E2). destruct (ad_obs_ins n b Hn) as (i & Hi & A & B & _). exists i. 
      split; [eapply nth_error_In; eauto|]. split; congruence. }
  constructor.
  - rewrite (rl_camobs _ _ R). apply H.
  - intros c f. rewrite (rl_camobs _ _ R), (hd_camobs_keys _ _ _ _ H). apply KEY.
  - intros [c f] co E. rewrite (rl_camobs _ _ R) in E. destruct (hd_camobs _ _ _ _ H _ _ _ E) as (E1 & _).
    rewrite E1, dense_vals. apply positions_from_NoDup.
  - intros c f co n E. rewrite (rl_camobs _ _ R) in E. destruct (hd_camobs _ _ _ _ H _ _ _ E) as (E1 & _).
    rewrite E1, dense_vals, positions_In. split.
    + intros (i & Hi & P). destruct (ad_ins_obs n i Hi) as (o & Ho & A & B & _). exists o. split; [exact Ho|].
      unfold by_cam_frame, by_cam, by_frame in P. apply andb_prop in P as (P1 & P2). apply Z.eqb_eq in P1, P2. split; congruence.
    + intros (b & Hb & E2 & E3). destruct (ad_obs_ins n b Hb) as (i & Hi & A & B & _). exists i. split; auto.
      unfold by_cam_frame, by_cam, by_frame. apply andb_true_intro. split; apply Z.eqb_eq; congruence.
Qed.

Lemma seq_sorted n : forall s, StronglySorted Z.lt (map Z.of_nat (seq s n)).
Proof.
  induction n; intros s; cbn; constructor; auto. apply Forall_forall. intros x Hx. apply in_map_iff in Hx as (j & <- & Hj). apply in_seq in Hj. lia.
Qed.
Lemma filter_keys_sorted {V} (p : Z * V -> bool) (m : list (Z * V)) : StronglySorted Z.lt (map fst m) -> StronglySorted Z.lt (map fst (filter p m)).
Proof.
  induction m as [|e m IH]; cbn; intros S; [constructor|]. inversion S; subst. destruct (p e); cbn; auto.
  constructor; auto. rewrite Forall_forall in *. intros x Hx. apply H2. apply in_map_iff in Hx as (y & <- & Hy). apply filter_In in Hy as (Hy & _). apply in_map; auto.
Qed.
Lemma sorted_mfind {V} (m : smap Z V) k v : StronglySorted Z.lt (map fst m) -> In (k, v) m -> mfind k m = Some v.
Proof.
  induction m as [|[k' v'] m IH]; intros S H; [destruct H|]. cbn in S. inversion S; subst. destruct H as [[= -> ->]|H].
  - cbn. rewrite Z.compare_refl. auto.
  - cbn. rewrite Forall_forall in H3. assert (k' < k)%Z by (apply H3; apply (in_map fst) in H; auto).
    replace (k ?= k')%Z with Gt by (symmetry; apply Z.compare_gt_iff; lia). auto.
Qed.
Lemma length_pos {A} (l : list A) : Nat.ltb 0 (length l) = true <-> exists x, In x l.
Proof. destruct l; cbn; split; intros H; try discriminate; try (destruct H as (x & [])); eauto. Qed.

Lemma observed_boards_ok : StronglySorted Z.lt (observed_boards t) /\
  forall b, In b (observed_boards t) <-> exists n o, obs_at t n o /\ o_board o = b.
Proof.
  destruct ad_holds as (t0 & H & R). unfold observed_boards. rewrite (rl_boards _ _ R).
  assert (S : StronglySorted Z.lt (map fst (t_boards t0))).
  { change (map fst (t_boards t0)) with (mkeys (t_boards t0)). rewrite (hd_board_keys _ _ _ _ H). apply seq_sorted. }
  split; [apply filter_keys_sorted; auto|]. intros b. rewrite in_map_iff. split.
  - intros ([b' r] & E & Hin). cbn in E. subst b'. apply filter_In in Hin as (Hin & L). apply length_pos in L as (x & Hx). cbn in Hx.
    rewrite (hd_board _ _ _ _ H b r (sorted_mfind _ _ _ S Hin)) in Hx. apply (in_map snd) in Hx.
    change (map snd (dense (positions (by_board b) ins))) with (mvals (dense (positions (by_board b) ins))) in Hx.
    rewrite dense_vals in Hx. apply positions_In in Hx as (i & Hi & P). destruct (ad_ins_obs _ i Hi) as (o & Ho & _ & _ & B).
    exists (snd x), o. split; auto. unfold by_board in P. apply Z.eqb_eq in P. congruence.
  - intros (n & o & Ho & <-). destruct (ad_obs_ins n o Ho) as (i & Hi & _ & _ & B).
    assert (K : In (o_board o) (mkeys (t_boards t0))).
    { rewrite (hd_board_keys _ _ _ _ H). destruct AD as (Kn & _). rewrite Forall_forall in Kn. assert (Hk := Kn i (nth_error_In _ _ Hi)).
      destruct Hk as (_ & Hk). rewrite B. apply in_map_iff. exists (Z.to_nat (i_board i)). split; [lia|]. apply in_seq. lia. }
    apply mfind_Some_key in K as (r & Hr). exists (o_board o, r). split; auto. apply filter_In. split; [apply mfind_In; auto|].
    cbn [snd]. rewrite (hd_board _ _ _ _ H _ _ Hr), dense_length.
    assert (I : In n (positions (by_board (o_board o)) ins)).
    { apply positions_In. exists i. split; auto. unfold by_board. apply Z.eqb_eq. auto. }
    apply length_pos. eauto.
Qed.
Lemma observed_cams_ok : StronglySorted Z.lt (observed_cams t) /\
  forall c, In c (observed_cams t) <-> exists n o, obs_at t n o /\ o_cam o = c.
Proof.
  destruct ad_holds as (t0 & H & R). unfold observed_cams.
  assert (E : map fst (filter (fun e => Nat.ltb 0 (length (c_obs (snd e)))) (t_cams t)) =
              map fst (filter (fun e : Z * cam_t => Nat.ltb 0 (length (c_obs (snd e)))) (t_cams t0))).
  { assert (RC := rl_cams _ _ R). revert RC. generalize (t_cams t) (t_cams t0). intros l l'. revert l'.
    induction l as [|x l IH]; intros [|y l'] RC; cbn [map] in RC; try discriminate; auto. injection RC as E1 E2 E3.
    cbn [filter]. rewrite E2. destruct (Nat.ltb 0 (length (c_obs (snd y)))); cbn [map]; rewrite (IH _ E3); auto. congruence. }
  rewrite E. clear E.
  assert (S : StronglySorted Z.lt (map fst (t_cams t0))).
  { change (map fst (t_cams t0)) with (mkeys (t_cams t0)). rewrite (hd_cam_keys _ _ _ _ H). apply seq_sorted. }
  split; [apply filter_keys_sorted; auto|]. intros b. rewrite in_map_iff. split.
  - intros ([b' r] & E & Hin). cbn in E. subst b'. apply filter_In in Hin as (Hin & L). apply length_pos in L as (x & Hx). cbn in Hx.
    destruct (hd_cam _ _ _ _ H b r (sorted_mfind _ _ _ S Hin)) as (EO & _). rewrite EO in Hx. apply (in_map snd) in Hx.
    change (map snd (dense (positions (by_cam b) ins))) with (mvals (dense (positions (by_cam b) ins))) in Hx.
    rewrite dense_vals in Hx. apply positions_In in Hx as (i & Hi & P). destruct (ad_ins_obs _ i Hi) as (o & Ho & B & _ & _).
    exists (snd x), o. split; auto. unfold by_cam in P. apply Z.eqb_eq in P. congruence.
  - intros (n & o & Ho & <-). destruct (ad_obs_ins n o Ho) as (i & Hi & B & _ & _).
    assert (K : In (o_cam o) (mkeys (t_cams t0))).
    { rewrite (hd_cam_keys _ _ _ _ H). destruct AD as (Kn & _). rewrite Forall_forall in Kn. assert (Hk := Kn i (nth_error_In _ _ Hi)).
      destruct Hk as (Hk & _). rewrite B. apply in_map_iff. exists (Z.to_nat (i_cam i)). split; [lia|]. apply in_seq. lia. }
    apply mfind_Some_key in K as (r & Hr). exists (o_cam o, r). split; auto. apply filter_In. split; [apply mfind_In; auto|].
    cbn [snd]. destruct (hd_cam _ _ _ _ H _ _ Hr) as (EO & _). rewrite EO, dense_length.
    assert (I : In n (positions (by_cam (o_cam o)) ins)).
    { apply positions_In. exists i. split; auto. unfold by_cam. apply Z.eqb_eq. auto. }
    apply length_pos. eauto.
Qed.

(** views *)
Lemma view_In bp c f co b p : mfind (c, f) (t_camobs t) = Some co ->
  (In (b, p) (view_of t bp co) <-> exists n o, obs_at t n o /\ o_cam o = c /\ o_frame o = f /\ o_board o = b /\ p = bp n).
Proof.
  intros Hco. unfold view_of. rewrite in_flat_map. split.
  - intros (n & Hn & H). destruct (nth_error (mvals (t_obs t)) n) as [o|] eqn:E; [|destruct H]. destruct H as [[= <- <-]|[]].
    apply (lu_list _ ad_linked _ _ _ n Hco) in Hn as (o' & E' & A & B). assert (o' = o) by congruence. subst.
    exists n, o. unfold obs_at. auto.
  - intros (n & o & Ho & A & B & C & ->). exists n. split; [apply (lu_list _ ad_linked _ _ _ n Hco); eauto|].
    unfold obs_at in Ho. rewrite Ho. left. congruence.
Qed.
Lemma views_In bp v : In v (board_views t bp) -> exists c f co, mfind (c, f) (t_camobs t) = Some co /\ v = view_of t bp co.
Proof.
  unfold board_views. intros H. apply in_map_iff in H as ([[c f] co] & <- & Hin). exists c, f, co. split; auto.
  apply In_mfind; [apply ad_linked|auto].
Qed.
Lemma boards_table_good bp : good_table (observed_boards t) (computeBoardsPairPose (board_views t bp)).
Proof.
  destruct observed_boards_ok as (S & O). apply boards_good; [apply sorted_lt_NoDup; auto|].
  intros v b p Hv Hb. apply views_In in Hv as (c & f & co & Hco & ->). apply (view_In bp c f co b p Hco) in Hb as (n & o & Ho & _ & _ & <- & _).
  apply O. eauto.
Qed.
(** an ordered pair of boards has a relative pose exactly if they are seen together *)
Lemma boards_covisible bp a b : covisible (counts (computeBoardsPairPose (board_views t bp))) a b <-> seen_together t a b.
Proof.
  rewrite (covisible_both _ a b (good_both _ _ (boards_table_good bp))). rewrite counts_keys, mfind_Some_key. rewrite boards_table. unfold seen_together. destruct (Z.eqb_spec a b) as [->|N].
  - split; [intros (v & H); discriminate|]. intros (H & _). congruence.
  - split.
    + intros (v & H). apply as_vector_Some in H as (<- & NE). split; auto. destruct (together rel_board (board_views t bp) a b) as [|p l] eqn:E; [congruence|].
      assert (I : In p (together rel_board (board_views t bp) a b)) by (rewrite E; left; auto). apply together_In in I.
      destruct I as (v & p1 & p2 & Hv & H1 & H2 & _). apply views_In in Hv as (c & f & co & Hco & ->).
      apply (view_In bp _ _ _ _ _ Hco) in H1 as (n & o & Ho & A & B & C & _). apply (view_In bp _ _ _ _ _ Hco) in H2 as (m & o' & Ho' & A' & B' & C' & _).
      exists n, m, o, o'. split; [auto|]. split; [auto|]. split; [auto|]. split; [auto|]. split; congruence.
    + intros (_ & n & m & o & o' & Ho & Ho' & A & B & C & D).
      assert (K : In (o_cam o, o_frame o) (mkeys (t_camobs t))) by (apply (lu_keys _ ad_linked); eauto).
      apply mfind_Some_key in K as (co & Hco).
      assert (I : In (rel_board (bp n) (bp m)) (together rel_board (board_views t bp) a b)).
      { apply together_In. exists (view_of t bp co), (bp n), (bp m). split; [unfold board_views; apply in_map_iff; exists ((o_cam o, o_frame o), co); split; auto; apply mfind_In; auto|].
        split; [apply (view_In bp _ _ _ _ _ Hco); exists n, o; auto 8|]. split; [apply (view_In bp _ _ _ _ _ Hco); exists m, o'; auto 8|]. auto. }
      destruct (together rel_board (board_views t bp) a b) as [|p l]; [destruct I|]. eexists. reflexivity.
Qed.
Lemma exact_boards_views W X bp : exact_boards t W X bp -> exact_views W (board_views t bp).
Proof.
  intros (HW & HX & E) v Hv. apply views_In in Hv as (c & f & co & Hco & ->). exists (X c f). split; auto.
  intros b p Hb. apply (view_In bp _ _ _ _ _ Hco) in Hb as (n & o & Ho & A & B & C & ->). rewrite (E n o Ho), A, B, C. auto.
Qed.
End S.
