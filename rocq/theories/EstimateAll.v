(** C17: pose estimation of all board and object observations. *)
From Coq Require Import List ZArith QArith Lia Reals Permutation Sorted Relations.
From Verif Require Import SMap GraphModel GraphSpec GraphDijkstra DataModel DataSpec DataProofs DetectModel DetectSpec DetectProofs RansacModel RansacSpec RansacProofs
  GeomModel GeomSpec GeomProofs GeomMedian ChainModel ChainSpec ChainProofs ChainCam
  ObjectsModel ObjectsSpec ObjectsProofs ObjectsSave ObjectsBuild ObjectsMerge ObjectsObs
  GroupModel GroupSpec GroupProofs GroupMerge GroupObs StageModel StageSpec StageProofs StageMain StageCams StageMerge
  PipelineModel PipelineSpec PipelineProofs ObjectsMain.
Import ListNotations.
Close Scope Q_scope.
Close Scope R_scope.
Open Scope nat_scope.

Lemma sublist_Forall {A} (P : A -> Prop) l k r : sublist_at l k r -> Forall P l -> Forall P r.
Proof.
  intros S F. induction S; constructor; auto. rewrite Forall_forall in F. apply F. eapply nth_error_In; eauto.
Qed.
Lemma combine_vals {A B} (k : list A) (v : list B) : length k = length v -> map snd (combine k v) = v.
Proof. revert v. induction k; intros [|b v] L; cbn in *; try discriminate; auto. f_equal. auto. Qed.

Lemma mapi_length {A B} (f : nat -> A -> B) n l : length (mapi f n l) = length l.
Proof. revert n. induction l; cbn; auto. Qed.
Lemma mapi_nth {A B} (f : nat -> A -> B) n l i : nth_error (mapi f n l) i = option_map (f (n + i)) (nth_error l i).
Proof.
  revert n i. induction l as [|x l IH]; intros n [|i]; cbn; auto; [rewrite Nat.add_0_r; auto|]. rewrite IH. do 2 f_equal. lia.
Qed.
Lemma mapi_total {A B} (f : nat -> A -> option B) n l : (forall k x, In x l -> exists y, f k x = Some y) -> exists r, collect (mapi f n l) = Some r.
Proof.
  revert n. induction l as [|x l IH]; intros n H; [exists []; reflexivity|]. cbn.
  destruct (H n x (or_introl eq_refl)) as (y & ->). destruct (IH (S n)) as (r & ->); [intros; apply H; right; auto|]. eexists. reflexivity.
Qed.
Lemma mapi_defined {A B} (f : nat -> A -> option B) n l r i x : collect (mapi f n l) = Some r -> nth_error l i = Some x ->
  exists y, nth_error r i = Some y /\ f (n + i) x = Some y.
Proof.
  intros E H. apply collect_Some in E. assert (Q := mapi_nth f n l i). rewrite H, E, nth_error_map in Q. cbn in Q.
  destruct (nth_error r i) as [y|]; cbn in Q; [|discriminate Q]. injection Q as Q. eauto.
Qed.

Section E.
Context {rpose : Type}.
Variable env : nat -> rs_env rpose vec3.
Hypothesis Fair : forall n, fair_shuffles (env n).
Variables (cam : Z -> cam_par) (bpts : Z -> list vec3) (thresh : R) (it : Z).

(** after outlier removal *)
Definition trimmed (o : bobs pt2) : Prop :=
  length (o_pts o) = length (o_ids o) /\ Forall (fun k => (0 <= k < Z.of_nat (length (bpts (o_board o))))%Z) (o_ids o) /\
  (o_valid o = true <-> 4 <= length (o_pts o)).

Lemma estimate_all_boards nc nb ins t0 pose0 : Forall (known nc nb) ins -> Forall (detected_well bpts) ins ->
  insert_all (init_tables nc nb) ins = Some t0 ->
  exists t ps, estimatePoseAllBoards env cam bpts pose0 thresh it t0 = Some (t, ps) /\ after_detection nc nb ins t /\ paired t /\
    length ps = length ins /\ forall o, In o (mvals (t_obs t)) -> trimmed o.
Proof.
  intros Kn Dw E. destruct (insert_all_from_init nc nb ins Kn) as (t1 & E1 & H & _). assert (t1 = t0) by congruence. subst t1.
  assert (EO : mvals (t_obs t0) = map new_obs ins) by (rewrite (hd_obs _ _ _ _ H); apply dense_vals).
  set (f := fun n o => boardobs_estimatePose (env n) (cam (o_cam o)) (bpts (o_board o)) (pose0 n) thresh it o).
  assert (G : forall l n, Forall (detected_well bpts) l -> exists rs, collect (mapi f n (map new_obs l)) = Some rs /\ length rs = length l /\
      map (fun o => fst (obs_says o)) (map fst rs) = map (fun o => fst (obs_says o)) (map new_obs l) /\
      Forall trimmed (map fst rs)).
  { intros l. induction l as [|i l IHl]; intros n Fl; [exists []; split; [reflexivity|split; [reflexivity|split; [reflexivity|constructor]]]|].
    inversion Fl as [|x1 x2 (D1 & D2 & D3) Hl]; subst. destruct (IHl (S n) Hl) as (rs & I1 & I2 & I3 & I4).
    destruct (estimate_main (env n) (Fair n) (cam (i_cam i)) (bpts (i_board i)) (pose0 n) thresh it (new_obs i)) as (o' & p & keep & A1 & A2 & A3 & A4 & A5 & A6 & A7 & A8 & A9 & A10 & _);
      [exact D1|cbn; lia|exact D3|].
    exists ((o', p) :: rs). cbn [map mapi]. unfold f at 1. change (o_cam (new_obs i)) with (i_cam i). change (o_board (new_obs i)) with (i_board i).
    rewrite A1. cbn [collect]. rewrite I1. split; [reflexivity|]. split; [cbn; lia|]. split.
    - cbn [map fst]. f_equal; auto. unfold obs_says. cbn [fst]. rewrite A2, A3, A4. auto.
    - cbn [map fst]. constructor; auto. split; [lia|]. split.
      + rewrite A4. eapply sublist_Forall; eauto.
      + rewrite A8. assert (V : o_valid (new_obs i) = true) by auto. rewrite V in A10.
        destruct (o_valid o'); split; intros Q; auto; try discriminate.
        * destruct (le_lt_dec 4 (length keep)) as [|L]; auto. assert (true = false) by tauto. discriminate.
        * assert (false = false) as Q2 by auto. apply A10 in Q2 as [Q2|Q2]; [discriminate|lia]. }
  destruct (G ins 0 Dw) as (rs & R1 & R2 & R3 & R4).
  unfold estimatePoseAllBoards. fold f. rewrite EO, R1.
  set (t := mkT (combine (mkeys (t_obs t0)) (map fst rs)) (t_cams t0) (t_boards t0) (t_frames t0) (t_camobs t0)).
  assert (V : mvals (t_obs t) = map fst rs).
  { unfold t, mvals. cbn [t_obs]. apply combine_vals. rewrite map_length. unfold mkeys. rewrite map_length, R2, (hd_obs _ _ _ _ H), dense_length, map_length. auto. }
  exists t, (map snd rs). split; [reflexivity|]. split; [|split; [|split]].
  - split; [auto|]. exists t0. split; auto. constructor; auto. rewrite V, EO. auto.
  - intros b Hb. rewrite V in Hb. rewrite Forall_forall in R4. apply R4; auto.
  - rewrite map_length. auto.
  - intros o Ho. rewrite V in Ho. rewrite Forall_forall in R4. auto.
Qed.

Lemma pnp_total m K D scene img p0 th n model : length scene = length img -> 4 <= length img ->
  exists r, ransacP3PDistortion (env m) K D scene img p0 th n model (99 / 100)%R true = Some r.
Proof.
  intros E L. unfold ransacP3PDistortion. destruct (Z.eqb model 0); [|destruct (Z.eqb model 1); [|eauto]].
  - destruct (ransac_main (env m) (Fair m) K D scene img th (99/100)%R p0 n true) as (r & _ & A & _); eauto.
  - destruct (ransac_main (env m) (Fair m) K [0;0;0;0;0]%R scene (map (undistorted (env m) K D) img) th (99/100)%R p0 n true) as (r & _ & A & _); rewrite ?map_length; eauto.
Qed.

(** number of points of an object observation *)
Definition enough (oo : objobs pt2) : Prop := 4 <= length (oo_pts oo).

Section R.
Variables (svd : (nat -> nat -> R) -> quat) (lr : mat3 -> vec3) (uq : bool) (pick : dstate -> nat) (g0 : graph).
Hypothesis Hpick : good_heap pick.
Variables (nc nb : nat) (ins : list (insertion pt2)) (t : tables pt2).
Hypothesis AD : after_detection nc nb ins t.
Hypothesis TR : forall o, In o (mvals (t_obs t)) -> trimmed o.
Lemma trimmed_paired : paired t.
Proof. intros b Hb. apply (TR b Hb). Qed.

(** the object observations are complete and their point numbers are in range *)
Lemma gathers_lengths o oo bs : well_built bpts bs o -> gathers t o oo -> length (oo_ids oo) = length (oo_pts oo) /\
  Forall (fun i => (0 <= i < Z.of_nat (length (ob_pts o)))%Z) (oo_ids oo).
Proof.
  intros W G. destruct (numbers_right bpts t o oo bs W G) as (l & F & E1 & E2 & N).
  assert (IN : forall b, In b l -> trimmed b).
  { intros b Hb. clear -F TR Hb. induction F; [destruct Hb|]. destruct Hb as [->|Hb]; auto. apply TR. eapply nth_error_In; eauto. }
  rewrite E1, E2. clear F E1 E2 G. split.
  - induction l as [|b l IH]; cbn; auto. rewrite !app_length, map_length. destruct (IN b (or_introl eq_refl)) as (T & _). rewrite T. f_equal.
    apply IH; intros; [apply N; auto; right; auto|apply IN; right; auto].
  - apply Forall_forall. intros z Hz. apply in_flat_map in Hz as (b & Hb & Hz). apply in_map_iff in Hz as (k & <- & Hk).
    destruct (IN b Hb) as (_ & T & _). rewrite Forall_forall in T. destruct (N b k Hb Hk (T k Hk)) as (N1 & N2).
    assert (NU := well_built_numbered bpts bs o W). rewrite (nu_pts _ _ NU), <- (nu_o2b _ _ NU).
    assert (Z.to_nat (b2o o (o_board b) k) < length (ob_o2b o)) by (apply nth_error_Some; congruence). lia.
Qed.
Lemma gathers_enough o oo : gathers t o oo -> (forall b, In b (mvals (t_obs t)) -> o_valid b = true) -> enough oo.
Proof.
  intros G V. destruct (ga_content _ _ _ G) as (l & F & _ & E1 & _). unfold enough. assert (NE := ga_nonempty _ _ _ G). rewrite E1 in *.
  destruct F as [|n b ns l Hb F]; [contradiction NE; auto|]. cbn. rewrite app_length.
  assert (Hin : In b (mvals (t_obs t))) by (eapply nth_error_In; eauto).
  destruct (TR b Hin) as (_ & _ & T). apply V in Hin. apply T in Hin. lia.
Qed.

(** PnP on all object observations: defined exactly if all have four points *)
Lemma estimate_objects pose0 s : (forall k o, In (k, o) (ca_objs s) -> exists bs, well_built bpts bs o) -> 
  (forall oo, In oo (ot_all (ca_oobs s)) -> exists o, mfind (oo_obj oo) (ca_objs s) = Some o /\ gathers t o oo) ->
  (forall c, cp_model (cam c) = 0 \/ cp_model (cam c) = 1)%Z -> (0 < it)%Z ->
  ((exists ps, estimatePoseAllObjects env cam (ca_objs s) pose0 thresh it (ot_all (ca_oobs s)) = Some ps) <->
   forall oo, In oo (ot_all (ca_oobs s)) -> enough oo).
Proof.
  intros WBs GA Hm Hit. unfold estimatePoseAllObjects.
  set (f := fun n oo => match mfind (oo_obj oo) (ca_objs s) with
                          | Some o => objectobs_estimatePose (env n) (cam (oo_cam oo)) (ob_pts o) (pose0 n) thresh it (oo_ids oo) (oo_pts oo)
                          | None => None end).
  assert (ONE : forall n oo, In oo (ot_all (ca_oobs s)) -> ((exists p, f n oo = Some p) <-> enough oo)).
  { intros n oo H. destruct (GA oo H) as (o & Ho & G). destruct (WBs (oo_obj oo) o (mfind_In _ _ _ Ho)) as (bs & W).
    destruct (gathers_lengths o oo bs W G) as (L & Rg). unfold f. rewrite Ho. unfold objectobs_estimatePose.
    destruct (zget_total (ob_pts o) (oo_ids oo) Rg) as (sc & -> & Ls). unfold enough. split.
    - intros (p & E). destruct (le_lt_dec 4 (length (oo_pts oo))) as [|L4]; auto.
      rewrite distortion_too_few in E; auto. discriminate.
    - intros L4. destruct (pnp_total n (cp_K (cam (oo_cam oo))) (cp_D (cam (oo_cam oo))) sc (oo_pts oo) (pose0 n) thresh it (cp_model (cam (oo_cam oo)))) as (r & ->); [lia|auto|].
      cbn. eauto. }
  split.
  - intros (ps & E) oo H. apply In_nth_error in H as (i & Hi). destruct (mapi_defined _ _ _ _ _ _ E Hi) as (p & _ & Ep).
    eapply ONE; eauto using nth_error_In.
  - intros Q. apply mapi_total. intros k oo H. apply ONE; auto.
Qed.

Lemma reached_gathers s : reached svd lr uq pick g0 bpts t s ->
  (forall k o, In (k, o) (ca_objs s) -> exists bs, well_built bpts bs o) /\
  (forall oo, In oo (ot_all (ca_oobs s)) -> exists o, mfind (oo_obj oo) (ca_objs s) = Some o /\ gathers t o oo).
Proof.
  intros Rd. split.
  - intros k o H. destruct (reached_objects svd lr uq pick g0 Hpick bpts nc nb ins t AD trimmed_paired s k o Rd H) as (bs & W & _). eauto.
  - destruct (reached_ok svd lr uq pick g0 Hpick bpts nc nb ins t AD trimmed_paired s Rd) as (bss & ol & css & gl & [E1 OK OT Ob Cov E2 GK GT NU CA KE]).
    intros oo H. destruct (Ob oo H) as (i & o & Ho & Ei & G). exists o. split; auto. rewrite E1, Ei. apply dense_nth. auto.
Qed.
Lemma first_gathers bp rf s : keeps_boards rf -> calibrate3DObjects svd lr uq pick g0 bpts t bp rf = Some s ->
  (forall k o, In (k, o) (ca_objs s) -> exists bs, well_built bpts bs o) /\
  (forall oo, In oo (ot_all (ca_oobs s)) -> exists o, mfind (oo_obj oo) (ca_objs s) = Some o /\ gathers t o oo).
Proof.
  intros K E. destruct (objects_part_start svd lr uq pick g0 Hpick bpts nc nb ins t AD trimmed_paired bp rf K) as (s1 & ol & bss & _ & OK & E1 & (P1 & P2 & P3 & P4 & P5) & _).
  assert (s1 = s) by congruence. subst s1. split.
  - intros k o H. rewrite P1 in H. apply dense_In in H as (i & -> & Ho).
    destruct (nth_error_length_ex _ _ i o (eq_sym (ok_len _ _ _ P2)) Ho) as (bs & Hbs). exists bs. eapply ok_wb; eauto.
  - intros oo H. destruct (P4 oo H) as (i & o & Ho & Ei & G). exists o. split; auto. rewrite P1, Ei. apply dense_nth. auto.
Qed.
End R.
End E.
