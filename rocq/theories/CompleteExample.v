(** C55: runs in which some corners are lost.  One camera sees two boards; every corner is
    projected to (0,0), so exactly the corners detected there are kept. *)
From Coq Require Import String List ZArith QArith Lia Reals Lra Sorted.
From Verif Require Import SMap GraphModel GraphSpec GraphPath DataModel DataSpec DataProofs DetectModel DetectSpec DetectProofs RansacModel RansacSpec RansacProofs
  GeomModel GeomSpec ChainModel ObjectsModel GroupModel StageModel StageSpec PipelineModel PipelineSpec EstimateAll CameraModel ResidualModel ResidualSpec ResidualSolve
  FileModel IntrinsicModel PropObjects PropResidual WorkflowModel CompleteSpec.
Import ListNotations.
Close Scope Q_scope.
Open Scope R_scope.

Definition dull_env : rs_env par6 vec3 :=
  mkRS (fun _ _ _ _ p => p) (fun _ _ _ _ p => p) (fun _ _ _ _ => (0, 0)) (fun _ _ p => p) (fun _ l => l) (vzero, vzero).
Lemma dull_fair : fair_shuffles dull_env.
Proof. intros k l. apply Permutation.Permutation_refl. Qed.
Lemma dull_keep cam bp p0 it (o : bobs pt2) : length (o_pts o) = length (o_ids o) -> (4 <= length (o_pts o))%nat ->
  Forall (fun i => (0 <= i < Z.of_nat (length bp))%Z) (o_ids o) -> cp_model cam = 0%Z -> (0 < it)%Z ->
  exists o' p keep, boardobs_estimatePose dull_env cam bp p0 1 it o = Some (o', p) /\ o_cam o' = o_cam o /\ o_frame o' = o_frame o /\
    sublist_at (o_pts o) keep (o_pts o') /\ StronglySorted lt keep /\
    forall k, In k keep <-> exists m, nth_error (o_pts o) k = Some m /\ dist2 m (0, 0) < 1.
Proof.
  intros H1 H2 H3 Hm Hit. destruct (estimate_main dull_env dull_fair cam bp p0 1 it o H1 H2 H3) as (o' & p & k & A & B & C & _ & E1 & F & _ & _ & _ & _ & sc & r & S1 & S2 & S3 & S4).
  exists o', p, k. split; [auto|]. split; [auto|]. split; [auto|]. split; [auto|]. split; [auto|].
  assert (Ls : length sc = length (o_pts o)). { rewrite H1. clear -S1. induction S1; cbn; auto. }
  unfold ransacP3PDistortion in S2. rewrite Hm in S2. cbn [Z.eqb] in S2.
  destruct (ransac_main dull_env dull_fair (cp_K cam) (cp_D cam) sc (o_pts o) 1 (99/100) p0 it true Ls H2) as (r' & qs & A' & _ & _ & _ & B').
  rewrite S2 in A'. injection A' as <-.
  assert (X : forall q k, explained dull_env (cp_K cam) (cp_D cam) sc (o_pts o) 1 q k <-> exists m, nth_error (o_pts o) k = Some m /\ dist2 m (0, 0) < 1).
  { intros q j. split; [intros (s & m & _ & Em & D); exists m; auto|]. intros (m & Em & D).
    destruct (nth_error sc j) as [s|] eqn:Es; [exists s, m; auto|]. apply nth_error_None in Es. assert (j < length (o_pts o))%nat by (apply nth_error_Some; congruence). lia. }
  destruct B' as [(E2 & _ & L & Em)|(j & q & l & _ & Q & _ & E2 & _)].
  - destruct qs as [|q qs]; [cbn in L; lia|]. destruct (find_inliers_spec dull_env (cp_K cam) (cp_D cam) sc (o_pts o) 1 q Ls) as (l & _ & Cl).
    assert (l = []) by (apply (Em q l); [left; auto|auto]). subst l. rewrite S4, E2. intros i. rewrite <- (X q). apply Cl.
  - rewrite S4, E2. intros i. rewrite <- (X q). apply Q.
Qed.
Lemma near_zero : dist2 (0, 0) (0, 0) < 1.
Proof. unfold dist2. cbn [fst snd]. replace (_ + _) with 0 by ring. rewrite sqrt_0. lra. Qed.
Lemma far_nine : ~ dist2 (9, 9) (0, 0) < 1.
Proof. unfold dist2. cbn [fst snd]. intros H. assert (Q : sqrt 1 <= sqrt ((9 - 0) * (9 - 0) + (9 - 0) * (9 - 0))) by (apply sqrt_le_1_alt; lra). rewrite sqrt_1 in Q. lra. Qed.

Definition near_five : list pt2 := [(0,0);(0,0);(0,0);(0,0);(0,0)].
Definition three_five : list pt2 := [(0,0);(0,0);(0,0);(9,9);(9,9)].
Definition lost_five : list pt2 := [(9,9);(9,9);(9,9);(9,9);(9,9)].
(** how many corners the estimation keeps *)
Definition keeps_of (o : bobs pt2) : nat := length (filter (fun m : pt2 => if Req_EM_T (fst m) 0 then true else false) (o_pts o)).
Lemma dull_left cam p0 it (o : bobs pt2) : o_pts o = near_five \/ o_pts o = three_five \/ o_pts o = lost_five -> o_ids o = five_ids -> cp_model cam = 0%Z -> (0 < it)%Z ->
  exists o' p, boardobs_estimatePose dull_env cam (grid (o_board o)) p0 1 it o = Some (o', p) /\ o_cam o' = o_cam o /\ o_frame o' = o_frame o /\
    o_pts o' = repeat (0, 0) (keeps_of o).
Proof.
  intros Hp Hi Hm Hit. destruct (dull_keep cam (grid (o_board o)) p0 it o) as (o' & p & keep & E & C & F & S & St & I); auto.
  { rewrite Hi. destruct Hp as [-> |[-> | ->]]; reflexivity. } { destruct Hp as [-> |[-> | ->]]; cbn; lia. } { rewrite Hi. cbn. repeat constructor; lia. }
  exists o', p. split; [auto|]. split; [auto|]. split; [auto|].
  assert (G : forall keep', StronglySorted lt keep' -> (forall k, In k keep' <-> exists m, nth_error (o_pts o) k = Some m /\ dist2 m (0, 0) < 1) -> pick (o_pts o) keep' = Some (o_pts o')).
  { intros keep' St' I'. replace keep' with keep; [apply pick_Some; auto|]. apply sorted_lt_ext; auto. intros k. rewrite I, I'. tauto. }
  assert (N := near_zero). assert (Fr := far_nine). unfold keeps_of in *. destruct Hp as [Ep|[Ep|Ep]]; rewrite Ep in *.
  - specialize (G [0;1;2;3;4]%nat). cbn [pick near_five nth_error] in G. cbn [near_five filter fst].
    assert (Q : forall (x : R), (if Req_EM_T 0 0 then true else false) = true) by (intros _; destruct (Req_EM_T 0 0); [auto|congruence]). rewrite (Q 0). cbn [length repeat].
    assert (Some [(0,0);(0,0);(0,0);(0,0);(0,0)] = Some (o_pts o')) as E'; [|injection E' as <-; auto]. rewrite <- G.
    + reflexivity.
    + repeat constructor.
    + intros k. split.
      * intros H. exists (0, 0). split; [|auto]. cbn in H. intuition (subst; reflexivity).
      * intros (m & Em & _). assert (k < 5)%nat by (change 5%nat with (length near_five); apply nth_error_Some; rewrite Em; intros Q'; discriminate Q'). cbn. lia.
  - specialize (G [0;1;2]%nat). cbn [three_five filter fst].
    assert (Q : (if Req_EM_T 0 0 then true else false) = true) by (destruct (Req_EM_T 0 0); [auto|congruence]). rewrite Q.
    assert (Q9 : (if Req_EM_T 9 0 then true else false) = false) by (destruct (Req_EM_T 9 0); [lra|auto]). rewrite Q9. cbn [length repeat].
    assert (Some [(0,0);(0,0);(0,0)] = Some (o_pts o')) as E'; [|injection E' as <-; auto]. rewrite <- G.
    + reflexivity.
    + repeat constructor.
    + intros k. split.
      * intros H. exists (0, 0). split; [|auto]. cbn in H. intuition (subst; reflexivity).
      * intros (m & Em & D). destruct k as [|[|[|[|[|k]]]]]; cbn in Em; try (cbn; lia); try (injection Em as <-; contradiction). destruct k; discriminate Em.
  - specialize (G []). cbn [lost_five filter fst].
    assert (Q9 : (if Req_EM_T 9 0 then true else false) = false) by (destruct (Req_EM_T 9 0); [lra|auto]). rewrite Q9. cbn [length repeat].
    assert (Some ([] : list pt2) = Some (o_pts o')) as E'; [|injection E' as <-; auto]. rewrite <- G.
    + reflexivity.
    + repeat constructor.
    + intros k. split; [intros []|]. intros (m & Em & D). destruct k as [|[|[|[|[|k]]]]]; cbn in Em; try (injection Em as <-; contradiction). destruct k; discriminate Em.
Qed.

Definition one_of_three (i : insertion pt2) : Prop := (i_pts i = near_five \/ i_pts i = three_five \/ i_pts i = lost_five) /\ i_ids i = five_ids.
Lemma one_detected i : one_of_three i -> detected_well grid i.
Proof. intros (Hp & Hi). unfold detected_well. rewrite Hi. destruct Hp as [-> |[-> | ->]]; (split; [reflexivity|]; split; [cbn; lia|cbn; repeat constructor; lia]). Qed.
Definition kept_of (i : insertion pt2) : Z * Z * nat := (i_cam i, i_frame i, keeps_of (new_obs i)).
Lemma dull_tables cam p0 it nc nb ins t0 : Forall (known nc nb) ins -> Forall one_of_three ins -> insert_all (init_tables nc nb) ins = Some t0 -> (forall c, cp_model (cam c) = 0%Z) -> (0 < it)%Z ->
  exists t ps, estimatePoseAllBoards (fun _ => dull_env) cam grid p0 1 it t0 = Some (t, ps) /\
    map (fun o => (o_cam o, o_frame o, length (o_pts o))) (mvals (t_obs t)) = map kept_of ins.
Proof.
  intros Kn Ot E Hm Hit. destruct (insert_all_from_init nc nb ins Kn) as (t1 & E1 & H & _). assert (t1 = t0) by congruence. subst t1.
  assert (EO : mvals (t_obs t0) = map new_obs ins) by (rewrite (hd_obs _ _ _ _ H); apply dense_vals).
  set (f := fun n o => boardobs_estimatePose dull_env (cam (o_cam o)) (grid (o_board o)) (p0 n) 1 it o).
  assert (G : forall l n, Forall one_of_three l -> exists rs, collect (mapi f n (map new_obs l)) = Some rs /\ length rs = length l /\
    map (fun o => (o_cam o, o_frame o, length (o_pts o))) (map fst rs) = map kept_of l).
  { intros l. induction l as [|i l IHl]; intros n Fl; [exists []; split; [reflexivity|split; reflexivity]|].
    inversion Fl as [|x1 x2 (D1 & D2) Hl]; subst. destruct (IHl (S n) Hl) as (rs & I1 & I2 & I3).
    destruct (dull_left (cam (i_cam i)) (p0 n) it (new_obs i) D1 D2 (Hm _) Hit) as (o' & p & A1 & A2 & A3 & A4).
    exists ((o', p) :: rs). cbn [map mapi]. unfold f at 1. change (o_cam (new_obs i)) with (i_cam i). rewrite A1. cbn [collect]. rewrite I1. split; [reflexivity|]. split; [cbn; lia|].
    cbn [map fst]. f_equal; auto. rewrite A2, A3, A4, repeat_length. reflexivity. }
  destruct (G ins 0%nat Ot) as (rs & R1 & R2 & R3). unfold estimatePoseAllBoards. fold f. rewrite EO, R1. eexists. eexists. split; [reflexivity|]. cbn [t_obs].
  unfold mvals. rewrite combine_vals; [exact R3|]. unfold mkeys. rewrite map_length. rewrite map_length, R2. rewrite <- (map_length new_obs ins), <- EO. unfold mvals. rewrite map_length. auto.
Qed.
Lemma left_of (t : tables pt2) l : map (fun o => (o_cam o, o_frame o, length (o_pts o))) (mvals (t_obs t)) = l ->
  forall c f, corners_left t c f = fold_right Nat.add 0%nat (map snd (filter (fun e : Z * Z * nat => andb (Z.eqb (fst (fst e)) c) (Z.eqb (snd (fst e)) f)) l)).
Proof.
  intros <- c f. unfold corners_left. induction (mvals (t_obs t)) as [|o os IH]; [reflexivity|]. cbn [map filter fst snd].
  destruct (andb _ _); [|exact IH]. cbn [flat_map map fold_right]. rewrite app_length, IH. reflexivity.
Qed.

(** frame 0 shows both boards, three corners of board 1 are kept; nothing is kept in frame 1 *)
Definition some_lost : list (insertion pt2) :=
  [mkIns 0%Z 0%Z 0%Z near_five five_ids EmptyString; mkIns 0%Z 0%Z 1%Z three_five five_ids EmptyString; mkIns 0%Z 1%Z 1%Z lost_five five_ids EmptyString].
(** frame 1 shows board 1 alone, with three corners *)
Definition too_few : list (insertion pt2) :=
  [mkIns 0%Z 0%Z 0%Z near_five five_ids EmptyString; mkIns 0%Z 1%Z 1%Z three_five five_ids EmptyString].
Lemma some_known : Forall (known 1 2) some_lost /\ Forall one_of_three some_lost.
Proof. split; repeat (apply Forall_cons || apply Forall_nil); unfold known, one_of_three; cbn [i_cam i_board i_pts i_ids]; (lia || (split; [auto|reflexivity])). Qed.
Lemma few_known : Forall (known 1 2) too_few /\ Forall one_of_three too_few.
Proof. split; repeat (apply Forall_cons || apply Forall_nil); unfold known, one_of_three; cbn [i_cam i_board i_pts i_ids]; (lia || (split; [auto|reflexivity])). Qed.
Lemma is_zero : (if Req_EM_T 0 0 then true else false) = true.
Proof. destruct (Req_EM_T 0 0); [auto|congruence]. Qed.
Lemma not_zero : (if Req_EM_T 9 0 then true else false) = false.
Proof. destruct (Req_EM_T 9 0); [lra|auto]. Qed.
Lemma some_kept : map kept_of some_lost = [(0%Z, 0%Z, 5%nat); (0%Z, 0%Z, 3%nat); (0%Z, 1%Z, 0%nat)].
Proof. unfold kept_of, keeps_of, some_lost, near_five, three_five, lost_five. cbn [map i_cam i_frame new_obs i_pts o_pts filter fst]. rewrite is_zero, not_zero. reflexivity. Qed.
Lemma few_kept : map kept_of too_few = [(0%Z, 0%Z, 5%nat); (0%Z, 1%Z, 3%nat)].
Proof. unfold kept_of, keeps_of, too_few, near_five, three_five. cbn [map i_cam i_frame new_obs i_pts o_pts filter fst]. rewrite is_zero, not_zero. reflexivity. Qed.
