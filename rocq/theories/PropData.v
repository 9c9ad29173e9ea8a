(** C08-C11: the observation tables. Definitions of [holds], [frame_tables],
    [detection_run], [same_tables], [refined], [about], ... are in DataSpec.v. *)
From Coq Require Import String Permutation.
From Verif Require Import SMap GraphSpec DataModel DataSpec DataProofs DataSched DataSave.
Local Open Scope list_scope.
Local Open Scope string_scope.
Open Scope nat_scope.

(** C08: whatever boards are inserted, in whatever order, all five tables hold
    exactly those insertions. *)
Theorem C08_tables_hold_exactly_the_insertions : forall (pt : Type) nc nb (ins : list (insertion pt)),
  Forall (known nc nb) ins ->
  exists t, insert_all (init_tables nc nb) ins = Some t /\ holds nc nb ins t.
Proof.
  intros pt nc nb ins H. destruct (insert_all_from_init nc nb ins H) as (t & E & A & _). eauto.
Qed.
Print Assumptions C08_tables_hold_exactly_the_insertions.

(** ... inserting one more never changes what an earlier key denotes. *)
Theorem C08_earlier_observations_kept : forall (pt : Type) nc nb (ins more : list (insertion pt)) t t',
  Forall (known nc nb) (ins ++ more) ->
  insert_all (init_tables nc nb) ins = Some t -> insert_all (init_tables nc nb) (ins ++ more) = Some t' ->
  forall k o, mfind k (t_obs t) = Some o -> mfind k (t_obs t') = Some o.
Proof.
  intros pt nc nb ins more t t' Hk E1 E2 k o Ho.
  destruct (insert_all_from_init nc nb (ins ++ more) Hk) as (t2 & E & A & _).
  apply Forall_app in Hk. destruct Hk as [Hk _].
  destruct (insert_all_from_init nc nb ins Hk) as (t1 & E' & B & _).
  rewrite E1 in E'. rewrite E2 in E. injection E as <-. injection E' as <-.
  rewrite (hd_obs _ _ _ _ A). rewrite (hd_obs _ _ _ _ B) in Ho.
  assert (Hr : In k (mkeys (dense (map new_obs ins)))) by (apply mfind_Some_key; eauto).
  rewrite mkeys_dense in Hr. apply in_map_iff in Hr. destruct Hr as (n & <- & Hn). rewrite dense_find in *.
  rewrite map_app, nth_error_app1; auto. apply nth_error_Some. congruence.
Qed.
Print Assumptions C08_earlier_observations_kept.

(** ... and an insertion for a camera or board that was not configured is
    undefined behaviour, so such insertions must not be made. *)
Theorem C08_unknown_index_is_undefined : forall (pt : Type) nc nb (ins : list (insertion pt)) i rest,
  Forall (known nc nb) ins -> ~ known nc nb i ->
  insert_all (init_tables nc nb) (ins ++ i :: rest) = None.
Proof. intros. apply (insert_unknown nc nb); auto. Qed.
Print Assumptions C08_unknown_index_is_undefined.

(** C09: any two schedules of the detection workers give the same tables up to the
    numbering of observations; sequential detection is one such schedule. *)
Theorem C09_every_schedule_gives_the_sequential_tables :
  forall (pt : Type) nc nb (cams : list (list (list (insertion pt)))) s,
  (forall c ts, nth_error cams c = Some ts -> tasks_of_camera (Z.of_nat c) ts) ->
  Forall (known nc nb) (concat (map (@concat _) cams)) ->
  detection_run cams s ->
  exists t_seq t, insert_all (init_tables nc nb) (concat (map (@concat _) cams)) = Some t_seq /\
                  insert_all (init_tables nc nb) s = Some t /\ same_tables t_seq t.
Proof.
  intros pt nc nb cams s Hw Hk H. apply (schedules_agree nc nb cams); auto. apply sequential_run.
Qed.
Print Assumptions C09_every_schedule_gives_the_sequential_tables.

(** C10 is false: camera 1 and board 1 have an observation in frame 0 but their own
    frame tables do not list it. *)
Theorem C10_frame_tables_complete_refuted :
  exists (ins : list (insertion nat)) t c b f rc rb,
    Forall (known 2 2) ins /\ insert_all (init_tables 2 2) ins = Some t /\
    (exists i, In i ins /\ i_cam i = c /\ i_board i = b /\ i_frame i = f) /\
    mfind c (t_cams t) = Some rc /\ ~ In f (mkeys (c_frames rc)) /\
    mfind b (t_boards t) = Some rb /\ ~ In f (mkeys (b_frames rb)).
Proof.
  exists [mkIns 0%Z 0%Z 0%Z [1] [0%Z] "a"; mkIns 1%Z 0%Z 1%Z [1] [0%Z] "b"].
  eexists; exists 1%Z, 1%Z, 0%Z; eexists; eexists.
  split; [repeat constructor; cbn; lia|]. split; [reflexivity|].
  split; [eexists; split; [right; left; reflexivity|repeat split]|].
  split; [reflexivity|]. split; [cbn; tauto|]. split; [reflexivity|]. cbn; tauto.
Qed.
Print Assumptions C10_frame_tables_complete_refuted.

(** What does hold: a camera (board) lists exactly the frames created by its own
    insertion; and the global table lists every frame. *)
Theorem C10_frame_tables_characterised : forall (pt : Type) nc nb (ins : list (insertion pt)) t,
  Forall (known nc nb) ins -> insert_all (init_tables nc nb) ins = Some t ->
  (forall f, In f (mkeys (t_frames t)) <-> exists i, In i ins /\ i_frame i = f) /\
  (forall c r f, mfind c (t_cams t) = Some r ->
     (In f (mkeys (c_frames r)) <-> exists i, find (by_frame f) ins = Some i /\ i_cam i = c)) /\
  (forall b r f, mfind b (t_boards t) = Some r ->
     (In f (mkeys (b_frames r)) <-> exists i, find (by_frame f) ins = Some i /\ i_board i = b)).
Proof.
  intros pt nc nb ins t Hk E. destruct (insert_all_from_init nc nb ins Hk) as (t2 & E2 & A & [B C]).
  rewrite E in E2. injection E2 as <-. split; [apply A|]. split; auto.
Qed.
Print Assumptions C10_frame_tables_characterised.

(** C11: saving the (possibly filtered) observations and loading them into a fresh
    calibration. *)
Theorem C11_save_then_load : forall (pt : Type) nc nb (ins : list (insertion pt)) t0 t,
  Forall (known nc nb) ins -> insert_all (init_tables nc nb) ins = Some t0 -> refined t0 t ->
  (forall c, (0 <= c < Z.of_nat nc)%Z -> exists i, In i ins /\ i_cam i = c) ->
  exists t', loadDetectedKeypoints (saveDetectedKeypoints t) nc (init_tables nc nb) = Loaded t' /\
    (forall k, filter (about k) (all_said t') = filter (about k) (all_said t)) /\
    Permutation (all_said t') (all_said t) /\
    (forall c, image_size t' c = image_size t c) /\
    (forall c f, (exists s, In s (all_said t) /\ fst (fst s) = (c, f)) ->
       recorded_path t' c f = recorded_path t c f) /\
    (exists ins', holds nc nb ins' t').
Proof.
  intros pt nc nb ins t0 t A B C D.
  destruct (save_load nc nb ins t0 t A B C D) as (t' & E & F & G & H & I & (ins' & J & _)).
  exists t'. intuition eauto.
Qed.
Print Assumptions C11_save_then_load.

Theorem C11_camera_without_board_fails_assertion : forall (pt : Type) nc nb (ins : list (insertion pt)) t0 t c,
  Forall (known nc nb) ins -> insert_all (init_tables nc nb) ins = Some t0 -> refined t0 t ->
  (0 <= c < Z.of_nat nc)%Z -> (forall i, In i ins -> i_cam i <> c) ->
  loadDetectedKeypoints (saveDetectedKeypoints t) nc (init_tables nc nb) = AssertFailed.
Proof. intros. eapply load_assert; eauto. Qed.
Print Assumptions C11_camera_without_board_fails_assertion.

(** ** Concrete cases meeting the hypotheses *)
Definition ex_cams : list (list (list (insertion nat))) :=
  [ [ [mkIns 0%Z 0%Z 0%Z [10; 11] [0; 3]%Z "c0f0"; mkIns 0%Z 0%Z 1%Z [12] [5]%Z "c0f0"];
      [mkIns 0%Z 1%Z 1%Z [13; 14] [1; 2]%Z "c0f1"] ];
    [ []; [mkIns 1%Z 1%Z 1%Z [15] [2]%Z "c1f1"] ] ].
Definition ex_sched : list (insertion nat) :=
  [mkIns 0%Z 0%Z 0%Z [10; 11] [0; 3]%Z "c0f0"; mkIns 0%Z 1%Z 1%Z [13; 14] [1; 2]%Z "c0f1";
   mkIns 0%Z 0%Z 1%Z [12] [5]%Z "c0f0"; mkIns 1%Z 1%Z 1%Z [15] [2]%Z "c1f1"].

Example ex_sched_is_run : detection_run ex_cams ex_sched.
Proof.
  exists [firstn 3 ex_sched; skipn 3 ex_sched]. split; [|reflexivity].
  unfold ex_cams, ex_sched. cbn. repeat constructor.
  - apply (il_step [] _ _ [_]). apply (il_step [_] _ _ []). apply (il_step [] _ _ [_]). constructor. repeat constructor.
  - apply (il_step [_] _ _ []). constructor. repeat constructor.
Qed.
Example ex_tasks : forall c ts, nth_error ex_cams c = Some ts -> tasks_of_camera (Z.of_nat c) ts.
Proof.
  intros [|[|[|c]]] ts; cbn; intros [= <-]; intros [|[|[|k]]] task i; cbn; intros [= <-]; cbn;
    intuition (subst; auto).
Qed.
Example ex_known : Forall (known 2 2) (concat (map (@concat _) ex_cams)).
Proof. repeat constructor; cbn; lia. Qed.
(** the numbering really differs between the two schedules *)
Example ex_numbering_differs :
  option_map (fun t => mvals (t_obs t)) (insert_all (init_tables 2 2) (concat (map (@concat _) ex_cams)))
  <> option_map (fun t => mvals (t_obs t)) (insert_all (init_tables 2 2) ex_sched).
Proof. discriminate. Qed.
Example ex_every_camera : forall c, (0 <= c < 2)%Z -> exists i, In i ex_sched /\ i_cam i = c.
Proof.
  intros c H. assert (c = 0 \/ c = 1)%Z as [->| ->] by lia.
  - eexists. split; [left; reflexivity|reflexivity].
  - eexists. split; [do 3 right; left; reflexivity|reflexivity].
Qed.
(** a refinement that drops one corner of the first observation *)
Example ex_refined : exists t0 t, insert_all (init_tables 2 2) ex_sched = Some t0 /\ refined t0 t /\ all_said t <> all_said t0.
Proof.
  destruct (insert_all (init_tables 2 2) ex_sched) as [t0|] eqn:E; [|discriminate].
  exists t0, (mkT (dense (mkObs 0%Z 0%Z 0%Z [11] [3]%Z false :: skipn 1 (map new_obs ex_sched)))
                  (t_cams t0) (t_boards t0) (t_frames t0) (t_camobs t0)).
  cbv in E. injection E as <-.
  split; [reflexivity|]. split; [constructor; reflexivity|]. discriminate.
Qed.
Example ex_camera_missing : forall i, In i (firstn 3 ex_sched) -> i_cam i <> 1%Z.
Proof. cbn. intuition (subst; discriminate). Qed.
