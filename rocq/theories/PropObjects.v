(** C17, C22, C24, C26, C27, C28: 3D objects and their observations. *)
From Coq Require Import String List ZArith QArith Lia Reals Lra Permutation Sorted Relations.
From Verif Require Import SMap GraphModel GraphSpec GraphDijkstra GraphPath DataModel DataSpec DataProofs DetectModel DetectSpec RansacModel RansacSpec RansacProofs
  GeomModel GeomSpec GeomProofs ChainModel ChainSpec ChainProofs
  ObjectsModel ObjectsSpec ObjectsProofs ObjectsSave ObjectsBuild ObjectsMerge ObjectsObs GroupModel GroupSpec GroupProofs GroupMerge StageModel StageSpec StageProofs StageMain StageCams StageMerge
  PipelineModel PipelineSpec PipelineProofs ObjectsMain EstimateAll.
Import ListNotations.
Close Scope Q_scope.
Close Scope R_scope.
Open Scope nat_scope.

(** ** C22 *)

(** Detected boards at fixed places W b in the world, camera c at frame f seeing the
    world at X c f, exact board poses: object construction succeeds, every observed board
    is in an object, and every object is geometrically right - every board has its pose
    relative to the reference board, every point is where the corner of its board is. *)
Theorem C22_boards_are_chained_consistently :
  forall (pt : Type) svd lr uq pick g0, good_heap pick -> svd_ok svd -> log_ok lr ->
  forall (bpts : Z -> list vec3) nc nb (ins : list (insertion pt)) t, after_detection nc nb ins t ->
  forall W X bp, exact_boards t W X bp ->
  exists objs, objects_stage svd lr uq pick g0 bpts t bp = Some objs /\
    (forall b, (exists n o, obs_at t n o /\ o_board o = b) <-> exists k o, In (k, o) objs /\ In b (mkeys (ob_boards o))) /\
    forall k o, In (k, o) objs -> true_object bpts W o.
Proof. intros pt svd lr uq pick g0 H1 H2 H3 bpts nc nb ins t AD W X bp. eapply stage_true; eauto. Qed.
Print Assumptions C22_boards_are_chained_consistently.

(** Merging objects, at any time of the calibration: right objects and exact poses of the
    objects in the group observations give right merged objects. *)
Theorem C22_merging_objects_is_consistent :
  forall (pt : Type) svd lr uq pick g0, good_heap pick -> svd_ok svd -> log_ok lr ->
  forall (bpts : Z -> list vec3) nc nb (ins : list (insertion pt)) t, after_detection nc nb ins t -> paired t ->
  forall s, reached svd lr uq pick g0 bpts t s ->
  forall W X gp, (forall b, rigid (W b)) -> (forall k, rigid (X k)) ->
  (forall k o, In (k, o) (ca_objs s) -> true_object bpts W o) ->
  (forall k go j o, mfind k (gt_obs (ca_gobs s)) = Some go -> In j (go_ids go) -> mfind j (ca_objs s) = Some o ->
     gp k j = pmul (X k) (W (ob_ref o))) ->
  exists objs, merge_stage svd lr uq pick g0 bpts (ca_objs s) (ca_oobs s) (ca_gobs s) gp = Some objs /\
    forall k o, In (k, o) objs -> true_object bpts W o.
Proof. intros pt svd lr uq pick g0 H1 H2 H3 bpts nc nb ins t AD Hp s Rd W X gp. eapply merge_true; eauto. Qed.
Print Assumptions C22_merging_objects_is_consistent.

(** ** C24 *)

(** When they are made, at every later point of the calibration: the reference board of
    an object is one of its boards, the one with the smallest index, with pose identity;
    likewise the reference camera of a group. *)
Theorem C24_reference_board_is_the_origin :
  forall (pt : Type) svd lr uq pick g0, good_heap pick ->
  forall (bpts : Z -> list vec3) nc nb (ins : list (insertion pt)) t, after_detection nc nb ins t -> paired t ->
  forall s, reached svd lr uq pick g0 bpts t s ->
  forall k o, In (k, o) (ca_objs s) -> origin_ok o.
Proof.
  intros pt svd lr uq pick g0 Hh bpts nc nb ins t AD Hp s Rd k o H.
  destruct (reached_objects svd lr uq pick g0 Hh bpts nc nb ins t AD Hp s k o Rd H) as (bs & _ & O). auto.
Qed.
Print Assumptions C24_reference_board_is_the_origin.
Theorem C24_reference_camera_is_the_origin :
  forall (pt : Type) svd lr uq pick g0, good_heap pick ->
  forall (bpts : Z -> list vec3) nc nb (ins : list (insertion pt)) t, after_detection nc nb ins t -> paired t ->
  forall s, reached svd lr uq pick g0 bpts t s ->
  forall k G, In (k, G) (ca_groups s) -> group_origin G.
Proof.
  intros pt svd lr uq pick g0 Hh bpts nc nb ins t AD Hp s Rd k o H.
  destruct (reached_groups svd lr uq pick g0 Hh bpts nc nb ins t AD Hp s k o Rd H) as (bs & _ & O). auto.
Qed.
Print Assumptions C24_reference_camera_is_the_origin.
(** before any refinement *)
Theorem C24_first_objects :
  forall (pt : Type) svd lr uq pick g0, good_heap pick ->
  forall (bpts : Z -> list vec3) nc nb (ins : list (insertion pt)) t, after_detection nc nb ins t ->
  forall bp, exists objs, objects_stage svd lr uq pick g0 bpts t bp = Some objs /\ forall k o, In (k, o) objs -> origin_ok o.
Proof.
  intros pt svd lr uq pick g0 Hh bpts nc nb ins t AD bp.
  destruct (objects_stage_main nc nb ins t AD svd lr uq pick g0 Hh bpts bp) as (ol & bss & E & OK & _). exists (dense ol). split; [auto|].
  intros k o H. apply dense_In in H as (i & -> & H). eapply ok_or; eauto.
Qed.
Print Assumptions C24_first_objects.

(** ** C26 *)

(** At every point of the calibration the corner numbers of every object are a bijection
    between its boards' corners and 0 .. nb_pts-1, and the file that save3DObj writes has
    one column per corner of the object, each corner once, with the 3D point that has the
    corner's number: the corner moved by its board's pose. *)
Theorem C26_numbering_is_a_bijection :
  forall (pt : Type) svd lr uq pick g0, good_heap pick ->
  forall (bpts : Z -> list vec3) nc nb (ins : list (insertion pt)) t, after_detection nc nb ins t -> paired t ->
  forall s, reached svd lr uq pick g0 bpts t s ->
  forall k o, In (k, o) (ca_objs s) -> numbered bpts o.
Proof.
  intros pt svd lr uq pick g0 Hh bpts nc nb ins t AD Hp s Rd k o H.
  destruct (reached_objects svd lr uq pick g0 Hh bpts nc nb ins t AD Hp s k o Rd H) as (bs & W & _).
  eapply well_built_numbered; eauto.
Qed.
Print Assumptions C26_numbering_is_a_bijection.
Theorem C26_saved_objects_are_complete :
  forall (pt : Type) svd lr uq pick g0, good_heap pick ->
  forall (bpts : Z -> list vec3) nc nb (ins : list (insertion pt)) t, after_detection nc nb ins t -> paired t ->
  forall s, reached svd lr uq pick g0 bpts t s ->
  forall i o, In (i, o) (ca_objs s) ->
  exists cols, save3DObj bpts o = Some cols /\ length cols = ob_nb_pts o /\
    NoDup (map (fun c => (snd (fst c), snd c)) cols) /\
    (forall b k, In (b, k) (map (fun c => (snd (fst c), snd c)) cols) <->
                 In b (mkeys (ob_boards o)) /\ (0 <= k < Z.of_nat (length (bpts b)))%Z) /\
    forall p b k, In (p, b, k) cols ->
      exists n P q, mfind (b, k) (ob_b2o o) = Some (Z.of_nat n) /\ nth_error (ob_pts o) n = Some p /\
        mfind b (ob_poses o) = Some P /\ nth_error (bpts b) (Z.to_nat k) = Some q /\ p = pact P q.
Proof.
  intros pt svd lr uq pick g0 Hh bpts nc nb ins t AD Hp s Rd i o H.
  destruct (reached_objects svd lr uq pick g0 Hh bpts nc nb ins t AD Hp s i o Rd H) as (bs & W & _).
  eapply save_main; eauto.
Qed.
Print Assumptions C26_saved_objects_are_complete.

(** ** C27 *)

(** After calibrate3DObjects every board observation with a corner is used by exactly one
    object observation: that of its camera, frame and of the object of its board. *)
Theorem C27_every_observation_is_grouped_once :
  forall (pt : Type) svd lr uq pick g0, good_heap pick ->
  forall (bpts : Z -> list vec3) nc nb (ins : list (insertion pt)) t, after_detection nc nb ins t -> paired t ->
  forall bp rf, keeps_boards rf ->
  exists s, calibrate3DObjects svd lr uq pick g0 bpts t bp rf = Some s /\
  forall n b, obs_at t n b -> o_pts b <> [] ->
  exists oo o, filter (fun oo => existsb (Nat.eqb n) (oo_bobs oo)) (ot_all (ca_oobs s)) = [oo] /\
    oo_cam oo = o_cam b /\ oo_frame oo = o_frame b /\ mfind (oo_obj oo) (ca_objs s) = Some o /\
    In (o_board b) (mkeys (ob_boards o)) /\ gathers t o oo.
Proof.
  intros pt svd lr uq pick g0 Hh bpts nc nb ins t AD Hp bp rf K.
  destruct (calib_ok_start svd lr uq pick g0 Hh bpts nc nb ins t AD Hp bp rf (fun _ => pid) rf (@cg_poses) K K) as (s & _ & _ & _ & _ & _ & E & _).
  { intros G. auto. }
  exists s. split; [auto|]. eapply first_pass_count; eauto.
Qed.
Print Assumptions C27_every_observation_is_grouped_once.

(** Every object observation, at every point of the calibration, consists of the points
    of its board observations, one after the other, and carries for each the number of
    that corner of that board in the object. *)
Theorem C27_points_carry_their_object_numbers :
  forall (pt : Type) svd lr uq pick g0, good_heap pick ->
  forall (bpts : Z -> list vec3) nc nb (ins : list (insertion pt)) t, after_detection nc nb ins t -> paired t ->
  forall s, reached svd lr uq pick g0 bpts t s ->
  forall oo, In oo (ot_all (ca_oobs s)) ->
  exists o l ks, mfind (oo_obj oo) (ca_objs s) = Some o /\
    Forall2 (fun n b => obs_at t n b) (oo_bobs oo) l /\ NoDup (oo_bobs oo) /\
    Forall (fun b => o_cam b = oo_cam oo /\ o_frame b = oo_frame oo /\ In (o_board b) (mkeys (ob_boards o))) l /\
    oo_pts oo = flat_map o_pts l /\
    ks = flat_map (fun b => map (fun k => (o_board b, k)) (o_ids b)) l /\
    length (oo_ids oo) = length ks /\
    forall i z b k, nth_error (oo_ids oo) i = Some z -> nth_error ks i = Some (b, k) ->
      (0 <= k < Z.of_nat (length (bpts b)))%Z ->
      (0 <= z)%Z /\ nth_error (ob_o2b o) (Z.to_nat z) = Some (b, k).
Proof.
  intros pt svd lr uq pick g0 Hh bpts nc nb ins t AD Hp s Rd oo H.
  destruct (reached_ok svd lr uq pick g0 Hh bpts nc nb ins t AD Hp s Rd) as (bss & ol & css & gl & [E1 OK OT Ob Cov E2 GK GT NU CA KE]).
  destruct (Ob oo H) as (i & o & Ho & Ei & G). destruct (nth_error_length_ex ol bss i o (eq_sym (ok_len _ _ _ OK)) Ho) as (bs & Hbs).
  assert (W := ok_wb _ _ _ OK i bs o Hbs Ho).
  destruct (numbers_right bpts t o oo bs W G) as (l & F & P1 & P2 & N).
  exists o, l. eexists. split; [rewrite E1, Ei; apply dense_nth; auto|]. split; [exact F|]. split; [apply G|]. split.
  { assert (Q : forall ns l', Forall2 (fun n b => obs_at t n b) ns l' -> (forall n, In n ns -> In n (oo_bobs oo)) ->
      Forall (fun b => o_cam b = oo_cam oo /\ o_frame b = oo_frame oo /\ In (o_board b) (mkeys (ob_boards o))) l').
    { induction 1 as [|n b ns l' Hn F' IH]; intros I; constructor.
      - assert (U : In n (oo_bobs oo)) by (apply I; left; auto). apply (ga_bobs _ _ _ G) in U as (b' & Hb' & A & B & C).
        unfold obs_at in Hn. assert (b' = b) by congruence. subst. auto.
      - apply IH. intros m Hm. apply I. right. auto. }
    eapply Q; eauto. }
  split; [auto|]. split; [reflexivity|].
  assert (M : oo_ids oo = map (fun e => b2o o (fst e) (snd e)) (flat_map (fun b => map (fun k => (o_board b, k)) (o_ids b)) l)).
  { rewrite P2. clear. induction l as [|b l IH]; cbn; auto. rewrite map_app, <- IH, map_map. f_equal. }
  split; [rewrite M, map_length; auto|]. intros j z b k Hz Hk Hr. rewrite M, nth_error_map, Hk in Hz. cbn in Hz. injection Hz as <-.
  apply nth_error_In in Hk. apply in_flat_map in Hk as (b' & Hb' & Hk). apply in_map_iff in Hk as (k' & Ek & Hk). injection Ek as <- <-.
  apply N; auto.
Qed.
Print Assumptions C27_points_carry_their_object_numbers.

(** ** C28 *)

(** After merge3DObjects every board observation with a corner is used as many times as
    there are objects, by equal object observations: those of its camera, frame and of
    the object of its board. *)
Theorem C28_each_observation_once_per_object :
  forall (pt : Type) svd lr uq pick g0, good_heap pick ->
  forall (bpts : Z -> list vec3) nc nb (ins : list (insertion pt)) t, after_detection nc nb ins t -> paired t ->
  forall s, reached svd lr uq pick g0 bpts t s ->
  forall gp rf rg, keeps_boards rf -> keeps_cams rg ->
  exists s', merge3DObjects svd lr uq pick g0 bpts t gp rf rg s = Some s' /\
  forall n b, obs_at t n b -> o_pts b <> [] ->
  exists oo o, filter (fun oo => existsb (Nat.eqb n) (oo_bobs oo)) (ot_all (ca_oobs s')) = repeat oo (length (ca_objs s')) /\
    oo_cam oo = o_cam b /\ oo_frame oo = o_frame b /\ mfind (oo_obj oo) (ca_objs s') = Some o /\
    In (o_board b) (mkeys (ob_boards o)) /\ gathers t o oo.
Proof.
  intros pt svd lr uq pick g0 Hh bpts nc nb ins t AD Hp s Rd gp rf rg K KG.
  destruct (reached_ok svd lr uq pick g0 Hh bpts nc nb ins t AD Hp s Rd) as (bss & ol & css & gl & CO).
  destruct (merge_keeps_ok svd lr uq pick g0 Hh bpts nc nb ins t AD Hp gp rf rg s bss ol css gl K KG CO) as (s' & _ & _ & _ & _ & _ & E & _).
  exists s'. split; [auto|]. eapply merge_count; eauto.
Qed.
Print Assumptions C28_each_observation_once_per_object.
(** hence exactly once with a single object *)
Theorem C28_once_with_one_object :
  forall (pt : Type) svd lr uq pick g0, good_heap pick ->
  forall (bpts : Z -> list vec3) nc nb (ins : list (insertion pt)) t, after_detection nc nb ins t -> paired t ->
  forall s, reached svd lr uq pick g0 bpts t s ->
  forall gp rf rg s', keeps_boards rf -> keeps_cams rg -> merge3DObjects svd lr uq pick g0 bpts t gp rf rg s = Some s' ->
  length (ca_objs s') = 1 ->
  forall n b, obs_at t n b -> o_pts b <> [] ->
  exists oo, filter (fun oo => existsb (Nat.eqb n) (oo_bobs oo)) (ot_all (ca_oobs s')) = [oo] /\
    oo_cam oo = o_cam b /\ oo_frame oo = o_frame b.
Proof.
  intros pt svd lr uq pick g0 Hh bpts nc nb ins t AD Hp s Rd gp rf rg s' K KG E L n b Hn Hb.
  destruct (merge_count svd lr uq pick g0 Hh bpts nc nb ins t AD Hp gp rf rg s s' Rd K KG E n b Hn Hb) as (oo & o & F & A & B & _).
  rewrite L in F. exists oo. auto.
Qed.
Print Assumptions C28_once_with_one_object.

(** ** Examples *)
Definition five_corners : list pt2 := [(0,0);(11,0);(20,1);(31,1);(42,2)]%R.
Definition five_ids : list Z := [0;1;2;3;4]%Z.
Definition grid (b : Z) : list vec3 := [V3 0 0 0; V3 1 0 0; V3 0 1 0; V3 1 1 0; V3 2 2 0]%R.
Definition run_of (nc nb : nat) (ins : list (insertion pt2)) : tables pt2 :=
  match insert_all (init_tables nc nb) ins with Some t => t | None => init_tables 0 0 end.
Lemma run_after nc nb ins : Forall (known nc nb) ins -> after_detection nc nb ins (run_of nc nb ins).
Proof.
  intros K. split; [auto|]. destruct (insert_all_from_init nc nb ins K) as (t & E & _). exists t. split; auto.
  unfold run_of. rewrite E. constructor; auto.
Qed.

(** board 0 and board 1 in frame 0, board 1 and board 2 in frame 1 of camera 0; boards 2
    and 3 in frame 1 of camera 1; board 4 in frame 2 of camera 1 *)
Definition ex_ins : list (insertion pt2) :=
  [mkIns 0%Z 0%Z 0%Z five_corners five_ids EmptyString; mkIns 0%Z 0%Z 1%Z five_corners five_ids EmptyString;
   mkIns 0%Z 1%Z 1%Z five_corners five_ids EmptyString; mkIns 0%Z 1%Z 2%Z five_corners five_ids EmptyString;
   mkIns 1%Z 1%Z 2%Z five_corners five_ids EmptyString; mkIns 1%Z 1%Z 3%Z five_corners five_ids EmptyString;
   mkIns 1%Z 2%Z 4%Z five_corners five_ids EmptyString].
Definition ex_t : tables pt2 := run_of 2 5 ex_ins.
Example ex_known : Forall (known 2 5) ex_ins.
Proof. unfold ex_ins. repeat constructor; cbn; lia. Qed.
Example ex_after : after_detection 2 5 ex_ins ex_t.
Proof. apply run_after, ex_known. Qed.
Example ex_paired : paired ex_t.
Proof. intros b H. vm_compute in H. repeat (destruct H as [<-|H]; [reflexivity|]). destruct H. Qed.
Definition turn : mat3 := (M3 0 (-1) 0 1 0 0 0 0 1)%R.
Lemma turn_rotation : rotation turn.
Proof. unfold rotation, turn. split; unfold mm, mtr, mid, det; cbn; [f_equal; ring|ring]. Qed.
Definition ex_W (b : Z) : pose := (turn, V3 (IZR b) 0 1).
Definition ex_X (c f : Z) : pose := (mid, V3 (IZR c) (IZR f) 5).
Definition ex_bp (n : nat) : pose :=
  match nth_error (mvals (t_obs ex_t)) n with Some o => pmul (ex_X (o_cam o) (o_frame o)) (ex_W (o_board o)) | None => pid end.
Example ex_exact : exact_boards ex_t ex_W ex_X ex_bp.
Proof.
  split; [intros b; apply turn_rotation|]. split; [intros c f; apply rot_id|].
  intros n o H. unfold ex_bp. unfold obs_at in H. rewrite H. auto.
Qed.
Example keep_boards : keeps_boards ob_poses. Proof. intros o. auto. Qed.
Example keep_cams : keeps_cams cg_poses. Proof. intros o. auto. Qed.
(** reached states exist from any detections, before and after merging *)
Example C24_reached_exists : forall svd lr uq,
  exists s s', reached svd lr uq pick_first empty_graph grid ex_t s /\ reached svd lr uq pick_first empty_graph grid ex_t s' /\
    merge3DObjects svd lr uq pick_first empty_graph grid ex_t (fun _ _ => pid) ob_poses cg_poses s = Some s'.
Proof.
  intros svd lr uq. destruct (calib_ok_start svd lr uq pick_first empty_graph pick_first_good grid 2 5 ex_ins ex_t ex_after ex_paired
    ex_bp ob_poses (fun _ => pid) ob_poses cg_poses keep_boards keep_boards keep_cams) as (s0 & s & bss & ol & css & gl & E1 & E2 & CO & _).
  destruct (merge_keeps_ok svd lr uq pick_first empty_graph pick_first_good grid 2 5 ex_ins ex_t ex_after ex_paired (fun _ _ => pid) ob_poses cg_poses
    s bss ol css gl keep_boards keep_cams CO) as (s' & _ & _ & _ & _ & _ & E & _).
  assert (Rs : reached svd lr uq pick_first empty_graph grid ex_t s) by (eapply rd_start; eauto using keep_boards, keep_cams).
  exists s, s'. split; [auto|]. split; [|auto]. eapply rd_merge; eauto using keep_boards, keep_cams.
Qed.
(** with exact poses: boards 0-3 in one object (chained by different cameras), board 4 in
    another *)
Example C22_example : forall svd lr uq, svd_ok svd -> log_ok lr ->
  exists objs, objects_stage svd lr uq pick_first empty_graph grid ex_t ex_bp = Some objs /\
    (exists k o, In (k, o) objs /\ In 3%Z (mkeys (ob_boards o))) /\ forall k o, In (k, o) objs -> true_object grid ex_W o.
Proof.
  intros svd lr uq Hs Hl. destruct (C22_boards_are_chained_consistently pt2 svd lr uq pick_first empty_graph pick_first_good Hs Hl
    grid 2 5 ex_ins ex_t ex_after ex_W ex_X ex_bp ex_exact) as (objs & E & C & T).
  exists objs. split; [auto|]. split; [|auto]. apply C. exists 5. eexists. split; reflexivity.
Qed.

(** ** C28 refuted: one camera, two boards never seen together *)
Definition two_ins : list (insertion pt2) :=
  [mkIns 0%Z 0%Z 0%Z five_corners five_ids EmptyString; mkIns 0%Z 1%Z 1%Z five_corners five_ids EmptyString].
Definition two_t : tables pt2 := run_of 1 2 two_ins.
Example two_after : after_detection 1 2 two_ins two_t.
Proof. apply run_after. unfold two_ins. repeat constructor; cbn; lia. Qed.
Theorem C28_observation_duplicated_refuted : forall svd lr uq (bp op : nat -> pose) (gp : Z * Z -> Z -> pose),
  exists (nc nb : nat) (ins : list (insertion pt2)) t s s', after_detection nc nb ins t /\ paired t /\
    reached svd lr uq pick_first empty_graph grid t s /\
    merge3DObjects svd lr uq pick_first empty_graph grid t gp ob_poses cg_poses s = Some s' /\
    exists n b, obs_at t n b /\ o_valid b = true /\ o_pts b <> [] /\
      length (filter (fun oo => existsb (Nat.eqb n) (oo_bobs oo)) (ot_all (ca_oobs s'))) = 2.
Proof.
  intros svd lr uq bp op gp. exists 1, 2, two_ins, two_t.
  destruct (calibrate3DObjects svd lr uq pick_first empty_graph grid two_t bp ob_poses) as [s0|] eqn:E0; [|vm_compute in E0; discriminate].
  destruct (calibrateCameraGroup svd lr uq pick_first empty_graph grid two_t op ob_poses cg_poses s0) as [s|] eqn:E1;
    [|vm_compute in E0; injection E0 as <-; vm_compute in E1; discriminate].
  destruct (merge3DObjects svd lr uq pick_first empty_graph grid two_t gp ob_poses cg_poses s) as [s'|] eqn:E2;
    [|vm_compute in E0; injection E0 as <-; vm_compute in E1; injection E1 as <-; vm_compute in E2; discriminate].
  exists s, s'. split; [apply two_after|]. split.
  { intros b H. vm_compute in H. repeat (destruct H as [<-|H]; [reflexivity|]). destruct H. }
  split; [eapply rd_start; eauto using keep_boards, keep_cams|]. split; [auto|].
  exists 0. eexists. split; [reflexivity|]. split; [reflexivity|]. split; [discriminate|].
  vm_compute in E0. injection E0 as <-. vm_compute in E1. injection E1 as <-. vm_compute in E2. injection E2 as <-. reflexivity.
Qed.
Print Assumptions C28_observation_duplicated_refuted.

(** ** C17 *)

(** Estimating the poses of all board observations never gives RANSAC fewer than four
    points: the calls are all defined.  Afterwards every observation has as many corner
    numbers as corners and is marked valid exactly if it has at least four. *)
Theorem C17_board_pose_estimation_is_defined :
  forall (rpose : Type) (env : nat -> rs_env rpose vec3), (forall n, fair_shuffles (env n)) ->
  forall cam (bpts : Z -> list vec3) thresh it nc nb ins t0 pose0,
  Forall (known nc nb) ins -> Forall (detected_well bpts) ins ->
  insert_all (init_tables nc nb) ins = Some t0 ->
  exists t ps, estimatePoseAllBoards env cam bpts pose0 thresh it t0 = Some (t, ps) /\
    after_detection nc nb ins t /\ length ps = length ins /\
    forall o, In o (mvals (t_obs t)) ->
      length (o_pts o) = length (o_ids o) /\
      Forall (fun k => (0 <= k < Z.of_nat (length (bpts (o_board o))))%Z) (o_ids o) /\
      (o_valid o = true <-> 4 <= length (o_pts o)).
Proof.
  intros rpose env Fair cam bpts thresh it nc nb ins t0 pose0 K D E.
  destruct (estimate_all_boards env Fair cam bpts thresh it nc nb ins t0 pose0 K D E) as (t & ps & A & B & _ & C & T).
  exists t, ps. split; [auto|]. split; [auto|]. split; [auto|]. exact T.
Qed.
Print Assumptions C17_board_pose_estimation_is_defined.

(** Object observations: defined exactly if each has at least four points, at every point
    of the calibration ... *)
Theorem C17_object_pose_estimation_defined_iff_enough_points :
  forall (rpose : Type) (env : nat -> rs_env rpose vec3), (forall n, fair_shuffles (env n)) ->
  forall cam (bpts : Z -> list vec3) thresh it, (forall c, cp_model (cam c) = 0 \/ cp_model (cam c) = 1)%Z -> (0 < it)%Z ->
  forall svd lr uq pick g0, good_heap pick ->
  forall nc nb ins (t : tables pt2), after_detection nc nb ins t -> (forall o, In o (mvals (t_obs t)) -> trimmed bpts o) ->
  forall s pose0, reached svd lr uq pick g0 bpts t s \/ (exists bp rf, keeps_boards rf /\ calibrate3DObjects svd lr uq pick g0 bpts t bp rf = Some s) ->
  ((exists ps, estimatePoseAllObjects env cam (ca_objs s) pose0 thresh it (ot_all (ca_oobs s)) = Some ps) <->
   forall oo, In oo (ot_all (ca_oobs s)) -> 4 <= length (oo_pts oo)).
Proof.
  intros rpose env Fair cam bpts thresh it Hm Hit svd lr uq pick g0 Hh nc nb ins t AD TR s pose0 Rd.
  assert (Q : (forall k o, In (k, o) (ca_objs s) -> exists bs, well_built bpts bs o) /\
    (forall oo, In oo (ot_all (ca_oobs s)) -> exists o, mfind (oo_obj oo) (ca_objs s) = Some o /\ gathers t o oo)).
  { destruct Rd as [Rd|(bp & rf & K & E)]; [eapply reached_gathers; eauto|eapply first_gathers; eauto]. }
  eapply estimate_objects; eauto; apply Q.
Qed.
Print Assumptions C17_object_pose_estimation_defined_iff_enough_points.
(** ... in particular if no board observation lost its validity *)
Theorem C17_defined_when_all_observations_are_valid :
  forall (rpose : Type) (env : nat -> rs_env rpose vec3), (forall n, fair_shuffles (env n)) ->
  forall cam (bpts : Z -> list vec3) thresh it, (forall c, cp_model (cam c) = 0 \/ cp_model (cam c) = 1)%Z -> (0 < it)%Z ->
  forall svd lr uq pick g0, good_heap pick ->
  forall nc nb ins (t : tables pt2), after_detection nc nb ins t -> (forall o, In o (mvals (t_obs t)) -> trimmed bpts o) ->
  (forall o, In o (mvals (t_obs t)) -> o_valid o = true) ->
  forall s pose0, reached svd lr uq pick g0 bpts t s \/ (exists bp rf, keeps_boards rf /\ calibrate3DObjects svd lr uq pick g0 bpts t bp rf = Some s) ->
  exists ps, estimatePoseAllObjects env cam (ca_objs s) pose0 thresh it (ot_all (ca_oobs s)) = Some ps.
Proof.
  intros rpose env Fair cam bpts thresh it Hm Hit svd lr uq pick g0 Hh nc nb ins t AD TR V s pose0 Rd.
  eapply C17_object_pose_estimation_defined_iff_enough_points; eauto. intros oo H.
  assert (Q : exists o, gathers t o oo).
  { destruct Rd as [Rd|(bp & rf & K & E)].
    - edestruct reached_gathers as (_ & G); eauto. destruct (G oo H) as (o & _ & G'). eauto.
    - edestruct first_gathers as (_ & G); eauto. destruct (G oo H) as (o & _ & G'). eauto. }
  destruct Q as (o & G). eapply gathers_enough; eauto.
Qed.
Print Assumptions C17_defined_when_all_observations_are_valid.

(** Refuted in general: a pose is a shift in the image, P3P returns the shift of its
    first sample, one trial; the five corners of the only board are shifted differently,
    so outlier removal leaves one of them.  The board observation is marked invalid but
    becomes an object observation, for which RANSAC reads outside its vector. *)
Definition shift_env : rs_env (R * R) vec3 :=
  mkRS (fun _ _ s i _ => match s, i with a :: _, b :: _ => (fst b - vx a, snd b - vy a)%R | _, _ => (0, 0)%R end)
       (fun _ _ _ _ p => p)
       (fun _ _ p s => (vx s + fst p, vy s + snd p)%R) (fun _ _ p => p) (fun _ l => l) (0, 0)%R.
Definition one_cam (c : Z) : cam_par := mkCP (mkK 1 1 0 0) [0;0;0;0;0]%R 0.
Definition one_ins : list (insertion pt2) := [mkIns 0%Z 0%Z 0%Z five_corners five_ids EmptyString].
Lemma far a b : (1 <= (fst a - fst b) ^ 2)%R -> Rltb (repro_error a b) 1 = false.
Proof.
  intros H. unfold Rltb. destruct (Rlt_dec _ _) as [L|]; auto. exfalso. unfold repro_error in L.
  assert (0 <= (snd a - snd b) ^ 2)%R by apply pow2_ge_0.
  assert (Q : (sqrt 1 <= sqrt ((fst a - fst b) ^ 2 + (snd a - snd b) ^ 2))%R) by (apply sqrt_le_1; lra).
  rewrite sqrt_1 in Q. lra.
Qed.
Lemma near a b : a = b -> Rltb (repro_error a b) 1 = true.
Proof.
  intros ->. unfold Rltb. destruct (Rlt_dec _ _) as [L|L]; auto. exfalso. apply L. unfold repro_error.
  match goal with |- (sqrt ?x < _)%R => replace x with 0%R by ring end. rewrite sqrt_0. lra.
Qed.
Lemma one_inlier K D : find_inliers shift_env K D (grid 0) five_corners 1 (0, 0)%R = Some [0].
Proof.
  unfold find_inliers, five_corners, grid. cbn [length Nat.leb seq combine filter rs_project shift_env vx vy fst snd].
  rewrite near by (f_equal; ring). rewrite !far by (cbn [fst snd]; lra). reflexivity.
Qed.
Theorem C17_too_few_points_refuted : forall svd lr uq bp pose0,
  exists (env : nat -> rs_env (R * R) vec3) cam thresh it nc nb ins t0 t ps s,
    (forall n, fair_shuffles (env n)) /\ (0 < it)%Z /\ Forall (known nc nb) ins /\ Forall (detected_well grid) ins /\
    insert_all (init_tables nc nb) ins = Some t0 /\
    estimatePoseAllBoards env cam grid pose0 thresh it t0 = Some (t, ps) /\
    calibrate3DObjects svd lr uq pick_first empty_graph grid t bp ob_poses = Some s /\
    estimatePoseAllObjects env cam (ca_objs s) pose0 thresh it (ot_all (ca_oobs s)) = None.
Proof.
  intros svd lr uq bp pose0.
  set (t := mkT (dense [mkObs 0 0 0 [(0, 0)]%R [0]%Z false]) (t_cams (run_of 1 1 one_ins)) (t_boards (run_of 1 1 one_ins))
                (t_frames (run_of 1 1 one_ins)) (t_camobs (run_of 1 1 one_ins)) : tables pt2).
  exists (fun _ => shift_env), one_cam, 1%R, 1%Z, 1, 1, one_ins, (run_of 1 1 one_ins), t, [(0, 0)%R].
  destruct (calibrate3DObjects svd lr uq pick_first empty_graph grid t bp ob_poses) as [s|] eqn:E; [|vm_compute in E; discriminate].
  exists s. split; [intros n k l; apply Permutation_refl|]. split; [lia|]. split; [unfold one_ins; repeat constructor; cbn; lia|].
  split. { constructor; [|constructor]. split; [reflexivity|]. split; [cbn; lia|]. cbn. repeat constructor; lia. }
  split; [reflexivity|]. split; [|split; [reflexivity|]].
  - unfold estimatePoseAllBoards. replace (mvals (t_obs (run_of 1 1 one_ins))) with [mkObs 0 0 0 five_corners five_ids true] by reflexivity.
    cbn [mapi map collect]. unfold boardobs_estimatePose. replace (collect (map (zget (grid 0)) five_ids)) with (Some (grid 0)) by reflexivity.
    cbn [o_ids o_board o_cam o_frame o_pts o_valid].
    replace (collect (map (zget (grid 0)) five_ids)) with (Some (grid 0)) by reflexivity.
    unfold ransacP3PDistortion. cbn [one_cam cp_model Z.eqb]. unfold ransacP3P.
    change (Z.to_nat 1) with 1. cbn [ransac_loop s_trial s_N Z.ltb Z.compare]. unfold ransac_step.
    cbn [rs_shuffle shift_env s_iter s_vec s_cur]. change (first_four (seq 0 (length five_corners))) with (Some [0;1;2;3]).
    cbn [rs_shuffle shift_env]. 
    set (s4 := RansacModel.pick (grid 0) [0;1;2;3]). set (i4 := RansacModel.pick five_corners [0;1;2;3]).
    assert (E4 : s4 = Some (firstn 4 (grid 0))) by reflexivity. assert (F4 : i4 = Some (firstn 4 five_corners)) by reflexivity.
    rewrite E4, F4. cbn [rs_p3p].
    replace (rs_p3p shift_env (cp_K (one_cam 0)) (cp_D (one_cam 0)) (firstn 4 (grid 0)) (firstn 4 five_corners) (rs_uninit shift_env)) with (0, 0)%R
      by (cbn; f_equal; ring).
    rewrite one_inlier. reflexivity.
  - vm_compute in E. injection E as <-. vm_compute. reflexivity.
Qed.
Print Assumptions C17_too_few_points_refuted.

(** the hypotheses of the positive statements are met, e.g. by the detections above *)
Example C17_detected_well : Forall (detected_well grid) ex_ins.
Proof. unfold ex_ins, detected_well. repeat constructor; cbn; try lia. Qed.
Example C17_valid_run : (forall o, In o (mvals (t_obs ex_t)) -> trimmed grid o) /\ forall o, In o (mvals (t_obs ex_t)) -> o_valid o = true.
Proof.
  split; intros b H; vm_compute in H; repeat (destruct H as [<-|H]; [|]); try destruct H; try reflexivity;
  (split; [reflexivity|]; split; [repeat constructor; cbn; lia|]; cbn; split; auto; intros; lia).
Qed.
