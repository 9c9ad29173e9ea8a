(** More about what enters a calibration: C11 (keypoints files), C12 (identifiers), C40 (lists of one value), C58 (the images). *)
From Coq Require Import List ZArith Lia Reals Lra String Bool.
From Verif Require Import SMap DataModel DataSpec DetectModel DetectSpec DetectProofs BoardModel InputModel InputSpec PropInput AppModel AppSpec PropApp.
From Verif Require AppExample.
Import ListNotations.
Close Scope R_scope.
Open Scope nat_scope.
Open Scope string_scope.

(** * C11: which keypoints files are taken *)
(** five lists of the same length, and not empty *)
Definition complete {A} (k : kpnode A) : Prop :=
  exists n, 0 < n /\ List.length (k_frames k) = n /\ List.length (k_paths k) = n /\ List.length (k_boards k) = n /\ List.length (k_pts k) = n /\ List.length (k_ids k) = n.
Lemma load_camera_complete (A : Type) file (t : tables A) c :
  (forall t', load_camera file t c = Loaded t' -> exists k, mfind c file = Some k /\ complete k) /\
  (forall k, mfind c file = Some k -> complete k -> load_camera file t c <> AssertFailed).
Proof.
  unfold load_camera. split.
  - intros t' H. destruct (mfind c file) as [k|]; [|discriminate H]. exists k. split; [reflexivity|].
    destruct (negb _ && _ && _ && _ && _) eqn:E; [|discriminate H]. rewrite !andb_true_iff, negb_true_iff, !Nat.eqb_eq, Nat.eqb_neq in E. exists (List.length (k_frames k)). lia.
  - intros k -> (n & N & L1 & L2 & L3 & L4 & L5). rewrite L1, L2, L3, L4, L5, !Nat.eqb_refl. destruct (Nat.eqb_spec n 0); [lia|]. cbn [negb andb]. destruct (insert_all _ _); discriminate.
Qed.
(** A keypoints file is taken only if it has, for every camera, five lists of the same length that is not 0; if it has, no assertion fails. *)
Theorem C11_which_files_are_loaded : forall (A : Type) file nc (t : tables A),
  (forall t', loadDetectedKeypoints file nc t = Loaded t' -> forall c, (0 <= c < Z.of_nat nc)%Z -> exists k, mfind c file = Some k /\ complete k) /\
  ((forall c, (0 <= c < Z.of_nat nc)%Z -> exists k, mfind c file = Some k /\ complete k) -> loadDetectedKeypoints file nc t <> AssertFailed).
Proof.
  intros A file nc. unfold loadDetectedKeypoints.
  assert (G : forall cs t, (forall t', DataModel.load_cameras file t cs = Loaded t' -> forall c, In c cs -> exists k, mfind c file = Some k /\ @complete A k) /\
     ((forall c, In c cs -> exists k, mfind c file = Some k /\ @complete A k) -> DataModel.load_cameras file t cs <> AssertFailed)).
  { induction cs as [|c cs IH]; intros t; cbn [DataModel.load_cameras]; [split; [intros _ _ c []|discriminate]|]. destruct (load_camera_complete A file t c) as (P & Q). split.
    - intros t' H d [<-|Hd]; destruct (load_camera file t c) as [t1| |] eqn:E; try discriminate H; [exact (P _ eq_refl)|exact (proj1 (IH t1) t' H d Hd)].
    - intros H. destruct (H c (or_introl eq_refl)) as (k & K & CK). specialize (Q k K CK). destruct (load_camera file t c) as [t1| |]; [|congruence|discriminate].
      apply IH. intros d Hd. apply H. right. exact Hd. }
  intros t. destruct (G (map Z.of_nat (seq 0 nc)) t) as (P & Q). split.
  - intros t' H c Hc. apply (P t' H). apply in_map_iff. exists (Z.to_nat c). rewrite in_seq. lia.
  - intros H. apply Q. intros c Hc. apply in_map_iff in Hc as (k & <- & Hk). apply in_seq in Hk. apply H. lia.
Qed.
Print Assumptions C11_which_files_are_loaded.
(** A file for one camera is taken; without the list of the boards it is not. *)
Example C11_which_files_example :
  let k := mkKp 640 480 [0; 1]%Z ["a"; "b"] [0; 0]%Z [[7]; [8; 9]] [[2]; [0; 1]]%Z in
  complete k /\ (exists t', loadDetectedKeypoints [(0%Z, k)] 1 (init_tables 1 1) = Loaded t') /\
  loadDetectedKeypoints [(0%Z, mkKp 640 480 (k_frames k) (k_paths k) [] (k_pts k) (k_ids k))] 1 (init_tables 1 1) = AssertFailed.
Proof. cbv zeta. split; [exists 2; cbn; lia|]. split; [eexists; reflexivity|reflexivity]. Qed.

(** * C12: only corners of the board are stored *)
Theorem C12_stored_identifiers_are_corners : forall cfg gray b corners ids c d,
  detect_board cfg gray b corners ids = Stored c d -> valid_ids b d /\ (4 < List.length c)%nat /\ c = final_corners cfg gray corners.
Proof.
  intros cfg gray b corners ids c d. unfold detect_board. destruct (Z.ltb _ _); [|discriminate]. destruct (_ && existsb _ _); [discriminate|].
  destruct (board_points b ids) as [ob|] eqn:E; [|discriminate]. destruct (Rltb _ _ && Nat.ltb 4 _) eqn:E4; [|discriminate]. intros [= <- <-].
  apply andb_prop in E4 as (_ & E4). apply Nat.ltb_lt in E4. split; [|split; [exact E4|reflexivity]].
  unfold valid_ids. apply Forall_forall. intros i Hi. destruct (Z_lt_dec i 0) as [N|N]; [|destruct (Z_lt_dec i (Z.of_nat (List.length (db_pts b)))) as [M|M]; [lia|]];
    (rewrite board_points_bad in E; [discriminate E|]; intros V; unfold valid_ids in V; rewrite Forall_forall in V; specialize (V i Hi); lia).
Qed.
Print Assumptions C12_stored_identifiers_are_corners.

(** * C40: a single value where a list is expected is a list of one *)
Theorem C40_a_single_value_is_a_list : forall f,
  (forall k get, In (k, get) int_list_settings -> forall z, says f k (NInt z) -> get (read_config f) = [z]) /\
  (forall k get, In (k, get) real_list_settings -> forall x, says f k (NReal x) -> get (read_config f) = [x]).
Proof.
  intros f. split; intros k get H v S; apply says_key in S; (repeat (destruct H as [[= <- <-]|H]; [cbn; rewrite S; reflexivity|])); destruct H.
Qed.
Print Assumptions C40_a_single_value_is_a_list.
Example C40_a_single_value_example : g_boards_index (cf_boards (read_config [("number_board", NInt 3); ("boards_index", NInt 2)])) = [2%Z].
Proof. apply (proj1 (C40_a_single_value_is_a_list [("number_board", NInt 3); ("boards_index", NInt 2)]) "boards_index" (fun c => g_boards_index (cf_boards c)) (or_introl eq_refl)). exists [("number_board", NInt 3)], []. split; [reflexivity|]. cbn. intros [H|[]]. discriminate H. Qed.

(** * C58: what is taken from the images *)
Lemma interleave_in {A} (ts : list (list A)) l : interleave ts l -> forall x, In x l -> exists t, In t ts /\ In x t.
Proof.
  induction 1 as [ts N|ts1 x t ts2 l IL IH]; intros y Hy; [destruct Hy|]. destruct Hy as [<-|Hy]; [exists (x :: t)%list; split; [apply in_or_app; right; left; reflexivity|left; reflexivity]|].
  destruct (IH y Hy) as (u & Hu & Hin). apply in_app_or in Hu as [Hu|[<-|Hu]]; [exists u|exists (x :: t)%list|exists u]; (split; [apply in_or_app|]); cbn; auto.
Qed.
(** If the corners are not read from a file, every board that enters the calibration was found in a readable image: the image with the number of the frame in the
    folder of the camera, with the identifiers that the library found for that board, at least five of them; and its corners are exactly those that the library found
    if refine_corner is 0, and those moved by the refinement with a window of 5 and at most 20 steps if it is not. *)
Theorem C58_boards_come_from_the_images : forall w L path s ins i,
  snd (construct w path) = Some s -> load_keypoints (w_exists w (su_made s)) (su_conf s) = false -> entering w L s ins -> In i ins ->
  let c := read_config (w_config w path) in let img := w_image w (i_path i) in
  exists cam frame b, i_cam i = Z.of_nat cam /\ i_frame i = Z.of_nat frame /\ i_board i = Z.of_nat b /\ cam < su_nc s /\ b < List.length (su_boards s) /\
    numbered_file (w_ls w (path_join (cf_root c) (cf_prefix c) ++ number3 (cam + 1))) frame (i_path i) /\ cn_ok img = true /\
    i_ids i = snd (cn_det img b) /\ 4 < List.length (i_pts i) /\
    (says (w_config w path) "refine_corner" (NInt 0) -> i_pts i = fst (cn_det img b)) /\
    (forall z, z <> 0%Z -> says (w_config w path) "refine_corner" (NInt z) ->
       i_pts i = apply_refined (fst (cn_det img b)) (saddle_refine (cn_gray img) 5 (lb_fit L) 20 (fst (cn_det img b)))).
Proof.
  intros w L path s ins i Es Ek En Hi. cbv zeta. destruct (C58_set_up_as_configured w path s Es) as (Ec & _). cbv zeta in Ec.
  unfold entering in En. rewrite Ek in En. destruct En as (cams & Ed & ss & F & ->). destruct (C43_images_and_frames _ _ _ _ _ _ Ed) as (Ln & Q). rewrite Ec in Q.
  apply in_concat in Hi as (l & Hl & Hi).
  assert (P : exists cam ts, nth_error cams cam = Some ts /\ interleave ts l).
  { clear -F Hl. induction F as [|ts l' cams ss IL F IH]; [destruct Hl|]. destruct Hl as [-> |Hl]; [exists 0, ts; auto|]. destruct (IH Hl) as (c & u & A & B). exists (S c), u. auto. }
  destruct P as (cam & ts & Hts & IL). destruct (interleave_in _ _ IL i Hi) as (t & Ht & Hit). destruct (In_nth_error _ _ Ht) as (f & Hf).
  destruct (Q cam ts Hts) as (_ & Qf). destruct (Qf f t Hf) as (p & Np & Di & Qi). destruct (Qi i Hit) as (C1 & C2 & C3). rewrite C3.
  destruct (cn_ok (w_image w p)) eqn:Eo; [|unfold detect_image in Di; injection Di as <-; destruct Hit].
  destruct (detect_image_main _ _ _ _ _ _ _ Di) as (_ & M1 & M2). destruct (M1 i Hit) as (_ & _ & _ & Bi). set (b := Z.to_nat (i_board i)).
  assert (Bb : i_board i = Z.of_nat b) by (unfold b; lia). cbn [su_det dc_boards] in Bi. rewrite map_length in Bi.
  destruct (nth_error (dc_boards (su_det L s)) b) as [B|] eqn:EB; [|apply nth_error_None in EB; cbn [su_det dc_boards] in EB; rewrite map_length in EB; lia].
  assert (Hin : In (mkIns (Z.of_nat cam) (Z.of_nat f) (Z.of_nat b) (i_pts i) (i_ids i) p) t) by (rewrite <- C1, <- C2, <- C3, <- Bb; destruct i; exact Hit).
  apply (M2 b B _ _ EB) in Hin. destruct (C12_stored_identifiers_are_corners _ _ _ _ _ _ _ Hin) as (V & L4 & Ef).
  exists cam, f, b. split; [exact C1|]. split; [exact C2|]. split; [exact Bb|]. split; [rewrite <- Ln; apply nth_error_Some; congruence|]. split; [lia|]. split; [exact Np|]. split; [reflexivity|].
  split. { unfold detect_board in Hin. destruct (Z.ltb _ _); [|discriminate Hin]. destruct (_ && existsb _ _); [discriminate Hin|]. destruct (board_points _ _); [|discriminate Hin]. destruct (_ && _); [|discriminate Hin]. injection Hin as _ <-. reflexivity. }
  split; [exact L4|]. unfold final_corners in Ef. cbn [su_det dc_refine dc_window dc_fit dc_max_iter] in Ef. rewrite Ec in Ef.
  assert (R : forall z, says (w_config w path) "refine_corner" (NInt z) -> cf_refine_corner (read_config (w_config w path)) = negb (Z.eqb z 0)).
  { intros z S. apply says_key in S. unfold read_config. cbn [cf_refine_corner]. rewrite S. reflexivity. }
  split.
  - intros S. rewrite (R _ S) in Ef. exact Ef.
  - intros z Hz S. rewrite (R _ S) in Ef. destruct (Z.eqb_spec z 0); [contradiction|]. exact Ef.
Qed.
Print Assumptions C58_boards_come_from_the_images.
(** One image of camera 0, in which five corners of the only board are found. *)
Definition picture_config : cfile :=
  [ ("number_camera", NInt 1); ("number_board", NInt 1); ("number_x_square", NInt 4); ("number_y_square", NInt 4); ("square_size", NInt 1); ("length_square", NInt 2); ("length_marker", NInt 1);
    ("refine_corner", NInt 0); ("min_perc_pts", NReal (1 / 3)); ("distortion_model", NInt 0); ("root_path", NStr "data/"); ("cam_prefix", NStr "Cam_"); ("save_path", NStr "out") ].
Definition picture_pts : list pt2 := [(5, 5); (6, 6); (7, 7); (8, 8); (9, 9)]%R.
Definition picture_world : world :=
  mkWorld (fun _ p => String.eqb p "conf.yml") (fun _ _ => true) (fun _ _ => true) (fun _ => picture_config) (fun _ => []) (fun _ => [])
    (fun d => if String.eqb d "data/Cam_001" then ["data/Cam_001/notes.txt"; "data/Cam_001/a.png"] else [])
    (fun _ => mkCont true (mkImg 20 20 (fun c _ => IZR c)) (fun _ => (picture_pts, AppExample.grid_ids))).
Definition picture_libs (svd : (nat -> nat -> R) -> GeomModel.quat) : libs :=
  let g := AppExample.grid_libs svd (CameraModel.I9 0 0 0 0 0 0 0 0 0)%R in
  mkLibs (lb_svd g) (lb_lr g) (lb_pick g) (lb_g0 g) (lb_solve g) (lb_env g) (lb_pose0 g) (lb_handeye g) (lb_shuffle g) (lb_cvcal g) (lb_fit g) (fun _ => (1, 0, 0, 0)%R) (lb_sched g) (lb_p0 g) (lb_gp0 g) (lb_empty g).
Definition picture_ins : insertion pt2 := mkIns 0 0 0 picture_pts AppExample.grid_ids "data/Cam_001/a.png".
Lemma picture_board : map (fun q : R * R * R => fst q) (board_pts 4 4 1) = map (fun xy : Z * Z => (IZR (fst xy), IZR (snd xy))) [(0, 0); (1, 0); (2, 0); (0, 1); (1, 1); (2, 1); (0, 2); (1, 2); (2, 2)]%Z.
Proof. unfold board_pts. change (Z.to_nat (4 - 1)) with 3. cbn [map flat_map seq app fst snd]. repeat (apply f_equal2; [apply f_equal2; cbn; ring|]). reflexivity. Qed.
Example C58_boards_come_from_the_images_example : forall svd, exists s,
  snd (construct picture_world "conf.yml") = Some s /\ load_keypoints (w_exists picture_world (su_made s)) (su_conf s) = false /\ entering picture_world (picture_libs svd) s [picture_ins] /\ says (w_config picture_world "conf.yml") "refine_corner" (NInt 0).
Proof.
  intros svd. eexists. split; [apply AppExample.construct_ok; [reflexivity|reflexivity|reflexivity|apply AppExample.small_all; repeat constructor|reflexivity]|]. split; [reflexivity|]. split.
  2: { eexists (firstn 7 picture_config), (skipn 8 picture_config). split; [reflexivity|]. cbn. intros H. repeat (destruct H as [H|H]; [discriminate H|]). destruct H. }
  unfold entering. match goal with |- context [if ?b then _ else _] => change b with false end. cbv iota. exists [[[picture_ins]]]. split.
  2: { exists [[picture_ins]]. split; [|reflexivity]. constructor; [|constructor]. apply (il_step [] picture_ins [] []). apply il_done. repeat constructor. }
  set (cfg := su_det _ _). match goal with |- detectBoards _ ?a ?b ?p ?n = _ => change p with "data/Cam_"; change n with 1 end. unfold detectBoards. cbn [seq map].
  change (camera_files (w_ls picture_world) (w_image picture_world) "data/Cam_" 0) with [mkFile true (mkImg 20 20 (fun c _ => IZR c)) "data/Cam_001/a.png" (fun _ => (picture_pts, AppExample.grid_ids))].
  cbn [camera_tasks fl_ok fl_gray fl_path fl_det]. unfold detect_image. assert (Db : dc_boards cfg = [mkDB (map (fun q => fst q) (board_pts 4 4 1)) 9 1]) by reflexivity. rewrite Db, picture_board. cbn [detect_boards fst snd].
  set (B := mkDB _ _ _).
  assert (E : detect_board cfg (mkImg 20 20 (fun c _ => IZR c)) B picture_pts AppExample.grid_ids = Stored picture_pts AppExample.grid_ids).
  { unfold detect_board. change (dc_refine cfg) with false. change (dc_min_perc cfg) with (1 / 3)%R. cbn [db_nb_pts B andb]. cbv zeta iota.
    assert (N := nearest_round (1 / 3 * 9)%R). destruct (Z.ltb_spec (round_half_up (1 / 3 * 9)%R) (Z.of_nat (List.length picture_pts))) as [_|M].
    2: { exfalso. unfold nearest in N. cbn in M. apply IZR_le in M. lra. }
    assert (P : board_points B AppExample.grid_ids = Some [(IZR 0, IZR 0); (IZR 1, IZR 0); (IZR 0, IZR 1); (IZR 2, IZR 1); (IZR 1, IZR 2)]) by reflexivity.
    rewrite P. change (dc_fit_line cfg) with (fun _ : list pt2 => (1, 0, 0, 0)%R). cbn [db_square B].
    assert (Q : Rltb (1 * (1 / 10)) (line_residual (1, 0, 0, 0)%R [(IZR 0, IZR 0); (IZR 1, IZR 0); (IZR 0, IZR 1); (IZR 2, IZR 1); (IZR 1, IZR 2)]) = true).
    { apply Rltb_true. unfold line_residual. cbn [map fold_left fst snd List.length].
      replace (0 * 0 + 0 * - (1) + (1 * 0 - 0 * 0))%R with 0%R by ring. replace (1 * 0 + 0 * - (1) + (1 * 0 - 0 * 0))%R with 0%R by ring. replace (0 * 0 + 1 * - (1) + (1 * 0 - 0 * 0))%R with (-1)%R by ring.
      replace (2 * 0 + 1 * - (1) + (1 * 0 - 0 * 0))%R with (-1)%R by ring. replace (1 * 0 + 2 * - (1) + (1 * 0 - 0 * 0))%R with (-2)%R by ring.
      rewrite Rabs_R0, !Rabs_left by lra. cbn [INR]. lra. }
    rewrite Q. reflexivity. }
  rewrite E. reflexivity.
Qed.
Print Assumptions C58_boards_come_from_the_images_example.
