(** C40 (configuration) and C43 (image files). *)
From Coq Require Import List ZArith Lia Reals Lra String Ascii DecimalString DecimalNat Bool.
From Verif Require Import SMap DataModel DetectModel DetectSpec DetectProofs RansacModel BoardModel InputModel InputSpec PropDetect.
Import ListNotations.
Close Scope R_scope.
Open Scope nat_scope.
Open Scope string_scope.

(** * C40 *)
Lemma says_key : forall f k v, says f k v -> key f k = Some v.
Proof.
  intros f k v (l & r & -> & N). unfold key. induction l as [|[k0 v0] l IH]; cbn.
  - rewrite String.eqb_refl. reflexivity.
  - destruct (String.eqb k0 k) eqn:E.
    + apply String.eqb_eq in E. subst. exfalso. apply N. left. reflexivity.
    + apply IH. intros H. apply N. right. exact H.
Qed.
Lemma silent_key : forall f k, silent f k -> key f k = None.
Proof.
  intros f k N. unfold key. induction f as [|[k0 v0] l IH]; cbn; [reflexivity|].
  destruct (String.eqb k0 k) eqn:E.
  - apply String.eqb_eq in E. subst. exfalso. apply N. left. reflexivity.
  - apply IH. intros H. apply N. right. exact H.
Qed.
Lemma read_ints_map : forall l, read_ints (Some (NSeq (map NInt l))) = l.
Proof. intros l. unfold read_ints. cbn [elements]. rewrite map_map. apply map_id. Qed.
Lemma read_reals_map : forall l, read_reals (Some (NSeq (map NReal l))) = l.
Proof. intros l. unfold read_reals. cbn [elements]. rewrite map_map. apply map_id. Qed.

(** Every documented key but distortion_* (next theorem) and quaternion_averaging
    determines its setting. *)
Theorem C40_keys_determine_settings : forall f,
  (forall k get, In (k, get) int_settings ->
     (forall z, says f k (NInt z) -> get (read_config f) = z) /\ (forall x, says f k (NReal x) -> nearest x (get (read_config f)))) /\
  (forall k get, In (k, get) real_settings -> forall x,
     (says f k (NReal x) -> get (read_config f) = x) /\ (forall z, says f k (NInt z) -> get (read_config f) = IZR z)) /\
  (forall k get, In (k, get) string_settings -> forall s, says f k (NStr s) -> get (read_config f) = s) /\
  (forall k get, In (k, get) int_list_settings -> forall l, says f k (NSeq (map NInt l)) -> get (read_config f) = l) /\
  (forall k get, In (k, get) real_list_settings -> forall l, says f k (NSeq (map NReal l)) -> get (read_config f) = l) /\
  (forall k get, In (k, get) flag_settings ->
     forall z, says f k (NInt z) -> (get (read_config f) = true <-> z <> 0%Z)).
Proof.
  intros f. split; [|split; [|split; [|split; [|split]]]]; intros k get H.
  - split; [intros z S|intros x S]; apply says_key in S.
    + repeat (destruct H as [[= <- <-]|H]; [cbn; rewrite S; reflexivity|]). destruct H.
    + repeat (destruct H as [[= <- <-]|H]; [cbn [read_config cf_nb_camera cf_boards g_nb_board g_nx g_ny cf_iterations cf_save_repro cf_save_detect cf_he cf_fix_intrinsic]; rewrite S; apply nearest_round|]). destruct H.
  - intros x. split; [intros S|intros z S]; apply says_key in S;
      (repeat (destruct H as [[= <- <-]|H]; [cbn; rewrite S; reflexivity|])); destruct H.
  - intros s S. apply says_key in S.
    repeat (destruct H as [[= <- <-]|H]; [cbn; rewrite S; reflexivity|]). destruct H.
  - intros l S. apply says_key in S.
    repeat (destruct H as [[= <- <-]|H]; [cbn; rewrite S; apply read_ints_map|]). destruct H.
  - intros l S. apply says_key in S.
    repeat (destruct H as [[= <- <-]|H]; [cbn; rewrite S; apply read_reals_map|]). destruct H.
  - intros z S. apply says_key in S. destruct H as [[= <- <-]|[]]. cbn. rewrite S. unfold read_bool, read_int. rewrite negb_true_iff, Z.eqb_neq. tauto.
Qed.
Print Assumptions C40_keys_determine_settings.

(** Which files a run starts from: the keypoints file if it is named and there, otherwise the images; the camera
    parameter file if it is named and there, nothing at all if it is named but not there, and calibrations from the images
    if it is not named. *)
Definition named (p : string) : Prop := p <> "" /\ p <> "None".
Theorem C40_which_files_are_loaded : forall there f,
  let kp := cf_keypoints (read_config f) in let cp := cf_cam_params (read_config f) in
  (load_keypoints there (read_config f) = true <-> named kp /\ there kp = true) /\
  (load_intrinsics there (read_config f) = Some true <-> named cp /\ there cp = true) /\
  (load_intrinsics there (read_config f) = None <-> named cp /\ there cp = false) /\
  (load_intrinsics there (read_config f) = Some false <-> ~ named cp).
Proof.
  intros there f. cbv zeta. unfold named. split.
  - unfold load_keypoints. rewrite !andb_true_iff, !negb_true_iff, !String.eqb_neq. tauto.
  - unfold load_intrinsics. destruct (String.eqb_spec (cf_cam_params (read_config f)) "") as [E1|E1]; [cbn [negb andb]; intuition congruence|].
    destruct (String.eqb_spec (cf_cam_params (read_config f)) "None") as [E2|E2]; cbn [negb andb]; [intuition congruence|]. destruct (there _); intuition congruence.
Qed.
Print Assumptions C40_which_files_are_loaded.

(** The lens model of a camera: distortion_per_camera where given and not empty, which must
    then cover all cameras; otherwise distortion_model. *)
Theorem C40_lens_models : forall f n, says f "number_camera" (NInt (Z.of_nat n)) ->
  (forall l, says f "distortion_per_camera" (NSeq (map NInt l)) -> l <> [] ->
     (forall i, camera_model (read_config f) i = nth_error l i) /\
     ((forall i, i < n -> camera_model (read_config f) i <> None) <-> n <= List.length l)) /\
  (forall m, (says f "distortion_per_camera" (NSeq []) \/ silent f "distortion_per_camera") -> says f "distortion_model" (NInt m) ->
     forall i, i < n -> camera_model (read_config f) i = Some m).
Proof.
  intros f n Sn. apply says_key in Sn. split.
  - intros l Sl Hl. apply says_key in Sl.
    assert (E : forall i, camera_model (read_config f) i = nth_error l i).
    { intros i. unfold camera_model, read_config. cbn [cf_models]. rewrite Sl, read_ints_map. destruct l; [congruence|reflexivity]. }
    split; [exact E|]. split.
    + intros H. destruct (le_lt_dec n (List.length l)) as [L|L]; [exact L|]. exfalso. apply (H (List.length l) L).
      rewrite E. apply nth_error_None. lia.
    + intros L i Hi. rewrite E. apply nth_error_Some. lia.
  - intros m Sl Sm i Hi. apply says_key in Sm. unfold camera_model, read_config. cbn [cf_models]. rewrite Sn, Sm.
    replace (read_ints (key f "distortion_per_camera")) with (@nil Z).
    + cbn [read_int]. rewrite Nat2Z.id. apply nth_error_repeat. exact Hi.
    + destruct Sl as [Sl|Sl]; [rewrite (says_key _ _ _ Sl)|rewrite (silent_key _ _ Sl)]; reflexivity.
Qed.
Print Assumptions C40_lens_models.

(** Whatever the file says, quaternion averaging is off: the key asked for contains a
    colon. *)
Theorem C40_quaternion_averaging_always_off : forall f, parsed f -> cf_quaternion (read_config f) = false.
Proof.
  intros f P. cbn. rewrite silent_key; [reflexivity|]. intros H. apply P in H. apply H. cbn. tauto.
Qed.
Print Assumptions C40_quaternion_averaging_always_off.
(** So the claim is false for the documented key quaternion_averaging. *)
Theorem C40_quaternion_averaging_refuted : exists f, parsed f /\ says f "quaternion_averaging" (NInt 1) /\
  cf_quaternion (read_config f) = false.
Proof.
  exists [("quaternion_averaging", NInt 1)]. split; [|split; [|reflexivity]].
  - intros k [<-|[]]. cbn. intuition discriminate.
  - exists [], []. split; [reflexivity|]. intros [].
Qed.
Print Assumptions C40_quaternion_averaging_refuted.

(** A missing key is 0, off or empty, not the value in McCalib.hpp 79-92 (refine_corner_ =
    true, ransac_thresh_ = 10, nb_iterations_ = 1000). *)
Theorem C40_missing_key_is_zero : forall f,
  (forall k get, In (k, get) int_settings -> silent f k -> get (read_config f) = 0%Z) /\
  (forall k get, In (k, get) real_settings -> silent f k -> get (read_config f) = 0%R) /\
  (forall k get, In (k, get) string_settings -> silent f k -> get (read_config f) = "") /\
  (forall k get, In (k, get) int_list_settings -> silent f k -> get (read_config f) = []) /\
  (forall k get, In (k, get) real_list_settings -> silent f k -> get (read_config f) = []) /\
  (forall k get, In (k, get) flag_settings -> silent f k -> get (read_config f) = false).
Proof.
  intros f. split; [|split; [|split; [|split; [|split]]]]; intros k get H S; apply silent_key in S;
    (repeat (destruct H as [[= <- <-]|H]; [cbn; rewrite S; reflexivity|])); destruct H.
Qed.
Print Assumptions C40_missing_key_is_zero.

(** In particular, without number_iterations the pose estimation of the boards makes no
    trial: every board observation loses all its corners and becomes invalid, its pose is
    what was in memory. *)
Theorem C40_missing_iterations_loses_everything : forall (rpose pt3 : Type) (env : rs_env rpose pt3) f cam bp pose0 o,
  silent f "number_iterations" -> Forall (fun k => (0 <= k < Z.of_nat (List.length bp))%Z) (o_ids o) ->
  boardobs_estimatePose env cam bp pose0 (cf_ransac (read_config f)) (cf_iterations (read_config f)) o
  = Some (mkObs (o_cam o) (o_frame o) (o_board o) [] [] false, pose0).
Proof.
  intros rpose pt3 env f cam bp pose0 o S V.
  replace (cf_iterations (read_config f)) with 0%Z by (cbn; rewrite (silent_key _ _ S); reflexivity).
  unfold boardobs_estimatePose.
  assert (C : exists sc, collect (map (zget bp) (o_ids o)) = Some sc).
  { induction V as [|k l Hk V IH]; [exists []; reflexivity|]. destruct IH as [sc IH]. cbn. unfold zget at 1.
    destruct (Z.ltb_spec k 0); [lia|]. destruct (nth_error bp (Z.to_nat k)) as [q|] eqn:E.
    - rewrite IH. exists (q :: sc). reflexivity.
    - apply nth_error_None in E. lia. }
  destruct C as [sc ->]. unfold ransacP3PDistortion.
  destruct (Z.eqb (cp_model cam) 0); [reflexivity|]. destruct (Z.eqb (cp_model cam) 1); reflexivity.
Qed.
Print Assumptions C40_missing_iterations_loses_everything.

(** configs/Blender_Images/calib_param_synth_Scenario1.yml *)
Definition scenario1 : cfile := [
  ("number_x_square", NInt 5); ("number_y_square", NInt 5); ("resolution_x", NInt 500); ("resolution_y", NInt 500);
  ("length_square", NReal (4 / 100)); ("length_marker", NReal (3 / 100)); ("number_board", NInt 3); ("boards_index", NSeq []);
  ("square_size", NReal (192 / 1000)); ("number_x_square_per_board", NSeq []); ("number_y_square_per_board", NSeq []);
  ("square_size_per_board", NSeq []); ("distortion_model", NInt 0); ("distortion_per_camera", NSeq []); ("number_camera", NInt 2);
  ("refine_corner", NInt 1); ("min_perc_pts", NReal (1 / 2)); ("cam_params_path", NStr "None"); ("fix_intrinsic", NInt 0);
  ("root_path", NStr "../data/Blender_Images/Scenario_1/Images"); ("cam_prefix", NStr "Cam_"); ("keypoints_path", NStr "None");
  ("quaternion_averaging", NInt 1); ("ransac_threshold", NInt 10); ("number_iterations", NInt 1000); ("he_approach", NInt 0);
  ("save_path", NStr "../data/Blender_Images/Scenario_1/Results"); ("save_detection", NInt 0); ("save_reprojection", NInt 0);
  ("camera_params_file_name", NStr "")].
Lemma no_colon : forall s, (fix go s := match s with EmptyString => true | String c r => negb (Ascii.eqb c ":") && go r end) s = true -> ~ has_char ":" s.
Proof.
  induction s as [|c r IH]; cbn; [tauto|]. intros H. apply andb_prop in H. destruct H as [A B]. intros [->|D].
  - rewrite Ascii.eqb_refl in A. discriminate A.
  - exact (IH B D).
Qed.
Example C40_example : parsed scenario1 /\ says scenario1 "ransac_threshold" (NInt 10) /\ cf_ransac (read_config scenario1) = IZR 10 /\
  camera_model (read_config scenario1) 1 = Some 0%Z /\ load_keypoints (fun _ => true) (read_config scenario1) = false /\
  load_intrinsics (fun _ => true) (read_config scenario1) = Some false /\ cf_quaternion (read_config scenario1) = false.
Proof.
  split; [|split].
  - intros k H. apply no_colon. revert k H. apply Forall_forall. repeat (constructor; [reflexivity|]). constructor.
  - exists (firstn 23 scenario1), (skipn 24 scenario1). split; [reflexivity|]. cbn. intuition discriminate.
  - repeat split; reflexivity.
Qed.

(** * C43 *)
Lemma substring_all : forall s, substring 0 (String.length s) s = s.
Proof. induction s; cbn; congruence. Qed.
Lemma last_dot_none : forall s, find_last_dot s = None <-> ~ has_char "." s.
Proof.
  induction s as [|c r IH]; cbn; [intuition|]. destruct (find_last_dot r) as [i|].
  - split; [discriminate|]. intros N. exfalso. assert (Some i = None) by (apply IH; tauto). discriminate.
  - destruct (Ascii.eqb_spec c ".") as [->|D]; [split; [discriminate|]; intros N; exfalso; apply N; tauto|].
    split; [|reflexivity]. intros _ [E|H]; [congruence|]. revert H. apply IH. reflexivity.
Qed.
Lemma ext_none : forall s, ~ has_char "." s -> extension s = s.
Proof. intros s N. unfold extension. rewrite (proj2 (last_dot_none s) N), Nat.sub_0_r. apply substring_all. Qed.
Lemma ext_some : forall base e, ~ has_char "." e -> extension (base ++ "." ++ e) = e.
Proof.
  intros base e N. unfold extension.
  assert (L : forall b, find_last_dot (b ++ "." ++ e) = Some (String.length b)).
  { induction b as [|c b IH]; cbn; [rewrite (proj2 (last_dot_none e) N); reflexivity|]. cbn in IH. rewrite IH. reflexivity. }
  rewrite L. clear L. replace (String.length (base ++ "." ++ e) - S (String.length base)) with (String.length e).
  - induction base as [|c b IH]; cbn; [apply substring_all|]. exact IH.
  - induction base as [|c b IH]; cbn; [lia|exact IH].
Qed.
Lemma ext_inv : forall s, (~ has_char "." s /\ extension s = s) \/ exists base, s = base ++ "." ++ extension s.
Proof.
  intros s. destruct (find_last_dot s) as [i|] eqn:E.
  - right. assert (X : exists base e, s = base ++ "." ++ e /\ ~ has_char "." e).
    { revert i E. induction s as [|c r IH]; cbn; intros i E; [discriminate|]. destruct (find_last_dot r) as [j|] eqn:F.
      - destruct (IH j eq_refl) as (base & e & -> & N). exists (String c base), e. split; [reflexivity|exact N].
      - destruct (Ascii.eqb_spec c ".") as [->|D]; [|discriminate]. exists "", r. split; [reflexivity|]. apply last_dot_none, F. }
    destruct X as (base & e & -> & N). exists base. rewrite (ext_some base e N). reflexivity.
  - left. apply last_dot_none in E. split; [exact E|apply ext_none, E].
Qed.
Lemma exts_plain : forall e, In e image_exts -> ~ has_char "." e.
Proof. intros e H. repeat (destruct H as [<-|H]; [cbn; intuition discriminate|]). destruct H. Qed.

(** Exactly the files with one of the documented extensions are used, in the order of the
    listing. *)
Theorem C43_files_used : forall listing,
  (forall p, In p (filter_images listing) <-> In p listing /\ image_name p) /\
  (forall f p, nth_error (filter_images listing) f = Some p <-> numbered_file listing f p).
Proof.
  assert (AL : forall p, allowed p = true <-> image_name p).
  { intros p. unfold allowed. rewrite existsb_exists. split.
    - intros (e & He & E). apply String.eqb_eq in E. exists e. split; [exact He|]. subst e.
      destruct (ext_inv p) as [[_ ->]|[base E]]; [left; reflexivity|right; exists base; exact E].
    - intros (e & He & [->|[base ->]]); exists e; (split; [exact He|]); apply String.eqb_eq.
      + apply ext_none, exts_plain, He.
      + apply ext_some, exts_plain, He. }
  intros listing. split.
  - intros p. unfold filter_images. rewrite filter_In, AL. reflexivity.
  - induction listing as [|a l IH]; intros f p.
    + split; [destruct f; discriminate|]. intros ([|b before] & after & E & _); discriminate.
    + unfold filter_images in *. cbn [filter]. destruct (allowed a) eqn:Ea.
      * assert (Ia : image_name a) by (apply AL, Ea). destruct f as [|f]; cbn [nth_error].
        -- split.
           ++ intros [= <-]. exists [], l. split; [reflexivity|]. split; [exact Ia|constructor].
           ++ intros (before & after & E & Ip & Hm). destruct before as [|b before]; [injection E as -> ->; reflexivity|].
              injection E as -> ->. inversion Hm; subst. contradiction.
        -- rewrite IH. split.
           ++ intros (before & after & -> & Ip & Hm). exists (a :: before), after. split; [reflexivity|]. split; [exact Ip|constructor; assumption].
           ++ intros (before & after & E & Ip & Hm). destruct before as [|b before]; [inversion Hm|]. injection E as -> ->.
              inversion Hm; subst; [|contradiction]. exists before, after. split; [reflexivity|]. split; assumption.
      * assert (Ia : ~ image_name a) by (rewrite <- AL; congruence). rewrite IH. split.
        -- intros (before & after & -> & Ip & Hm). exists (a :: before), after. split; [reflexivity|]. split; [exact Ip|constructor; assumption].
        -- intros (before & after & E & Ip & Hm). destruct before as [|b before]; [injection E as -> ->; contradiction|]. injection E as -> ->.
           inversion Hm; subst; [contradiction|]. exists before, after. split; [reflexivity|]. split; assumption.
Qed.
Print Assumptions C43_files_used.

(** Folders: up to 999 cameras the number has exactly three digits, and no two cameras
    ever share a folder. *)
Theorem C43_folders :
  (forall n, n < 1000 -> exists a b c, n = 100 * a + 10 * b + c /\ a < 10 /\ b < 10 /\ c < 10 /\
     number3 n = String (digit a) (String (digit b) (String (digit c) ""))) /\
  (forall prefix n m, prefix ++ number3 n = prefix ++ number3 m -> n = m).
Proof.
  split.
  - assert (A : forallb (fun n => String.eqb (number3 n)
        (String (digit (n / 100)) (String (digit (n / 10 mod 10)) (String (digit (n mod 10)) "")))) (seq 0 1000) = true) by (vm_compute; reflexivity).
    intros n Hn. rewrite forallb_forall in A. specialize (A n). rewrite in_seq in A. specialize (A ltac:(lia)). apply String.eqb_eq in A.
    exists (n / 100), (n / 10 mod 10), (n mod 10). rewrite A.
    assert (D1 := Nat.div_mod n 10 ltac:(lia)). assert (D2 := Nat.div_mod (n / 10) 10 ltac:(lia)).
    rewrite Nat.div_div in D2 by lia. change (10 * 10) with 100 in D2.
    assert (n / 100 < 10) by (apply Nat.div_lt_upper_bound; lia).
    assert (M1 := Nat.mod_upper_bound n 10 ltac:(lia)). assert (M2 := Nat.mod_upper_bound (n / 10) 10 ltac:(lia)). repeat split; lia.
  - intros prefix n m E.
    assert (E' : number3 n = number3 m) by (induction prefix as [|c p IH]; cbn in E; [exact E|injection E as E; exact (IH E)]).
    clear E prefix. unfold number3 in E'. set (dn := Nat.to_uint n) in *. set (dm := Nat.to_uint m) in *.
    assert (V : forall k d, exists d', NilEmpty.uint_of_string (zeros k ++ NilEmpty.string_of_uint d) = Some d' /\ Nat.of_uint d' = Nat.of_uint d).
    { induction k as [|k IH]; intros d; cbn [zeros append].
      - exists d. split; [apply NilEmpty.usu|reflexivity].
      - destruct (IH d) as (d' & A & B). exists (Decimal.D0 d'). cbn [NilEmpty.uint_of_string]. rewrite A. split; [reflexivity|].
        rewrite <- B. reflexivity. }
    destruct (V (3 - String.length (NilEmpty.string_of_uint dn)) dn) as (d1 & A1 & B1).
    destruct (V (3 - String.length (NilEmpty.string_of_uint dm)) dm) as (d2 & A2 & B2).
    rewrite E' in A1. rewrite A1 in A2. injection A2 as ->. rewrite B1 in B2. subst dn dm.
    rewrite !DecimalNat.Unsigned.of_to in B2. exact B2.
Qed.
Print Assumptions C43_folders.

Lemma camera_tasks_nth : forall cfg cam files from ts, camera_tasks cfg cam from files = Some ts ->
  List.length ts = List.length files /\
  forall k t, nth_error ts k = Some t -> exists fl, nth_error files k = Some fl /\
    detect_image cfg (fl_ok fl) (fl_gray fl) cam (Z.of_nat (from + k)) (fl_path fl) (fl_det fl) = Some t.
Proof.
  intros cfg cam. induction files as [|a l IH]; intros from ts E; cbn in E.
  - injection E as <-. split; [reflexivity|]. intros [|k] t H; discriminate H.
  - destruct (detect_image _ _ _ _ _ _ _) as [t0|] eqn:D; [|discriminate E].
    destruct (camera_tasks cfg cam (S from) l) as [ts0|] eqn:C; [|discriminate E]. injection E as <-.
    destruct (IH _ _ C) as [L N]. split; [cbn; congruence|]. intros [|k] t H.
    + injection H as <-. exists a. split; [reflexivity|]. rewrite Nat.add_0_r. exact D.
    + destruct (N k t H) as (fl & A & B). exists fl. split; [exact A|]. replace (from + S k) with (S from + k) by lia. exact B.
Qed.
Lemma detect_image_tags : forall cfg ok gray cam frame path det l x,
  detect_image cfg ok gray cam frame path det = Some l -> In x l -> i_cam x = cam /\ i_frame x = frame /\ i_path x = path.
Proof.
  intros cfg ok gray cam frame path det l x E H. unfold detect_image in E. destruct ok; [|injection E as <-; destruct H].
  revert l E H. generalize 0. induction (dc_boards cfg) as [|b bs IH]; intros n l E H; cbn in E; [injection E as <-; destruct H|].
  destruct (detect_board cfg gray b (fst (det n)) (snd (det n))) as [| |c d]; [discriminate E| |].
  - destruct (detect_boards cfg gray cam frame path det (S n) bs) as [l0|] eqn:F; [|discriminate E]. injection E as <-. exact (IH _ _ F H).
  - destruct (detect_boards cfg gray cam frame path det (S n) bs) as [l0|] eqn:F; [|discriminate E]. injection E as <-.
    destruct H as [<-|H]; [repeat split; reflexivity|exact (IH _ _ F H)].
Qed.
Lemma collect_nth : forall A (l : list (option A)) r k, collect l = Some r -> nth_error l k = option_map Some (nth_error r k).
Proof.
  intros A. induction l as [|a l IH]; intros r k E; cbn in E; [injection E as <-; destruct k; reflexivity|].
  destruct a as [x|]; [|discriminate E]. destruct (collect l) as [r0|] eqn:C; [|discriminate E]. injection E as <-.
  destruct k as [|k]; [reflexivity|]. cbn. exact (IH r0 k eq_refl).
Qed.
Lemma collect_len : forall A (l : list (option A)) r, collect l = Some r -> List.length r = List.length l.
Proof.
  intros A. induction l as [|a l IH]; intros r E; cbn in E; [injection E as <-; reflexivity|].
  destruct a as [x|]; [|discriminate E]. destruct (collect l) as [r0|] eqn:C; [|discriminate E]. injection E as <-. cbn. f_equal. exact (IH r0 eq_refl).
Qed.
Lemma filter_count : forall l, how_many image_name l (List.length (filter_images l)).
Proof.
  induction l as [|a l IH]; [constructor|].
  destruct (C43_files_used (a :: nil)) as [U _]. specialize (U a). unfold filter_images in *. cbn [filter] in *.
  destruct (allowed a).
  - cbn. constructor; [apply U; left; reflexivity|exact IH].
  - constructor; [|exact IH]. intros I. destruct (proj2 U (conj (or_introl eq_refl) I)).
Qed.

(** Camera c looks at folder prefix + number of c+1; there is one task per image file, the
    f-th file is frame f, and what is detected in it is stored under camera c, frame f and
    the name of that file. *)
Theorem C43_images_and_frames : forall cfg ls img prefix nc tss, detectBoards cfg ls img prefix nc = Some tss ->
  List.length tss = nc /\
  forall c ts, nth_error tss c = Some ts ->
    how_many image_name (ls (prefix ++ number3 (c + 1))) (List.length ts) /\
    forall f t, nth_error ts f = Some t ->
      exists p, numbered_file (ls (prefix ++ number3 (c + 1))) f p /\
        detect_image cfg (cn_ok (img p)) (cn_gray (img p)) (Z.of_nat c) (Z.of_nat f) p (cn_det (img p)) = Some t /\
        forall x, In x t -> i_cam x = Z.of_nat c /\ i_frame x = Z.of_nat f /\ i_path x = p.
Proof.
  intros cfg ls img prefix nc tss E. unfold detectBoards in E. split.
  - rewrite (collect_len _ _ _ E), map_length, seq_length. reflexivity.
  - intros c ts H. assert (N := collect_nth _ _ _ c E). rewrite H in N. cbn [option_map] in N.
    rewrite nth_error_map in N. destruct (nth_error (seq 0 nc) c) as [c'|] eqn:Sc; [|discriminate N]. cbn [option_map] in N.
    assert (Hc : c < nc) by (rewrite <- (seq_length nc 0); apply nth_error_Some; congruence).
    assert (c' = c) by (apply nth_error_nth with (d := 0) in Sc; rewrite seq_nth in Sc by exact Hc; exact (eq_sym Sc)). subst c'.
    injection N as N. destruct (camera_tasks_nth _ _ _ _ _ N) as [L T]. unfold camera_files in L, T. rewrite map_length in L. split.
    + rewrite L. apply filter_count.
    + intros f t Hf. destruct (T f t Hf) as (fl & A & B). rewrite nth_error_map in A.
      destruct (nth_error (filter_images (ls (prefix ++ number3 (c + 1)))) f) as [p|] eqn:F; [|discriminate A].
      injection A as <-. cbn [fl_ok fl_gray fl_path fl_det] in B. exists p. split; [apply C43_files_used, F|]. split; [exact B|].
      intros x Hx. exact (detect_image_tags _ _ _ _ _ _ _ _ x B Hx).
Qed.
Print Assumptions C43_images_and_frames.

Definition ex_corners : list pt2 := [(5, 5); (6, 6); (7, 7); (8, 8); (9, 9)]%R.
Definition ex_content : content := mkCont true ex_img (fun _ => (ex_corners, [0; 1; 2; 3; 4]%Z)).
Lemma ex_stored : exists c, detect_board ex_dcfg ex_img ex_board ex_corners [0; 1; 2; 3; 4]%Z = Stored c [0; 1; 2; 3; 4]%Z.
Proof.
  destruct (detect_board_main ex_dcfg ex_img ex_board ex_corners [0; 1; 2; 3; 4]%Z)
    as (ob & F & H); [cbn; lia|apply ex_valid|apply ex_unit|].
  assert (ob = [(0, 0); (1, 0); (0, 1); (1, 1); (0, 2)]%R).
  { repeat match goal with H : Forall2 _ (_ :: _) _ |- _ => inversion H; subst; clear H end.
    match goal with H : Forall2 _ [] _ |- _ => inversion H; subst; clear H end.
    repeat match goal with H : nth_error _ _ = Some _ |- _ => cbn in H; injection H as <- end. reflexivity. }
  subst ob. destruct H as [[_ H]|[H _]]; [|exfalso; apply H; apply ex_acceptable]. eexists. exact H.
Qed.
Definition ex_listing (d : string) : list string :=
  if String.eqb d "Cam_001" then ["Cam_001/t0.png"; "Cam_001/t1.png"] else if String.eqb d "Cam_002" then ["Cam_002/t1.png"] else [].
(** Frames are numbers only: when an image of one camera is missing, images with different
    names become one frame, although an image with the same name exists. *)
Theorem C43_same_frame_same_name_refuted : exists cfg ls img tss x y,
  detectBoards cfg ls img "Cam_" 2 = Some tss /\ In x (concat (nth 0 tss [])) /\ In y (concat (nth 1 tss [])) /\
  i_frame x = i_frame y /\ i_path x = "Cam_001/t0.png" /\ i_path y = "Cam_002/t1.png" /\ In "Cam_001/t1.png" (ls "Cam_001").
Proof.
  destruct ex_stored as [c S].
  exists ex_dcfg, ex_listing, (fun _ => ex_content),
    [[[mkIns 0 0 0 c [0; 1; 2; 3; 4]%Z "Cam_001/t0.png"]; [mkIns 0 1 0 c [0; 1; 2; 3; 4]%Z "Cam_001/t1.png"]];
     [[mkIns 1 0 0 c [0; 1; 2; 3; 4]%Z "Cam_002/t1.png"]]],
    (mkIns 0 0 0 c [0; 1; 2; 3; 4]%Z "Cam_001/t0.png"), (mkIns 1 0 0 c [0; 1; 2; 3; 4]%Z "Cam_002/t1.png").
  split.
  - unfold detectBoards. cbn [seq map].
    replace (camera_files ex_listing (fun _ => ex_content) "Cam_" 0) with
      [mkFile true ex_img "Cam_001/t0.png" (cn_det ex_content); mkFile true ex_img "Cam_001/t1.png" (cn_det ex_content)] by reflexivity.
    replace (camera_files ex_listing (fun _ => ex_content) "Cam_" 1) with [mkFile true ex_img "Cam_002/t1.png" (cn_det ex_content)] by reflexivity.
    unfold camera_tasks, detect_image. cbn [fl_ok fl_gray fl_path fl_det cn_det ex_content dc_boards ex_dcfg detect_boards fst snd]. fold ex_dcfg.
    rewrite S. reflexivity.
  - split; [left; reflexivity|]. split; [left; reflexivity|]. split; [reflexivity|]. split; [reflexivity|]. split; [reflexivity|].
    right. left. reflexivity.
Qed.
Print Assumptions C43_same_frame_same_name_refuted.
(** extensions are case sensitive, and a name without dot may pass *)
Example C43_example : filter_images ["d/a.JPG"; "d.png/a"; "jpg"; "d/b.tiff"; "d/c.jpg.txt"; "d/e.f.jp2"] = ["jpg"; "d/b.tiff"; "d/e.f.jp2"] /\
  number3 7 = "007" /\ number3 1234 = "1234".
Proof. repeat split; reflexivity. Qed.
