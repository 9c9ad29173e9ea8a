(** A world for C58 and C59: two cameras, one board with 3 x 3 corners seen twice by both
    (RigExample.v), keypoints and camera parameters from files. *)
From Coq Require Import List ZArith Lia Reals Lra Relations Ascii String Bool.
From Verif Require Import SMap GraphModel GraphSpec DataModel DataSpec DataProofs DetectModel DetectSpec RansacModel RansacSpec GeomModel GeomSpec GeomProofs
  ObjectsModel CameraModel ResidualModel ResidualSpec WorkflowModel RigSpec RigExample BoardModel InputModel InputSpec AppModel AppSpec AppProofs.
From Verif Require PropRig PropResidual GraphPath.
Import ListNotations.
Close Scope R_scope.
Open Scope nat_scope.
Open Scope string_scope.

(** the configuration file; [save], [name], [params]: save_path, camera_params_file_name,
    cam_params_path *)
Definition grid_config (save name params : string) : cfile :=
  [ ("number_camera", NInt 2); ("number_board", NInt 1); ("number_x_square", NInt 4); ("number_y_square", NInt 4); ("square_size", NInt 1); ("length_square", NInt 2); ("length_marker", NInt 1);
    ("distortion_model", NInt 0); ("ransac_threshold", NInt 1); ("number_iterations", NInt 1000);
    ("save_path", NStr save); ("camera_params_file_name", NStr name); ("cam_params_path", NStr params); ("keypoints_path", NStr "kp.yml") ].
(** the corners in view, and the keypoints file *)
Definition grid_ids : list Z := [0; 1; 3; 5; 7]%Z.
Definition grid_node (c : Z) : kpnode pt2 := mkKp 640 480 [0; 1]%Z ["a.png"; "b.png"] [0; 0]%Z [shot c 0; shot c 1] [grid_ids; grid_ids].
Definition grid_keypoints : smap Z (kpnode pt2) := [(0%Z, grid_node 0); (1%Z, grid_node 1)].
(** files before the run; a file can be opened if its folder exists *)
Definition present (made : list string) (p : string) : bool := existsb (String.eqb p) ("conf.yml" :: "kp.yml" :: "cams.yml" :: made).
Definition folder_of (p : string) : string := match find_last_slash p with Some i => substring 0 i p | None => "." end.
Definition grid_world (save name params : string) : world :=
  mkWorld present (fun made p => present made (folder_of p) || String.eqb (folder_of p) ".") (fun _ _ => true)
    (fun _ => grid_config save name params) (fun _ => grid_keypoints) (fun _ => PropRig.two_file) (fun _ => []) (fun _ => mkCont false (mkImg 0 0 (fun _ _ => 0%R)) (fun _ => ([], []))).
(** noise-free libraries; the intrinsics are uninitialised memory *)
Definition grid_libs (svd : (nat -> nat -> R) -> quat) (i0 : intr) : libs :=
  mkLibs svd log0 pick_first empty_graph (fun _ p => p) (fun _ _ => ideal_env log0) (fun _ _ => (vzero, vzero)) (fun _ _ _ => None) (fun _ l => l) (fun _ _ _ _ => Some (getIntrinsics 0 (I9 1 1 0 0 0 0 0 0 0)%R))
    (fun _ => (0, 0, 0, 0, 0, 0)%R) (fun _ => (0, 0, 0, 0)%R) (fun _ ts => List.concat ts) (mkPar (fun _ => (vzero, vzero)) (fun _ => i0)) (fun _ => (vzero, vzero)) (fun m => Z.eqb m 1).

Definition grid_ins : list (insertion pt2) :=
  map (fun cf : Z * Z => mkIns (fst cf) (snd cf) 0%Z (shot (fst cf) (snd cf)) grid_ids (if Z.eqb (snd cf) 0 then "a.png" else "b.png")) [(0, 0); (0, 1); (1, 0); (1, 1)]%Z.
Definition grid_pts : list vec3 := map (fun xy : Z * Z => V3 (IZR (fst xy)) (IZR (snd xy)) 0%R) [(0, 0); (1, 0); (2, 0); (0, 1); (1, 1); (2, 1); (0, 2); (1, 2); (2, 2)]%Z.
Lemma grid_board : map vec_of (board_pts 4 4 1) = grid_pts.
Proof. unfold grid_pts, board_pts. change (Z.to_nat (4 - 1)) with 3. cbn [map flat_map seq app vec_of fst snd]. repeat (apply f_equal2; [apply vec3_eq; cbn; ring|]). reflexivity. Qed.

Lemma small_accepted nx ny ids : (1 < nx)%Z -> (1 < ny)%Z -> accepted 2 1 (mkCh nx ny ids) = true.
Proof. intros X Y. unfold accepted. cbn [ch_nx ch_ny]. apply Z.ltb_lt in X, Y. rewrite X, Y. destruct (Rlt_dec 0 1), (Rlt_dec 1 2); try reflexivity; exfalso; lra. Qed.
Lemma small_all l : Forall (fun c => (1 < ch_nx c)%Z /\ (1 < ch_ny c)%Z) l -> all_accepted 2 1 (Some l) = true.
Proof. intros H. apply forallb_forall. intros c Hc. rewrite Forall_forall in H. destruct (H c Hc), c. apply small_accepted; auto. Qed.
Lemma construct_ok w path made bs : let c := read_config (w_config w path) in Z.ltb 0 (cf_nb_camera c) && Z.ltb 0 (g_nb_board (cf_boards c)) = true ->
  save_folder w (cf_save c) = Some made -> Nat.leb (Z.to_nat (cf_nb_camera c)) (List.length (cf_models c)) = true -> all_accepted (cf_length_square c) (cf_length_marker c) (calib_charucos (cf_boards c)) = true ->
  collect (map (fun k => calib_board (cf_boards c) (Z.of_nat k)) (seq 0 (effective_nb_board (cf_boards c)))) = Some bs ->
  snd (construct w path) = Some (mkSetup c (Z.to_nat (cf_nb_camera c)) bs made).
Proof. intros c H1 H2 H3 H4 H5. unfold construct. fold c. rewrite H1, H2, H3, H4, H5. reflexivity. Qed.
Lemma construct_boards w path s : snd (construct w path) = Some s -> let c := read_config (w_config w path) in
  collect (map (fun k => calib_board (cf_boards c) (Z.of_nat k)) (seq 0 (effective_nb_board (cf_boards c)))) = Some (su_boards s).
Proof.
  intros H c. unfold construct in H. fold c in H. destruct (Z.ltb _ _ && _); [|discriminate H]. destruct (save_folder _ _); [|discriminate H]. cbn [snd] in H. destruct (Nat.leb _ _ && _); [|discriminate H].
  destruct (collect _) as [bs|]; [|discriminate H]. cbn [option_map] in H. apply (f_equal (fun o => match o with Some x => su_boards x | None => [] end)) in H. cbn [su_boards] in H. rewrite <- H. reflexivity.
Qed.
Lemma grid_setup save name params : exists B made, snd (construct (grid_world save name params) "conf.yml") = Some (mkSetup (read_config (grid_config save name params)) 2 [B] made) /\
  bd_pts B = board_pts 4 4 1 /\ made = (if negb (present [] save) && has_filename save then [save] else []).
Proof.
  unfold construct, save_folder. cbn [grid_world w_exists w_mkdir w_config].
  assert (X : Z.ltb 0 (cf_nb_camera (read_config (grid_config save name params))) && Z.ltb 0 (g_nb_board (cf_boards (read_config (grid_config save name params)))) = true) by reflexivity. rewrite X.
  change (cf_save (read_config (grid_config save name params))) with save. change (cf_nb_camera (read_config (grid_config save name params))) with 2%Z.
  destruct (negb (present [] save) && has_filename save); cbn [snd]; (assert (Y : Nat.leb (Z.to_nat 2) (List.length (cf_models (read_config (grid_config save name params)))) = true) by reflexivity; assert (A : all_accepted (cf_length_square (read_config (grid_config save name params))) (cf_length_marker (read_config (grid_config save name params))) (calib_charucos (cf_boards (read_config (grid_config save name params)))) = true) by (apply small_all; repeat constructor); rewrite Y, A; clear X Y A; cbn [andb]; cbn [effective_nb_board g_boards_index cf_boards];
  eexists; eexists; split; [reflexivity|]; split; reflexivity).
Qed.
Section Grid.
Variables (save name params : string) (B : board) (made : list string).
Hypothesis HB : bd_pts B = board_pts 4 4 1.
Definition grid_set : setup := mkSetup (read_config (grid_config save name params)) 2 [B] made.
Lemma grid_su : su_pts grid_set 0 = grid_pts.
Proof. unfold su_pts. change (znth (su_boards grid_set) 0) with (Some B). cbv iota. rewrite HB. apply grid_board. Qed.
Lemma grid_entering svd i0 ins : entering (grid_world save name params) (grid_libs svd i0) grid_set ins <-> ins = grid_ins.
Proof. unfold entering. assert (X : load_keypoints (w_exists (grid_world save name params) (su_made grid_set)) (su_conf grid_set) = true) by reflexivity. rewrite X. reflexivity. Qed.
Lemma grid_extraction svd i0 : exists t, boardExtraction (grid_world save name params) (grid_libs svd i0) grid_set = Some t.
Proof. eexists. vm_compute. reflexivity. Qed.

(** *** The corners seen are the five of RigExample.v *)
Lemma grid_five n q k : nth_error five_pts n = Some q -> nth_error grid_ids n = Some k -> corner (su_pts grid_set) 0 k q.
Proof.
  intros Hq Hk. unfold corner. rewrite grid_su. destruct n as [|[|[|[|[|n]]]]]; cbn in Hq, Hk; try (injection Hq as <-; injection Hk as <-; split; [lia|reflexivity]). destruct n; discriminate Hk.
Qed.
Lemma grid_corner b k q n q' : b = 0%Z -> nth_error grid_ids n = Some k -> nth_error five_pts n = Some q' -> corner (su_pts grid_set) b k q -> q = q'.
Proof. intros -> Hk Hq (_ & C). destruct (grid_five n q' k Hq Hk) as (_ & C'). congruence. Qed.
Lemma grid_sighted c f b k m : sighted grid_ins c f b k m <->
  In (c, f) [(0, 0); (0, 1); (1, 0); (1, 1)]%Z /\ b = 0%Z /\ exists n q, nth_error grid_ids n = Some k /\ nth_error five_pts n = Some q /\ m = ((vx q + tx c) / tz f, vy q / tz f)%R.
Proof.
  split.
  - intros (i & j & Hi & <- & <- & <- & Hk & Hm). apply in_map_iff in Hi as ((c', f') & <- & Hi). cbn [fst snd i_cam i_frame i_board i_ids i_pts] in *. split; [auto|]. split; [auto|].
    unfold shot in Hm. rewrite nth_error_map in Hm. destruct (nth_error five_pts j) as [q|] eqn:Eq; [|discriminate Hm]. injection Hm as <-. exists j, q. auto.
  - intros (Hi & -> & n & q & Hk & Hq & ->). eexists. exists n. split; [apply in_map_iff; exists (c, f); split; [reflexivity|auto]|]. cbn [fst snd i_cam i_frame i_board i_ids i_pts].
    do 3 (split; [auto|]). split; [auto|unfold shot; rewrite nth_error_map, Hq; auto].
Qed.
Lemma grid_exact : exact_detections (su_pts grid_set) two_rig grid_ins.
Proof.
  constructor.
  - cbn. repeat constructor; cbn; intuition congruence.
  - intros i Hi. apply in_map_iff in Hi as ((c, f) & <- & _). cbn [i_ids i_pts]. split; [|split; cbn; lia]. repeat constructor; cbn; intuition lia.
  - intros c f b k m S. apply grid_sighted in S as (_ & -> & n & q & Hk & Hq & ->). assert (V := five_flat n q Hq). exists q. split; [eapply grid_five; eauto|]. rewrite at_board. split.
    + cbn. rewrite V. assert (T := tz_pos f). lra.
    + apply shot_image. auto.
Qed.
Lemma grid_known : Forall (known 2 1) grid_ins.
Proof. repeat constructor; cbn; lia. Qed.
Lemma grid_connected : connected_rig grid_ins.
Proof.
  split; [cbn; congruence|]. intros i j Hi Hj. apply in_map_iff in Hi as ((c, f) & <- & Hi). apply in_map_iff in Hj as ((d, g) & <- & Hj). cbn [i_cam fst snd]. apply rt_step.
  assert (Hd : In (d, f) [(0, 0); (0, 1); (1, 0); (1, 1)]%Z).
  { cbn in Hi, Hj |- *. destruct Hi as [Q|[Q|[Q|[Q|[]]]]]; injection Q as <- <-; destruct Hj as [Q|[Q|[Q|[Q|[]]]]]; injection Q as <- <-; auto. }
  eexists. eexists. split; [apply in_map_iff; exists (c, f); split; [reflexivity|auto]|]. split; [apply in_map_iff; exists (d, f); split; [reflexivity|auto]|]. cbn. do 3 (split; [auto|]). apply rt_refl.
Qed.
Lemma grid_general : general_position (su_pts grid_set) two_rig grid_ins.
Proof.
  intros c f l L N S P RP H. rewrite at_world.
  set (u := map (fun k => (0%Z, k)) grid_ids).
  assert (IL : incl l u).
  { intros (b, k) Hb. destruct (S b k Hb) as (m & Sm). apply grid_sighted in Sm as (_ & -> & n & q & Hk & Hq & _). apply in_map. eapply nth_error_In; eauto. }
  assert (Hcf : In (c, f) [(0, 0); (1, 0); (0, 1); (1, 1)]%Z).
  { destruct l as [|(b, k) l]; [discriminate L|]. destruct (S b k (or_introl eq_refl)) as (m & Sm). apply grid_sighted in Sm. cbn in Sm |- *. tauto. }
  assert (Dec : forall a b : Z * Z, {a = b} + {a <> b}) by (intros (a, b) (a', b'); destruct (Z.eq_dec a a'), (Z.eq_dec b b'); [left; congruence|right; congruence|right; congruence|right; congruence]).
  destruct (one_missing Dec u l) as (mm & Hmm & Miss); [repeat constructor; cbn; intuition congruence|auto|auto|cbn; lia|].
  apply in_map_iff in Hmm as (km & <- & Hkm). apply In_nth_error in Hkm as (m & Hkm). apply (rig_solved c f P m); auto. intros n q Hq Nm.
  assert (Ln : n < 5) by (assert (n < List.length five_pts) by (apply nth_error_Some; congruence); auto).
  destruct (nth_error grid_ids n) as [k|] eqn:Hk; [|apply nth_error_None in Hk; cbn in Hk; lia].
  assert (Hl : In (0%Z, k) l).
  { apply Miss; [apply in_map; eapply nth_error_In; eauto|]. intros E. injection E as ->. apply Nm. apply (proj1 (NoDup_nth_error grid_ids)); [repeat constructor; cbn; intuition lia|cbn; lia|congruence]. }
  assert (V := five_flat n q Hq). destruct (H 0%Z k q Hl) as (Z0 & E); [eapply grid_five; eauto|]. cbn [two_rig rg_board rg_model rg_intr flat Z.eqb] in Z0, E.
  assert (Q : pact pid q = q) by (destruct q; apply vec3_eq; cbn; ring). rewrite Q in Z0, E. apply image_meets; auto. rewrite E. fold two_rig. rewrite at_world. apply shot_image; auto.
Qed.
Lemma grid_scene svd i0 ins : entering (grid_world save name params) (grid_libs svd i0) grid_set ins -> exact_scene (grid_libs svd i0) grid_set two_rig ins.
Proof.
  intros E. apply grid_entering in E. subst ins. constructor.
  - intros c. unfold su_models. cbn. destruct (Z.to_nat c) as [|[|[|n]]]; reflexivity.
  - apply rig_rigid.
  - apply grid_exact.
  - apply grid_general.
  - apply rig_angles.
  - left. apply grid_connected.
  - left. cbn. lia.
  - intros c n. intros a f b k m q E. cbn in E. discriminate E.
Qed.
End Grid.
Lemma concat_interleave {A} (ts : list (list A)) : interleave ts (List.concat ts).
Proof.
  assert (G : forall (pre ts : list (list A)), Forall (fun t => t = []) pre -> interleave (pre ++ ts)%list (List.concat ts)).
  { intros pre l. revert pre. induction l as [|t l IH]; intros pre F; [rewrite app_nil_r; apply il_done; auto|]. cbn [List.concat]. induction t as [|x t IHt]; cbn [app].
    - specialize (IH (pre ++ [[]])%list). rewrite <- app_assoc in IH. apply IH. apply Forall_app. auto.
    - apply il_step. exact IHt. }
  apply (G [] ts). constructor.
Qed.
Lemma grid_libs_sound svd i0 : sound_libs (grid_libs svd i0).
Proof.
  constructor; cbn.
  - apply PropResidual.ceres_idle.
  - apply GraphPath.pick_first_good.
  - apply log0_ok.
  - intros n. apply (pn_fair _ _ (ideal_pnp log0)).
  - intros h l l' X E. discriminate E.
  - intros _ ts. apply concat_interleave.
Qed.
Lemma grid_world_sound save name params : sound_world (grid_world save name params).
Proof. constructor; cbn; auto. Qed.
