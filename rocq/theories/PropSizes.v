(** C43: the size of the images of a camera, from the first image (or the keypoints file) to the saved files.
    Specification: InputSpec.v, and [image_size] below. *)
From Coq Require Import List ZArith Lia Reals Ascii String Bool.
From Verif Require Import SMap DataModel DataProofs DetectModel DetectProofs GeomModel GroupModel StageModel StageSpec PipelineModel CameraModel FileModel PropFile InputModel InputSpec PropInput
  WorkflowModel WorkflowProofs PropSaved LogModel LogProofs Sizes AppModel AppSpec AppProofs PropApp RigExample AppExample PropWhole.
From Verif Require PropGeom.
Import ListNotations.
Close Scope R_scope.
Open Scope nat_scope.
Open Scope string_scope.

(** The size (columns, rows) of the images of camera c: as written in the keypoints file, if that is used, and otherwise
    the size of the first image in the folder of the camera. *)
Definition image_size (w : world) (s : setup) (c : nat) (size : Z * Z) : Prop :=
  if load_keypoints (w_exists w (su_made s)) (su_conf s)
  then exists k, mfind (Z.of_nat c) (w_keypoints w (cf_keypoints (su_conf s))) = Some k /\ size = (k_width k, k_height k)
  else exists p, numbered_file (w_ls w (path_join (cf_root (su_conf s)) (cf_prefix (su_conf s)) ++ number3 (c + 1))) 0 p /\
         size = (im_cols (cn_gray (w_image w p)), im_rows (cn_gray (w_image w p))).

Definition size_of (t : tables pt2) (c : Z) : option (Z * Z) := option_map (fun r => (c_cols r, c_rows r)) (mfind c (t_cams t)).
Lemma insert_size t i t' c : insertNewBoard t i = Some t' -> size_of t' c = size_of t c.
Proof.
  unfold insertNewBoard, size_of. destruct (mfind (i_cam i) (t_cams t)) as [r|] eqn:Ec; [|discriminate]. destruct (mfind (i_board i) (t_boards t)) as [b|]; [|discriminate].
  destruct (mfind (i_frame i) (t_frames t)); destruct (mfind (i_cam i, i_frame i) (t_camobs t)); intros E; injection E as <-; cbn [t_cams];
    (destruct (Z.eq_dec (i_cam i) c) as [<-|N]; [rewrite mfind_mset_eq, Ec; reflexivity|rewrite mfind_mset_neq by auto; reflexivity]).
Qed.
Lemma insert_all_size l : forall t t' c, insert_all t l = Some t' -> size_of t' c = size_of t c.
Proof.
  induction l as [|i l IH]; intros t t' c E; cbn [insert_all] in E; [injection E as <-; reflexivity|].
  destruct (insertNewBoard t i) as [t1|] eqn:E1; [|discriminate E]. rewrite (IH _ _ _ E). eapply insert_size; eauto.
Qed.
Lemma set_size t c x y d : size_of t d <> None -> size_of (set_image_size t c x y) d = if Z.eqb c d then Some (x, y) else size_of t d.
Proof.
  unfold set_image_size, size_of. intros K. destruct (Z.eqb_spec c d) as [<-|N].
  - destruct (mfind c (t_cams t)) as [r|] eqn:E; [|exfalso; apply K; reflexivity]. cbn [t_cams]. rewrite mfind_mset_eq. reflexivity.
  - destruct (mfind c (t_cams t)); [|reflexivity]. cbn [t_cams]. rewrite mfind_mset_neq by auto. reflexivity.
Qed.
Lemma no_detect L w s ls : fold_left (fun acc cam => match acc with
                            | Some t => detect_camera L (su_det L s) t cam (camera_files (w_ls w) (w_image w) (path_join (cf_root (su_conf s)) (cf_prefix (su_conf s))) cam)
                            | None => None
                            end) ls None = None.
Proof. induction ls; cbn; auto. Qed.
Lemma first_file ls img prefix c p : numbered_file (ls (prefix ++ number3 (c + 1))) 0 p ->
  exists f fs, camera_files ls img prefix c = f :: fs /\ fl_ok f = cn_ok (img p) /\ fl_gray f = cn_gray (img p).
Proof.
  intros H. apply (proj2 (C43_files_used _)) in H. unfold camera_files. destruct (filter_images _) as [|q l]; [discriminate H|]. injection H as ->. cbn [map]. eauto 10.
Qed.
Lemma detect_size L w s ls : forall t t', NoDup ls -> (forall c, In c ls -> size_of t (Z.of_nat c) <> None) ->
  fold_left (fun acc cam => match acc with
                            | Some t => detect_camera L (su_det L s) t cam (camera_files (w_ls w) (w_image w) (path_join (cf_root (su_conf s)) (cf_prefix (su_conf s))) cam)
                            | None => None
                            end) ls (Some t) = Some t' ->
  (forall c, ~ In c ls -> size_of t' (Z.of_nat c) = size_of t (Z.of_nat c)) /\
  forall c p, In c ls -> numbered_file (w_ls w (path_join (cf_root (su_conf s)) (cf_prefix (su_conf s)) ++ number3 (c + 1))) 0 p ->
    size_of t' (Z.of_nat c) = Some (im_cols (cn_gray (w_image w p)), im_rows (cn_gray (w_image w p))).
Proof.
  induction ls as [|a ls IH]; intros t t' ND K E; cbn [fold_left] in E.
  - injection E as <-. split; [auto|]. intros c p [].
  - inversion ND as [|? ? N1 N2]; subst. set (fs := camera_files _ _ _ a) in E. destruct (detect_camera L (su_det L s) t a fs) as [t1|] eqn:E1; [|rewrite no_detect in E; discriminate E].
    assert (O : forall c, c <> a -> size_of t1 (Z.of_nat c) = size_of t (Z.of_nat c)).
    { intros c Nc. unfold detect_camera in E1. destruct fs as [|f fs']; [injection E1 as <-; reflexivity|]. destruct (camera_size _) as [[x y]|]; [|discriminate E1]. destruct (camera_tasks _ _ _ _) as [ts|]; [|discriminate E1].
      rewrite (insert_all_size _ _ _ _ E1). unfold size_of, set_image_size. destruct (mfind (Z.of_nat a) (t_cams t)); [|reflexivity]. cbn [t_cams]. rewrite mfind_mset_neq by lia. reflexivity. }
    destruct (IH t1 t' N2) as (A & B); [intros c Hc; rewrite O by (intros ->; contradiction); apply K; right; auto|exact E|]. split.
    + intros c Hc. cbn [In] in Hc. rewrite A by tauto. apply O. intros ->. tauto.
    + intros c p [<-|Hc] Hp; [|auto]. rewrite A by exact N1. destruct (first_file _ (w_image w) _ _ _ Hp) as (f & fs' & Ef & Ok & Eg). unfold fs in E1. rewrite Ef in E1. cbn [detect_camera camera_size] in E1.
      destruct (fl_ok f); [|discriminate E1]. destruct (camera_tasks _ _ _ _) as [ts|]; [|discriminate E1]. rewrite (insert_all_size _ _ _ _ E1), set_size by (apply K; left; reflexivity). rewrite Z.eqb_refl, Eg. reflexivity.
Qed.
Lemma load_size file ls : forall t t', NoDup ls -> (forall c, In c ls -> size_of t (Z.of_nat c) <> None) -> DataModel.load_cameras file t (map Z.of_nat ls) = Loaded t' ->
  (forall c, ~ In c ls -> size_of t' (Z.of_nat c) = size_of t (Z.of_nat c)) /\
  forall c k, In c ls -> mfind (Z.of_nat c) file = Some k -> size_of t' (Z.of_nat c) = Some (k_width k, k_height k).
Proof.
  induction ls as [|a ls IH]; intros t t' ND K E; cbn [map DataModel.load_cameras] in E.
  - injection E as <-. split; [auto|]. intros c p [].
  - inversion ND as [|? ? N1 N2]; subst. destruct (DataModel.load_camera file t (Z.of_nat a)) as [t1| |] eqn:E1; try discriminate E. unfold DataModel.load_camera in E1.
    match type of E1 with (if ?b then _ else _) = _ => destruct b end; [|discriminate E1]. match type of E1 with match ?x with _ => _ end = _ => destruct x as [t2|] eqn:E2; [|discriminate E1] end. injection E1 as ->.
    assert (O : forall c, c <> a -> size_of t1 (Z.of_nat c) = size_of t (Z.of_nat c)).
    { intros c Nc. rewrite (insert_all_size _ _ _ _ E2). unfold size_of, set_image_size. destruct (mfind (Z.of_nat a) (t_cams t)); [|reflexivity]. cbn [t_cams]. rewrite mfind_mset_neq by lia. reflexivity. }
    destruct (IH t1 t' N2) as (A & B); [intros c Hc; rewrite O by (intros ->; contradiction); apply K; right; auto|exact E|]. split.
    + intros c Hc. cbn [In] in Hc. rewrite A by tauto. apply O. intros ->. tauto.
    + intros c k [<-|Hc] Hk; [|auto]. rewrite A by exact N1. rewrite (insert_all_size _ _ _ _ E2), set_size by (apply K; left; reflexivity). rewrite Z.eqb_refl, Hk. reflexivity.
Qed.
Lemma extraction_size w L s t c size : boardExtraction w L s = Some t -> c < su_nc s -> image_size w s c size -> size_of t (Z.of_nat c) = Some size.
Proof.
  intros E Hc H. unfold boardExtraction in E. unfold image_size in H.
  assert (K : forall c, In c (seq 0 (su_nc s)) -> size_of (init_tables (su_nc s) (List.length (su_boards s))) (Z.of_nat c) <> None).
  { intros d Hd. apply in_seq in Hd. unfold size_of, init_tables. cbn [t_cams]. rewrite dense_find. rewrite (nth_error_nth' _ (mkCam [] [] [] 0 0)%Z) by (rewrite repeat_length; lia). discriminate. }
  assert (I : In c (seq 0 (su_nc s))) by (apply in_seq; lia).
  destruct (load_keypoints _ _).
  - unfold loadDetectedKeypoints in E. destruct (DataModel.load_cameras _ _ _) as [t1| |] eqn:El; try discriminate E. injection E as <-. destruct H as (k & Hk & ->).
    destruct (load_size _ _ _ _ (seq_NoDup _ _) K El) as (_ & B). apply B; auto.
  - destruct H as (p & Hp & ->). unfold detect_all in E. destruct (detect_size L w s _ _ _ (seq_NoDup _ _) K E) as (_ & B). apply B; auto.
Qed.
Lemma mfind_map {V W} (f : Z -> V -> W) (m : smap Z V) c : mfind c (map (fun '(k, v) => (k, f k v)) m) = option_map (f c) (mfind c m).
Proof. induction m as [|[k v] m IH]; [reflexivity|]. cbn [map mfind]. destruct (kcmp c k) eqn:E; [apply kcmp_eq in E; subst; reflexivity|exact IH|exact IH]. Qed.
(** Every camera in the saved files has the size of its images. *)
Theorem C43_saved_image_sizes : forall w L path s t r c size, completed w L path s t r -> c < su_nc s -> image_size w s c size ->
  (forall k, In (Z.of_nat c, k) (saved_cameras (su_models s) r) -> (r_cols k, r_rows k) = size) /\
  (forall k, mfind (Z.of_nat c) (saveDetectedKeypoints (ru_t r)) = Some k -> (k_width k, k_height k) = size).
Proof.
  intros w L path s t r c size [_ C2 C3] Hc H. assert (S := extraction_size _ _ _ _ _ _ C2 Hc H).
  assert (ET : t_cams (ru_t r) = t_cams t).
  { unfold calibrate_app in C3. apply calibrate_logged_run in C3. apply calibrate_tables in C3 as (i & ps & _ & E). unfold estimatePoseAllBoards in E. destruct (collect _); [|discriminate E]. injection E as <- _. reflexivity. }
  unfold size_of in S. rewrite <- ET in S. destruct (mfind (Z.of_nat c) (t_cams (ru_t r))) as [e|] eqn:Ee; [|discriminate S]. cbn [option_map] in S. injection S as S.
  split.
  - intros k Hk. unfold saved_cameras in Hk. rewrite save_first in Hk. destruct (ca_groups (ru_s r)) as [|(g, G) rest]; [destruct Hk|]. unfold group_records in Hk. apply in_flat_map in Hk as (d & _ & Hk).
    destruct (mfind d (cameras_of (su_models s) r)) as [q|] eqn:Eq; [|destruct Hk]. destruct (mfind d (cg_poses G)); [|destruct Hk]. destruct Hk as [Hk|[]]. injection Hk as -> <-. cbn [r_cols r_rows].
    unfold cameras_of in Eq. rewrite mfind_map, Ee in Eq. injection Eq as <-. exact S.
  - intros k Hk. unfold saveDetectedKeypoints in Hk. rewrite mfind_map, Ee in Hk. injection Hk as <-. exact S.
Qed.
Print Assumptions C43_saved_image_sizes.
(** The run of AppExample.v: both cameras have a size. *)
Example C43_sizes_example : exists svd i0 s t r size, let w := grid_world "out" "" "cams.yml" in
  completed w (grid_libs svd i0) "conf.yml" s t r /\ 0 < su_nc s /\ image_size w s 0 size.
Proof.
  destruct PropGeom.C20_svd_exists as (svd & SO). exists svd, (I9 0 0 0 0 0 0 0 0 0)%R.
  destruct (grid_run svd (I9 0 0 0 0 0 0 0 0 0)%R "out" "" "cams.yml" SO (or_introl eq_refl)) as (s & es & ins & r & all & C1 & Ec & Rm & En & Ar & Ef & Tr & Fo).
  destruct (C58_what_is_written _ _ _ _ _ _ Rm) as (s' & t & r' & all' & Cm & _). assert (S := cm_setup _ _ _ _ _ _ Cm). destruct (grid_setup "out" "" "cams.yml") as (B & made & C2 & _). rewrite C2 in S. injection S as <-.
  eexists. exists t, r'. eexists. cbv zeta. split; [exact Cm|]. split; [cbn; lia|]. exists (grid_node 0). split; reflexivity.
Qed.
