(** Specification for C58 and C59: the calibrate application as seen from outside. *)
From Coq Require Import List ZArith Reals Ascii String.
From Verif Require GraphSpec GeomModel GeomSpec RansacSpec PipelineSpec ResidualSpec.
From Verif Require Import SMap DataModel DataSpec DetectModel CameraModel FileModel ObjectsModel WorkflowModel BoardModel InputModel InputSpec AppModel RigSpec.
Import ListNotations.
Close Scope R_scope.
Open Scope nat_scope.
Open Scope string_scope.

(** a path whose last component is a non-empty name followed by ".yml" *)
Definition yml_path (p : string) : Prop :=
  exists folder name, p = folder ++ name ++ ".yml" /\ name <> "" /\ ~ has_char "/" name /\ (folder = "" \/ exists d, folder = d ++ "/").

(** the files completely written, in order *)
Definition files (es : list event) : list (string * doc) := flat_map (fun e => match e with Write p d => [(p, d)] | _ => [] end) es.
(** the directories made, latest first *)
Definition folders (es : list event) : list string := rev (flat_map (fun e => match e with MakeDir p => [p] | _ => [] end) es).
(** the pictures drawn *)
Definition drawn (es : list event) : list ImagesModel.picture := flat_map (fun e => match e with Picture p => [p] | _ => [] end) es.

(** the whole calibration with the configuration at [path] ran to its end: [s] was set up
    from the configuration, [t] are the detected boards, [r] the result *)
Record completed (w : world) (L : libs) (path : string) (s : setup) (t : tables pt2) (r : run) : Prop := {
  cm_setup : snd (construct w path) = Some s;
  cm_boards : boardExtraction w L s = Some t;
  cm_run : calibrate_app w L s t = Some r }.

(** the boards that enter the calibration: those in the keypoints file or, if there is none,
    those found in the images, in the order of some schedule of the threads *)
Definition boards_in_file (k : option (kpnode pt2)) (cam : Z) : list (insertion pt2) :=
  match k with Some k => zip_ins cam (k_frames k) (k_paths k) (k_boards k) (k_pts k) (k_ids k) | None => [] end.
Definition entering (w : world) (L : libs) (s : setup) (ins : list (insertion pt2)) : Prop :=
  if load_keypoints (w_exists w (su_made s)) (su_conf s)
  then ins = flat_map (fun c => boards_in_file (mfind (Z.of_nat c) (w_keypoints w (cf_keypoints (su_conf s)))) (Z.of_nat c)) (seq 0 (su_nc s))
  else exists cams, detectBoards (su_det L s) (w_ls w) (w_image w) (path_join (cf_root (su_conf s)) (cf_prefix (su_conf s))) (su_nc s) = Some cams /\
         detection_run cams ins.

(** path [b] seen from folder [a] *)
Definition absolute (b : string) : Prop := exists r, b = "/" ++ r.
Definition open_ended (a : string) : Prop := a = "" \/ exists d, a = d ++ "/".
Definition joined (a b p : string) : Prop :=
  absolute b /\ p = b \/ ~ absolute b /\ open_ended a /\ p = a ++ b \/ ~ absolute b /\ ~ open_ended a /\ p = a ++ "/" ++ b.

(** name of the file with the cameras *)
Definition cameras_name (c : config) : string :=
  if string_dec (cf_params_name c) "" then "calibrated_cameras_data.yml" else cf_params_name c.

(** document [d] at [p] is one of the five results of run [r] *)
Inductive result (s : setup) (r : run) : string -> doc -> Prop :=
| rs_cameras p : joined (cf_save (su_conf s)) (cameras_name (su_conf s)) p ->
    result s r p (DCameras (saved_cameras (su_models s) r))
| rs_objects p l : joined (cf_save (su_conf s)) "calibrated_objects_data.yml" p ->
    Forall2 (fun e f => fst f = ob_id (snd e) /\ save3DObj (su_pts s) (snd e) = Some (snd f)) (PipelineModel.ca_objs (ru_s r)) l ->
    result s r p (DObjects l)
| rs_poses p : joined (cf_save (su_conf s)) "calibrated_objects_pose_data.yml" p ->
    result s r p (DPoses (saved_poses r))
| rs_errors p e : joined (cf_save (su_conf s)) "reprojection_error_data.yml" p ->
    saveReprojectionErrorToFile (su_models s) (ru_p r) (ru_s r) = Some e -> result s r p (DErrors e)
| rs_keypoints p : joined (cf_save (su_conf s)) "detected_keypoints_data.yml" p ->
    result s r p (DKeypoints (saveDetectedKeypoints (ru_t r))).

(** what kind of result a document is; the order in which they are written *)
Definition kind (d : doc) : nat := match d with DCameras _ => 0 | DObjects _ => 1 | DPoses _ => 2 | DErrors _ => 3 | DKeypoints _ => 4 end.
(** all five results, in this order *)
Definition all_results (s : setup) (r : run) (l : list (string * doc)) : Prop :=
  map (fun f => kind (snd f)) l = [0; 1; 2; 3; 4] /\ forall p d, In (p, d) l -> result s r p d.

(** folders the run may make *)
Definition allowed_folder (c : config) (p : string) : Prop :=
  p = cf_save c \/
  exists kind q, (kind = "Detection" \/ kind = "Reprojection") /\ joined (cf_save c) kind q /\
    (p = q \/ exists k, joined q (ImagesModel.padded 3 k) p).

(** What the libraries are trusted for: Ceres (see [ceres]), the heap of the shortest paths, the
    logarithm of rotations, that shuffling keeps the points, that a hand-eye result is a rigid
    motion, and that each thread runs its own detections in order. *)
Record sound_libs (L : libs) : Prop := {
  sl_ceres : ResidualSpec.ceres (lb_solve L);
  sl_heap : GraphSpec.good_heap (lb_pick L);
  sl_log : GeomSpec.log_ok (lb_lr L);
  sl_fair : forall n, RansacSpec.fair_shuffles (lb_env L 0 n);
  sl_handeye : forall h l l' X, lb_handeye L h l l' = Some X -> GeomSpec.rigid X;
  sl_threads : forall c ts, interleave ts (lb_sched L c ts) }.
(** the detector gives every corner an identifier; there is no image under the empty path; and a
    folder that does not exist can be made *)
Record sound_world (w : world) : Prop := {
  sw_ids : forall p k, List.length (fst (cn_det (w_image w p) k)) = List.length (snd (cn_det (w_image w p) k));
  sw_empty : cn_ok (w_image w "") = false;
  sw_folders : forall made p, w_exists w made p = true \/ w_mkdir w made p = true }.
(** the keypoints file, if it is used, was written by a detection: no board with fewer than
    five corners, an identifier per corner, and no corner that the board does not have *)
Definition sound_keypoints (w : world) (L : libs) (s : setup) : Prop :=
  load_keypoints (w_exists w (su_made s)) (su_conf s) = true ->
  forall ins, entering w L s ins -> Forall (PipelineSpec.detected_well (su_pts s)) ins.

(** the boards seen are those of an actual rig [W] (RigSpec): every detected corner is exactly
    where the camera would see it, the views determine the poses, and the cameras share views or the hand-eye calibration
    relates them *)
Record exact_scene (L : libs) (s : setup) (W : rig) (ins : list (insertion pt2)) : Prop := {
  es_models : forall c, rg_model W c = su_models s c;
  es_rigid : rigid_rig W;
  es_exact : exact_detections (su_pts s) W ins;
  es_general : general_position (su_pts s) W ins;
  es_angles : no_tiny_angles (lb_lr L) W;
  es_connected : related_cameras (lb_handeye L (cf_he (su_conf s))) W ins;
  es_direct : su_nc s <= 2 \/ (forall a b, fst (rg_cam W a) = fst (rg_cam W b)) \/ shares_with_first ins;
  es_undistort : forall c n, exact_undistort (su_pts s) W ins (lb_env L c n) }.
(** the camera parameter file of the configuration is there and holds the cameras of the rig *)
Definition true_parameters (w : world) (s : setup) (W : rig) : Prop :=
  let p := cf_cam_params (su_conf s) in
  p <> "" /\ p <> "None" /\ w_exists w (su_made s) p = true /\ yml_path p /\
  forall c, (0 <= c < Z.of_nat (su_nc s))%Z -> exists e, entry (w_params w p) c = Some e /\ (r_K e, r_dist e) = getIntrinsics (rg_model W c) (rg_intr W c).
(** the results are those of the rig: cameras; objects, whose points are the corners of their
    boards in the frame of one of them, with that board's pose for every view; no error; and, if
    every camera detected a board, a keypoints file from which all the detections can be loaded *)
Record true_results (lr : GeomModel.mat3 -> GeomModel.vec3) (s : setup) (W : rig) (ins : list (insertion pt2)) (all : list (string * doc)) : Prop := {
  tr_cameras : forall p l, In (p, DCameras l) all -> true_cameras W ins l;
  tr_boards : forall p l i k q, In (p, DObjects l) all -> In i ins -> corner (su_pts s) (i_board i) k q -> exists id cols x, In (id, cols) l /\ In (x, i_board i, k) cols;
  tr_objects : forall p l p' l' id cols ps, In (p, DObjects l) all -> In (p', DPoses l') all -> In (id, cols) l -> In (id, ps) l' ->
    exists ref, (forall x b k, In (x, b, k) cols -> exists q, corner (su_pts s) b k q /\ GeomModel.pact (rg_board W ref) x = GeomModel.pact (rg_board W b) q) /\
      exists views, ps = map (fun cf => GeomModel.Proj2RT lr (board_at W (fst cf) (snd cf) ref)) views /\
        forall c f, In (c, f) views <-> exists i x k, In i ins /\ i_cam i = c /\ i_frame i = f /\ In (x, i_board i, k) cols;
  tr_errors : forall p n l ge fe ce e, In (p, DErrors (n, l)) all -> In ge l -> In fe (ge_frames ge) -> In ce (fe_cams fe) -> In e (ce_errors ce) -> e = 0%R;
  tr_keypoints : forall p k, In (p, DKeypoints k) all -> (forall c, (0 <= c < Z.of_nat (su_nc s))%Z -> saw ins c) ->
    exists t', loadDetectedKeypoints k (su_nc s) (init_tables (su_nc s) (List.length (su_boards s))) = Loaded t' /\
      Permutation.Permutation (all_said t') (map ins_says ins) }.
(** No camera parameter file is configured, and OpenCV's calibration of the single cameras finds
    the true parameters: every camera detected a board, fisheye detections keep off the border
    of the image, and from exact views of the documented number of detected boards (all, or 50 of them,
    500 for a fisheye camera) calibrateCamera returns the parameters of the camera. *)
Definition view_of (s : setup) (i : insertion pt2) (v : list GeomModel.vec3 * list pt2) : Prop :=
  snd v = i_pts i /\ Forall2 (fun k q => corner (su_pts s) (i_board i) k q) (i_ids i) (fst v).
Record calibrates_truly (L : libs) (s : setup) (W : rig) (ins : list (insertion pt2)) (t : tables pt2) : Prop := {
  ct_no_file : cf_cam_params (su_conf s) = "" \/ cf_cam_params (su_conf s) = "None";
  ct_shuffle : forall c n, Permutation.Permutation (seq 0 n) (lb_shuffle L c (seq 0 n));
  ct_all : forall c, (0 <= c < Z.of_nat (su_nc s))%Z -> saw ins c;
  ct_border : forall c r i x y, rg_model W c = 1%Z -> mfind c (t_cams t) = Some r -> In i ins -> i_cam i = c -> In (x, y) (i_pts i) ->
    (5 / 100 * IZR (c_cols r) < x < 95 / 100 * IZR (c_cols r) /\ 5 / 100 * IZR (c_rows r) < y < 95 / 100 * IZR (c_rows r))%R;
  ct_opencv : forall c boards views cols rows, NoDup boards -> boards <> [] -> (forall i, In i boards -> In i ins /\ i_cam i = c) ->
    List.length boards = Nat.min (List.length (filter (fun i => Z.eqb (i_cam i) c) ins)) (if Z.eqb (rg_model W c) 1 then 500 else 50) ->
    Forall2 (view_of s) boards views ->
    lb_cvcal L (rg_model W c) views cols rows = Some (getIntrinsics (rg_model W c) (rg_intr W c)) }.

(** A second run with the same cameras and boards that reads the keypoints [k] and the camera
    parameters [cams] from files. *)
Record rerun (w : world) (s s' : setup) (k : smap Z (kpnode pt2)) (cams : list (Z * cam_rec)) : Prop := {
  rr_cameras : su_nc s' = su_nc s;
  rr_models : forall c, su_models s' c = su_models s c;
  rr_boards : su_boards s' = su_boards s;
  rr_named : cf_keypoints (su_conf s') <> "" /\ cf_keypoints (su_conf s') <> "None";
  rr_there : w_exists w (su_made s') (cf_keypoints (su_conf s')) = true;
  rr_keypoints : w_keypoints w (cf_keypoints (su_conf s')) = k;
  rr_params_named : cf_cam_params (su_conf s') <> "" /\ cf_cam_params (su_conf s') <> "None" /\ yml_path (cf_cam_params (su_conf s'));
  rr_params_there : w_exists w (su_made s') (cf_cam_params (su_conf s')) = true;
  rr_params : w_params w (cf_cam_params (su_conf s')) = cams }.
(** two files of camera parameters describe the same cameras *)
Definition same_cameras (l l' : list (Z * cam_rec)) : Prop :=
  (forall c, In c (map fst l') <-> In c (map fst l)) /\
  forall c e e', In (c, e) l -> In (c, e') l' -> r_K e' = r_K e /\ r_dist e' = r_dist e /\ r_type e' = r_type e /\ r_pose e' = r_pose e.
(** the application ends before any picture or result file, at an error *)
Definition stops_early (w : world) (L : libs) (argv : list string) : Prop :=
  snd (main w L argv) = Stopped /\ forall e, In e (fst (main w L argv)) -> exists p, e = MakeDir p.
