(** The calibrate application: apps/calibrate/src/calibrate.cpp, with the constructor of
    Calibration and boardExtraction (McCalib.cpp 24-262).

    The result of a run is the list of its effects on the file system, in order, and the
    way it ends.  A crash after any effect is a prefix of this list.  Undefined behaviour,
    failed assertions and exceptions all end the run ([Stopped]) at the point where they
    occur.  Reading: the text syntax of the files is not modelled, [world] gives their
    contents.  A point without an image (in the focal plane of the camera, see [image] in
    ResidualSpec) has no value in the model either; what the program makes of it is left
    open: such runs are also [Stopped].  Writing: a cv::FileStorage that could not be opened ignores what is written
    to it (operator<<, persistence.hpp), as in saveCamerasParams for the second group. *)
From Coq Require Import List ZArith QArith Reals Ascii String Bool.
From Verif Require Import SMap GraphModel DataModel DetectModel RansacModel GeomModel ChainModel ObjectsModel GroupModel StageModel
  PipelineModel HandEyeModel CameraModel ResidualModel FileModel IntrinsicModel GroupAll WorkflowModel BoardModel InputModel ImagesModel LogModel.
Import ListNotations.
Close Scope Q_scope.
Close Scope R_scope.
Open Scope nat_scope.
Open Scope string_scope.

(** ** Paths: std::filesystem::path on a system with '/' as the only separator *)
(** position of the last '/' (path::filename) *)
Fixpoint find_last_slash (s : string) : option nat :=
  match s with
  | EmptyString => None
  | String c r => match find_last_slash r with
                  | Some i => Some (S i)
                  | None => if Ascii.eqb c "/"%char then Some 0 else None
                  end
  end.
(** path::filename: what follows the last '/' *)
Definition filename (p : string) : string :=
  let from := match find_last_slash p with Some i => S i | None => 0 end in
  substring from (String.length p - from) p.
(** path::has_filename, used in McCalib.cpp 33, 92, 667 and calibrate.cpp 91 *)
Definition has_filename (p : string) : bool := negb (String.eqb (filename p) "").
(** path::extension of the filename: from its last dot, unless that is its first character;
    none for "..", used in McCalib.cpp 34, 668 and calibrate.cpp 92 *)
Definition path_extension (p : string) : string :=
  let f := filename p in
  if String.eqb f ".." then "" else
  match find_last_dot f with
  | None | Some 0 => ""
  | Some i => substring i (String.length f - i) f
  end.
(** path::operator/ as used in McCalib.cpp 149, 378, 415, 457, 495, 1895, 2007, 2253 *)
Definition path_join (a b : string) : string :=
  if String.prefix "/" b then b
  else if String.eqb (filename a) "" then a ++ b else a ++ "/" ++ b.
(** McCalib.cpp 32-34, 665-668; calibrate.cpp 90-92 *)
Definition yml_available (exists_file : string -> bool) (p : string) : bool :=
  exists_file p && has_filename p && String.eqb (path_extension p) ".yml".

(** ** The world *)
(** Contents of the file system at the start of the run.  [w_exists made], [w_open made] and
    [w_mkdir made] (does the path exist, can it be opened for writing, can it be created) also
    depend on the directories made so far.  [w_ls] lists the files of a folder in the order of
    cv::glob (McCalib.cpp 153-154); [w_image] is cv::imread with what cv::aruco finds in it. *)
Record world := mkWorld {
  w_exists : list string -> string -> bool;
  w_open : list string -> string -> bool;
  w_mkdir : list string -> string -> bool;
  w_config : string -> cfile;
  w_keypoints : string -> smap Z (kpnode pt2);
  w_params : string -> list (Z * cam_rec);
  w_ls : string -> list string;
  w_image : string -> content }.

(** Library functions and everything left to chance: SVD, Rodrigues logarithm, heap order,
    Ceres, OpenCV's P3P and PnP per call ([lb_env], [lb_pose0]), OpenCV's hand-eye and k-means,
    std::random_shuffle, OpenCV's calibrateCamera, the least-squares fits of the detection,
    the order in which the threads of one camera insert their boards ([lb_sched]), and the
    values of uninitialised members ([lb_p0], [lb_gp0]), and whether OpenCV's projection for a
    camera model accepts an empty list of points ([lb_empty]). *)
Record libs := mkLibs {
  lb_svd : (nat -> nat -> R) -> quat;
  lb_lr : mat3 -> vec3;
  lb_pick : dstate -> nat;
  lb_g0 : graph;
  lb_solve : list block -> params -> params;
  lb_env : nat -> nat -> rs_env par6 vec3;
  lb_pose0 : nat -> nat -> par6;
  lb_handeye : Z -> list pose -> list pose -> option pose;
  lb_shuffle : Z -> list nat -> list nat;
  lb_cvcal : Z -> list (list vec3 * list pt2) -> Z -> Z -> option (mat3 * list R);
  lb_fit : list R -> R * R * R * R * R * R;
  lb_fit_line : list pt2 -> R * R * R * R;
  lb_sched : nat -> list (list (insertion pt2)) -> list (insertion pt2);
  lb_p0 : params;
  lb_gp0 : nat -> par6;
  lb_empty : Z -> bool }.

(** ** Effects *)
(** The five result files *)
Inductive doc :=
| DCameras (l : list (Z * cam_rec))
| DObjects (l : list (Z * list (vec3 * Z * Z)))
| DPoses (l : list (Z * list par6))
| DErrors (e : nat * list group_errors)
| DKeypoints (k : smap Z (kpnode pt2)).
(** [Open]: the file now exists and is empty; [Write]: all of it has been written and it is
    closed. *)
Inductive event :=
| MakeDir (p : string)
| Picture (p : picture)
| Open (p : string)
| Write (p : string) (d : doc).
(** how the process ends *)
Inductive status := Returned (code : Z) | Stopped.

(** ** The constructor, McCalib.cpp 24-135 *)
(** point of a board as a vector (Board.cpp: pts_3d_) *)
Definition vec_of (q : R * R * R) : vec3 := V3 (fst (fst q)) (snd (fst q)) (snd q).
(** what the constructor prepares *)
Record setup := mkSetup { su_conf : config; su_nc : nat; su_boards : list board; su_made : list string }.
(** boards_3d_[b]->pts_3d_ (McCalib.cpp 122-134) *)
Definition su_pts (s : setup) (b : Z) : list vec3 :=
  match znth (su_boards s) b with Some B => map vec_of (bd_pts B) | None => [] end.
(** cams_[c]->distortion_model_ (McCalib.cpp 106-110) *)
Definition su_models (s : setup) (c : Z) : Z := nth (Z.to_nat c) (cf_models (su_conf s)) 0%Z.
(** boards as the detection sees them, and McCalib.hpp 77-78 *)
Definition su_det (L : libs) (s : setup) : det_cfg :=
  mkDC (map (fun B => mkDB (map (fun q => fst q) (bd_pts B)) (bd_nb_pts B) (bd_square B)) (su_boards s))
       (cf_refine_corner (su_conf s)) (cf_min_perc (su_conf s)) 5 20 (lb_fit L) (lb_fit_line L).
(** McCalib.cpp 97-99: None = create_directories throws *)
Definition save_folder (w : world) (p : string) : option (list string) :=
  if negb (w_exists w [] p) && has_filename p then if w_mkdir w [] p then Some [p] else None else Some [].
(** McCalib.cpp 39-134; the check of the path (32-38) was made by main.  The directory is made
    before the models of the cameras and the boards are set up (121-123: see [all_accepted] in
    BoardModel). *)
Definition construct (w : world) (path : string) : list event * option setup :=
  let c := read_config (w_config w path) in
  if Z.ltb 0 (cf_nb_camera c) && Z.ltb 0 (g_nb_board (cf_boards c)) then
    match save_folder w (cf_save c) with
    | None => ([], None)
    | Some made =>
        (map MakeDir made,
         if Nat.leb (Z.to_nat (cf_nb_camera c)) (List.length (cf_models c)) && all_accepted (cf_length_square c) (cf_length_marker c) (calib_charucos (cf_boards c)) then
           option_map (fun bs => mkSetup c (Z.to_nat (cf_nb_camera c)) bs made)
             (collect (map (fun k => calib_board (cf_boards c) (Z.of_nat k)) (seq 0 (effective_nb_board (cf_boards c)))))
         else None)
    end
  else ([], None).

(** ** boardExtraction, McCalib.cpp 140-262 *)
(** detectBoardsWithCamera 234-262: image size from the first image, which must be readable;
    no image: nothing to do *)
Definition detect_camera (L : libs) (cfg : det_cfg) (t : tables pt2) (cam : nat) (files : list file_t) : option (tables pt2) :=
  match files with
  | [] => Some t
  | _ => match camera_size files, camera_tasks cfg (Z.of_nat cam) 0 files with
         | Some (cols, rows), Some ts => insert_all (set_image_size t (Z.of_nat cam) cols rows) (lb_sched L cam ts)
         | _, _ => None
         end
  end.
(** detectBoards 140-170: the folder of camera cam is root_path_ / (cam_prefix_ + number) *)
Definition detect_all (w : world) (L : libs) (s : setup) : option (tables pt2) :=
  fold_left (fun acc cam => match acc with
                            | Some t => detect_camera L (su_det L s) t cam
                                          (camera_files (w_ls w) (w_image w) (path_join (cf_root (su_conf s)) (cf_prefix (su_conf s))) cam)
                            | None => None
                            end) (seq 0 (su_nc s)) (Some (init_tables (su_nc s) (List.length (su_boards s)))).
(** boardExtraction 219-226 *)
Definition boardExtraction (w : world) (L : libs) (s : setup) : option (tables pt2) :=
  if load_keypoints (w_exists w (su_made s)) (su_conf s) then
    match loadDetectedKeypoints (w_keypoints w (cf_keypoints (su_conf s))) (su_nc s) (init_tables (su_nc s) (List.length (su_boards s))) with
    | Loaded t => Some t
    | _ => None
    end
  else detect_all w L s.

(** ** The calibration, calibrate.cpp 15-67 *)
(** initializeCalibrationAllCam 662-695: where the intrinsics come from *)
Definition source (w : world) (L : libs) (s : setup) : init_source :=
  match load_intrinsics (yml_available (w_exists w (su_made s))) (su_conf s) with
  | Some true => FromFile (w_params w (cf_cam_params (su_conf s)))
  | Some false => FromImages (lb_shuffle L) (lb_cvcal L)
  | None => NoFile
  end.
(** calibrate.cpp 15-67 with the settings of the configuration, including the steps that only
    log reprojection errors *)
Definition calibrate_app (w : world) (L : libs) (s : setup) (t : tables pt2) : option run :=
  calibrate_logged (lb_empty L) (su_pts s) (su_models s) (lb_svd L) (lb_lr L) (cf_quaternion (su_conf s)) (lb_pick L) (lb_g0 L) (lb_solve L)
    (cf_ransac (su_conf s)) (cf_iterations (su_conf s)) (lb_env L) (lb_pose0 L) (lb_handeye L (cf_he (su_conf s)))
    (cf_fix_intrinsic (su_conf s)) (source w L s) t (lb_p0 L) (lb_gp0 L).

(** ** Saving, calibrate.cpp 69-84 *)
(** a step: its effects, and does it end normally *)
Definition step : Type := list event * bool.
(** steps one after the other *)
Fixpoint run_steps (l : list step) : list event * status :=
  match l with
  | [] => ([], Returned 0)
  | (es, true) :: r => (es ++ fst (run_steps r), snd (run_steps r))%list
  | (es, false) :: _ => (es, Stopped)
  end.
(** open, write, close a cv::FileStorage (McCalib.cpp 380, 416, 458, 496, 2254); [d] = None:
    undefined behaviour while writing *)
Definition save_file (w : world) (made : list string) (p : string) (d : option doc) : step :=
  let can := w_open w made p in
  match d with
  | Some d => (if can then [Open p; Write p d] else [], true)
  | None => (if can then [Open p] else [], false)
  end.
(** McCalib.cpp 376-379 *)
Definition cameras_path (s : setup) : string :=
  path_join (cf_save (su_conf s)) (if String.eqb (cf_params_name (su_conf s)) "" then "calibrated_cameras_data.yml" else cf_params_name (su_conf s)).
(** the other result files (McCalib.cpp 415, 457, 495, 2253) *)
Definition in_folder (s : setup) (name : string) : string := path_join (cf_save (su_conf s)) name.
(** save3DObj 413-449, all objects *)
Definition objects_doc (s : setup) (r : run) : option doc :=
  option_map DObjects (collect (map (fun '(_, o) => option_map (fun cols => (ob_id o, cols)) (save3DObj (su_pts s) o)) (ca_objs (ru_s r)))).
(** saveReprojectionErrorToFile 2251-2341 *)
Definition errors_doc (s : setup) (r : run) : option doc := option_map DErrors (saveReprojectionErrorToFile (su_models s) (ru_p r) (ru_s r)).
(** a directory is made unless it exists (McCalib.cpp 1902-1908, 2013-2019); None = exception *)
Definition ensure (w : world) (st : list event * list string) (p : string) : option (list event * list string) :=
  let '(es, made) := st in
  if w_exists w made p then Some st else if w_mkdir w made p then Some (es ++ [MakeDir p], p :: made)%list else None.
(** one camera's pictures into folder/[root]/ccc (McCalib.cpp 1893-1991, 2005-2071) *)
Definition camera_pictures (w : world) (s : setup) (root : string) (pics : Z -> option (list picture)) (st : list event * list string) (c : Z)
  : option (list event * list string) :=
  match ensure w st (in_folder s root) with
  | None => None
  | Some st => match ensure w st (path_join (in_folder s root) (padded 3 c)) with
               | None => None
               | Some (es, made) => option_map (fun ps => (es ++ map Picture ps, made)%list) (pics c)
               end
  end.
(** all cameras (1996-2000, 2077-2081); where one of them fails, the pictures of the cameras
    before it are not listed *)
Definition pictures (w : world) (s : setup) (root : string) (pics : Z -> option (list picture)) (cs : list Z) (made : list string)
  : option (list event * list string) :=
  fold_left (fun acc c => match acc with Some st => camera_pictures w s root pics st c | None => None end) cs (Some ([], made)).
(** calibrate.cpp 70-73: the two optional sets of pictures; None = not completed *)
Definition readable_image (w : world) (p : string) : bool := cn_ok (w_image w p).
Definition all_pictures (w : world) (L : libs) (s : setup) (r : run) : option (list event * list string) :=
  match (if Z.eqb (cf_save_detect (su_conf s)) 1
         then pictures w s "Detection" (saveDetectionImages (readable_image w) r) (mkeys (t_cams (ru_t r))) (su_made s)
         else Some ([], su_made s)) with
  | None => None
  | Some (es, made) =>
      option_map (fun st => (es ++ fst st, snd st)%list)
        (if Z.eqb (cf_save_repro (su_conf s)) 1
         then pictures w s "Reprojection" (saveReprojectionImages (lb_lr L) (su_models s) (readable_image w) r) (mkeys (t_cams (ru_t r))) made
         else Some ([], made))
  end.
(** calibrate.cpp 77-84.  Line 82 computes all errors again; their mean is only logged (NaN if
    there are none). *)
Definition result_files (w : world) (s : setup) (made : list string) (r : run) : list step :=
  [ save_file w made (cameras_path s) (Some (DCameras (saved_cameras (su_models s) r)));
    save_file w made (in_folder s "calibrated_objects_data.yml") (objects_doc s r);
    save_file w made (in_folder s "calibrated_objects_pose_data.yml") (Some (DPoses (saved_poses r)));
    save_file w made (in_folder s "reprojection_error_data.yml") (errors_doc s r);
    ([], match all_errors (su_models s) (ru_p r) (ru_s r) with Some _ => true | None => false end);
    save_file w made (in_folder s "detected_keypoints_data.yml") (Some (DKeypoints (saveDetectedKeypoints (ru_t r)))) ].
(** calibrate.cpp 69-84 *)
Definition save_all (w : world) (L : libs) (s : setup) (r : run) : list event * status :=
  match all_pictures w L s r with
  | None => ([], Stopped)
  | Some (es, made) => (es ++ fst (run_steps (result_files w s made r)), snd (run_steps (result_files w s made r)))%list
  end.

(** ** runCalibrationWorkflow and main, calibrate.cpp 9-105 *)
Definition runCalibrationWorkflow (w : world) (L : libs) (path : string) : list event * status :=
  let '(es, o) := construct w path in
  match o with
  | None => (es, Stopped)
  | Some s =>
      match boardExtraction w L s with
      | None => (es, Stopped)
      | Some t =>
          match calibrate_app w L s t with
          | None => (es, Stopped)
          | Some r => (es ++ fst (save_all w L s r), snd (save_all w L s r))%list
          end
      end
  end.
(** main 87-105: argv[0] is the program, a missing argv[1] is a null pointer *)
Definition main (w : world) (L : libs) (argv : list string) : list event * status :=
  match argv with
  | _ :: path :: _ => if yml_available (w_exists w []) path then runCalibrationWorkflow w L path else ([], Returned (-1))
  | _ => ([], Stopped)
  end.
