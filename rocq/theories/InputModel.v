(** Model of what the calibration reads: the configuration file (McCalib.cpp 24-113,
    Board.cpp 29-58), the choice between loading and detecting (219-226) and the image
    files of the cameras (140-170, 234-261).

    A configuration file is the list of its top-level entries as parsed by
    cv::FileStorage; the file system is an oracle (what cv::glob lists in a folder, what
    an image contains). *)
From Coq Require Import List ZArith Reals String Ascii DecimalString.
From Verif Require Import SMap DataModel DetectModel BoardModel.
Import ListNotations.
Close Scope R_scope.
Open Scope nat_scope.
Open Scope string_scope.

(** ** Configuration *)
Inductive node := NInt (z : Z) | NReal (x : R) | NStr (s : string) | NSeq (l : list node).
Definition cfile : Type := list (string * node).
(** fs["key"]: None is the empty FileNode *)
Definition key (f : cfile) (k : string) : option node := option_map snd (find (fun e => String.eqb (fst e) k) f).

(** cv::read(const FileNode&, int&, int) called by operator>> with the default 0: an absent
    node sets the variable to 0 (OpenCV persistence.hpp/.cpp; trusted).  cvRound is
    rounding to the nearest integer, ties up. *)
Definition read_int (n : option node) : Z :=
  match n with
  | None => 0%Z
  | Some (NInt z) => z
  | Some (NReal x) => round_half_up x
  | Some _ => 2147483647%Z
  end.
(** cv::read for float and double; the maximal value for a node that is no number *)
Definition read_real (n : option node) : R :=
  match n with
  | None => 0%R
  | Some (NInt z) => IZR z
  | Some (NReal x) => x
  | Some _ => dbl_max
  end.
(** cv::read for bool *)
Definition read_bool (n : option node) : bool := negb (Z.eqb (read_int n) 0).
(** FileNode to std::string; anything that is no string gives "" *)
Definition read_string (n : option node) : string := match n with Some (NStr s) => s | _ => "" end.
(** FileNode to std::vector: the elements of a sequence, a scalar is one element, an absent
    node none *)
Definition elements (n : option node) : list node := match n with None => [] | Some (NSeq l) => l | Some x => [x] end.
Definition read_ints (n : option node) : list Z := map (fun x => read_int (Some x)) (elements n).
Definition read_reals (n : option node) : list R := map (fun x => read_real (Some x)) (elements n).

(** the members of Calibration set from the file, McCalib.cpp 40-78 *)
Record config := mkConf {
  cf_nb_camera : Z;                 (* nb_camera_ *)
  cf_boards : bconfig;              (* boards: see BoardModel *)
  cf_refine_corner : bool;          (* refine_corner_ *)
  cf_min_perc : R;                  (* min_perc_pts_ *)
  cf_root : string; cf_prefix : string;   (* root_path_, cam_prefix_ *)
  cf_quaternion : bool;             (* quaternion_averaging_ *)
  cf_ransac : R;                    (* ransac_thresh_ *)
  cf_iterations : Z;                (* nb_iterations_ *)
  cf_models : list Z;               (* distortion_per_camera *)
  cf_length_square : R; cf_length_marker : R;
  cf_save : string; cf_params_name : string;  (* save_path_, camera_params_file_name_ *)
  cf_cam_params : string; cf_keypoints : string;  (* cam_params_path_, keypoints_path_ *)
  cf_save_repro : Z; cf_save_detect : Z;
  cf_he : Z; cf_fix_intrinsic : Z }.

(** McCalib.cpp 40-78 and 105-106.  The keys of the boards are read here and once more by
    Board.cpp 36-52.  number_camera and number_board are asserted to be positive (42, 47)
    and stored as unsigned. *)
Definition read_config (f : cfile) : config :=
  let nb_camera := read_int (key f "number_camera") in
  let per_camera := read_ints (key f "distortion_per_camera") in
  mkConf nb_camera
    (mkCfg (read_int (key f "number_board")) (read_ints (key f "boards_index"))
           (read_int (key f "number_x_square")) (read_int (key f "number_y_square")) (read_real (key f "square_size"))
           (read_ints (key f "number_x_square_per_board")) (read_ints (key f "number_y_square_per_board"))
           (read_reals (key f "square_size_per_board")))
    (read_bool (key f "refine_corner")) (read_real (key f "min_perc_pts"))
    (read_string (key f "root_path")) (read_string (key f "cam_prefix"))
    (read_bool (key f "quaternion_averaging:")) (read_real (key f "ransac_threshold")) (read_int (key f "number_iterations"))
    (match per_camera with [] => repeat (read_int (key f "distortion_model")) (Z.to_nat nb_camera) | l => l end)
    (read_real (key f "length_square")) (read_real (key f "length_marker"))
    (read_string (key f "save_path")) (read_string (key f "camera_params_file_name"))
    (read_string (key f "cam_params_path")) (read_string (key f "keypoints_path"))
    (read_int (key f "save_reprojection")) (read_int (key f "save_detection"))
    (read_int (key f "he_approach")) (read_int (key f "fix_intrinsic")).

(** McCalib.cpp 109-113: distortion_model_ of camera i; None: outside the vector *)
Definition camera_model (c : config) (i : nat) : option Z := nth_error (cf_models c) i.

(** ** Where the board observations come from *)
(** McCalib.cpp 219-226: true = loadDetectedKeypoints, false = detectBoards *)
Definition load_keypoints (exists_file : string -> bool) (c : config) : bool :=
  negb (String.eqb (cf_keypoints c) "") && negb (String.eqb (cf_keypoints c) "None") && exists_file (cf_keypoints c).

(** McCalib.cpp 663-671: whether the intrinsics come from a file; None: reported as fatal,
    and nothing is done *)
Definition load_intrinsics (yml_exists : string -> bool) (c : config) : option bool :=
  if negb (String.eqb (cf_cam_params c) "") && negb (String.eqb (cf_cam_params c) "None")
  then if yml_exists (cf_cam_params c) then Some true else None
  else Some false.

(** ** Image files *)
(** McCalib.cpp 141-142 *)
Definition allowed_exts : list string := ["jpg"; "png"; "bmp"; "jpeg"; "jp2"; "tiff"].
(** std::string::find_last_of("."), None is npos *)
Fixpoint find_last_dot (s : string) : option nat :=
  match s with
  | EmptyString => None
  | String c r => match find_last_dot r with
                  | Some i => Some (S i)
                  | None => if Ascii.eqb c "."%char then Some 0 else None
                  end
  end.
(** McCalib.cpp 161-162; npos + 1 is 0 *)
Definition extension (s : string) : string :=
  let from := match find_last_dot s with Some i => S i | None => 0 end in
  substring from (String.length s - from) s.
(** McCalib.cpp 163 *)
Definition allowed (s : string) : bool := existsb (String.eqb (extension s)) allowed_exts.
(** McCalib.cpp 158-167 *)
Definition filter_images (fn : list string) : list string := filter allowed fn.
(** McCalib.cpp 147-149: setw(3), setfill('0') *)
Fixpoint zeros (n : nat) : string := match n with O => "" | S m => String "0" (zeros m) end.
Definition number3 (n : nat) : string :=
  let s := NilEmpty.string_of_uint (Nat.to_uint n) in zeros (3 - String.length s) ++ s.

(** what is in an image file: whether cv::imread can read it, the grey image, and the
    corners found for each board *)
Record content := mkCont { cn_ok : bool; cn_gray : image; cn_det : nat -> list pt2 * list Z }.
(** McCalib.cpp 140-170 with 234-261: the tasks of every camera; [ls d] is what cv::glob
    lists for the folder d of root_path_ *)
Definition camera_files (ls : string -> list string) (img : string -> content) (prefix : string) (cam : nat) : list file_t :=
  map (fun p => mkFile (cn_ok (img p)) (cn_gray (img p)) p (cn_det (img p))) (filter_images (ls (prefix ++ number3 (cam + 1)))).
Definition detectBoards (cfg : det_cfg) (ls : string -> list string) (img : string -> content) (prefix : string) (nb_camera : nat)
  : option (list (list (list (insertion pt2)))) :=
  collect (map (fun cam => camera_tasks cfg (Z.of_nat cam) 0 (camera_files ls img prefix cam)) (seq 0 nb_camera)).
(** McCalib.cpp 243-250: im_cols_ and im_rows_ of the camera; None: they keep their value
    (no image), or the first image cannot be read (an assertion of a debug build) *)
Definition camera_size (files : list file_t) : option (Z * Z) :=
  match files with
  | f :: _ => if fl_ok f then Some (im_cols (fl_gray f), im_rows (fl_gray f)) else None
  | [] => None
  end.
