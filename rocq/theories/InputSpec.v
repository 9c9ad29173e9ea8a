(** Specification of the inputs: documented keys of the configuration file (README.md
    119-168, configs/*.yml) and documented image file names. *)
From Coq Require Import List ZArith Reals String Ascii.
From Verif Require Import BoardModel InputModel.
Import ListNotations.
Open Scope string_scope.

(** ** Keys and settings *)
Definition int_settings : list (string * (config -> Z)) := [
  ("number_camera", cf_nb_camera);
  ("number_board", fun c => g_nb_board (cf_boards c));
  ("number_x_square", fun c => g_nx (cf_boards c));
  ("number_y_square", fun c => g_ny (cf_boards c));
  ("number_iterations", cf_iterations);
  ("save_reprojection", cf_save_repro);
  ("save_detection", cf_save_detect);
  ("he_approach", cf_he);
  ("fix_intrinsic", cf_fix_intrinsic)].
Definition real_settings : list (string * (config -> R)) := [
  ("square_size", fun c => g_square (cf_boards c));
  ("min_perc_pts", cf_min_perc);
  ("ransac_threshold", cf_ransac);
  ("length_square", cf_length_square);
  ("length_marker", cf_length_marker)].
Definition string_settings : list (string * (config -> string)) := [
  ("root_path", cf_root);
  ("cam_prefix", cf_prefix);
  ("save_path", cf_save);
  ("camera_params_file_name", cf_params_name);
  ("cam_params_path", cf_cam_params);
  ("keypoints_path", cf_keypoints)].
Definition int_list_settings : list (string * (config -> list Z)) := [
  ("boards_index", fun c => g_boards_index (cf_boards c));
  ("number_x_square_per_board", fun c => g_nx_per (cf_boards c));
  ("number_y_square_per_board", fun c => g_ny_per (cf_boards c))].
Definition real_list_settings : list (string * (config -> list R)) := [
  ("square_size_per_board", fun c => g_square_per (cf_boards c))].
(** 0 is off, 1 is on *)
Definition flag_settings : list (string * (config -> bool)) := [("refine_corner", cf_refine_corner)].

(** the first entry of the file with that key is v *)
Definition says (f : cfile) (k : string) (v : node) : Prop :=
  exists l r, f = (l ++ (k, v) :: r)%list /\ ~ In k (map fst l).
Definition silent (f : cfile) (k : string) : Prop := ~ In k (map fst f).

Fixpoint has_char (a : ascii) (s : string) : Prop :=
  match s with EmptyString => False | String c r => c = a \/ has_char a r end.
(** A key ends at the first colon when cv::FileStorage parses a file *)
Definition parsed (f : cfile) : Prop := forall k, In k (map fst f) -> ~ has_char ":" k.

(** ** Image files *)
Definition image_exts : list string := ["jpg"; "png"; "bmp"; "jpeg"; "jp2"; "tiff"].
(** the name is the extension or ends in a dot and the extension *)
Definition image_name (p : string) : Prop := exists e, In e image_exts /\ (p = e \/ exists base, p = (base ++ "." ++ e)%string).
(** n elements of l satisfy P *)
Inductive how_many {A} (P : A -> Prop) : list A -> nat -> Prop :=
| hm_nil : how_many P [] 0
| hm_yes a l n : P a -> how_many P l n -> how_many P (a :: l) (S n)
| hm_no a l n : ~ P a -> how_many P l n -> how_many P (a :: l) n.
(** p is the file with number f of a folder listing: one of the image files, after f others *)
Definition numbered_file (listing : list string) (f : nat) (p : string) : Prop :=
  exists before after, listing = (before ++ p :: after)%list /\ image_name p /\ how_many image_name before f.
Definition digit (n : nat) : ascii := ascii_of_nat (48 + n).
