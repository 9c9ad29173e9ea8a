(** The board generator: apps/create_charuco_boards/src/create_charuco_boards.cpp with
    createCharucoBoardsImages (McCalib/src/utilities.cpp 53-79, 114-139).

    As in AppModel the result of a run is the list of its effects on the file system and the
    way it ends; [world] gives the contents of the file system.  What OpenCV draws is the
    oracle [draw]. *)
From Coq Require Import List ZArith Reals Ascii String Bool.
From Verif Require Import DetectModel BoardModel InputModel AppModel.
Import ListNotations.
Close Scope R_scope.
Open Scope nat_scope.
Open Scope string_scope.

(** What the generator does: make a folder, write an image file (cv::imwrite). *)
Inductive print_event (P : Type) := PDir (p : string) | PImage (p : string) (i : P).
Arguments PDir {P} p.
Arguments PImage {P} p i.

Section Create.
Context {P : Type}.
(** CharucoBoard::draw / generateImage of a board with the given square and marker length in
    an image of the given size; None: it throws (a size that is not positive, an identifier
    the dictionary does not have) *)
Variable draw : R -> R -> charuco -> Z -> Z -> option P.

(** create_charuco_boards.cpp 54-77: resolution_x_per_board or resolution_y_per_board; the
    common resolution is appended once per board if there is no square_size_per_board *)
Definition resolutions (f : cfile) (per common : string) : list Z :=
  read_ints (key f per) ++ match g_square_per (cf_boards (read_config f)) with
                           | [] => repeat (read_int (key f common)) (Z.to_nat (g_nb_board (cf_boards (read_config f))))
                           | _ => []
                           end.
(** utilities.cpp 60-76, 121-137: one image per board, in order.  None: a board that OpenCV
    refuses, an access outside the vectors, or an image that cannot be drawn *)
Definition board_images (f : cfile) : option (list P) :=
  let sq := read_real (key f "length_square") in
  let mk := read_real (key f "length_marker") in
  match generator_charucos (cf_boards (read_config f)) with
  | None => None
  | Some chs =>
      if forallb (accepted sq mk) chs then
        collect (map (fun '(k, ch) =>
          match nth_error (resolutions f "resolution_x_per_board" "resolution_x") k, nth_error (resolutions f "resolution_y_per_board" "resolution_y") k with
          | Some x, Some y => draw sq mk ch x y
          | _, _ => None
          end) (combine (seq 0 (List.length chs)) chs))
      else None
  end.
(** create_charuco_boards.cpp 18-22: the name of the file of board k *)
Definition board_file (k : nat) : string := path_join "charuco_boards" ("charuco_board_" ++ number3 k ++ ".bmp").
(** saveBoards, create_charuco_boards.cpp 10-26: create_directories may throw; imwrite to a
    file that cannot be opened does nothing and its result is not used *)
Definition saveBoards (w : world) (imgs : list P) : list (print_event P) * status :=
  let write made := flat_map (fun '(k, i) => if w_open w made (board_file k) then [PImage (board_file k) i] else []) (combine (seq 0 (List.length imgs)) imgs) in
  if w_exists w [] "charuco_boards" then (write [], Returned 0)
  else if w_mkdir w [] "charuco_boards" then (PDir "charuco_boards" :: write ["charuco_boards"], Returned 0)
  else ([], Stopped).
(** main, create_charuco_boards.cpp 28-91; line 62 asserts that there is a board *)
Definition create_main (w : world) (argv : list string) : list (print_event P) * status :=
  match argv with
  | [_; path] =>
      if yml_available (w_exists w []) path then
        let f := w_config w path in
        if Z.ltb 0 (g_nb_board (cf_boards (read_config f))) then
          match board_images f with
          | Some imgs => saveBoards w imgs
          | None => ([], Stopped)
          end
        else ([], Stopped)
      else ([], Returned (-1))
  | _ => ([], Returned (-1))
  end.
End Create.
