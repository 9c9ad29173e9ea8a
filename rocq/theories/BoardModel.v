(** Model of the ChArUco board creation (McCalib/src/utilities.cpp 27-51 and 82-112),
    of the Board constructor (McCalib/src/Board.cpp 21-81), of the board part of the
    Calibration constructor (McCalib/src/McCalib.cpp 80-92 and 115-134) and of the
    board generator (apps/create_charuco_boards/src/create_charuco_boards.cpp 45-86). *)
From Coq Require Import List ZArith Lia Reals Bool.
Import ListNotations.
Close Scope R_scope.
Open Scope nat_scope.

(** v[i] of a std::vector; None = out of bounds (undefined behaviour). *)
Definition znth {A} (l : list A) (i : Z) : option A :=
  if (i <? 0)%Z then None else nth_error l (Z.to_nat i).

(** Number of markers of an nx*ny ChArUco board: OpenCV puts one marker on each
    square (x,y) whose row and column numbers differ in parity
    (cv::aruco::CharucoBoard::create; trusted OpenCV behaviour). *)
Definition squares (nx ny : nat) : list (nat * nat) :=
  flat_map (fun y => map (fun x => (x, y)) (seq 0 nx)) (seq 0 ny).
Definition markers (nx ny : nat) : nat :=
  length (filter (fun '(x, y) => negb (Bool.eqb (Nat.even x) (Nat.even y))) (squares nx ny)).

(** What the project uses of a cv::aruco::CharucoBoard. *)
Record charuco := mkCh { ch_nx : Z; ch_ny : Z; ch_ids : list Z }.

(** CharucoBoard::create / constructor without identifiers: ids 0,1,2,... *)
Definition standard_ids (nx ny : Z) : list Z :=
  map Z.of_nat (seq 0 (markers (Z.to_nat nx) (Z.to_nat ny))).

(** utilities.cpp 33-49 (OpenCV < 4.7): [prev] is the previously created board,
    [off] is offset_count.  None = number_*_square_per_board[i] out of bounds. *)
Fixpoint create_old (num_board : nat) (xs ys : list Z) (prev : option charuco) (off : Z)
  : option (list charuco) :=
  match num_board with
  | O => Some []
  | S n =>
    match xs, ys with
    | nx :: xs', ny :: ys' =>
      let ids := standard_ids nx ny in
      let '(ids', off') :=
        match prev with
        | None => (ids, off)
        | Some p => let o := (Z.of_nat (length (ch_ids p)) + off)%Z in (map (fun i => (i + o)%Z) ids, o)
        end in
      let c := mkCh nx ny ids' in
      match create_old n xs' ys' (Some c) off' with
      | Some r => Some (c :: r)
      | None => None
      end
    | _, _ => None
    end
  end.
Definition createCharucoBoards_old (num_board : nat) (xs ys : list Z) : option (list charuco) :=
  create_old num_board xs ys None 0%Z.

(** utilities.cpp 88-110 (OpenCV >= 4.7): the identifiers handed to the constructor
    of every board but the first are id_offset, id_offset+1, ..., as many as the
    PREVIOUS board has (lines 100-102). *)
Fixpoint create_new (num_board : nat) (xs ys : list Z) (prev : option charuco) (off : Z)
  : option (list charuco) :=
  match num_board with
  | O => Some []
  | S n =>
    match xs, ys with
    | nx :: xs', ny :: ys' =>
      let '(ids', off') :=
        match prev with
        | None => (standard_ids nx ny, off)
        | Some p => let o := (Z.of_nat (length (ch_ids p)) + off)%Z in
                    (map (fun k => (Z.of_nat k + o)%Z) (seq 0 (length (ch_ids p))), o)
        end in
      let c := mkCh nx ny ids' in
      match create_new n xs' ys' (Some c) off' with
      | Some r => Some (c :: r)
      | None => None
      end
    | _, _ => None
    end
  end.
Definition createCharucoBoards_new (num_board : nat) (xs ys : list Z) : option (list charuco) :=
  create_new num_board xs ys None 0%Z.

(** utilities.cpp 38-40, 91-95: CharucoBoard::create (from 4.7: the constructor) throws
    unless there are at least two squares each way and the marker is smaller than the square
    (trusted OpenCV behaviour).  The functions above leave this out; [all_accepted] is false
    when one of the boards created is refused. *)
Definition accepted (square marker : R) (c : charuco) : bool :=
  Z.ltb 1 (ch_nx c) && Z.ltb 1 (ch_ny c) && (if Rlt_dec 0 marker then true else false) && (if Rlt_dec marker square then true else false).
Definition all_accepted (square marker : R) (chs : option (list charuco)) : bool :=
  match chs with Some l => forallb (accepted square marker) l | None => false end.

(** The board-related keys of the configuration file (an absent vector is empty). *)
Record bconfig := mkCfg {
  g_nb_board : Z;            (* number_board *)
  g_boards_index : list Z;   (* boards_index *)
  g_nx : Z; g_ny : Z;        (* number_x_square, number_y_square *)
  g_square : R;              (* square_size *)
  g_nx_per : list Z; g_ny_per : list Z;   (* number_*_square_per_board *)
  g_square_per : list R }.   (* square_size_per_board *)

(** *std::max_element, McCalib.cpp 87 *)
Definition max_element (l : list Z) (d : Z) : Z := fold_left Z.max l d.

(** McCalib.cpp 81-88, 115-119: number of boards, boards_index, max_board_idx. *)
Definition effective_nb_board (g : bconfig) : nat :=
  match g_boards_index g with [] => Z.to_nat (g_nb_board g) | l => length l end.
Definition effective_index (g : bconfig) : list Z :=
  match g_boards_index g with
  | [] => map Z.of_nat (seq 0 (Z.to_nat (g_nb_board g)))
  | l => l
  end.
Definition max_board_idx (g : bconfig) : Z :=
  match g_boards_index g with
  | [] => (Z.of_nat (effective_nb_board g) - 1)%Z
  | x :: r => max_element r x
  end.

(** McCalib.cpp 89-92, 121-123: the ChArUco boards the calibrator creates (if OpenCV accepts
    their sizes, see [all_accepted]). *)
Definition calib_charucos (g : bconfig) : option (list charuco) :=
  let n := Z.to_nat (max_board_idx g + 1) in
  match g_nx_per g with
  | [] => createCharucoBoards_old n (repeat (g_nx g) n) (repeat (g_ny g) n)
  | _ => createCharucoBoards_old n (g_nx_per g) (g_ny_per g)
  end.

(** create_charuco_boards.cpp 70-86: the ChArUco boards the generator prints (if OpenCV
    accepts their sizes, see [all_accepted]). *)
Definition generator_charucos (g : bconfig) : option (list charuco) :=
  let n := Z.to_nat (g_nb_board g) in
  match g_square_per g with
  | [] => createCharucoBoards_old n (g_nx_per g ++ repeat (g_nx g) n) (g_ny_per g ++ repeat (g_ny g) n)
  | _ => createCharucoBoards_old n (g_nx_per g) (g_ny_per g)
  end.

(** ** Board *)
Record board := mkB {
  bd_nx : Z; bd_ny : Z; bd_square : R; bd_nb_pts : Z; bd_pts : list (R * R * R);
  bd_charuco : charuco; bd_id : Z }.

(** Board.cpp 63-72; nb_pts_ is unsigned int.  Real arithmetic for x*square_size_. *)
Definition board_nb_pts (nx ny : Z) : Z := (((nx - 1) * (ny - 1)) mod 2 ^ 32)%Z.
Definition board_pts (nx ny : Z) (s : R) : list (R * R * R) :=
  flat_map (fun y => map (fun x => ((INR x * s)%R, (INR y * s)%R, 0%R)) (seq 0 (Z.to_nat (nx - 1))))
           (seq 0 (Z.to_nat (ny - 1))).

(** Board.cpp 40-58: the size used by board number [k].  None = out of bounds. *)
Definition board_size (g : bconfig) (k : Z) : option (Z * Z * R) :=
  match g_square_per g with
  | [] => Some (g_nx g, g_ny g, g_square g)
  | _ => match znth (effective_index g) k with
         | Some b => match znth (g_nx_per g) b, znth (g_ny_per g) b, znth (g_square_per g) b with
                     | Some nx, Some ny, Some s => Some (nx, ny, s)
                     | _, _, _ => None
                     end
         | None => None
         end
  end.

(** McCalib.cpp 125-134 with Board.cpp 21-81. None = undefined behaviour or, for a
    missing ChArUco board, the std::out_of_range exception of at(). *)
Definition calib_board (g : bconfig) (k : Z) : option board :=
  match calib_charucos g, znth (effective_index g) k, board_size g k with
  | Some chs, Some ci, Some (nx, ny, s) =>
      match znth chs ci with
      | Some ch => Some (mkB nx ny s (board_nb_pts nx ny) (board_pts nx ny s) ch k)
      | None => None
      end
  | _, _, _ => None
  end.
