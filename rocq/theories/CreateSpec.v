(** Specification for C65: what the board generator must print. *)
From Coq Require Import List ZArith Reals String.
From Verif Require Import BoardModel InputModel AppModel CreateModel.
Import ListNotations.
Open Scope string_scope.

(** The value for board [k] of a setting that can be given per board: its own, or the common
    one where there is none and boards are not given one by one. *)
Definition setting (f : cfile) (per common : string) (k : nat) (v : Z) : Prop :=
  nth_error (read_ints (key f per)) k = Some v \/
  (List.length (read_ints (key f per)) <= k /\ read_reals (key f "square_size_per_board") = [] /\ v = read_int (key f common)).
(** the squares of board [k] *)
Definition squares_of (f : cfile) (k : nat) (nx ny : Z) : Prop :=
  setting f "number_x_square_per_board" "number_x_square" k nx /\ setting f "number_y_square_per_board" "number_y_square" k ny.
(** the resolution of its image *)
Definition resolution_of (f : cfile) (k : nat) (x y : Z) : Prop :=
  setting f "resolution_x_per_board" "resolution_x" k x /\ setting f "resolution_y_per_board" "resolution_y" k y.
(** number_board, length_square, length_marker *)
Definition nb_boards (f : cfile) : Z := read_int (key f "number_board").
Definition square (f : cfile) : R := read_real (key f "length_square").
Definition marker (f : cfile) : R := read_real (key f "length_marker").
(** the board of the configuration that the calibration calls board [b] *)
Definition board_number (f : cfile) (b ci : Z) : Prop :=
  read_ints (key f "boards_index") = [] /\ ci = b \/
  read_ints (key f "boards_index") <> [] /\ znth (read_ints (key f "boards_index")) b = Some ci.
(** what a run wrote, and the folders it made *)
Definition images {P} (es : list (print_event P)) : list (string * P) := flat_map (fun e => match e with PImage p i => [(p, i)] | _ => [] end) es.
Definition dirs {P} (es : list (print_event P)) : list string := flat_map (fun e => match e with PDir p => [p] | _ => [] end) es.
