(** C05-C07: ChArUco identifiers and board geometry. *)
From Coq Require Import List ZArith Lia Reals Lra.
From Verif Require Import BoardModel BoardSpec BoardProofs.
Import ListNotations.
Close Scope R_scope.
Open Scope nat_scope.

(** C05 (OpenCV < 4.7): boards created together have the given sizes, one identifier
    per marker (half of the squares, rounded down), and taken in board order the
    identifiers are 0,1,2,... without repetition or gap. *)
Theorem C05_ids_consecutive_and_disjoint : forall n xs ys, n <= length xs -> n <= length ys ->
  exists chs, createCharucoBoards_old n xs ys = Some chs /\
    length chs = n /\
    (forall k c, nth_error chs k = Some c ->
       nth_error xs k = Some (ch_nx c) /\ nth_error ys k = Some (ch_ny c) /\
       length (ch_ids c) = (Z.to_nat (ch_nx c) * Z.to_nat (ch_ny c)) / 2) /\
    concat (map ch_ids chs) = map Z.of_nat (seq 0 (length (concat (map ch_ids chs)))).
Proof. exact old_boards_main. Qed.
Print Assumptions C05_ids_consecutive_and_disjoint.

Theorem C05_different_boards_share_no_id : forall n xs ys chs, createCharucoBoards_old n xs ys = Some chs ->
  forall j k a b i, nth_error chs j = Some a -> nth_error chs k = Some b ->
  In i (ch_ids a) -> In i (ch_ids b) -> j = k.
Proof. exact ids_disjoint. Qed.
Print Assumptions C05_different_boards_share_no_id.

Theorem C05_too_few_sizes_is_undefined : forall n xs ys,
  length xs < n \/ length ys < n -> createCharucoBoards_old n xs ys = None.
Proof. exact old_boards_undefined. Qed.
Print Assumptions C05_too_few_sizes_is_undefined.

(** creating only the first n boards gives the same first n boards *)
Theorem C05_prefix : forall n m xs ys chs, n <= m -> createCharucoBoards_old m xs ys = Some chs ->
  createCharucoBoards_old n xs ys = Some (firstn n chs).
Proof. exact old_boards_prefix. Qed.
Print Assumptions C05_prefix.

(** the printed board k is the board k the calibrator looks for *)
Theorem C05_generator_and_calibrator_agree : forall g printed expected,
  (g_nx_per g = [] -> g_ny_per g = []) ->
  generator_charucos g = Some printed -> calib_charucos g = Some expected ->
  forall k a b, nth_error printed k = Some a -> nth_error expected k = Some b -> a = b.
Proof. exact generator_calibrator_agree. Qed.
Print Assumptions C05_generator_and_calibrator_agree.

Definition ex_cfg : bconfig :=
  mkCfg 3 [2; 0]%Z 0 0 0 [5; 6; 7]%Z [5; 8; 9]%Z [1; 2; 3]%R.
Definition ex_cfg1 : bconfig := mkCfg 2 [] 5 6 (1 / 2) [] [] [].
Example C05_nonvacuous :
  (g_nx_per ex_cfg = [] -> g_ny_per ex_cfg = []) /\
  (exists p c, generator_charucos ex_cfg = Some p /\ calib_charucos ex_cfg = Some c /\
     length p = 3 /\ map (fun x => length (ch_ids x)) c = [12; 24; 31]) /\
  (exists p c, generator_charucos ex_cfg1 = Some p /\ calib_charucos ex_cfg1 = Some c /\
     map (fun x => length (ch_ids x)) c = [15; 15]).
Proof.
  split; [discriminate|]. split; eexists; eexists; repeat split; reflexivity.
Qed.

(** C06 (OpenCV >= 4.7) is false: the second board has 24 markers and is given 12
    identifiers. *)
Theorem C06_ids_match_markers_refuted :
  exists n xs ys chs k c, createCharucoBoards_new n xs ys = Some chs /\ nth_error chs k = Some c /\
    length (ch_ids c) <> (Z.to_nat (ch_nx c) * Z.to_nat (ch_ny c)) / 2.
Proof.
  exists 2, [5; 6]%Z, [5; 8]%Z. eexists; exists 1; eexists. split; [reflexivity|]. split; [reflexivity|].
  cbn. discriminate.
Qed.
Print Assumptions C06_ids_match_markers_refuted.

(** every board is given exactly as many identifiers as the FIRST board has markers *)
Theorem C06_every_board_gets_first_board_count : forall n xs ys chs,
  createCharucoBoards_new n xs ys = Some chs ->
  forall nx ny, hd_error xs = Some nx -> hd_error ys = Some ny ->
  Forall (fun c => length (ch_ids c) = (Z.to_nat nx * Z.to_nat ny) / 2) chs.
Proof. exact new_boards_same_count. Qed.
Print Assumptions C06_every_board_gets_first_board_count.

(** so it is right (the same as with OpenCV < 4.7) when all boards have equally many markers *)
Theorem C06_same_size_boards_ok : forall n xs ys m,
  Forall2 (fun x y => (Z.to_nat x * Z.to_nat y) / 2 = m) (firstn n xs) (firstn n ys) ->
  createCharucoBoards_new n xs ys = createCharucoBoards_old n xs ys.
Proof. exact new_boards_ok. Qed.
Print Assumptions C06_same_size_boards_ok.
Example C06_nonvacuous :
  Forall2 (fun x y => (Z.to_nat x * Z.to_nat y) / 2 = 12) (firstn 2 [5; 5]%Z) (firstn 2 [5; 5]%Z) /\
  (exists chs, createCharucoBoards_new 2 [5; 5]%Z [5; 5]%Z = Some chs /\ length chs = 2).
Proof. split; [repeat constructor|]. eexists. split; reflexivity. Qed.

(** C07: the 3D points of an nx*ny board of square s. *)
Theorem C07_board_is_planar_grid : forall nx ny s, (1 <= nx)%Z -> (1 <= ny)%Z ->
  Z.of_nat (length (board_pts nx ny s)) = ((nx - 1) * (ny - 1))%Z /\
  (forall k, (Z.of_nat k < (nx - 1) * (ny - 1))%Z ->
     nth_error (board_pts nx ny s) k =
     Some ((IZR (Z.of_nat k mod (nx - 1)) * s)%R, (IZR (Z.of_nat k / (nx - 1)) * s)%R, 0%R)) /\
  (s <> 0%R -> forall j k p, nth_error (board_pts nx ny s) j = Some p ->
     nth_error (board_pts nx ny s) k = Some p -> j = k).
Proof.
  intros nx ny s Hx Hy. split; [apply board_pts_length; auto|]. split.
  - intros k Hk. apply board_pts_nth; auto.
  - intros Hs j k p. apply board_pts_distinct; auto.
Qed.
Print Assumptions C07_board_is_planar_grid.

(** nb_pts_ is that number of points (32-bit unsigned) *)
Theorem C07_nb_pts : forall nx ny s, (1 <= nx)%Z -> (1 <= ny)%Z -> ((nx - 1) * (ny - 1) < 2 ^ 32)%Z ->
  board_nb_pts nx ny = Z.of_nat (length (board_pts nx ny s)).
Proof.
  intros nx ny s Hx Hy Hb. rewrite board_pts_length by auto. unfold board_nb_pts.
  apply Z.mod_small. nia.
Qed.
Print Assumptions C07_nb_pts.

(** board number k of the calibrator has the size configured for its own index, and
    its ChArUco pattern has the same number of squares *)
Theorem C07_board_uses_its_configured_size : forall g k b,
  (g_nx_per g = [] <-> g_square_per g = []) -> calib_board g k = Some b ->
  exists ci, znth (effective_index g) k = Some ci /\
    configured_size g ci = Some (bd_nx b, bd_ny b, bd_square b) /\
    bd_nx b = ch_nx (bd_charuco b) /\ bd_ny b = ch_ny (bd_charuco b) /\
    (exists chs, calib_charucos g = Some chs /\ znth chs ci = Some (bd_charuco b)) /\
    bd_pts b = board_pts (bd_nx b) (bd_ny b) (bd_square b) /\
    bd_nb_pts b = board_nb_pts (bd_nx b) (bd_ny b) /\ bd_id b = k.
Proof. exact calib_board_main. Qed.
Print Assumptions C07_board_uses_its_configured_size.

(** every configured board is created when the configuration lists are long enough *)
Theorem C07_every_configured_board_is_created : forall g k,
  (forall i, In i (g_boards_index g) -> (0 <= i)%Z) ->
  (g_nx_per g = [] -> g_square_per g = []) ->
  (g_nx_per g <> [] -> (max_board_idx g < Z.of_nat (length (g_nx_per g)))%Z /\
     (max_board_idx g < Z.of_nat (length (g_ny_per g)))%Z /\
     (max_board_idx g < Z.of_nat (length (g_square_per g)))%Z) ->
  (0 <= k < Z.of_nat (effective_nb_board g))%Z ->
  exists b, calib_board g k = Some b.
Proof. exact calib_board_total. Qed.
Print Assumptions C07_every_configured_board_is_created.

(** Without the consistency hypothesis it is false: with per-board square counts but
    no square_size_per_board the 3D grid is 4*4 for a 6*8 pattern. *)
Theorem C07_inconsistent_config_refuted :
  exists g k b, calib_board g k = Some b /\ bd_nx b <> ch_nx (bd_charuco b).
Proof.
  exists (mkCfg 1 [] 5 5 1 [6]%Z [8]%Z []), 0%Z. eexists. split; [reflexivity|]. cbn. discriminate.
Qed.
Print Assumptions C07_inconsistent_config_refuted.

Example C07_nonvacuous :
  (g_nx_per ex_cfg = [] <-> g_square_per ex_cfg = []) /\
  (exists b, calib_board ex_cfg 0 = Some b /\ bd_nx b = 7%Z /\ bd_ny b = 9%Z) /\
  (exists b, calib_board ex_cfg 1 = Some b /\ bd_nx b = 5%Z /\ ch_ids (bd_charuco b) = map Z.of_nat (seq 0 12)).
Proof.
  split; [split; discriminate|]. split; eexists; split; try reflexivity; split; reflexivity.
Qed.
