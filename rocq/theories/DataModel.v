(** Model of the observation tables: McCalib.cpp 172-213 (loadDetectedKeypoints),
    493-548 (saveDetectedKeypoints), 594-642 (insertNewBoard), Frame.cpp 12-46,
    CameraObs.cpp 11-24, Board.cpp 91-104, Camera.cpp 133-145, BoardObs.cpp 25-32.

    Pointers: board_observations_ of Calibration owns the observations and never
    removes one, so a shared/weak pointer to an observation is its key (a nat) in
    that table; a pointer to a CameraObs is its (camera, frame) key; a pointer to a
    Frame is its frame index. *)
From Coq Require Import String.
From Verif Require Import SMap.
Local Open Scope list_scope.
Open Scope nat_scope.

Section Data.
Variable pt : Type.   (* image points; never computed with here *)

(** BoardObs.hpp 27-48, BoardObs.cpp 25-32 (pose_ is in other files). *)
Record bobs := mkObs {
  o_cam : Z; o_frame : Z; o_board : Z;
  o_pts : list pt; o_ids : list Z; o_valid : bool }.

(** Camera.hpp: board_observations_, vis_board_idx_, frames_, im_cols_, im_rows_. *)
Record cam_t := mkCam {
  c_obs : smap Z nat; c_vis : list Z; c_frames : smap Z Z; c_cols : Z; c_rows : Z }.

(** Board.hpp: board_observations_, frames_. *)
Record board_t := mkBoard { b_obs : smap Z nat; b_frames : smap Z Z }.

(** Frame.hpp: frame_idx_, cam_idx_, cam_obs_, boards_idx_, board_observations_,
    frame_path_. *)
Record frame_t := mkFrame {
  f_idx : Z; f_cams : list Z; f_camobs : smap Z (Z * Z);
  f_boards : list Z; f_obs : smap Z nat; f_paths : smap Z string }.

(** CameraObs.hpp: board_observations_, board_idx_, cam_idx_. *)
Record camobs_t := mkCamObs { co_obs : smap Z nat; co_boards : list Z; co_cam : Z }.

(** McCalib.hpp: board_observations_, cams_, boards_3d_, frames_, cams_obs_. *)
Record tables := mkT {
  t_obs : smap Z bobs;
  t_cams : smap Z cam_t;
  t_boards : smap Z board_t;
  t_frames : smap Z frame_t;
  t_camobs : smap (Z * Z) camobs_t }.

(** Arguments of one call of insertNewBoard. *)
Record insertion := mkIns {
  i_cam : Z; i_frame : Z; i_board : Z; i_pts : list pt; i_ids : list Z; i_path : string }.

(** BoardObs.cpp 25-32 with valid_ = true (BoardObs.hpp 48). *)
Definition new_obs (i : insertion) : bobs :=
  mkObs (i_cam i) (i_frame i) (i_board i) (i_pts i) (i_ids i) true.

(** Camera.cpp 133-136 *)
Definition camera_insertNewBoard (c : cam_t) (id : nat) (board : Z) : cam_t :=
  mkCam (dpush (c_obs c) id) (c_vis c ++ [board]) (c_frames c) (c_cols c) (c_rows c).
(** Camera.cpp 143-145 *)
Definition camera_insertNewFrame (c : cam_t) (f : Z) : cam_t :=
  mkCam (c_obs c) (c_vis c) (mset f f (c_frames c)) (c_cols c) (c_rows c).
(** Board.cpp 91-93 *)
Definition board_insertNewBoard (b : board_t) (id : nat) : board_t :=
  mkBoard (dpush (b_obs b) id) (b_frames b).
(** Board.cpp 102-104 *)
Definition board_insertNewFrame (b : board_t) (f : Z) : board_t :=
  mkBoard (b_obs b) (mset f f (b_frames b)).
(** Frame.cpp 12-16 *)
Definition new_frame (f cam : Z) (path : string) : frame_t :=
  mkFrame f [] [] [] [] (mset cam path []).
(** Frame.cpp 23-26 *)
Definition frame_insertNewBoard (f : frame_t) (id : nat) (board : Z) : frame_t :=
  mkFrame (f_idx f) (f_cams f) (f_camobs f) (f_boards f ++ [board]) (dpush (f_obs f) id) (f_paths f).
(** McCalib.cpp 618 *)
Definition frame_set_path (f : frame_t) (cam : Z) (path : string) : frame_t :=
  mkFrame (f_idx f) (f_cams f) (f_camobs f) (f_boards f) (f_obs f) (mset cam path (f_paths f)).
(** Frame.cpp 43-46 *)
Definition frame_insertNewCamObs (f : frame_t) (cam : Z) (key : Z * Z) : frame_t :=
  mkFrame (f_idx f) (f_cams f ++ [cam]) (dpush (f_camobs f) key) (f_boards f) (f_obs f) (f_paths f).
(** CameraObs.cpp 20-24 *)
Definition camobs_insertNewBoard (co : camobs_t) (id : nat) (cam board : Z) : camobs_t :=
  mkCamObs (dpush (co_obs co) id) (co_boards co ++ [board]) cam.
(** CameraObs.cpp 11-13 *)
Definition new_camobs (id : nat) (cam board : Z) : camobs_t :=
  camobs_insertNewBoard (mkCamObs [] [] 0%Z) id cam board.

(** McCalib.cpp 594-642.  None = undefined behaviour: cams_[cam_idx] or
    boards_3d_[board_idx] does not exist, operator[] creates a null pointer and it
    is dereferenced (lines 607, 610). *)
Definition insertNewBoard (t : tables) (i : insertion) : option tables :=
  match mfind (i_cam i) (t_cams t), mfind (i_board i) (t_boards t) with
  | Some c, Some b =>
      let id := List.length (t_obs t) in
      let c1 := camera_insertNewBoard c id (i_board i) in
      let b1 := board_insertNewBoard b id in
      let '(fr, c2, b2) :=
        match mfind (i_frame i) (t_frames t) with
        | Some f => (frame_set_path (frame_insertNewBoard f id (i_board i)) (i_cam i) (i_path i),
                     c1, b1)
        | None => (frame_insertNewBoard (new_frame (i_frame i) (i_cam i) (i_path i)) id (i_board i),
                   camera_insertNewFrame c1 (i_frame i),
                   board_insertNewFrame b1 (i_frame i))
        end in
      let key := (i_cam i, i_frame i) in
      let '(co, fr2) :=
        match mfind key (t_camobs t) with
        | Some co => (camobs_insertNewBoard co id (i_cam i) (i_board i), fr)
        | None => (new_camobs id (i_cam i) (i_board i), frame_insertNewCamObs fr (i_cam i) key)
        end in
      Some (mkT (dpush (t_obs t) (new_obs i))
                (mset (i_cam i) c2 (t_cams t))
                (mset (i_board i) b2 (t_boards t))
                (mset (i_frame i) fr2 (t_frames t))
                (mset key co (t_camobs t)))
  | _, _ => None
  end.

(** A sequence of calls. *)
Fixpoint insert_all (t : tables) (l : list insertion) : option tables :=
  match l with
  | [] => Some t
  | i :: r => match insertNewBoard t i with
              | Some t' => insert_all t' r
              | None => None
              end
  end.

(** Calibration constructor, McCalib.cpp 109-113 and 125-134: cameras 0..nb_camera-1
    and boards 0..nb_board-1, without observations. *)
Definition init_tables (nb_camera nb_board : nat) : tables :=
  mkT [] (dense (repeat (mkCam [] [] [] 0 0) nb_camera))
      (dense (repeat (mkBoard [] []) nb_board)) [] [].

(** ** saveDetectedKeypoints / loadDetectedKeypoints *)

(** One "camera_<i>" node of the file: width, height and the five vectors. *)
Record kpnode := mkKp {
  k_width : Z; k_height : Z;
  k_frames : list Z; k_paths : list string; k_boards : list Z;
  k_pts : list (list pt); k_ids : list (list Z) }.

(** McCalib.cpp 516: frame_path_[cam_idx] (empty path when absent). *)
Definition path_of (f : frame_t) (cam : Z) : string :=
  match mfind cam (f_paths f) with Some p => p | None => EmptyString end.

(** McCalib.cpp 514-537: the observations of camera [cam], by frame, board and key;
    each with the path of its frame. *)
Definition saved_entries (t : tables) (cam : Z) : list (Z * string * Z * bobs) :=
  flat_map (fun '(_, fr) =>
    flat_map (fun '(b, _) =>
      map (fun o => (f_idx fr, path_of fr cam, b, o))
          (filter (fun o => Z.eqb cam (o_cam o) && Z.eqb (f_idx fr) (o_frame o)
                            && Z.eqb b (o_board o))
                  (mvals (t_obs t))))
      (t_boards t))
    (t_frames t).

(** McCalib.cpp 499-545.  The file is modelled as the map from node name
    "camera_<i>" (here i) to its content; writing and parsing YAML is trusted.
    cam_idx_ of the camera stored under key i is i (constructor 109-113). *)
Definition saveDetectedKeypoints (t : tables) : smap Z kpnode :=
  map (fun '(cam, c) =>
         let es := saved_entries t cam in
         (cam, mkKp (c_cols c) (c_rows c)
                    (map (fun e => fst (fst (fst e))) es)
                    (map (fun e => snd (fst (fst e))) es)
                    (map (fun e => snd (fst e)) es)
                    (map (fun e => o_pts (snd e)) es)
                    (map (fun e => o_ids (snd e)) es)))
      (t_cams t).

Inductive load_result :=
| Loaded (t : tables)
| AssertFailed          (* McCalib.cpp 202-205 *)
| LoadUB.               (* insertNewBoard on an unknown camera or board *)

(** McCalib.cpp 207-210 *)
Fixpoint zip_ins (cam : Z) (fs : list Z) (ps : list string) (bs : list Z)
         (pts : list (list pt)) (ids : list (list Z)) : list insertion :=
  match fs, ps, bs, pts, ids with
  | f :: fs, p :: ps, b :: bs, q :: pts, d :: ids =>
      mkIns cam f b q d p :: zip_ins cam fs ps bs pts ids
  | _, _, _, _, _ => []
  end.

(** McCalib.cpp 200-201 *)
Definition set_image_size (t : tables) (cam w h : Z) : tables :=
  match mfind cam (t_cams t) with
  | Some c => mkT (t_obs t) (mset cam (mkCam (c_obs c) (c_vis c) (c_frames c) w h) (t_cams t))
                  (t_boards t) (t_frames t) (t_camobs t)
  | None => t
  end.

(** McCalib.cpp 177-211 for one camera; a missing node reads as empty vectors. *)
Definition load_camera (file : smap Z kpnode) (t : tables) (cam : Z) : load_result :=
  let k := match mfind cam file with Some k => k | None => mkKp 0 0 [] [] [] [] [] end in
  let t1 := set_image_size t cam (k_width k) (k_height k) in
  if negb (Nat.eqb (List.length (k_frames k)) 0)
     && Nat.eqb (List.length (k_frames k)) (List.length (k_paths k))
     && Nat.eqb (List.length (k_paths k)) (List.length (k_boards k))
     && Nat.eqb (List.length (k_boards k)) (List.length (k_pts k))
     && Nat.eqb (List.length (k_pts k)) (List.length (k_ids k))
  then match insert_all t1 (zip_ins cam (k_frames k) (k_paths k) (k_boards k) (k_pts k) (k_ids k)) with
       | Some t' => Loaded t'
       | None => LoadUB
       end
  else AssertFailed.

(** McCalib.cpp 176 *)
Fixpoint load_cameras (file : smap Z kpnode) (t : tables) (cams : list Z) : load_result :=
  match cams with
  | [] => Loaded t
  | c :: r => match load_camera file t c with
              | Loaded t' => load_cameras file t' r
              | e => e
              end
  end.

Definition loadDetectedKeypoints (file : smap Z kpnode) (nb_camera : nat) (t : tables)
  : load_result := load_cameras file t (map Z.of_nat (seq 0 nb_camera)).

End Data.

Arguments mkObs {pt}. Arguments o_cam {pt}. Arguments o_frame {pt}. Arguments o_board {pt}.
Arguments o_pts {pt}. Arguments o_ids {pt}. Arguments o_valid {pt}.
Arguments mkIns {pt}. Arguments i_cam {pt}. Arguments i_frame {pt}. Arguments i_board {pt}.
Arguments i_pts {pt}. Arguments i_ids {pt}. Arguments i_path {pt}.
Arguments mkT {pt}. Arguments t_obs {pt}. Arguments t_cams {pt}. Arguments t_boards {pt}.
Arguments t_frames {pt}. Arguments t_camobs {pt}.
Arguments new_obs {pt}. Arguments insertNewBoard {pt}. Arguments insert_all {pt}.
Arguments init_tables {pt}. Arguments saved_entries {pt}. Arguments saveDetectedKeypoints {pt}.
Arguments mkKp {pt}. Arguments k_width {pt}. Arguments k_height {pt}. Arguments k_frames {pt}.
Arguments k_paths {pt}. Arguments k_boards {pt}. Arguments k_pts {pt}. Arguments k_ids {pt}.
Arguments Loaded {pt}. Arguments AssertFailed {pt}. Arguments LoadUB {pt}.
Arguments zip_ins {pt}. Arguments set_image_size {pt}. Arguments load_camera {pt}.
Arguments load_cameras {pt}. Arguments loadDetectedKeypoints {pt}.
