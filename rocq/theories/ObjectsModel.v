(** Model of 3D objects and their observations: McCalib.cpp 854-926 (init3DObjects),
    936-983 (init3DObjectObs, initAll3DObjectObs), 1713-1814 (mergeObjects), 1820-1860
    (mergeAllObjectObs), 413-449 (save3DObj); Object3D.cpp 33-57, 251-273;
    Object3DObs.cpp 31-52; the insertNewObject functions of Frame, CameraObs, Camera and
    Object3D.

    Pointers: a Board is its index, a BoardObs or Object3DObs its number in the owning
    table of Calibration.  boards_3d_[b] is given by its corner list [bpts b]; nb_pts_ is
    its length (C07).  Poses: see ChainModel. *)
From Coq Require Import List ZArith QArith Lia Reals.
From Verif Require Import SMap GraphModel DataModel DetectModel GeomModel ChainModel.
Import ListNotations.
Close Scope Q_scope.
Close Scope R_scope.
Open Scope nat_scope.

(** Object3D.hpp: obj_id_, ref_board_id_, nb_boards_, boards_, nb_pts_,
    relative_board_pose_, pts_board_2_obj_, pts_obj_2_board_, pts_3d_. frames_ and
    color_ are left out. *)
Record obj3d := mkObj {
  ob_id : Z; ob_ref : Z; ob_nb_boards : nat;
  ob_boards : smap Z Z; ob_nb_pts : nat; ob_poses : smap Z pose;
  ob_b2o : smap (Z * Z) Z; ob_o2b : list (Z * Z); ob_pts : list vec3 }.

(** Object3D.cpp 33-36 *)
Definition new_object (nb : nat) (ref id : Z) : obj3d := mkObj id ref nb [] 0 [] [] [] [].

(** McCalib.cpp 905-914, 1788-1797: one corner *)
Definition push_corner (b : Z) (st : obj3d * nat) (kp : nat * vec3) : obj3d * nat :=
  let '(o, count) := st in
  (mkObj (ob_id o) (ob_ref o) (ob_nb_boards o) (ob_boards o) (ob_nb_pts o) (ob_poses o)
         (mset (b, Z.of_nat (fst kp)) (Z.of_nat count) (ob_b2o o))
         (ob_o2b o ++ [(b, Z.of_nat (fst kp))]) (ob_pts o ++ [snd kp]), S count).

Section Objects.
Variable bpts : Z -> list vec3.

(** McCalib.cpp 880, 895-914 (1777-1797): insertBoardInObject, setBoardPoseMat, push
    the transformed corners.  [count] is pts_count. *)
Definition place_board (st : obj3d * nat) (bp : Z * pose) : obj3d * nat :=
  let '(o, count) := st in
  let '(b, P) := bp in
  let o1 := mkObj (ob_id o) (ob_ref o) (ob_nb_boards o) (mset b b (ob_boards o))
                  (ob_nb_pts o + length (bpts b)) (mset b P (ob_poses o))
                  (ob_b2o o) (ob_o2b o) (ob_pts o) in
  fold_left (push_corner b) (combine (seq 0 (length (bpts b))) (transform3DPts (bpts b) P)) (o1, count).

(** McCalib.cpp 862-924 for component number i *)
Definition init_object (pick : dstate -> nat) (g : graph) (tr : smap (Z * Z) pose) (i : nat) (comp : list Z)
  : option obj3d :=
  option_map (fun ps => fst (fold_left place_board ps (new_object (length comp) (min_of comp) (Z.of_nat i), 0)))
             (component_poses step_inv pick g tr comp).
(** McCalib.cpp 854-926; object_3d_ is empty before (called once, calibrate.cpp).  None:
    an exception or non-termination, see path_pose. *)
Definition init3DObjects (pick : dstate -> nat) (g : graph) (tr : smap (Z * Z) pose) : option (smap Z obj3d) :=
  let cs := connectedComponents g in
  option_map dense (collect (map (fun '(i, c) => init_object pick g tr i c) (combine (seq 0 (length cs)) cs))).

(** McCalib.cpp 1768-1774: boards of an object in id order with their poses in the
    merged object *)
Definition moved_boards (T : pose) (o : obj3d) : option (list (Z * pose)) :=
  collect (map (fun b => option_map (fun P => (b, pmul T P)) (mfind b (ob_poses o))) (mkeys (ob_boards o))).
(** McCalib.cpp 1719-1807 for component number i of objects *)
Definition merge_component (pick : dstate -> nat) (g : graph) (tr : smap (Z * Z) pose) (objs : smap Z obj3d)
           (i : nat) (comp : list Z) : option obj3d :=
  match component_poses step_inv pick g tr comp, mfind (min_of comp) objs with
  | Some ps, Some r =>
      let nb := fold_left (fun n c => n + match mfind c objs with Some o => length (ob_boards o) | None => 0 end) comp 0 in
      option_map (fun ll => fst (fold_left place_board (concat ll) (new_object nb (ob_ref r) (Z.of_nat i), 0)))
        (collect (map (fun '(_, o) =>
                         match find (fun p => Z.eqb (fst p) (ob_id o)) ps with
                         | Some p => moved_boards (snd p) o
                         | None => Some []
                         end) objs))
  | _, _ => None
  end.
(** McCalib.cpp 1713-1814 *)
Definition mergeObjects (pick : dstate -> nat) (g : graph) (tr : smap (Z * Z) pose) (objs : smap Z obj3d)
  : option (smap Z obj3d) :=
  let cs := connectedComponents g in
  option_map dense (collect (map (fun '(i, c) => merge_component pick g tr objs i c) (combine (seq 0 (length cs)) cs))).

(** l[i] = v on a vector; unchanged if out of range (undefined behaviour, excluded by C26) *)
Fixpoint set_nth {A} (l : list A) (i : nat) (v : A) : list A :=
  match l, i with
  | [], _ => []
  | _ :: r, 0 => v :: r
  | a :: r, S i => a :: set_nth r i v
  end.
(** pts_board_2_obj_[(b, k)]; operator[] gives 0 for a missing key *)
Definition b2o (o : obj3d) (b k : Z) : Z := match mfind (b, k) (ob_b2o o) with Some n => n | None => 0%Z end.
(** Object3D.cpp 251-273 (and 226-244) with new board poses *)
Definition updateObjectPts (o : obj3d) (poses : smap Z pose) : obj3d :=
  mkObj (ob_id o) (ob_ref o) (ob_nb_boards o) (ob_boards o) (ob_nb_pts o) poses (ob_b2o o) (ob_o2b o)
    (fold_left (fun pts b =>
       match mfind b poses with
       | Some P => fold_left (fun pts kp => set_nth pts (Z.to_nat (b2o o b (Z.of_nat (fst kp)))) (snd kp))
                             (combine (seq 0 (length (bpts b))) (transform3DPts (bpts b) P)) pts
       | None => pts
       end) (mkeys (ob_boards o)) (ob_pts o)).

(** McCalib.cpp 421-443: the columns (point, board, corner) written for one object; None =
    reading past the end of pts_3d_.  The matrix has nb_pts_ columns; None too if more
    are written. *)
Definition save3DObj (o : obj3d) : option (list (vec3 * Z * Z)) :=
  match collect (flat_map (fun b => map (fun k => option_map (fun p => (p, b, Z.of_nat k))
                                                (nth_error (ob_pts o) (Z.to_nat (b2o o b (Z.of_nat k)))))
                                        (seq 0 (length (bpts b)))) (mkeys (ob_boards o))) with
  | Some cols => if Nat.leb (length cols) (ob_nb_pts o) then Some cols else None
  | None => None
  end.
End Objects.

(** ** Observations of objects *)
Section Obs.
Context {pt : Type}.

(** Object3DObs.hpp: object_3d_id_, camera_id_, frame_id_, board_id_,
    board_observations_ (numbers), pts_2d_, pts_id_ *)
Record objobs := mkOO {
  oo_obj : Z; oo_cam : Z; oo_frame : Z; oo_boards : list Z; oo_bobs : list nat;
  oo_pts : list pt; oo_ids : list Z }.

(** Object3DObs.cpp 14-20: camera and frame are unset until a board is inserted *)
Definition new_objobs (obj : Z) : objobs := mkOO obj 0%Z 0%Z [] [] [] [].

(** Object3DObs.cpp 31-52; None: charuco_id_ shorter than pts_2d_ *)
Definition insertNewBoardObs (o : obj3d) (n : nat) (b : bobs pt) (oo : objobs) : option objobs :=
  if Nat.leb (length (o_pts b)) (length (o_ids b)) then
    Some (mkOO (oo_obj oo) (o_cam b) (o_frame b) (oo_boards oo ++ [o_board b]) (oo_bobs oo ++ [n])
               (oo_pts oo ++ o_pts b)
               (oo_ids oo ++ map (b2o o (o_board b)) (firstn (length (o_pts b)) (o_ids b))))
  else None.

(** object_observations_ of Calibration, and the tables of numbers in CameraObs, Frame,
    Camera and Object3D.  A missing key is an empty table. *)
Record otables := mkOT {
  ot_all : list objobs;
  ot_camobs : smap (Z * Z) (list nat);
  ot_frames : smap Z (list nat);
  ot_cams : smap Z (list nat);
  ot_objs : smap Z (list nat) }.
Definition empty_otables : otables := mkOT [] [] [] [] [].
Definition table_of {K} `{KeyOrd K} (k : K) (m : smap K (list nat)) : list nat :=
  match mfind k m with Some l => l | None => [] end.
Definition lpush {K} `{KeyOrd K} (k : K) (x : nat) (m : smap K (list nat)) : smap K (list nat) :=
  mset k (table_of k m ++ [x]) m.

(** McCalib.cpp 961-970: CameraObs.cpp 31-34, Frame.cpp 33-36, Camera.cpp 152-155,
    Object3D.cpp 21-23, McCalib.cpp 649-652 *)
Definition store_objobs (key : Z * Z) (obj : Z) (oo : objobs) (t : otables) : otables :=
  let n := length (ot_all t) in
  mkOT (ot_all t ++ [oo]) (lpush key n (ot_camobs t)) (lpush (snd key) n (ot_frames t))
       (lpush (fst key) n (ot_cams t)) (lpush obj n (ot_objs t)).

(** McCalib.cpp 945-959: the boards of object o among the board observations [ns] *)
Fixpoint gather_boards (t : tables pt) (o : obj3d) (ns : list nat) (oo : objobs) : option objobs :=
  match ns with
  | [] => Some oo
  | n :: r =>
      match nth_error (mvals (t_obs t)) n with
      | Some b => match mfind (o_board b) (ob_boards o) with
                  | Some _ => match insertNewBoardObs o n b oo with
                              | Some oo' => gather_boards t o r oo'
                              | None => None
                              end
                  | None => gather_boards t o r oo
                  end
      | None => gather_boards t o r oo (* expired pointer *)
      end
  end.
(** McCalib.cpp 936-975, for object_3d_[obj] = o *)
Fixpoint init3DObjectObs (t : tables pt) (obj : Z) (o : obj3d) (cos : smap (Z * Z) (@camobs_t)) (ot : otables)
  : option otables :=
  match cos with
  | [] => Some ot
  | (key, co) :: r =>
      match gather_boards t o (mvals (co_obs co)) (new_objobs obj) with
      | Some oo => init3DObjectObs t obj o r (if Nat.ltb 0 (length (oo_ids oo)) then store_objobs key obj oo ot else ot)
      | None => None
      end
  end.
(** McCalib.cpp 981-984 *)
Fixpoint initAll3DObjectObs (t : tables pt) (objs : smap Z obj3d) (ot : otables) : option otables :=
  match objs with
  | [] => Some ot
  | (i, o) :: r => match init3DObjectObs t i o (t_camobs t) ot with
                   | Some ot' => initAll3DObjectObs t r ot'
                   | None => None
                   end
  end.
(** McCalib.cpp 1820-1860: clear all tables, then the nested loop *)
Definition mergeAllObjectObs (t : tables pt) (objs : smap Z obj3d) : option otables :=
  fold_left (fun acc _ => match acc with Some ot => initAll3DObjectObs t objs ot | None => None end)
            objs (Some empty_otables).
End Obs.
Arguments objobs : clear implicits. Arguments otables : clear implicits.
