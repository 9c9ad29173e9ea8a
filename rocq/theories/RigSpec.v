(** Specification for C52: noise-free detections of a rig of cameras and boards. *)
From Coq Require Import List ZArith Reals Relations Sorted.
From Verif Require Import SMap DataModel DataSpec DetectModel RansacModel RansacSpec GeomModel GeomSpec ObjectsModel CameraModel ResidualModel ResidualSpec.
Import ListNotations.
Open Scope R_scope.

(** what the rig really is: intrinsic parameters and lens model of each camera, pose of
    each camera (rig to camera), pose of the boards in each frame (world to rig), pose of
    each board (board to world) *)
Record rig := mkRig { rg_model : Z -> Z; rg_intr : Z -> intr; rg_cam : Z -> pose; rg_frame : Z -> pose; rg_board : Z -> pose }.
Definition rigid_rig (w : rig) : Prop :=
  (forall c, rg_model w c = 0%Z \/ rg_model w c = 1%Z) /\
  (forall c, rigid (rg_cam w c)) /\ (forall f, rigid (rg_frame w f)) /\ (forall b, rigid (rg_board w b)).
(** pose of the world for camera c in frame f *)
Definition world_at (w : rig) (c f : Z) : pose := pmul (rg_cam w c) (rg_frame w f).
(** pose of board b for camera c in frame f *)
Definition board_at (w : rig) (c f b : Z) : pose := pmul (world_at w c f) (rg_board w b).

Section Rig.
Variable (bpts : Z -> list vec3).
(** corner k of board b is at q on the board *)
Definition corner (b k : Z) (q : vec3) : Prop := (0 <= k)%Z /\ nth_error (bpts b) (Z.to_nat k) = Some q.
(** camera c sees corner k of board b at m in frame f *)
Definition sighted (ins : list (insertion pt2)) (c f b k : Z) (m : pt2) : Prop :=
  exists i j, In i ins /\ i_cam i = c /\ i_frame i = f /\ i_board i = b /\ nth_error (i_ids i) j = Some k /\ nth_error (i_pts i) j = Some m.

(** each board is detected at most once per image, each corner at most once, in front of
    the camera and where the camera sees it *)
Record exact_detections (w : rig) (ins : list (insertion pt2)) : Prop := {
  ed_once : NoDup (map (fun i => (i_cam i, i_frame i, i_board i)) ins);
  ed_corners : forall i, In i ins -> NoDup (i_ids i) /\ length (i_ids i) = length (i_pts i) /\ (4 < length (i_ids i))%nat;
  ed_image : forall c f b k m, sighted ins c f b k m ->
    exists q, corner b k q /\ 0 < vz (pact (board_at w c f b) q) /\ image (rg_model w c) (rg_intr w c) (board_at w c f b) q = Some m }.

(** the camera parameters with which poses are computed: those of the camera, for a fisheye
    camera without distortion *)
Definition flat (model : Z) (i : intr) : intr :=
  if Z.eqb model 0 then i else I9 (a0 i) (a1 i) (a2 i) (a3 i) 0 0 0 0 0.
(** Corners in general position: any four corners seen in an image determine its pose. *)
Definition general_position (w : rig) (ins : list (insertion pt2)) : Prop :=
  forall c f (l : list (Z * Z)), length l = 4%nat -> NoDup l -> (forall b k, In (b, k) l -> exists m, sighted ins c f b k m) ->
  forall P, rigid P ->
  (forall b k q, In (b, k) l -> corner b k q ->
     0 < vz (pact P (pact (rg_board w b) q)) /\
     image 0 (flat (rg_model w c) (rg_intr w c)) P (pact (rg_board w b) q) =
     image 0 (flat (rg_model w c) (rg_intr w c)) (world_at w c f) (pact (rg_board w b) q)) ->
  P = world_at w c f.

(** The angles of all poses involved are 0 or not tiny (squared angle above 2.2e-16). *)
Definition no_tiny_angles (lr : mat3 -> vec3) (w : rig) : Prop :=
  (forall c f b, plain (Proj2RT lr (board_at w c f b))) /\
  (forall c d, plain (Proj2RT lr (pmul (rg_cam w c) (pinv (rg_cam w d))))) /\
  (forall b d, plain (Proj2RT lr (pmul (pinv (rg_board w b)) (rg_board w d)))).
End Rig.

(** ** OpenCV's solvePnP, projectPoints and undistortPoints when there is no noise *)
Definition matrix_of (i : intr) : kmat := mkK (a0 i) (a1 i) (a2 i) (a3 i).
Definition five (i : intr) : list R := [a4 i; a5 i; a6 i; a7 i; a8 i].
(** at pose P the scene points are in front of the camera and their images are [img] *)
Definition fits (i : intr) (P : pose) (scene : list vec3) (img : list pt2) : Prop :=
  Forall2 (fun q m => 0 < vz (pact P q) /\ image 0 i P q = Some m) scene img.
Record exact_pnp (lr : mat3 -> vec3) (env : rs_env par6 vec3) : Prop := {
  pn_project : forall i P q m, image 0 i (matrix P) q = Some m -> rs_project env (matrix_of i) (five i) P q = m;
  pn_p3p : forall i P scene img before, length scene = 4%nat -> rigid P -> fits i P scene img ->
    (forall P', rigid P' -> fits i P' scene img -> P' = P) -> rs_p3p env (matrix_of i) (five i) scene img before = Proj2RT lr P;
  pn_refine : forall i P scene img, rigid P -> fits i P scene img ->
    rs_refine env (matrix_of i) (five i) scene img (Proj2RT lr P) = Proj2RT lr P;
  pn_fair : fair_shuffles env }.
(** fisheye::undistortPoints inverts the lens for the points detected *)
Definition exact_undistort (bpts : Z -> list vec3) (w : rig) (ins : list (insertion pt2)) (env : rs_env par6 vec3) : Prop :=
  forall c f b k m q, rg_model w c = 1%Z -> sighted ins c f b k m -> corner bpts b k q ->
  let p := pact (board_at w c f b) q in
  rs_undistort env (matrix_of (rg_intr w c)) [a4 (rg_intr w c); a5 (rg_intr w c); a6 (rg_intr w c); a7 (rg_intr w c)] m = (vx p / vz p, vy p / vz p).

(** ** The rig is connected *)
(** boards a and b are seen in one image *)
Definition boards_together (ins : list (insertion pt2)) (a b : Z) : Prop :=
  exists i j, In i ins /\ In j ins /\ i_board i = a /\ i_board j = b /\ i_cam i = i_cam j /\ i_frame i = i_frame j.
(** cameras c and d see, in one frame, boards that chains of images connect *)
Definition shares (ins : list (insertion pt2)) (c d : Z) : Prop :=
  exists i j, In i ins /\ In j ins /\ i_cam i = c /\ i_cam j = d /\ i_frame i = i_frame j /\ clos_refl_trans Z (boards_together ins) (i_board i) (i_board j).
(** ... in frame f *)
Definition shares_in (ins : list (insertion pt2)) (c d f : Z) : Prop :=
  exists i j, In i ins /\ In j ins /\ i_cam i = c /\ i_cam j = d /\ i_frame i = f /\ i_frame j = f /\ clos_refl_trans Z (boards_together ins) (i_board i) (i_board j).
(** such chains of cameras connect any two cameras that detected a board *)
Definition connected_rig (ins : list (insertion pt2)) : Prop :=
  ins <> [] /\ forall i j, In i ins -> In j ins -> clos_refl_trans Z (shares ins) (i_cam i) (i_cam j).

(** ** Cameras *)
(** camera c detected a board *)
Definition saw (ins : list (insertion pt2)) (c : Z) : Prop := exists i, In i ins /\ i_cam i = c.
(** chains of common views connect c and d *)
Definition same_view (ins : list (insertion pt2)) (c d : Z) : Prop := clos_refl_trans Z (shares ins) c d.
(** every camera shares its view in two or more frames with the first camera of those it is
    connected to *)
Definition shares_with_first (ins : list (insertion pt2)) : Prop :=
  forall ref c, saw ins ref -> (forall d, saw ins d -> same_view ins ref d -> (ref <= d)%Z) -> saw ins c -> same_view ins ref c -> c <> ref ->
  exists f f', f <> f' /\ shares_in ins ref c f /\ shares_in ins ref c f'.
(** ** Cameras without a common view *)
(** in frame f, two cameras that are not connected see boards *)
Definition apart_in (ins : list (insertion pt2)) (f : Z) : Prop :=
  exists i j, In i ins /\ In j ins /\ i_frame i = f /\ i_frame j = f /\ ~ same_view ins (i_cam i) (i_cam j).
(** in frame f, camera c sees board a and camera d sees board b *)
Definition both_see (ins : list (insertion pt2)) (c a d b f : Z) : Prop :=
  exists i j, In i ins /\ In j ins /\ i_cam i = c /\ i_board i = a /\ i_cam j = d /\ i_board j = b /\ i_frame i = f /\ i_frame j = f.
(** c sees a board and d sees a board at once in many frames: in m frames if no other camera is
    connected to them. The program chooses the two objects two sets of cameras see most often
    at once, and counts every pair of cameras that do. *)
Definition often_at_once (m : nat) (ins : list (insertion pt2)) (c d : Z) : Prop :=
  exists a b fs, NoDup fs /\ (forall f, In f fs -> both_see ins c a d b f) /\
  forall l l', NoDup l -> NoDup l' -> (forall x, In x l -> saw ins x /\ same_view ins c x) -> (forall x, In x l' -> saw ins x /\ same_view ins d x) ->
  ((m - 1) * (length l * length l') < length fs)%nat.
(** the hand-eye calibration is right for m or more poses of two boards for two cameras that
    are not connected *)
Definition true_handeye (m : nat) (calib2 : list pose -> list pose -> option pose) (w : rig) (ins : list (insertion pt2)) : Prop :=
  forall c d a b fs, saw ins c -> saw ins d -> ~ same_view ins c d -> StronglySorted Z.lt fs -> (m <= length fs)%nat -> (forall f, In f fs -> apart_in ins f) ->
  calib2 (map (fun f => board_at w c f a) fs) (map (fun f => board_at w d f b) fs) = Some (pmul (rg_cam w c) (pinv (rg_cam w d))).
(** of any two cameras that are not connected, one connected to the first and one connected
    to the second often see boards at once *)
Definition parts_at_once (m : nat) (ins : list (insertion pt2)) : Prop :=
  ins <> [] /\ forall c d, saw ins c -> saw ins d -> ~ same_view ins c d ->
  exists c' d', same_view ins c c' /\ same_view ins d d' /\ often_at_once m ins c' d'.
(** All cameras are connected by common views; or they are sets connected by common views,
    any two of which see boards at once, and the hand-eye calibration is right. *)
Definition related_cameras (calib2 : list pose -> list pose -> option pose) (w : rig) (ins : list (insertion pt2)) : Prop :=
  connected_rig ins \/ exists m, (4 <= m)%nat /\ parts_at_once m ins /\ true_handeye m calib2 w ins.

(** ** What should come out *)
(** the file of camera parameters: one record for each camera that detected a board, with
    its intrinsic parameters, and its pose: from its coordinates to those of the first such
    camera *)
Definition true_cameras (w : rig) (ins : list (insertion pt2)) (file : list (Z * cam_rec)) : Prop :=
  NoDup (map fst file) /\ (forall c, In c (map fst file) <-> saw ins c) /\
  exists ref, saw ins ref /\ (forall c, saw ins c -> (ref <= c)%Z) /\
  forall c k, In (c, k) file -> (r_K k, r_dist k) = getIntrinsics (rg_model w c) (rg_intr w c) /\ r_type k = rg_model w c /\
                                r_pose k = pmul (rg_cam w ref) (pinv (rg_cam w c)).
(** the file of an object: all corners of its boards where they are, in the coordinates of
    its reference board *)
Definition true_points (bpts : Z -> list vec3) (w : rig) (o : obj3d) : Prop :=
  exists cols, save3DObj bpts o = Some cols /\
  (forall b k q, In b (mkeys (ob_boards o)) -> corner bpts b k q -> exists x, In (x, b, k) cols) /\
  (forall x b k, In (x, b, k) cols -> exists q, corner bpts b k q /\ pact (rg_board w (ob_ref o)) x = pact (rg_board w b) q).
(** the poses [ps] of object o in the file of object poses: one or more for each image of
    one of its boards, the pose of the reference board for the camera that took the image *)
Definition true_poses (lr : mat3 -> vec3) (w : rig) (ins : list (insertion pt2)) (o : obj3d) (ps : list par6) : Prop :=
  exists l, ps = map (fun cf => Proj2RT lr (board_at w (fst cf) (snd cf) (ob_ref o))) l /\
  forall c f, In (c, f) l <-> exists i, In i ins /\ i_cam i = c /\ i_frame i = f /\ In (i_board i) (mkeys (ob_boards o)).
