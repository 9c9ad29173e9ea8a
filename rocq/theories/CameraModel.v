(** Model of the intrinsic parameters of a camera and of the file they are saved to and
    loaded from: Camera.cpp 18-125, McCalib.cpp 374-405 (saveCamerasParams), 662-695
    (initializeCalibrationAllCam), geometrytools.cpp 755-771
    (projectPointsWithDistortion).

    Real arithmetic replaces double, so writing a number to a file and reading it back is
    exact.  A cv::Mat holding distortion coefficients is the list of its entries; reading
    an entry it does not have is the outcome None. *)
From Coq Require Import List ZArith Reals.
From Verif Require Import SMap DetectModel RansacModel GeomModel GroupModel.
Import ListNotations.
Open Scope R_scope.

(** Camera.hpp 46: intrinsics_[0] ... intrinsics_[8] *)
Record intr := I9 { a0 : R; a1 : R; a2 : R; a3 : R; a4 : R; a5 : R; a6 : R; a7 : R; a8 : R }.

(** Camera.cpp 23-31 *)
Definition getCameraMat (i : intr) : mat3 := M3 (a0 i) 0 (a2 i) 0 (a1 i) (a3 i) 0 0 1.
(** Camera.cpp 38-43 *)
Definition setCameraMat (K : mat3) (i : intr) : intr :=
  I9 (m00 K) (m11 K) (m02 K) (m12 K) (a4 i) (a5 i) (a6 i) (a7 i) (a8 i).
(** Camera.cpp 55-68.  None: an entry the matrix does not have is read. *)
Definition setDistortionVector (model : Z) (d : list R) (i : intr) : option intr :=
  if Z.eqb model 0 then
    match d with
    | d0 :: d1 :: d2 :: d3 :: d4 :: _ => Some (I9 (a0 i) (a1 i) (a2 i) (a3 i) d0 d1 d2 d3 d4)
    | _ => None
    end
  else if Z.eqb model 1 then
    match d with
    | d0 :: d1 :: d2 :: d3 :: _ => Some (I9 (a0 i) (a1 i) (a2 i) (a3 i) d0 d1 d2 d3 (a8 i))
    | _ => None
    end
  else Some i.
(** Camera.cpp 77-101; an unsupported model is reported as fatal and gives zeros *)
Definition getDistortionVector (model : Z) (i : intr) : list R :=
  if Z.eqb model 0 then [a4 i; a5 i; a6 i; a7 i; a8 i]
  else if Z.eqb model 1 then [a4 i; a5 i; a6 i; a7 i]
  else [0; 0; 0; 0; 0].
(** Camera.cpp 111-114 *)
Definition getIntrinsics (model : Z) (i : intr) : mat3 * list R := (getCameraMat i, getDistortionVector model i).
(** Camera.cpp 122-126 *)
Definition setIntrinsics (model : Z) (K : mat3) (d : list R) (i : intr) : option intr :=
  setDistortionVector model d (setCameraMat K i).

(** ** Projection *)
(** cv::projectPoints (5 coefficients) after division by z, OpenCV calib3d *)
Definition cv_brown (d : list R) (x y : R) : option pt2 :=
  match d with
  | [k1; k2; p1; p2; k3] =>
      let r2 := x * x + y * y in
      let rad := 1 + k1 * r2 + k2 * (r2 * r2) + k3 * (r2 * r2 * r2) in
      Some (x * rad + p1 * (2 * x * y) + p2 * (r2 + 2 * x * x), y * rad + p1 * (r2 + 2 * y * y) + p2 * (2 * x * y))
  | _ => None
  end.
(** cv::fisheye::projectPoints (4 coefficients) after division by z, OpenCV calib3d *)
Definition cv_fisheye (d : list R) (x y : R) : option pt2 :=
  match d with
  | [k1; k2; k3; k4] =>
      let r := sqrt (x * x + y * y) in
      let th := atan r in
      let th2 := th * th in
      let thd := th * (1 + k1 * th2 + k2 * (th2 * th2) + k3 * (th2 * th2 * th2) + k4 * (th2 * th2 * th2 * th2)) in
      let c := if Rltb (1 / 100000000) r then thd / r else 1 in
      Some (x * c, y * c)
  | _ => None
  end.
(** geometrytools.cpp 755-771 for one point; None: the point is in the plane of the camera
    (z = 0; infinite image point), or an unknown model (nothing is computed) *)
Definition projectPointsWithDistortion (P : pose) (K : mat3) (d : list R) (model : Z) (q : vec3) : option pt2 :=
  let c := pact P q in
  if Req_EM_T (vz c) 0 then None else
  let x := vx c / vz c in let y := vy c / vz c in
  option_map (fun p => (m00 K * fst p + m02 K, m11 K * snd p + m12 K))
    (if Z.eqb model 0 then cv_brown d x y else if Z.eqb model 1 then cv_fisheye d x y else None).

(** ** Files *)
(** what is written for one camera, McCalib.cpp 387-400 *)
Record cam_rec := mkRec {
  r_K : mat3; r_dist : list R; r_type : Z; r_group : Z; r_cols : Z; r_rows : Z; r_pose : pose }.
(** Camera.hpp: intrinsics_, distortion_model_, im_cols_, im_rows_ *)
Record camera_t := mkCamera { k_intr : intr; k_model : Z; k_cols : Z; k_rows : Z }.
(** McCalib.cpp 385-401 for the cameras of one group.  A camera without pose is impossible
    (C24, C30), and a camera that is not in cams_ has an expired pointer: skipped. *)
Definition group_records (cams : smap Z camera_t) (g : Z) (G : cgroup) : list (Z * cam_rec) :=
  flat_map (fun c =>
    match mfind c cams, mfind c (cg_poses G) with
    | Some k, Some P => [(c, mkRec (getCameraMat (k_intr k)) (getDistortionVector (k_model k) (k_intr k)) (k_model k) g
                                   (k_cols k) (k_rows k) (pinv P))]
    | _, _ => []
    end) (mkeys (cg_map G)).
(** McCalib.cpp 374-405: the entries "camera_c" of the file, and whether "nb_camera" is
    there.  fs.release() at line 403 is inside the loop, after which operator<< does
    nothing: a group is written only while the file is open. *)
Definition saveCamerasParams (cams : smap Z camera_t) (groups : smap Z cgroup) : list (Z * cam_rec) :=
  fst (fold_left (fun '(out, is_open) '(g, G) =>
         (if is_open : bool then out ++ group_records cams g G else out, false)) groups ([], true)).

(** fs["camera_c"]: the first entry with that name *)
Definition entry (file : list (Z * cam_rec)) (c : Z) : option cam_rec :=
  option_map snd (find (fun e => Z.eqb (fst e) c) file).
(** McCalib.cpp 678-687 for one camera: a missing entry gives empty matrices, whose
    elements are then read (None) *)
Definition load_camera (file : list (Z * cam_rec)) (c : Z) (k : camera_t) : option camera_t :=
  match entry file c with
  | Some r => option_map (fun i => mkCamera i (k_model k) (k_cols k) (k_rows k))
                         (setIntrinsics (k_model k) (r_K r) (r_dist r) (k_intr k))
  | None => None
  end.
(** McCalib.cpp 663-687 *)
Definition load_cameras (file : list (Z * cam_rec)) (cams : smap Z camera_t) : option (smap Z camera_t) :=
  option_map (combine (mkeys cams)) (collect (map (fun '(c, k) => load_camera file c k) cams)).
