(** Model of non-linear refinement: the five cost functors of OptimizationCeres.h 11-664,
    the problems built from them in Camera.cpp 268-296, Object3D.cpp 160-219,
    CameraGroup.cpp 191-266, 366-458, 483-567, and the reported reprojection error,
    McCalib.cpp 2150-2245.

    Real arithmetic replaces double and float.  ceres::Solve is not modelled here: see
    ResidualSpec. *)
From Coq Require Import List ZArith Reals.
From Verif Require Import SMap DataModel DetectModel RansacModel GeomModel ChainModel ObjectsModel GroupModel StageModel PipelineModel CameraModel.
Import ListNotations.
Open Scope R_scope.

(** six doubles: angle-axis rotation, translation *)
Definition par6 : Type := vec3 * vec3.

(** std::numeric_limits<double>::epsilon() *)
Definition dbl_eps : R := / 4503599627370496.
(** ceres::AngleAxisRotatePoint, ceres/rotation.h (version 1.14 and 2.x) *)
Definition AngleAxisRotatePoint (w p : vec3) : vec3 :=
  let theta2 := vdot w w in
  if Rltb dbl_eps theta2 then
    let theta := sqrt theta2 in
    let u := vscale (1 / theta) w in
    let tmp := vdot u p * (1 - cos theta) in
    let c := vcross u p in
    V3 (vx p * cos theta + vx c * sin theta + vx u * tmp)
       (vy p * cos theta + vy c * sin theta + vy u * tmp)
       (vz p * cos theta + vz c * sin theta + vz u * tmp)
  else vadd p (vcross w p).
(** OptimizationCeres.h 21-29 and its repetitions: rotate, then add the translation *)
Definition rotate_move (P : par6) (p : vec3) : vec3 := vadd (AngleAxisRotatePoint (fst P) p) (snd P).

(** OptimizationCeres.h 158-218; the same text at 288-349, 429-490 and 580-642.  [p] is
    p[0..2] before the normalisation.  None: division by 0, or an unknown distortion type
    (residuals are not written). *)
Definition image_error (dt : Z) (fx fy u0 v0 k1 k2 k3 p1 p2 u v : R) (p : vec3) : option pt2 :=
  if Req_EM_T (vz p) 0 then None else
  let x := vx p / vz p in let y := vy p / vz p in
  if Z.eqb dt 0 then
    let r2 := x * x + y * y in let r4 := r2 * r2 in let r6 := r4 * r2 in
    let r_coeff := 1 + k1 * r2 + k2 * r4 + k3 * r6 in
    let xd := x * r_coeff + 2 * p1 * x * y + p2 * (r2 + 2 * x * x) in
    let yd := y * r_coeff + p1 * (r2 + 2 * (y * y)) + 2 * p2 * x * y in
    Some (fx * xd + u0 - u, fy * yd + v0 - v)
  else if Z.eqb dt 1 then
    let r2 := x * x + y * y in let r := sqrt r2 in let theta := atan r in
    let theta2 := theta * theta in let theta3 := theta2 * theta in let theta4 := theta2 * theta2 in
    let theta5 := theta4 * theta in let theta6 := theta3 * theta3 in let theta7 := theta6 * theta in
    let theta8 := theta4 * theta4 in let theta9 := theta8 * theta in
    let theta_d := theta + k1 * theta3 + k2 * theta5 + p1 * theta7 + p2 * theta9 in
    let inv_r := if Rltb (1 / 100000000) r then 1 / r else 1 in
    let cdist := if Rltb (1 / 100000000) r then theta_d * inv_r else 1 in
    Some (fx * (x * cdist) + u0 - u, fy * (y * cdist) + v0 - v)
  else None.

(** OptimizationCeres.h 11-117; in the fisheye branch (62-100) k3 = Intrinsics[6] and
    k4 = Intrinsics[7] play the part of p1 and p2 *)
Definition ReprojectionError (u v : R) (q : vec3) (dt : Z) (camera : par6) (i : intr) : option pt2 :=
  image_error dt (a0 i) (a1 i) (a2 i) (a3 i) (a4 i) (a5 i) (a8 i) (a6 i) (a7 i) u v (rotate_move camera q).
(** OptimizationCeres.h 120-251 *)
Definition ReprojectionError_3DObjRef (u v : R) (q : vec3) (fx fy u0 v0 k1 k2 k3 p1 p2 : R) (refine_board : bool) (dt : Z)
           (camera boardtrans : par6) : option pt2 :=
  let pboard := if refine_board then rotate_move boardtrans q else q in
  image_error dt fx fy u0 v0 k1 k2 k3 p1 p2 u v (rotate_move camera pboard).
(** OptimizationCeres.h 255-382 *)
Definition ReprojectionError_CameraGroupRef (u v : R) (q : vec3) (fx fy u0 v0 k1 k2 k3 p1 p2 : R) (refine_camera : bool) (dt : Z)
           (camera object_pose : par6) : option pt2 :=
  let pobj := rotate_move object_pose q in
  let pobj := if refine_camera then rotate_move camera pobj else pobj in
  image_error dt fx fy u0 v0 k1 k2 k3 p1 p2 u v pobj.
(** OptimizationCeres.h 385-525 *)
Definition ReprojectionError_CameraGroupAndObjectRef (u v : R) (q : vec3) (fx fy u0 v0 k1 k2 k3 p1 p2 : R)
           (refine_camera refine_board : bool) (dt : Z) (camera object_pose board_pose : par6) : option pt2 :=
  let point := if refine_board then rotate_move board_pose q else q in
  let pobj := rotate_move object_pose point in
  let pobj := if refine_camera then rotate_move camera pobj else pobj in
  image_error dt fx fy u0 v0 k1 k2 k3 p1 p2 u v pobj.
(** OptimizationCeres.h 528-664 *)
Definition ReprojectionError_CameraGroupAndObjectRefAndIntrinsics (u v : R) (q : vec3)
           (refine_camera refine_board : bool) (dt : Z) (camera object_pose board_pose : par6) (cam_int : intr) : option pt2 :=
  let point := if refine_board then rotate_move board_pose q else q in
  let pobj := rotate_move object_pose point in
  let pobj := if refine_camera then rotate_move camera pobj else pobj in
  image_error dt (a0 cam_int) (a1 cam_int) (a2 cam_int) (a3 cam_int) (a4 cam_int) (a5 cam_int) (a8 cam_int) (a6 cam_int) (a7 cam_int)
              u v pobj.

(** ** Problems *)
(** Memory that Ceres may write to: pose_ of board observation n and of object observation
    n, relative_board_pose_[b] of object o, relative_camera_pose_[c] of group g,
    object_pose_[o] of group observation k *)
Inductive pkey :=
| KBoardObs (n : nat)
| KObjObs (n : nat)
| KBoard (o b : Z)
| KCam (g c : Z)
| KGroup (k : Z * Z) (o : Z).
(** the poses, and intrinsics_ of the cameras *)
Record params := mkPar { pa_pose : pkey -> par6; pa_intr : Z -> intr }.

(** One residual block: the functor with its constructor arguments, and the parameter
    blocks *)
Inductive block :=
| BIntr (m : pt2) (q : vec3) (dt : Z) (pose : pkey) (cam : Z)
| BObj (m : pt2) (q : vec3) (i : intr) (refine_board : bool) (dt : Z) (pose board : pkey)
| BGroup (m : pt2) (q : vec3) (i : intr) (refine_cam : bool) (dt : Z) (cam pose : pkey)
| BBoth (m : pt2) (q : vec3) (i : intr) (refine_cam refine_board : bool) (dt : Z) (cam pose board : pkey)
| BAll (m : pt2) (q : vec3) (refine_cam refine_board : bool) (dt : Z) (kcam kpose board : pkey) (cam : Z).
(** the residuals of a block.  [i] holds intrinsics_ at the time the problem is built; the
    order r1, r2, r3, t1, t2 of the arguments is that of Object3D.cpp 184-208,
    CameraGroup.cpp 225-254 and 401-438 *)
Definition eval (p : params) (b : block) : option pt2 :=
  match b with
  | BIntr m q dt kp c => ReprojectionError (fst m) (snd m) q dt (pa_pose p kp) (pa_intr p c)
  | BObj m q i rb dt kp kb =>
      ReprojectionError_3DObjRef (fst m) (snd m) q (a0 i) (a1 i) (a2 i) (a3 i) (a4 i) (a5 i) (a8 i) (a6 i) (a7 i) rb dt
        (pa_pose p kp) (pa_pose p kb)
  | BGroup m q i rc dt kc kp =>
      ReprojectionError_CameraGroupRef (fst m) (snd m) q (a0 i) (a1 i) (a2 i) (a3 i) (a4 i) (a5 i) (a8 i) (a6 i) (a7 i) rc dt
        (pa_pose p kc) (pa_pose p kp)
  | BBoth m q i rc rb dt kc kp kb =>
      ReprojectionError_CameraGroupAndObjectRef (fst m) (snd m) q (a0 i) (a1 i) (a2 i) (a3 i) (a4 i) (a5 i) (a8 i) (a6 i) (a7 i) rc rb dt
        (pa_pose p kc) (pa_pose p kp) (pa_pose p kb)
  | BAll m q rc rb dt kc kp kb c =>
      ReprojectionError_CameraGroupAndObjectRefAndIntrinsics (fst m) (snd m) q rc rb dt
        (pa_pose p kc) (pa_pose p kp) (pa_pose p kb) (pa_intr p c)
  end.
(** the parameter blocks of a residual block *)
Definition pose_keys (b : block) : list pkey :=
  match b with
  | BIntr _ _ _ kp _ => [kp]
  | BObj _ _ _ _ _ kp kb => [kp; kb]
  | BGroup _ _ _ _ _ kc kp => [kc; kp]
  | BBoth _ _ _ _ _ _ kc kp kb => [kc; kp; kb]
  | BAll _ _ _ _ _ kc kp kb _ => [kc; kp; kb]
  end.
Definition intr_keys (b : block) : list Z :=
  match b with
  | BIntr _ _ _ _ c => [c]
  | BAll _ _ _ _ _ _ _ _ c => [c]
  | _ => []
  end.

(** ceres::HuberLoss(1.0) on the squared norm s *)
Definition huber (s : R) : R := if Rle_dec s 1 then s else 2 * sqrt s - 1.
(** half the sum of the losses; None: a residual is undefined *)
Definition cost (p : params) (bs : list block) : option R :=
  option_map (fun rs => fold_right Rplus 0 (map (fun r => huber (fst r ^ 2 + snd r ^ 2)) rs) / 2)
             (collect (map (eval p) bs)).

(** concatenation of the parts of a problem; None: an access outside a vector *)
Definition gather {A B} (f : A -> option (list B)) (l : list A) : option (list B) := option_map (@concat B) (collect (map f l)).
(** the loop over the points: pts3[ids[i]] and pts[i] for every i *)
Definition point_blocks {A} (mk : vec3 -> pt2 -> A) (pts3 : list vec3) (ids : list Z) (pts : list pt2) : option (list A) :=
  collect (map (fun '(i, k) => match zget pts3 k, nth_error pts i with
                               | Some q, Some m => Some (mk q m)
                               | _, _ => None
                               end) (combine (seq 0 (length ids)) ids)).

Section Problems.
Variables (bpts : Z -> list vec3) (t : tables pt2) (cams : Z -> Z) (p : params).
(** [cams c] is distortion_model_ of camera c; [p] the parameters when the problem is built *)

(** Camera.cpp 272-296 for camera c, whose board_observations_ are [ns] *)
Definition camera_problem (c : Z) (ns : list nat) : option (list block) :=
  gather (fun n => match nth_error (mvals (t_obs t)) n with
                   | Some b => if o_valid b then point_blocks (fun q m => BIntr m q (cams c) (KBoardObs n) c) (bpts (o_board b)) (o_ids b) (o_pts b)
                               else Some []
                   | None => Some []
                   end) ns.

(** Object3D.cpp 164-219 for object o, whose object_observations_ are listed in [ot] *)
Definition object_problem (ot : otables pt2) (o : obj3d) : option (list block) :=
  gather (fun n => match nth_error (ot_all ot) n with
    | Some oo =>
        gather (fun k => match nth_error (mvals (t_obs t)) k with
          | Some b => if o_valid b then
                        point_blocks (fun q m => BObj m q (pa_intr p (o_cam b)) (negb (Z.eqb (ob_ref o) (o_board b))) (cams (o_cam b))
                                                      (KObjObs n) (KBoard (ob_id o) (o_board b)))
                                     (bpts (o_board b)) (o_ids b) (o_pts b)
                      else Some []
          | None => Some []
          end) (oo_bobs oo)
    | None => Some []
    end) (table_of (ob_id o) (ot_objs ot)).

(** frames_ of a group: a map, so each frame once and in order (insertNewFrame,
    CameraGroup.cpp 51-53) *)
Definition group_frames (gt : gtables) (g : Z) : list Z :=
  mkeys (fold_left (fun m f => mset f tt m) (ptable g (gt_gframes gt)) []).
(** CameraGroup.cpp 196-217 = 371-392 = 488-509: the object observations of the group
    observations of the frames of G, with the key of the group observation *)
Definition group_views_of (s : calib pt2) (G : cgroup) : list ((Z * Z) * nat) :=
  flat_map (fun f => flat_map (fun k => match mfind k (gt_obs (ca_gobs s)) with
                                        | Some go => if Z.eqb (cg_id G) (go_group go) then map (fun n => (k, n)) (go_nums go) else []
                                        | None => []
                                        end) (ptable f (gt_frames (ca_gobs s))))
           (group_frames (ca_gobs s) (cg_id G)).
(** the object observation and its object; None: an expired pointer, skipped *)
Definition view_data (s : calib pt2) (n : nat) : option (objobs pt2 * obj3d) :=
  match nth_error (ot_all (ca_oobs s)) n with
  | Some oo => match mfind (oo_obj oo) (ca_objs s) with Some o => Some (oo, o) | None => None end
  | None => None
  end.

(** CameraGroup.cpp 191-266 *)
Definition group_problem (s : calib pt2) (G : cgroup) : option (list block) :=
  gather (fun '(k, n) => match view_data s n with
    | Some (oo, o) =>
        point_blocks (fun q m => BGroup m q (pa_intr p (oo_cam oo)) (negb (Z.eqb (cg_ref G) (oo_cam oo))) (cams (oo_cam oo))
                                        (KCam (cg_id G) (oo_cam oo)) (KGroup k (oo_obj oo)))
                     (ob_pts o) (oo_ids oo) (oo_pts oo)
    | None => Some []
    end) (group_views_of s G).

(** CameraGroup.cpp 409-456 = 520-565 for one point: [mk] gets the board, the corner and
    the image point.  A board that is not one of the object's has a null pointer: skipped. *)
Definition corner_blocks {A} (mk : Z -> vec3 -> pt2 -> A) (o : obj3d) (ids : list Z) (pts : list pt2) : option (list A) :=
  gather (fun '(i, z) => match nth_error pts i, zget (ob_o2b o) z with
    | Some m, Some (b, k) =>
        if existsb (Z.eqb b) (mkeys (ob_boards o)) then
          match zget (bpts b) k with Some q => Some [mk b q m] | None => None end
        else Some []
    | _, _ => None
    end) (combine (seq 0 (length ids)) ids).
(** CameraGroup.cpp 366-458 *)
Definition group_objects_problem (s : calib pt2) (G : cgroup) : option (list block) :=
  gather (fun '(k, n) => match view_data s n with
    | Some (oo, o) =>
        corner_blocks (fun b q m => BBoth m q (pa_intr p (oo_cam oo)) (negb (Z.eqb (cg_ref G) (oo_cam oo))) (negb (Z.eqb (ob_ref o) b))
                                          (cams (oo_cam oo)) (KCam (cg_id G) (oo_cam oo)) (KGroup k (oo_obj oo)) (KBoard (ob_id o) b))
                      o (oo_ids oo) (oo_pts oo)
    | None => Some []
    end) (group_views_of s G).
(** CameraGroup.cpp 483-567 *)
Definition group_all_problem (s : calib pt2) (G : cgroup) : option (list block) :=
  gather (fun '(k, n) => match view_data s n with
    | Some (oo, o) =>
        corner_blocks (fun b q m => BAll m q (negb (Z.eqb (cg_ref G) (oo_cam oo))) (negb (Z.eqb (ob_ref o) b))
                                         (cams (oo_cam oo)) (KCam (cg_id G) (oo_cam oo)) (KGroup k (oo_obj oo)) (KBoard (ob_id o) b)
                                         (oo_cam oo))
                      o (oo_ids oo) (oo_pts oo)
    | None => Some []
    end) (group_views_of s G).

(** ** Stages *)
(** build a problem and solve it, for each element in turn; later problems are built from
    what the earlier ones left behind.  [solve] is ceres::Solve. *)
Definition solve_each {A} (solve : list block -> params -> params) (problem : params -> A -> option (list block)) (l : list A) (q : params) :
  option params :=
  fold_left (fun acc a => match acc with
                          | Some r => option_map (fun bs => solve bs r) (problem r a)
                          | None => None
                          end) l (Some q).
End Problems.
Section Stages.
Variables (solve : list block -> params -> params) (bpts : Z -> list vec3) (t : tables pt2) (cams : Z -> Z).
(** McCalib.cpp 713-716 (refineIntrinsicAndPoseAllCam): the cameras in key order; [bobs c]
    are the board observations of camera c *)
Definition refineIntrinsicAndPoseAllCam (bobs : Z -> list nat) (cs : list Z) (p : params) : option params :=
  solve_each solve (fun _ c => camera_problem bpts t cams c (bobs c)) cs p.
(** McCalib.cpp 1014-1017 (refineAllObject3D); the points of the objects are recomputed
    by [refine_objects] *)
Definition refineAllObject3D (s : calib pt2) (p : params) : option params :=
  solve_each solve (fun p o => object_problem bpts t cams p (ca_oobs s) o) (mvals (ca_objs s)) p.
(** McCalib.cpp 1211-1220; updateObjObsPose only copies the poses *)
Definition refineAllCameraGroup (s : calib pt2) (p : params) : option params :=
  solve_each solve (fun p G => group_problem cams p s G) (mvals (ca_groups s)) p.
(** McCalib.cpp 1876-1888; updateObjectPts is [refine_objects] *)
Definition refineAllCameraGroupAndObjects (s : calib pt2) (p : params) : option params :=
  solve_each solve (fun p G => group_objects_problem bpts cams p s G) (mvals (ca_groups s)) p.
(** McCalib.cpp 2348-2361 *)
Definition refineAllCameraGroupAndObjectsAndIntrinsic (s : calib pt2) (p : params) : option params :=
  solve_each solve (fun _ G => group_all_problem bpts cams s G) (mvals (ca_groups s)) p.
End Stages.
(** relative_board_pose_ of an object and relative_camera_pose_ of a group read as
    matrices *)
Definition boards_of (p : params) (o : obj3d) : smap Z pose :=
  map (fun '(b, _) => (b, RVecT2Proj (fst (pa_pose p (KBoard (ob_id o) b))) (snd (pa_pose p (KBoard (ob_id o) b))))) (ob_poses o).
Definition cams_of (p : params) (G : cgroup) : smap Z pose :=
  map (fun '(c, _) => (c, RVecT2Proj (fst (pa_pose p (KCam (cg_id G) c))) (snd (pa_pose p (KCam (cg_id G) c))))) (cg_poses G).

Section Reported.
Variables (cams : Z -> Z) (p : params).
(** ** Reported error *)
(** getCameraRotVec/TransVec, getObjectRotVec/TransVec as a matrix *)
Definition pose_of (k : pkey) : pose := RVecT2Proj (fst (pa_pose p k)) (snd (pa_pose p k)).
(** McCalib.cpp 2208-2231 (also 2306-2330 and CameraGroup.cpp 319-340): the reprojected
    points of an object observation.  None: an access outside a vector or no finite image
    point. *)
Definition reprojected (G : cgroup) (k : Z * Z) (oo : objobs pt2) (o : obj3d) : option (list pt2) :=
  match collect (map (zget (ob_pts o)) (oo_ids oo)) with
  | Some scene =>
      collect (map (projectPointsWithDistortion (pose_of (KCam (cg_id G) (oo_cam oo)))
                      (getCameraMat (pa_intr p (oo_cam oo))) (getDistortionVector (cams (oo_cam oo)) (pa_intr p (oo_cam oo))) (cams (oo_cam oo)))
                   (transform3DPts scene (pose_of (KGroup k (oo_obj oo)))))
  | None => None
  end.
(** McCalib.cpp 2150-2160 *)
Definition computeDistanceBetweenPoints (pts repro : list pt2) : option (list R) :=
  collect (map (fun '(i, r) => option_map (fun m => repro_error m r) (nth_error pts i)) (combine (seq 0 (length repro)) repro)).
(** McCalib.cpp 2233-2235: cv::mean; None for an empty list *)
Definition observation_error (G : cgroup) (k : Z * Z) (oo : objobs pt2) (o : obj3d) : option R :=
  match reprojected G k oo o with
  | Some rp => match computeDistanceBetweenPoints (oo_pts oo) rp with
               | Some (e :: es) => Some (fold_left Rplus (e :: es) 0 / INR (length (e :: es)))
               | _ => None
               end
  | None => None
  end.
(** the errors of all observations, in the order of the loops of McCalib.cpp 2173-2240 *)
Definition all_errors (s : calib pt2) : option (list R) :=
  gather (fun '(_, G) => gather (fun '(k, n) => match view_data s n with
                                                | Some (oo, o) => option_map (fun e => [e]) (observation_error G k oo o)
                                                | None => Some []
                                                end) (group_views_of s G)) (ca_groups s).
(** McCalib.cpp 2168-2245; None also for 0 / 0 *)
Definition computeAvgReprojectionError (s : calib pt2) : option R :=
  match all_errors s with
  | Some (e :: es) => Some (fold_left Rplus (e :: es) 0 / INR (length (e :: es)))
  | _ => None
  end.
End Reported.
