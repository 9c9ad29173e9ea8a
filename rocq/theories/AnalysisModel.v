(** The scripts of python_utils that read the files a calibration has saved: compute_pose_error_vs_gt.py (compare the
    cameras with a ground truth), compute_error_statistic.py (mean reprojection error per frame), display_calib_cameras.py,
    display_calib_object.py and display_cam_obj_pose.py (what is drawn where), and post_calibration_analysis.py, which runs
    all of them.  Not modelled: matplotlib itself, the colours, the sizes of the drawings.  [None] as the outcome of a
    script is a Python exception; numbers are reals, and a NaN is [None] as a number. *)
From Coq Require Import List ZArith Reals Bool.
From Verif Require Import DetectModel GeomModel CameraModel ResidualModel FileModel.
Import ListNotations.
Close Scope nat_scope.
Open Scope R_scope.

(** python_utils/compute_pose_error_vs_gt.py:91-107 (read_est_results), display_calib_cameras.py:249-266,
    display_cam_obj_pose.py:13-27: the cameras "camera_0" .. "camera_{nb_camera-1}".  For a camera that is not in the file,
    .mat() is Python's None and the slice of it raises.  [nb] is the entry "nb_camera" of the file (McCalib.cpp:383:
    the configured number of cameras; it is not part of the list [file], see CameraModel.saveCamerasParams). *)
Definition read_cameras (nb : nat) (file : list (Z * cam_rec)) : option (list (mat3 * pose)) :=
  collect (map (fun i => option_map (fun r => (r_K r, r_pose r)) (entry file (Z.of_nat i))) (seq 0 nb)).

(** numpy.linalg.inv of a 4x4 matrix with last row 0 0 0 1, and of a 3x3 matrix: LinAlgError if it is singular. *)
Definition np_inv4 (P : pose) : option pose := if Req_EM_T (det (fst P)) 0 then None else Some (pinv P).
Definition np_inv3 (A : mat3) : option mat3 := if Req_EM_T (det A) 0 then None else Some (minv A).

(** compute_pose_error_vs_gt.py:137: the change of axes [[1,0,0,0],[0,-1,0,0],[0,0,-1,0],[0,0,0,1]]. *)
Definition flip_axes : pose := (M3 1 0 0 0 (-1) 0 0 0 (-1), vzero).

(** compute_pose_error_vs_gt.py:117-148 (read_gt_results).  The ground truth: its number of cameras and, for i = 1, 2, ...,
    the matrices K_i and P_i.  trans @ P @ trans is inverted. *)
Record truth_file := mkTruth { tf_nb : nat; tf_cam : nat -> option (mat3 * pose) }.
Definition read_gt (g : truth_file) : option (list (mat3 * pose)) :=
  collect (map (fun i => match tf_cam g (i + 1) with
                         | Some (K, P) => option_map (fun Q => (K, Q)) (np_inv4 (pmul (pmul flip_axes P) flip_axes))
                         | None => None
                         end) (seq 0 (tf_nb g))).

(** numpy.arccos: NaN outside [-1, 1]; numpy.degrees. *)
Definition np_arccos (x : R) : option R := if Rle_dec (-1) x then if Rle_dec x 1 then Some (acos x) else None else None.
Definition np_degrees (x : R) : R := x * 180 / PI.
Definition np_trace (A : mat3) : R := m00 A + m11 A + m22 A.

(** compute_pose_error_vs_gt.py:43-64: the angle from the trace of inv(est) @ gt, and a second formula if that is NaN.
    Outer option: exception. *)
Definition rotation_error (est gt : mat3) : option (option R) :=
  option_map (fun inv =>
    let x := 1 / 2 * (np_trace (mm inv gt) - 1) in
    option_map np_degrees
      (match np_arccos x with
       | Some a => Some a
       | None => np_arccos (1 - Rabs (1 - x))
       end)) (np_inv3 est).

(** compute_pose_error_vs_gt.py:37-42: the other errors of one camera. *)
Definition translation_error (est gt : vec3) : R := sqrt (vdot (vsub gt est) (vsub gt est)).
Definition abs_error (est gt : R) : R := sqrt ((est - gt) * (est - gt)).

(** numpy.mean of a list: NaN for the empty list and for a list with a NaN. *)
Definition np_mean (l : list (option R)) : option R :=
  match l with
  | [] => None
  | _ => option_map (fun v => fold_right Rplus 0 v / INR (length v)) (collect l)
  end.

(** compute_pose_error_vs_gt.py:69-81: the seven numbers printed. *)
Record report := mkReport {
  rp_translation : option R; rp_rotation : option R; rp_fx : option R; rp_fy : option R; rp_u0 : option R; rp_v0 : option R;
  rp_pp : option R }.

(** compute_pose_error_vs_gt.py:14-81 (compute_errors), [l]: estimate and truth of every camera. *)
Definition compute_errors (l : list ((mat3 * pose) * (mat3 * pose))) : option report :=
  option_map (fun rots =>
    let each f := np_mean (map (fun eg => Some (f (fst eg) (snd eg))) l) in
    let k f := each (fun e g : mat3 * pose => abs_error (f (fst e)) (f (fst g))) in
    mkReport (each (fun e g => translation_error (snd (snd e)) (snd (snd g)))) (np_mean rots)
      (k m00) (k m11) (k m02) (k m12)
      (match k m12, k m02 with Some a, Some b => Some ((a + b) / 2) | _, _ => None end))
    (collect (map (fun eg => rotation_error (fst (snd (fst eg))) (fst (snd (snd eg)))) l)).

(** compute_pose_error_vs_gt.py:151-184: read both files, assert that the numbers of cameras agree, print the errors. *)
Definition compute_pose_error_vs_gt (nb : nat) (file : list (Z * cam_rec)) (g : truth_file) : option report :=
  match read_cameras nb file, read_gt g with
  | Some est, Some gt => if Nat.eqb nb (tf_nb g) then compute_errors (combine est gt) else None
  | _, _ => None
  end.

(** compute_error_statistic.py:41-76 on the file of FileModel.saveReprojectionErrorToFile: [n] is "nb_camera_group".
    getNode(name) finds the first node of that name.  An empty cv::Mat is read as Python's None, on which .shape or
    numpy.mean raise; so an empty list of frames, cameras or errors is an exception.  The table of colours has 100 entries
    (generate_color_per_camera), and camera_color[c] raises beyond it (a negative index is read from the end, down to -100).
    The result is the heights of the bars, one per entry of frame_list. *)
Definition python_index (n : Z) (c : Z) : bool := (Z.leb (- n) c && Z.ltb c n)%bool.
Definition camera_mean (fe : frame_errors) (c : Z) : option (option R) :=
  if python_index 100 c then
    match find (fun ce => Z.eqb (ce_cam ce) c) (fe_cams fe) with
    | Some ce => match ce_errors ce with [] => None | es => Some (np_mean (map Some es)) end
    | None => None
    end
  else None.
Definition frame_mean (ge : group_errors) (f : Z) : option (option R) :=
  match find (fun fe => Z.eqb (fe_frame fe) f) (ge_frames ge) with
  | Some fe => match fe_list fe with
               | [] => None
               | l => option_map np_mean (collect (map (camera_mean fe) l))
               end
  | None => None
  end.
Definition compute_error_statistic (doc : nat * list group_errors) : option (list (option R)) :=
  if Nat.eqb (fst doc) 1 then
    match find (fun ge => Z.eqb (ge_group ge) 0) (snd doc) with
    | Some ge => match ge_list ge with
                 | [] => None
                 | l => collect (map (frame_mean ge) l)
                 end
    | None => None
    end
  else None.

(** display_calib_cameras.py:188-246 (add_camera_to_subplot): a point of the drawing of a camera, given in the axes of the
    camera, is drawn at cam_rot @ x + cam_trans; the body has twelve corners and three axes. *)
Definition body (r : R) : list vec3 :=
  [V3 r (- r) (-2 * r); V3 r r (-2 * r); V3 (- r) (- r) (-2 * r); V3 (- r) r (-2 * r);
   V3 r (- r) (2 * r); V3 r r (2 * r); V3 (- r) (- r) (2 * r); V3 (- r) r (2 * r);
   V3 (3 / 2 * r) (- (3 / 2) * r) (3 * r); V3 (3 / 2 * r) (3 / 2 * r) (3 * r); V3 (- (3 / 2) * r) (- (3 / 2) * r) (3 * r); V3 (- (3 / 2) * r) (3 / 2 * r) (3 * r);
   V3 0 0 0; V3 0 0 (2 * r); V3 0 (2 * r) 0; V3 (2 * r) 0 0].
Definition draw_camera (size : R) (P : pose) : list vec3 := map (fun x => vadd (mv (fst P) x) (snd P)) (body size).

(** display_calib_cameras.py:13-185 (plot_camera): the segments, each given by the numbers (from 1) of the corners whose x, y
    and z coordinates its two ends take.  Two of the segments mix corners (lines 37 and 159). *)
Definition plain_end (a b : nat) : (nat * nat * nat) * (nat * nat * nat) := ((a, a, a), (b, b, b)).
Definition segments : list ((nat * nat * nat) * (nat * nat * nat)) :=
  ([plain_end 1 2; plain_end 1 3; ((4, 4, 4), (3, 3, 4)); plain_end 2 4; plain_end 5 6; plain_end 5 7; plain_end 8 7; plain_end 6 8;
   plain_end 1 5; plain_end 2 6; plain_end 3 7; plain_end 4 8; plain_end 9 10; plain_end 9 11; plain_end 12 11; plain_end 10 12;
   plain_end 5 9; plain_end 6 10; plain_end 7 11; ((8, 8, 8), (12, 8, 12)); plain_end 13 14; plain_end 13 15; plain_end 13 16])%nat.
Definition end_point (xs : list vec3) (e : nat * nat * nat) : vec3 :=
  let '(a, b, c) := e in
  V3 (vx (nth (a - 1) xs vzero)) (vy (nth (b - 1) xs vzero)) (vz (nth (c - 1) xs vzero)).
Definition plot_camera (xs : list vec3) : list (vec3 * vec3) := map (fun e => (end_point xs (fst e), end_point xs (snd e))) segments.

(** display_calib_cameras.py:249-272 *)
Definition display_calib_cameras (nb : nat) (file : list (Z * cam_rec)) : option (list (list (vec3 * vec3))) :=
  option_map (map (fun kp => plot_camera (draw_camera (1 / 2) (snd kp)))) (read_cameras nb file).

(** display_calib_object.py:11-30: "object_0" of the objects file, its points by board.  A matrix without columns cannot be
    read back (see above). *)
Definition object0 {A} (l : list (Z * list A)) : option (list A) :=
  match find (fun e => Z.eqb (fst e) 0) l with
  | Some (_, []) => None
  | Some (_, cols) => Some cols
  | None => None
  end.
Definition display_calib_object (l : list (Z * list (vec3 * Z * Z))) : option (list (Z * list vec3)) :=
  option_map (fun cols => map (fun b => (b, map (fun c => fst (fst c)) (filter (fun c => Z.eqb (snd (fst c)) b) cols)))
                              (nodup Z.eq_dec (map (fun c => snd (fst c)) cols))) (object0 l).

(** range(0, n, 50) *)
Definition every_50th (n : nat) : list nat := filter (fun i => Nat.eqb (Nat.modulo i 50) 0) (seq 0 n).

(** display_cam_obj_pose.py:13-55: the cameras, and the points of object 0 moved by every 50th of its poses:
    obj_pts.T @ rot.T + trans. *)
Definition display_cam_obj_pose (nb : nat) (file : list (Z * cam_rec)) (objects : list (Z * list (vec3 * Z * Z)))
           (poses : list (Z * list par6)) : option (list (list (vec3 * vec3)) * list (nat * list vec3)) :=
  match read_cameras nb file, object0 objects, object0 poses with
  | Some cams, Some cols, Some ps =>
      Some (map (fun kp => plot_camera (draw_camera (1 / 10) (snd kp))) cams,
            flat_map (fun i => match nth_error ps i with
                               | Some P => [(i, map (fun c => vadd (mv (exp_rot (fst P)) (fst (fst c))) (snd P)) cols)]
                               | None => []
                               end) (every_50th (length ps)))
  | _, _, _ => None
  end.

(** post_calibration_analysis.py:12-35 for one folder: the files it needs, by their default names, then the scripts in
    order; the first exception ends the analysis.  [nb]: "nb_camera".  Simplified: the four files and the ground truth are
    there (os.path.exists and the names of the files are not modelled).  The reports of the scripts, in the order they are
    printed or drawn. *)
Record analysis := mkAnalysis {
  an_report : report; an_scene : list (list (vec3 * vec3)) * list (nat * list vec3); an_cameras : list (list (vec3 * vec3));
  an_object : list (Z * list vec3); an_bars : list (option R) }.
Definition post_calibration_analysis (nb : nat) (cams : list (Z * cam_rec)) (objects : list (Z * list (vec3 * Z * Z)))
           (poses : list (Z * list par6)) (errors : nat * list group_errors) (g : truth_file) : option analysis :=
  match compute_pose_error_vs_gt nb cams g, display_cam_obj_pose nb cams objects poses, display_calib_cameras nb cams,
        display_calib_object objects, compute_error_statistic errors with
  | Some r, Some s, Some c, Some o, Some b => Some (mkAnalysis r s c o b)
  | _, _, _, _, _ => None
  end.
