(** Model of the pictures written after a calibration: McCalib.cpp 1893-2000
    (saveReprojectionImages, saveReprojectionImagesAllCam) and 2005-2081
    (saveDetectionImages, saveDetectionImagesAllCam), called from calibrate.cpp 70-74.

    A picture is the file it is written to, the file it was read from and the filled circles
    drawn into it, in the order they are drawn.  Whether cv::imread gets an image from a
    path is the oracle [readable]; cv::imwrite and the creation of the directories are
    assumed to succeed.  Truncation to int is that of a real number (an int overflow is not
    modelled). *)
From Coq Require Import List ZArith Reals String DecimalString.
From Verif Require Import SMap DataModel DetectModel RansacModel GeomModel ObjectsModel GroupModel PipelineModel CameraModel ResidualModel WorkflowModel InputModel.
Import ListNotations.
Open Scope R_scope.

(** operator<< with setw(w), setfill('0'), McCalib.cpp 1897, 1983, 2009, 2063: the fill is in
    front of the sign *)
Definition padded (w : nat) (z : Z) : string :=
  let s := NilEmpty.string_of_int (Z.to_int z) in (zeros (w - String.length s) ++ s)%string.
(** McCalib.cpp 1895-1899, 1982-1985 and 2007-2011, 2062-2065: the path under save_path_
    (two directories and a file name) *)
Definition image_file (root : string) (c f : Z) : string * string * string :=
  (root, padded 3 c, padded 6 f ++ ".jpg")%string.

(** colours: McCalib.cpp 1960-1961; the colour of an object, 2046 *)
Inductive ink := Red | Green | ColourOf (o : Z).
(** double or float to int *)
Definition trunc (x : R) : Z := if Rle_dec 0 x then Int_part x else (- Int_part (- x))%Z.
(** cv::Point(x, y), McCalib.cpp 1964, 1968, 2048 *)
Definition pixel (m : pt2) : Z * Z := (trunc (fst m), trunc (snd m)).
Record picture := mkPic { pi_file : string * string * string; pi_source : string; pi_marks : list (ink * (Z * Z)) }.

Section Images.
Variables (lr : mat3 -> vec3) (models : Z -> Z) (readable : string -> bool) (r : run).
Let s := ru_s r.

(** McCalib.cpp 1927-1971 for object observation n of group observation go; None: an access
    outside a vector, or no finite image point.  object_3d_ is read before the check of the
    pointers (1926): an observation that does not exist is None. *)
Definition repro_marks (c : Z) (go : gobs_t) (n : nat) : option (list (ink * (Z * Z))) :=
  match nth_error (ot_all (ca_oobs s)) n with
  | None => None
  | Some oo =>
      match mfind (go_group go) (ca_groups s), mfind (oo_obj oo) (ca_objs s) with
      | Some G, Some o =>
          if Z.eqb (oo_cam oo) c then
            let P := pmul (pose_of (ru_p r) (KCam (cg_id G) c)) (as_matrix (ru_gp r n)) in
            let rt := Proj2RT lr P in
            match collect (map (zget (ob_pts o)) (oo_ids oo)) with
            | Some scene =>
                match collect (map (projectPointsWithDistortion (RVecT2Proj (fst rt) (snd rt)) (getCameraMat (pa_intr (ru_p r) c))
                                      (getDistortionVector (models c) (pa_intr (ru_p r) c)) (models c)) scene) with
                | Some rp => option_map (@List.concat _)
                    (collect (map (fun '(i, m) => option_map (fun q => [(Red, pixel q); (Green, pixel m)]) (nth_error rp i))
                                  (combine (seq 0 (List.length (oo_pts oo))) (oo_pts oo))))
                | None => None
                end
            | None => None
            end
          else Some []
      | _, _ => Some []
      end
  end.
(** McCalib.cpp 2038-2052 *)
Definition detect_marks (c : Z) (go : gobs_t) (n : nat) : option (list (ink * (Z * Z))) :=
  match nth_error (ot_all (ca_oobs s)) n with
  | None => None
  | Some oo =>
      match mfind (oo_obj oo) (ca_objs s) with
      | Some o => if Z.eqb (oo_cam oo) c then Some (map (fun m => (ColourOf (ob_id o), pixel m)) (oo_pts oo)) else Some []
      | None => Some []
      end
  end.
(** McCalib.cpp 1911-1989 and 2023-2069 for one frame: the loops over the group observations
    of the frame and their object observations, and the picture if there is an image *)
Definition frame_picture (root : string) (marks : Z -> gobs_t -> nat -> option (list (ink * (Z * Z)))) (c : Z) (fr : Z * frame_t) : option (list picture) :=
  let path := path_of (snd fr) c in
  option_map (fun ms => if readable path then [mkPic (image_file root c (f_idx (snd fr))) path ms] else [])
    (gather (fun k => match mfind k (gt_obs (ca_gobs s)) with
                      | Some go => gather (marks c go) (go_nums go)
                      | None => Some []
                      end) (ptable (fst fr) (gt_frames (ca_gobs s)))).
(** McCalib.cpp 1893-1991 *)
Definition saveReprojectionImages (c : Z) : option (list picture) := gather (frame_picture "Reprojection" repro_marks c) (t_frames (ru_t r)).
(** McCalib.cpp 2005-2071 *)
Definition saveDetectionImages (c : Z) : option (list picture) := gather (frame_picture "Detection" detect_marks c) (t_frames (ru_t r)).
(** McCalib.cpp 1996-2000; cam_idx_ is the key of cams_ *)
Definition saveReprojectionImagesAllCam : option (list picture) := gather saveReprojectionImages (mkeys (t_cams (ru_t r))).
(** McCalib.cpp 2077-2081 *)
Definition saveDetectionImagesAllCam : option (list picture) := gather saveDetectionImages (mkeys (t_cams (ru_t r))).
End Images.
