(** Model of the initial intrinsic calibration of one camera from its images: Camera.cpp
    162-262.

    Real arithmetic replaces float; std::shuffle and the calibration functions of OpenCV
    are arguments. *)
From Coq Require Import List ZArith Reals.
From Verif Require Import SMap DataModel DetectModel RansacModel GeomModel CameraModel ResidualModel.
Import ListNotations.
Open Scope R_scope.

Section Init.
Variables (model cols rows : Z) (bpts : Z -> list vec3) (obs : list (bobs pt2)).
(** [obs]: board_observations_ of the camera, keys 0, 1, 2, ... (Camera.cpp 133-136) *)

(** Camera.cpp 247-262 with border_marging = 0.05 (Camera.hpp 30) *)
Definition checkBorderToleranceFisheye (b : bobs pt2) : bool :=
  let tx := IZR cols * (5 / 100) in let ty := IZR rows * (5 / 100) in
  forallb (fun p : pt2 => negb ((if Rle_dec (fst p) tx then true else false) || (if Rge_dec (fst p) (IZR cols - tx) then true else false)
                         || (if Rle_dec (snd p) ty then true else false) || (if Rge_dec (snd p) (IZR rows - ty) then true else false))%bool) (o_pts b).
(** Camera.cpp 181-188 *)
Definition nb_board_est : nat := Nat.min (length obs) (if Z.eqb model 1 then 500 else 50).
(** Camera.cpp 195-218 for one number of a board observation.  [Some []]: not used.  None:
    pts_3d_ is accessed outside.  Boards and observations are never destroyed. *)
Definition init_view (n : nat) : option (list (list vec3 * list pt2)) :=
  match nth_error obs n with
  | Some b => if (negb (Z.eqb model 1) || checkBorderToleranceFisheye b)%bool
              then option_map (fun q => [(q, o_pts b)]) (collect (map (zget (bpts (o_board b))) (o_ids b)))
              else Some []
  | None => Some []
  end.
(** Camera.cpp 170-219: obj_points and img_points; [shuffle] is std::shuffle applied to 0,
    1, ..., n-1 *)
Definition init_views (shuffle : list nat -> list nat) : option (list (list vec3 * list pt2)) :=
  gather init_view (firstn nb_board_est (shuffle (seq 0 (length obs)))).
(** Camera.cpp 222-238.  [cvcal] is cv::calibrateCamera (model 0) or
    cv::fisheye::calibrate (model 1); None is an exception.  Another model leaves the
    matrices empty, and their elements are read. *)
Definition initializeCalibration (shuffle : list nat -> list nat) (cvcal : Z -> list (list vec3 * list pt2) -> Z -> Z -> option (mat3 * list R))
           (i : intr) : option intr :=
  match init_views shuffle with
  | Some vs => if (Z.eqb model 0 || Z.eqb model 1)%bool then
                 match cvcal model vs cols rows with
                 | Some (K, d) => setIntrinsics model K d i
                 | None => None
                 end
               else None
  | None => None
  end.
End Init.
