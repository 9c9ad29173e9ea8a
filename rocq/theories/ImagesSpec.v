(** Specification for the saved pictures (C56). *)
From Coq Require Import List ZArith Reals.
From Verif Require Import SMap DataModel DetectModel GeomModel ObjectsModel GroupModel PipelineModel ResidualModel ResidualSpec.
Import ListNotations.

(** the tables hold corner k of board b at m in the image of camera c in frame f *)
Definition corner_left {pt} (t : tables pt) (c f b k : Z) (m : pt) : Prop :=
  exists bo i, In bo (mvals (t_obs t)) /\ o_cam bo = c /\ o_frame bo = f /\ o_board bo = b /\
    nth_error (o_pts bo) i = Some m /\ nth_error (o_ids bo) i = Some k.
(** q is where the poses p put corner k of board b in the image of camera c in frame f: the
    corner on its board, then the board in its object, the object in the camera group and
    the group in the camera, and the lens *)
Definition put_at (bpts : Z -> list vec3) (models : Z -> Z) (p : params) (s : calib pt2) (c f b k : Z) (q : pt2) : Prop :=
  exists i o j G x, In (i, o) (ca_objs s) /\ In b (mkeys (ob_boards o)) /\ In (j, G) (ca_groups s) /\ In c (cg_cams G) /\
    (0 <= k)%Z /\ nth_error (bpts b) (Z.to_nat k) = Some x /\
    image (models c) (pa_intr p c)
      (pmul (matrix (pa_pose p (KCam (cg_id G) c))) (pmul (matrix (pa_pose p (KGroup (cg_id G, f) (ob_id o)))) (matrix (pa_pose p (KBoard (ob_id o) b))))) x = Some q.
