(** Specification for C68: several recordings of the same cameras or boards. *)
From Coq Require Import List ZArith Reals String.
From Verif Require Import DetectModel GeomModel GeomSpec CameraModel FileModel InputModel InputSpec RigSpec AppModel AppSpec.
Import ListNotations.

(** The application is started in world [w] with libraries [L] on configuration [path], from
    which it sets itself up as [s], and what it detects (or loads) are exact images of [W]; its
    intrinsic parameters come from a file with the true ones or from an OpenCV calibration that
    finds them. *)
Record exact_start (w : world) (L : libs) (path : string) (s : setup) (W : rig) : Prop := {
  xs_libs : sound_libs L;
  xs_world : sound_world w;
  xs_svd : svd_ok (lb_svd L);
  xs_pnp : forall c n, exact_pnp (lb_lr L) (lb_env L c n);
  xs_there : w_exists w [] path = true;
  xs_yml : yml_path path;
  xs_setup : snd (construct w path) = Some s;
  xs_threshold : (0 < cf_ransac (su_conf s))%R;
  xs_iterations : (0 < cf_iterations (su_conf s))%Z;
  xs_scene : exists t, boardExtraction w L s = Some t /\
    (forall ins, entering w L s ins -> exact_scene L s W ins) /\
    (true_parameters w s W \/ forall ins, entering w L s ins -> calibrates_truly L s W ins t) }.

(** the file of cameras, and of objects, a run left behind *)
Definition left_cameras (w : world) (L : libs) (argv : list string) (l : list (Z * cam_rec)) : Prop :=
  exists p, In (p, DCameras l) (files (fst (main w L argv))).
Definition left_objects (w : world) (L : libs) (argv : list string) (l : list (Z * list (vec3 * Z * Z))) : Prop :=
  exists p, In (p, DObjects l) (files (fst (main w L argv))).

(** cameras [c] of the two rigs are the same: same lens, and in the same place up to the choice
    [T] of world coordinates *)
Definition same_camera (T : pose) (W W' : rig) (c : Z) : Prop :=
  rg_model W' c = rg_model W c /\ getIntrinsics (rg_model W c) (rg_intr W' c) = getIntrinsics (rg_model W c) (rg_intr W c) /\
  rg_cam W' c = pmul (rg_cam W c) T.
(** board [b] has the same corners in both and is in the same place among the boards, up to the
    choice [S] of coordinates for them *)
Definition same_board (S : pose) (W W' : rig) (s s' : setup) (b : Z) : Prop :=
  su_pts s' b = su_pts s b /\ rg_board W' b = pmul S (rg_board W b).

(** the pose of camera [d] relative to camera [c] in a camera file *)
Definition relative (l : list (Z * cam_rec)) (c d : Z) (P : pose) : Prop :=
  exists k k', In (c, k) l /\ In (d, k') l /\ P = pmul (pinv (r_pose k)) (r_pose k').
(** corner [k] of board [b] and corner [k'] of board [b'] are in one object of the file, at distance [x] *)
Definition apart_by (l : list (Z * list (vec3 * Z * Z))) (b k b' k' : Z) (x : R) : Prop :=
  exists id cols p p', In (id, cols) l /\ In (p, b, k) cols /\ In (p', b', k') cols /\ x = distance p p'.
(** [c] is the camera with the lowest number in the file *)
Definition lowest (c : Z) (l : list (Z * cam_rec)) : Prop := In c (map fst l) /\ forall d, In d (map fst l) -> (c <= d)%Z.
