(** Contracts of the library calls of HandEyeModel, and when hand-eye data are consistent. *)
From Coq Require Import List ZArith Reals Permutation.
From Verif Require Import GeomModel GeomSpec ObjectsModel GroupModel ChainModel HandEyeModel.
Import ListNotations.
Open Scope nat_scope.

(** cv::kmeans labels every row, and leaves no cluster empty *)
Definition kmeans_ok (km : list (vec3 * vec3) -> nat -> list nat) : Prop :=
  forall pts k, k <= length pts -> length (km pts k) = length pts /\ forall c, c < k -> In c (km pts k).
(** std::shuffle *)
Definition shuffle_ok (shuffle : nat -> list nat -> list nat) : Prop := forall i l, Permutation (shuffle i l) l.
(** uniform_int_distribution(0, n-1) *)
Definition rnd_ok (rnd : nat -> nat -> nat -> nat) : Prop := forall i c n, 0 < n -> rnd i c n < n.

(** gripper-to-base, target-to-camera data: X takes camera to gripper coordinates and the
    target is at the fixed pose Y in the base *)
Definition solves (data : list (pose * pose)) (X Y : pose) : Prop :=
  forall A B, In (A, B) data -> pmul (pmul A X) B = Y.
Definition determines (data : list (pose * pose)) (X : pose) : Prop :=
  (exists Y, solves data X Y) /\ forall X' Y', rigid X' -> solves data X' Y' -> X' = X.
(** cv::calibrateHandEye on noise-free data with enough motion *)
Definition exact_solver (he : list (pose * pose) -> pose) : Prop :=
  forall data X, rigid X -> (forall A B, In (A, B) data -> rigid A /\ rigid B) -> determines data X -> he data = X.
(** the data made of the poses of two cameras *)
Definition he_data (p1 p2 : list pose) : list (pose * pose) := map (fun '(a, b) => (pinv a, b)) (combine p1 p2).

(** the same for the poses with the given numbers *)
Definition he_some (p1 p2 : list pose) (sel : list nat) : list (pose * pose) :=
  flat_map (fun i => match nth_error p1 i, nth_error p2 i with Some a, Some b => [(pinv a, b)] | _, _ => [] end) sel.

(** ** Pairs of camera groups *)
(** the number of pairs of object observations made in one frame, the first of object o1
    by a camera of G1, the second of object o2 by a camera of G2 *)
Definition views_together {pt} (all : list (objobs pt)) (G1 G2 : cgroup) (o1 o2 : Z) : nat :=
  length (filter (fun '(x, y) => Z.eqb (oo_frame x) (oo_frame y) &&
                                 (existsb (Z.eqb (oo_cam x)) (cg_cams G1) && Z.eqb (oo_obj x) o1) &&
                                 (existsb (Z.eqb (oo_cam y)) (cg_cams G2) && Z.eqb (oo_obj y) o2))%bool (list_prod all all)).
(** G sees object o in frame f *)
Definition sees_in {pt} (all : list (objobs pt)) (G : cgroup) (o f : Z) : Prop :=
  exists oo, In oo all /\ oo_frame oo = f /\ In (oo_cam oo) (cg_cams G) /\ oo_obj oo = o.
Definition lex_le (a b : Z * Z) : Prop := (fst a < fst b \/ fst a = fst b /\ snd a <= snd b)%Z.

(** ** Motion of the calibration objects: [Y f o] is the pose of object o in the world in
    frame f *)
(** the two objects do not move relative to each other *)
Definition fixed_together (Y : Z -> Z -> pose) (o1 o2 : Z) (F : list Z) : Prop :=
  forall f f', In f F -> In f' F -> pmul (pinv (Y f o1)) (Y f o2) = pmul (pinv (Y f' o1)) (Y f' o2).
(** no displacement but the identity looks the same from the object in all frames: the
    object turns about more than one axis *)
Definition moves_enough (Y : Z -> Z -> pose) (o : Z) (F : list Z) : Prop :=
  forall D, rigid D -> (forall f f', In f F -> In f' F -> pmul (pmul (pinv (Y f o)) D) (Y f o) = pmul (pmul (pinv (Y f' o)) D) (Y f' o)) -> D = pid.
