(** Specification for C53: detections of which some corners are wrong. *)
From Coq Require Import List ZArith Reals Sorted.
From Verif Require Import SMap DataModel DataSpec DetectModel DetectSpec RansacModel RansacSpec GeomModel GeomSpec CameraModel ResidualModel ResidualSpec RigSpec.
Import ListNotations.
Open Scope R_scope.

(** ** The samples drawn *)
Section Samples.
Context {pose pt3 : Type}.
Variable env : rs_env pose pt3.
(** the order of n correspondences before draw k: each draw shuffles them *)
Fixpoint order (n k : nat) : list nat := match k with O => seq 0 n | S k => rs_shuffle env k (order n k) end.
(** draw k takes the first four *)
Definition sample (n k : nat) : list nat := firstn 4 (order n (S k)).
(** q is what solvePnP makes of the correspondences idx *)
Definition made_from K D (scene : list pt3) (img : list pt2) (idx : list nat) (before q : pose) : Prop :=
  exists s4 m4, sublist_at scene idx s4 /\ sublist_at img idx m4 /\ q = rs_p3p env K D s4 m4 before.
End Samples.

Section Outliers.
Variables (bpts : Z -> list vec3) (w : rig).
(** corner number j of detection i is where its camera sees it *)
Definition right (i : insertion pt2) (j : nat) : Prop :=
  exists k m q, nth_error (i_ids i) j = Some k /\ nth_error (i_pts i) j = Some m /\ corner bpts (i_board i) k q /\
    0 < vz (pact (board_at w (i_cam i) (i_frame i) (i_board i)) q) /\
    image (rg_model w (i_cam i)) (rg_intr w (i_cam i)) (board_at w (i_cam i) (i_frame i) (i_board i)) q = Some m.
(** i0 is detection i without its wrong corners *)
Definition cleaned (i i0 : insertion pt2) : Prop :=
  i_cam i0 = i_cam i /\ i_frame i0 = i_frame i /\ i_board i0 = i_board i /\ i_path i0 = i_path i /\
  exists keep, StronglySorted lt keep /\ (forall j, In j keep <-> right i j) /\ sublist_at (i_ids i) keep (i_ids i0) /\ sublist_at (i_pts i) keep (i_pts i0).
(** the points with which the pose is computed: for a fisheye camera undistorted *)
Definition working (env : rs_env par6 vec3) (c : Z) (m : pt2) : pt2 :=
  if Z.eqb (rg_model w c) 0 then m else
  let (x, y) := rs_undistort env (matrix_of (rg_intr w c)) [a4 (rg_intr w c); a5 (rg_intr w c); a6 (rg_intr w c); a7 (rg_intr w c)] m in
  (x * a0 (rg_intr w c) + a2 (rg_intr w c), y * a1 (rg_intr w c) + a3 (rg_intr w c)).
(** Sample consensus can tell the wrong corners of detection i (cleaned: i0): *)
Record told_apart (thresh : R) (it : Z) (env : rs_env par6 vec3) (i i0 : insertion pt2) : Prop := {
  (** every corner is one of the board *)
  ta_length : length (i_ids i) = length (i_pts i);
  ta_corner : forall k, In k (i_ids i) -> exists q, corner bpts (i_board i) k q;
  (** a wrong corner is at least thresh away from where it should be *)
  ta_far : forall j k m q, nth_error (i_ids i) j = Some k -> nth_error (i_pts i) j = Some m -> corner bpts (i_board i) k q -> ~ right i j ->
    exists m', image 0 (flat (rg_model w (i_cam i)) (rg_intr w (i_cam i))) (board_at w (i_cam i) (i_frame i) (i_board i)) q = Some m' /\
               thresh <= dist2 (working env (i_cam i) m) m';
  (** a sample drawn with a wrong corner gives a pose that explains fewer corners than are right *)
  ta_fewer : forall k before q l scene, (Z.of_nat k < it)%Z -> Forall2 (corner bpts (i_board i)) (i_ids i) scene ->
    (exists j, In j (sample env (length (i_pts i)) k) /\ ~ right i j) ->
    let K := matrix_of (rg_intr w (i_cam i)) in let D := five (flat (rg_model w (i_cam i)) (rg_intr w (i_cam i))) in
    let img := map (working env (i_cam i)) (i_pts i) in
    made_from env K D scene img (sample env (length (i_pts i)) k) before q -> consensus env K D scene img thresh q l ->
    (length l < length (i_ids i0))%nat;
  (** four right corners are drawn soon enough: before as many draws as are made when the
      best pose so far explains fewer corners than are right *)
  ta_lucky : exists k, (Z.of_nat k < it)%Z /\ (forall j, In j (sample env (length (i_pts i)) k) -> right i j) /\
    forall l, (0 < l < length (i_ids i0))%nat -> (Z.of_nat k < wanted_trials (99 / 100) l (length (i_pts i)))%Z }.
End Outliers.
