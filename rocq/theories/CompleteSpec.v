(** What it takes for a calibration run to get through (C55). *)
From Coq Require Import List ZArith.
From Verif Require Import SMap DataModel.
Import ListNotations.
Open Scope nat_scope.

(** number of corners that the tables hold for the image of camera c in frame f *)
Definition corners_left {pt} (t : tables pt) (c f : Z) : nat :=
  length (flat_map o_pts (filter (fun o => andb (Z.eqb (o_cam o) c) (Z.eqb (o_frame o) f)) (mvals (t_obs t)))).
(** every image has no corner or enough of them for PnP *)
Definition four_or_none {pt} (t : tables pt) : Prop := forall c f, corners_left t c f = 0 \/ 4 <= corners_left t c f.

(** one group out of each set of camera groups that hand-eye poses connect: [sees] are the groups in question *)
Record representatives (sees : Z -> Prop) (lk : Z -> Z -> Prop) (reps : list Z) : Prop := {
  re_nodup : NoDup reps;
  re_sees : forall x, In x reps -> sees x;
  re_all : forall x, sees x -> exists y, In y reps /\ lk x y;
  re_apart : forall x y, In x reps -> In y reps -> lk x y -> x = y }.
