(** What the tables look like when the calibration stages run. *)
From Coq Require Import List ZArith Reals.
From Verif Require Import SMap DataModel DataSpec GeomModel GeomSpec ObjectsModel GroupModel.
Import ListNotations.
Open Scope nat_scope.

(** Later steps change corners and validity of observations and the image sizes only. *)
Record relabelled {pt} (t0 t : tables pt) : Prop := {
  rl_obs : map (fun o => fst (obs_says o)) (mvals (t_obs t)) = map (fun o => fst (obs_says o)) (mvals (t_obs t0));
  rl_camobs : t_camobs t = t_camobs t0;
  rl_frames : t_frames t = t_frames t0;
  rl_boards : t_boards t = t_boards t0;
  rl_cams : map (fun e => (fst e, c_obs (snd e))) (t_cams t) = map (fun e => (fst e, c_obs (snd e))) (t_cams t0)
}.
(** the tables after detection of the boards [ins] and such steps *)
Definition after_detection {pt} (nc nb : nat) (ins : list (insertion pt)) (t : tables pt) : Prop :=
  Forall (known nc nb) ins /\
  exists t0, insert_all (init_tables nc nb) ins = Some t0 /\ relabelled t0 t.

(** observation number n of the table *)
Definition obs_at {pt} (t : tables pt) (n : nat) (o : bobs pt) : Prop := nth_error (mvals (t_obs t)) n = Some o.
(** boards a and b are both seen in one image (of one camera) *)
Definition seen_together {pt} (t : tables pt) (a b : Z) : Prop :=
  a <> b /\ exists n m o p, obs_at t n o /\ obs_at t m p /\ o_board o = a /\ o_board p = b /\
                            o_cam o = o_cam p /\ o_frame o = o_frame p.
(** noise-free board poses: board b is at W b in the world, camera c in frame f sees the
    world at X c f *)
Definition exact_boards {pt} (t : tables pt) (W : Z -> pose) (X : Z -> Z -> pose) (bp : nat -> pose) : Prop :=
  (forall b, rigid (W b)) /\ (forall c f, rigid (X c f)) /\
  forall n o, obs_at t n o -> bp n = pmul (X (o_cam o) (o_frame o)) (W (o_board o)).
(** noise-free object poses: object o is at Y f o in frame f, camera c is at C c *)
Definition exact_objects {pt} (all : list (objobs pt)) (C : Z -> pose) (Y : Z -> Z -> pose) (op : nat -> pose) : Prop :=
  (forall c, rigid (C c)) /\ (forall f o, rigid (Y f o)) /\
  forall n oo, nth_error all n = Some oo -> op n = pmul (C (oo_cam oo)) (Y (oo_frame oo) (oo_obj oo)).
(** cameras a and b see one object in one frame *)
Definition share_object {pt} (all : list (objobs pt)) (a b : Z) : Prop :=
  a <> b /\ exists x y, In x all /\ In y all /\ oo_cam x = a /\ oo_cam y = b /\
                        oo_frame x = oo_frame y /\ oo_obj x = oo_obj y.
(** cameras a and b both observe object o in frame f *)
Definition common_view {pt} (all : list (objobs pt)) (a b f o : Z) : Prop :=
  exists x y, In x all /\ In y all /\ oo_cam x = a /\ oo_cam y = b /\ oo_frame x = f /\ oo_frame y = f /\ oo_obj x = o /\ oo_obj y = o.
(** ... in two or more frames or objects *)
Definition several_views {pt} (all : list (objobs pt)) (a b : Z) : Prop :=
  exists f o f' o', (f, o) <> (f', o') /\ common_view all a b f o /\ common_view all a b f' o'.
(** one camera group sees objects a and b in one frame *)
Definition seen_by_group {pt} (all : list (objobs pt)) (gl : list cgroup) (a b : Z) : Prop :=
  a <> b /\ exists G f x y, In G gl /\ In x all /\ In y all /\ oo_obj x = a /\ oo_obj y = b /\
    oo_frame x = f /\ oo_frame y = f /\ In (oo_cam x) (cg_cams G) /\ In (oo_cam y) (cg_cams G).
(** noise-free object poses in group observations: object o is at V o in the world, which
    group i sees at X i f in frame f *)
Definition exact_group_poses (gt : gtables) (V : Z -> pose) (X : Z * Z -> pose) (gp : Z * Z -> Z -> pose) : Prop :=
  (forall o, rigid (V o)) /\ (forall k, rigid (X k)) /\
  forall k go o, mfind k (gt_obs gt) = Some go -> In o (go_ids go) -> gp k o = pmul (X k) (V o).
