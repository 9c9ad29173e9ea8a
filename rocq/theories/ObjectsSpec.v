(** Specification of 3D objects and of their observations. *)
From Coq Require Import List ZArith Reals Sorted.
From Verif Require Import SMap DataModel DataSpec GeomModel ChainModel ObjectsModel.
Import ListNotations.
Open Scope nat_scope.

(** corners of the boards in [order]: (board, corner number) *)
Definition corners (bpts : Z -> list vec3) (order : list Z) : list (Z * Z) :=
  flat_map (fun b => map (fun k => (b, Z.of_nat k)) (seq 0 (length (bpts b)))) order.

(** the boards of [o], without repetition, in the order in which their corners are
    numbered, and their poses *)
Record well_built (bpts : Z -> list vec3) (bs : list (Z * pose)) (o : obj3d) : Prop := {
  wb_nodup : NoDup (map fst bs);
  wb_boards : forall b, In b (mkeys (ob_boards o)) <-> In b (map fst bs);
  wb_sorted : msorted (ob_boards o);
  wb_poses : forall b P, mfind b (ob_poses o) = Some P <-> In (b, P) bs;
  wb_nb_pts : ob_nb_pts o = length (corners bpts (map fst bs));
  wb_o2b : ob_o2b o = corners bpts (map fst bs);
  wb_pts : ob_pts o = flat_map (fun '(b, P) => map (pact P) (bpts b)) bs;
  wb_b2o : forall b k z, mfind (b, k) (ob_b2o o) = Some z <->
             exists n, z = Z.of_nat n /\ nth_error (ob_o2b o) n = Some (b, k)
}.

(** the reference board is a member with the smallest index and is the origin *)
Record origin_ok (o : obj3d) : Prop := {
  or_member : In (ob_ref o) (mkeys (ob_boards o));
  or_min : forall b, In b (mkeys (ob_boards o)) -> (ob_ref o <= b)%Z;
  or_id : mfind (ob_ref o) (ob_poses o) = Some pid
}.

(** the objects are numbered 0, 1, 2, ..., share no board, have their reference board as
    origin; [bss] lists the boards of each *)
Record objects_ok (bpts : Z -> list vec3) (bss : list (list (Z * pose))) (ol : list obj3d) : Prop := {
  ok_built : Forall2 (well_built bpts) bss ol;
  ok_disjoint : NoDup (map fst (concat bss));
  ok_origin : Forall origin_ok ol;
  ok_refs : StronglySorted Z.lt (map ob_ref ol);
  ok_ids : forall i o, nth_error ol i = Some o -> ob_id o = Z.of_nat i
}.

(** The observation tables are linked up: the CameraObs of (c, f) exists iff camera c has
    an observation in frame f, and lists exactly those observations. *)
Record linked_up {pt} (t : tables pt) : Prop := {
  lu_sorted : msorted (t_camobs t);
  lu_keys : forall c f, In (c, f) (mkeys (t_camobs t)) <->
    exists n b, nth_error (mvals (t_obs t)) n = Some b /\ o_cam b = c /\ o_frame b = f;
  lu_nodup : forall k co, mfind k (t_camobs t) = Some co -> NoDup (mvals (co_obs co));
  lu_list : forall c f co n, mfind (c, f) (t_camobs t) = Some co ->
    (In n (mvals (co_obs co)) <->
     exists b, nth_error (mvals (t_obs t)) n = Some b /\ o_cam b = c /\ o_frame b = f)
}.
(** every observation has as many corner numbers as corners (C12, C15) *)
Definition paired {pt} (t : tables pt) : Prop :=
  forall b, In b (mvals (t_obs t)) -> length (o_pts b) = length (o_ids b).

(** the object observation is made of the board observations [oo_bobs]: all those of its
    camera and frame whose board belongs to the object, each once, with the points
    concatenated and renumbered *)
Record gathers {pt} (t : tables pt) (o : obj3d) (oo : objobs pt) : Prop := {
  ga_bobs : forall n, In n (oo_bobs oo) <->
    exists b, nth_error (mvals (t_obs t)) n = Some b /\ o_cam b = oo_cam oo /\ o_frame b = oo_frame oo /\
              In (o_board b) (mkeys (ob_boards o));
  ga_nodup : NoDup (oo_bobs oo);
  ga_content : exists bs, Forall2 (fun n b => nth_error (mvals (t_obs t)) n = Some b) (oo_bobs oo) bs /\
    oo_boards oo = map o_board bs /\
    oo_pts oo = flat_map o_pts bs /\
    oo_ids oo = flat_map (fun b => map (b2o o (o_board b)) (o_ids b)) bs;
  ga_nonempty : oo_pts oo <> []
}.

(** positions of the elements satisfying p *)
Definition where_ {A} (p : A -> bool) (l : list A) : list nat :=
  map fst (filter (fun e => p (snd e)) (combine (seq 0 (length l)) l)).

(** the tables of object observations of camera/frame pairs, frames, cameras and objects
    list exactly the observations concerned, in order *)
Record otables_ok {pt} (ot : otables pt) : Prop := {
  ot_ok_camobs : forall c f, table_of (c, f) (ot_camobs ot) = where_ (fun oo => Z.eqb (oo_cam oo) c && Z.eqb (oo_frame oo) f) (ot_all ot);
  ot_ok_frames : forall f, table_of f (ot_frames ot) = where_ (fun oo => Z.eqb (oo_frame oo) f) (ot_all ot);
  ot_ok_cams : forall c, table_of c (ot_cams ot) = where_ (fun oo => Z.eqb (oo_cam oo) c) (ot_all ot);
  ot_ok_objs : forall i, table_of i (ot_objs ot) = where_ (fun oo => Z.eqb (oo_obj oo) i) (ot_all ot)
}.
