(** Specification of camera groups and of their observations. *)
From Coq Require Import List ZArith Reals Sorted.
From Verif Require Import SMap DataModel GeomModel ChainModel ObjectsModel ObjectsSpec GroupModel.
Import ListNotations.
Open Scope nat_scope.

(** the cameras of G, without repetition, and their poses *)
Record grouped (cs : list (Z * pose)) (G : cgroup) : Prop := {
  gr_nodup : NoDup (map fst cs);
  gr_cams : cg_cams G = map fst cs;
  gr_map : forall c, In c (mkeys (cg_map G)) <-> In c (map fst cs);
  gr_sorted : msorted (cg_map G);
  gr_poses : forall c P, mfind c (cg_poses G) = Some P <-> In (c, P) cs
}.
(** the reference camera is a member with the smallest index and is the origin *)
Record group_origin (G : cgroup) : Prop := {
  go_member : In (cg_ref G) (cg_cams G);
  go_min : forall c, In c (cg_cams G) -> (cg_ref G <= c)%Z;
  go_id : mfind (cg_ref G) (cg_poses G) = Some pid
}.
(** the groups are numbered 0, 1, 2, ..., share no camera, and have their reference
    camera as origin *)
Record groups_ok (css : list (list (Z * pose))) (gl : list cgroup) : Prop := {
  gk_built : Forall2 grouped css gl;
  gk_disjoint : NoDup (map fst (concat css));
  gk_origin : Forall group_origin gl;
  gk_refs : StronglySorted Z.lt (map cg_ref gl);
  gk_ids : forall i G, nth_error gl i = Some G -> cg_id G = Z.of_nat i
}.

(** the object observations of frame f made by cameras of G *)
Definition seen_by {pt} (G : cgroup) (f : Z) (oo : objobs pt) : bool :=
  Z.eqb (oo_frame oo) f && existsb (Z.eqb (oo_cam oo)) (cg_cams G).

(** the tables of group observations hold exactly what the groups [gl] saw *)
Record gtables_ok {pt} (all : list (objobs pt)) (frames : list Z) (gl : list cgroup) (t : gtables) : Prop := {
  gto_sorted : msorted (gt_obs t);
  gto_keys : forall gi f, In (gi, f) (mkeys (gt_obs t)) <->
    exists i G, gi = Z.of_nat i /\ nth_error gl i = Some G /\ In f frames /\ exists oo, In oo all /\ seen_by G f oo = true;
  gto_obs : forall i f G go, nth_error gl i = Some G -> mfind (Z.of_nat i, f) (gt_obs t) = Some go ->
    go_group go = Z.of_nat i /\ go_nums go = where_ (seen_by G f) all /\
    map Some (go_ids go) = map (fun n => option_map oo_obj (nth_error all n)) (go_nums go);
  gto_frames : forall f k, In k (ptable f (gt_frames t)) <-> snd k = f /\ In k (mkeys (gt_obs t));
  gto_frames_once : forall f, NoDup (ptable f (gt_frames t));
  gto_gframes : forall gi f, In (gi, f) (mkeys (gt_obs t)) -> In f (ptable gi (gt_gframes t))
}.
