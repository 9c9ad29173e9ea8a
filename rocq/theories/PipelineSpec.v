(** What holds between the calls of the calibration workflow. *)
From Coq Require Import List ZArith Reals.
From Verif Require Import SMap GraphModel DataModel DataSpec DetectModel RansacModel GeomModel ChainModel ChainSpec ObjectsModel ObjectsSpec GroupModel GroupSpec
  StageSpec PipelineModel.
Import ListNotations.
Open Scope nat_scope.

(** Refinement by Ceres assigns to the poses of the boards (cameras) it is given and leaves
    the reference board (camera) alone: its cost terms ignore that pose (C25). *)
Definition keeps_boards (rf : obj3d -> smap Z pose) : Prop :=
  forall o, mkeys (rf o) = mkeys (ob_poses o) /\ mfind (ob_ref o) (rf o) = mfind (ob_ref o) (ob_poses o).
Definition keeps_cams (rg : cgroup -> smap Z pose) : Prop :=
  forall G, mkeys (rg G) = mkeys (cg_poses G) /\ mfind (cg_ref G) (rg G) = mfind (cg_ref G) (cg_poses G).

(** one of the cameras of G has an observation with a corner *)
Definition group_sees {pt} (t : tables pt) (G : cgroup) : Prop :=
  exists n b, obs_at t n b /\ o_pts b <> [] /\ In (o_cam b) (cg_cams G).

(** objects (boards [bss]), object observations, camera groups (cameras [css]) and group
    observations fit together; no board observation with a corner is lost; the groups
    consist of cameras with observations, among them all with a corner *)
Record calib_ok {pt} (bpts : Z -> list vec3) (t : tables pt)
       (bss : list (list (Z * pose))) (ol : list obj3d) (css : list (list (Z * pose))) (gl : list cgroup)
       (s : calib pt) : Prop := {
  co_objs : ca_objs s = dense ol;
  co_objects : objects_ok bpts bss ol;
  co_tables : otables_ok (ca_oobs s);
  co_obs : forall oo, In oo (ot_all (ca_oobs s)) ->
    exists i o, nth_error ol i = Some o /\ oo_obj oo = Z.of_nat i /\ gathers t o oo;
  co_cover : forall n b, obs_at t n b -> o_pts b <> [] ->
    In (o_board b) (map fst (concat bss)) /\ exists oo, In oo (ot_all (ca_oobs s)) /\ In n (oo_bobs oo);
  co_groups : ca_groups s = dense gl;
  co_groups_ok : groups_ok css gl;
  co_gobs : gtables_ok (ot_all (ca_oobs s)) (mkeys (t_frames t)) gl (ca_gobs s);
  co_nums : forall i G, nth_error gl i = Some G ->
    (ptable (Z.of_nat i) (gt_nums (ca_gobs s)) <> [] <-> group_sees t G);
  co_cams : forall c, In c (map fst (concat css)) -> exists n b, obs_at t n b /\ o_cam b = c;
  co_kept : forall n b, obs_at t n b -> o_pts b <> [] -> In (o_cam b) (map fst (concat css))
}.

(** Pairs of group indices of which each is observed or higher than all present group
    indices: the pairs of the present groups, or those of more groups computed earlier. *)
Record usable_pairs (observed : list Z) (n : nat) (es : smap (Z * Z) nat) : Prop := {
  up_irrefl : forall a, ~ covisible es a a;
  up_above : forall a b, covisible es a b -> In a observed \/ (Z.of_nat n <= a)%Z
}.

(** States between the calls of calibrate.cpp 34-62 for the detections in [t], whatever
    poses estimation and refinement come up with.  Camera groups are merged with pairs of
    the present groups that have object observations (first time), or with pairs of groups
    that have been merged since (second time). *)
Inductive reached {pt} svd lr uq pick g0 (bpts : Z -> list vec3) (t : tables pt) : calib pt -> Prop :=
| rd_start bp rf op rf' rg s s' : keeps_boards rf -> keeps_boards rf' -> keeps_cams rg ->
    calibrate3DObjects svd lr uq pick g0 bpts t bp rf = Some s ->
    calibrateCameraGroup svd lr uq pick g0 bpts t op rf' rg s = Some s' ->
    reached svd lr uq pick g0 bpts t s'
| rd_merge gp rf rg s s' : keeps_boards rf -> keeps_cams rg ->
    reached svd lr uq pick g0 bpts t s ->
    merge3DObjects svd lr uq pick g0 bpts t gp rf rg s = Some s' ->
    reached svd lr uq pick g0 bpts t s'
| rd_groups prs s s' :
    reached svd lr uq pick g0 bpts t s ->
    usable_pairs (observed_groups (ca_groups s) (ca_gobs s)) (length (ca_groups s)) (map (fun '(k, (_, n)) => (k, n)) prs) ->
    mergeGroups pick g0 t prs s = Some s' ->
    reached svd lr uq pick g0 bpts t s'
| rd_refine rf rg s : keeps_boards rf -> keeps_cams rg ->
    reached svd lr uq pick g0 bpts t s ->
    reached svd lr uq pick g0 bpts t (refine_calib bpts rf rg s).

(** what detection guarantees of every board it stores (C12, C13) *)
Definition detected_well (bpts : Z -> list vec3) (i : insertion pt2) : Prop :=
  length (i_pts i) = length (i_ids i) /\ 4 < length (i_pts i) /\
  Forall (fun k => (0 <= k < Z.of_nat (length (bpts (i_board i))))%Z) (i_ids i).

(** the object is geometrically right: with board b at W b in the world, every board has
    its pose relative to the reference board, and every object point is where the corner
    of its board is *)
Definition true_object (bpts : Z -> list vec3) (W : Z -> pose) (o : obj3d) : Prop :=
  forall b, In b (mkeys (ob_boards o)) ->
    mfind b (ob_poses o) = Some (pmul (pinv (W (ob_ref o))) (W b)) /\
    forall k q, nth_error (bpts b) k = Some q ->
      exists n p, mfind (b, Z.of_nat k) (ob_b2o o) = Some (Z.of_nat n) /\ nth_error (ob_pts o) n = Some p /\
                  pact (W (ob_ref o)) p = pact (W b) q.

(** the numbering of the object points: (board, corner) -> number and number -> (board,
    corner) are inverse to each other and onto 0 .. nb_pts-1, the corners being those of
    the boards of the object *)
Record numbered (bpts : Z -> list vec3) (o : obj3d) : Prop := {
  nu_count : ob_nb_pts o = fold_right Nat.add 0 (map (fun b => length (bpts b)) (mkeys (ob_boards o)));
  nu_pts : length (ob_pts o) = ob_nb_pts o;
  nu_o2b : length (ob_o2b o) = ob_nb_pts o;
  nu_domain : forall b k, (exists z, mfind (b, k) (ob_b2o o) = Some z) <->
    In b (mkeys (ob_boards o)) /\ (0 <= k < Z.of_nat (length (bpts b)))%Z;
  nu_range : forall b k z, mfind (b, k) (ob_b2o o) = Some z -> (0 <= z < Z.of_nat (ob_nb_pts o))%Z;
  nu_inverse : forall b k n, mfind (b, k) (ob_b2o o) = Some (Z.of_nat n) <-> nth_error (ob_o2b o) n = Some (b, k)
}.
