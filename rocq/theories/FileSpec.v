(** Specification of the result files. *)
From Coq Require Import List ZArith Reals Sorted.
From Verif Require Import SMap DataModel DetectModel GeomModel ObjectsModel GroupModel GroupSpec StageSpec PipelineModel CameraModel ResidualModel ResidualSpec FileModel.
Import ListNotations.
Open Scope nat_scope.

(** a camera of G has an observation with a corner in frame f *)
Definition sees_in {pt} (t : tables pt) (G : cgroup) (f : Z) : Prop :=
  exists n b, obs_at t n b /\ o_pts b <> [] /\ In (o_cam b) (cg_cams G) /\ o_frame b = f.

(** the record of camera k, at pose P in group g *)
Definition proper_record (k : camera_t) (g : Z) (P : pose) (r : cam_rec) : Prop :=
  let i := k_intr k in
  r_K r = M3 (a0 i) 0 (a2 i) 0 (a1 i) (a3 i) 0 0 1 /\
  (k_model k = 0%Z -> r_dist r = [a4 i; a5 i; a6 i; a7 i; a8 i]) /\ (k_model k = 1%Z -> r_dist r = [a4 i; a5 i; a6 i; a7 i]) /\
  r_type r = k_model k /\ r_group r = g /\ r_cols r = k_cols k /\ r_rows r = k_rows k /\ r_pose r = pinv P.

(** the entry ce of the error file is that of object observation oo, made by group G *)
Definition proper_errors (cams : Z -> Z) (p : params) (s : calib pt2) (G : cgroup) (oo : objobs pt2) (ce : cam_errors) : Prop :=
  ce_cam ce = oo_cam oo /\ ce_nb ce = length (oo_pts oo) /\
  exists o rp, mfind (oo_obj oo) (ca_objs s) = Some o /\ length rp = length (oo_pts oo) /\
    (forall i r, nth_error rp i = Some r -> reprojects cams p G oo o i r) /\
    ce_errors ce = map (fun mr => distance (fst mr) (snd mr)) (combine (oo_pts oo) rp).

(** intrinsics as the user reads them *)
Definition same_reading (k k' : camera_t) : Prop :=
  k_model k' = k_model k /\ getIntrinsics (k_model k') (k_intr k') = getIntrinsics (k_model k) (k_intr k).
