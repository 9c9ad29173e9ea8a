(** Specification of the observation tables in terms of the sequence of insertions. *)
From Coq Require Import String Permutation.
From Verif Require Import SMap DataModel GraphSpec.
Local Open Scope list_scope.
Open Scope nat_scope.

Section Spec.
Context {pt : Type}.
Notation insertion := (insertion pt).

(** positions (from 0) of the insertions satisfying p, increasing *)
Fixpoint positions_from (k : nat) (p : insertion -> bool) (l : list insertion) : list nat :=
  match l with
  | [] => []
  | i :: r => (if p i then [k] else []) ++ positions_from (S k) p r
  end.
Definition positions := positions_from 0.

Definition by_cam (c : Z) (i : insertion) : bool := Z.eqb (i_cam i) c.
Definition by_board (b : Z) (i : insertion) : bool := Z.eqb (i_board i) b.
Definition by_frame (f : Z) (i : insertion) : bool := Z.eqb (i_frame i) f.
Definition by_cam_frame (c f : Z) (i : insertion) : bool := by_cam c i && by_frame f i.

(** path given by the latest insertion for camera c in frame f *)
Definition latest_path (ins : list insertion) (c f : Z) : option string :=
  option_map i_path (find (by_cam_frame c f) (rev ins)).

(** what the observation of an insertion says *)
Definition recorded (i : insertion) : bobs pt := mkObs (i_cam i) (i_frame i) (i_board i) (i_pts i) (i_ids i) true.

(** The tables hold exactly the insertions [ins]: the observation of the k-th
    insertion is stored under key k, every other table lists, under keys 0,1,2,...,
    the numbers of the insertions that concern it, in order. *)
Record holds (nc nb : nat) (ins : list insertion) (t : tables pt) : Prop := {
  hd_obs : t_obs t = dense (map recorded ins);
  hd_cam_keys : mkeys (t_cams t) = map Z.of_nat (seq 0 nc);
  hd_board_keys : mkeys (t_boards t) = map Z.of_nat (seq 0 nb);
  hd_cam : forall c r, mfind c (t_cams t) = Some r ->
    c_obs r = dense (positions (by_cam c) ins) /\
    c_vis r = map i_board (filter (by_cam c) ins);
  hd_board : forall b r, mfind b (t_boards t) = Some r ->
    b_obs r = dense (positions (by_board b) ins);
  hd_frames_sorted : msorted (t_frames t);
  hd_frame_keys : forall f, In f (mkeys (t_frames t)) <-> exists i, In i ins /\ i_frame i = f;
  hd_frame : forall f r, mfind f (t_frames t) = Some r ->
    f_idx r = f /\
    f_obs r = dense (positions (by_frame f) ins) /\
    f_boards r = map i_board (filter (by_frame f) ins) /\
    f_cams r = keep_first [] (map i_cam (filter (by_frame f) ins)) /\
    f_camobs r = dense (map (fun c => (c, f)) (f_cams r)) /\
    (forall c, mfind c (f_paths r) = latest_path ins c f);
  hd_camobs_sorted : msorted (t_camobs t);
  hd_camobs_keys : forall c f, In (c, f) (mkeys (t_camobs t)) <->
    exists i, In i ins /\ i_cam i = c /\ i_frame i = f;
  hd_camobs : forall c f r, mfind (c, f) (t_camobs t) = Some r ->
    co_obs r = dense (positions (by_cam_frame c f) ins) /\
    co_boards r = map i_board (filter (by_cam_frame c f) ins) /\
    co_cam r = c
}.

(** The frame tables of cameras and boards: exactly the frames whose very first
    insertion was made by that camera (of that board). *)
Record frame_tables (ins : list insertion) (t : tables pt) : Prop := {
  ft_cam : forall c r f, mfind c (t_cams t) = Some r ->
    (In f (mkeys (c_frames r)) <->
     exists i, find (by_frame f) ins = Some i /\ i_cam i = c);
  ft_board : forall b r f, mfind b (t_boards t) = Some r ->
    (In f (mkeys (b_frames r)) <->
     exists i, find (by_frame f) ins = Some i /\ i_board i = b)
}.

(** Cameras and boards of the insertion exist. *)
Definition known (nc nb : nat) (i : insertion) : Prop :=
  (0 <= i_cam i < Z.of_nat nc)%Z /\ (0 <= i_board i < Z.of_nat nb)%Z.
End Spec.

(** Schedules: [interleave ts s] when the sequence s is obtained by running the
    tasks ts concurrently, each task in its own order. *)
Inductive interleave {A} : list (list A) -> list A -> Prop :=
| il_done ts : Forall (fun t => t = []) ts -> interleave ts []
| il_step ts1 x t ts2 s :
    interleave (ts1 ++ t :: ts2) s -> interleave (ts1 ++ (x :: t) :: ts2) (x :: s).

Section Sched.
Context {pt : Type}.

(** Task k of camera c (one image): the insertions it makes, all for camera c and
    frame k (McCalib.cpp 250-257, 355-361). *)
Definition tasks_of_camera (c : Z) (ts : list (list (insertion pt))) : Prop :=
  forall k task i, nth_error ts k = Some task -> In i task ->
    i_cam i = c /\ i_frame i = Z.of_nat k.

(** McCalib.cpp 145-169, 234-261: cameras one after the other (pool.join), images of
    a camera concurrently, each insertion atomically (mutex, 357-360). *)
Definition detection_run (cams : list (list (list (insertion pt)))) (s : list (insertion pt)) : Prop :=
  exists ss, Forall2 interleave cams ss /\ s = concat ss.

(** The observations a table of observation numbers refers to. *)
Definition contents (t : tables pt) (tab : smap Z nat) : list (option (bobs pt)) :=
  map (nth_error (mvals (t_obs t))) (mvals tab).

(** Two results agree up to the numbering of the observations. *)
Record same_tables (t1 t2 : tables pt) : Prop := {
  st_obs : Permutation (mvals (t_obs t1)) (mvals (t_obs t2));
  st_cams : mkeys (t_cams t1) = mkeys (t_cams t2);
  st_cam : forall c r1 r2, mfind c (t_cams t1) = Some r1 -> mfind c (t_cams t2) = Some r2 ->
    Permutation (contents t1 (c_obs r1)) (contents t2 (c_obs r2)) /\
    (forall f, In f (mkeys (c_frames r1)) <-> In f (mkeys (c_frames r2)));
  st_boards : mkeys (t_boards t1) = mkeys (t_boards t2);
  st_board : forall b r1 r2, mfind b (t_boards t1) = Some r1 -> mfind b (t_boards t2) = Some r2 ->
    Permutation (contents t1 (b_obs r1)) (contents t2 (b_obs r2)) /\
    (forall f, In f (mkeys (b_frames r1)) <-> In f (mkeys (b_frames r2)));
  st_frames : forall f, In f (mkeys (t_frames t1)) <-> In f (mkeys (t_frames t2));
  st_frame : forall f r1 r2, mfind f (t_frames t1) = Some r1 -> mfind f (t_frames t2) = Some r2 ->
    contents t1 (f_obs r1) = contents t2 (f_obs r2) /\
    f_boards r1 = f_boards r2 /\ f_cams r1 = f_cams r2 /\ f_camobs r1 = f_camobs r2 /\
    (forall c, mfind c (f_paths r1) = mfind c (f_paths r2));
  st_camobs : forall k, In k (mkeys (t_camobs t1)) <-> In k (mkeys (t_camobs t2));
  st_camob : forall k r1 r2, mfind k (t_camobs t1) = Some r1 -> mfind k (t_camobs t2) = Some r2 ->
    contents t1 (co_obs r1) = contents t2 (co_obs r2) /\ co_boards r1 = co_boards r2 /\
    co_cam r1 = co_cam r2
}.
(** ** Saving and loading *)

(** What an observation says: camera, frame, board, corners, corner identifiers. *)
Definition said : Type := (Z * Z * Z) * (list pt * list Z).
Definition obs_says (o : bobs pt) : said := ((o_cam o, o_frame o, o_board o), (o_pts o, o_ids o)).
Definition ins_says (i : insertion pt) : said := ((i_cam i, i_frame i, i_board i), (i_pts i, i_ids i)).
Definition cfb_dec (a b : Z * Z * Z) : {a = b} + {a <> b}.
Proof. repeat decide equality. Defined.
Definition about (k : Z * Z * Z) (s : said) : bool := if cfb_dec (fst s) k then true else false.

(** Later calibration steps only change the corners of observations (outlier
    removal), their validity and the image sizes. *)
Record refined (t0 t : tables pt) : Prop := {
  rf_obs : map (fun o => fst (obs_says o)) (mvals (t_obs t)) =
           map (fun o => fst (obs_says o)) (mvals (t_obs t0));
  rf_cams : mkeys (t_cams t) = mkeys (t_cams t0);
  rf_boards : mkeys (t_boards t) = mkeys (t_boards t0);
  rf_frames : t_frames t = t_frames t0 }.


(** image size of camera c *)
Definition image_size (t : tables pt) (c : Z) : option (Z * Z) :=
  option_map (fun r => (c_cols r, c_rows r)) (mfind c (t_cams t)).

(** path recorded for camera c in frame f *)
Definition recorded_path (t : tables pt) (c f : Z) : option string :=
  match mfind f (t_frames t) with Some r => mfind c (f_paths r) | None => None end.

(** everything the observation table says, in key order *)
Definition all_said (t : tables pt) : list said := map obs_says (mvals (t_obs t)).
End Sched.
