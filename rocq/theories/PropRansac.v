(** C15, C16: sample-consensus pose estimation and outlier removal. *)
From Coq Require Import List ZArith Lia Reals Lra Sorted Permutation.
From Verif Require Import SMap DataModel DetectModel DetectSpec DetectProofs RansacModel RansacSpec RansacProofs.
Import ListNotations.
Open Scope R_scope.

(** C15: with matching lists of at least four correspondences the call succeeds after
    at most [it] trials, each from four different correspondences; either no trial
    explained anything (the caller's pose is untouched and all [it] trials were used),
    or the answer is the consensus set of the first trial with the largest one, and the
    pose is that trial's (refined on exactly these correspondences if there are at least
    four).  The search ends early only after as many unsuccessful trials as wanted. *)
Theorem C15_best_consensus_in_bounded_trials :
  forall (pose pt3 : Type) (env : rs_env pose pt3), fair_shuffles env ->
  forall K D scene img thresh prob best0 it refine,
  length scene = length img -> (4 <= length img)%nat ->
  exists r qs, ransacP3P env K D scene img best0 thresh it prob refine = Some r /\
    rr_trials r = length qs /\ (length qs <= Z.to_nat it)%nat /\
    trials_from env K D scene img (rs_uninit env) qs /\
    ((rr_inliers r = [] /\ rr_pose r = best0 /\ length qs = Z.to_nat it /\
      (forall q l, In q qs -> consensus env K D scene img thresh q l -> l = [])) \/
     (exists j q l, nth_error qs j = Some q /\ consensus env K D scene img thresh q l /\
        l <> [] /\ rr_inliers r = l /\
        (forall i q' l', nth_error qs i = Some q' -> consensus env K D scene img thresh q' l' ->
           (length l' <= length l)%nat /\ ((i < j)%nat -> (length l' < length l)%nat)) /\
        ((refine = false \/ (length l < 4)%nat) /\ rr_pose r = q \/
         refine = true /\ (4 <= length l)%nat /\
         exists ls li, sublist_at scene l ls /\ sublist_at img l li /\ rr_pose r = rs_refine env K D ls li q) /\
        (length qs = Z.to_nat it \/
         (wanted_trials prob (length l) (length scene) <= Z.of_nat (length qs) - 1 - Z.of_nat j)%Z))).
Proof. intros pose pt3 env fair K D scene img thresh prob best0 it refine. apply ransac_main; auto. Qed.
Print Assumptions C15_best_consensus_in_bounded_trials.

(** fewer than four points: an access outside the vector *)
Theorem C15_fewer_than_four_points_is_undefined :
  forall (pose pt3 : Type) (env : rs_env pose pt3), fair_shuffles env ->
  forall K D scene img thresh prob best0 it refine,
  (length img < 4)%nat -> (0 < it)%Z ->
  ransacP3P env K D scene img best0 thresh it prob refine = None.
Proof. intros. apply ransac_too_few; auto. Qed.
Print Assumptions C15_fewer_than_four_points_is_undefined.

(** the number of wanted trials is never negative and fits an int (|INT_MAX| > 2*10^9),
    so that the double-to-int conversion is defined, for the confidences in use *)
Theorem C15_trial_count_fits_int : forall prob inliers n,
  0 <= prob <= 99 / 100 -> (inliers <= n)%nat -> (0 < n)%nat ->
  (0 <= wanted_trials prob inliers n <= 10000000)%Z.
Proof. exact wanted_trials_bounds. Qed.
Print Assumptions C15_trial_count_fits_int.

(** stopping after T >= wanted unsuccessful trials: the chance of T independent trials
    all missing an all-inlier triple is at most 1 - prob (up to the rounding of half a
    trial), while the inlier fraction is neither extremely small nor 1 *)
Theorem C15_stopping_rule_confidence : forall prob inliers n T,
  0 < prob < 1 -> (inliers <= n)%nat -> (0 < n)%nat ->
  1 / 100000 <= 1 - (INR inliers / INR n) ^ 3 <= 1 - 1 / 100000 ->
  (wanted_trials prob inliers n <= T)%Z ->
  Rpower (1 - (INR inliers / INR n) ^ 3) (IZR T + / 2) <= 1 - prob.
Proof. exact wanted_trials_confidence. Qed.
Print Assumptions C15_stopping_rule_confidence.

(** C16 *)
Theorem C16_points_and_ids_stay_aligned :
  forall (pose pt3 : Type) (env : rs_env pose pt3), fair_shuffles env ->
  forall cam board_pts pose0 thresh it (o : bobs pt2),
  length (o_pts o) = length (o_ids o) -> (4 <= length (o_pts o))%nat ->
  Forall (fun i => (0 <= i < Z.of_nat (length board_pts))%Z) (o_ids o) ->
  exists o' p keep,
    boardobs_estimatePose env cam board_pts pose0 thresh it o = Some (o', p) /\
    o_cam o' = o_cam o /\ o_frame o' = o_frame o /\ o_board o' = o_board o /\
    StronglySorted lt keep /\ sublist_at (o_pts o) keep (o_pts o') /\ sublist_at (o_ids o) keep (o_ids o') /\
    (o_valid o' = false <-> o_valid o = false \/ (length keep < 4)%nat).
Proof.
  intros pose pt3 env fair cam bp p0 th it o H1 H2 H3.
  destruct (estimate_main env fair cam bp p0 th it o H1 H2 H3) as (o' & p & k & A & B & C & D & E & F & G & _ & _ & H & _).
  exists o', p, k. split; [auto|]. split; [auto|]. split; [auto|]. split; [auto|]. split; [auto|].
  split; [auto|]. split; auto.
Qed.
Print Assumptions C16_points_and_ids_stay_aligned.

(** only inliers survive: the surviving positions are the consensus set of some pose,
    each corner being compared with the board point of its own identifier (perspective
    camera; for the fisheye camera the corners are undistorted first) *)
Theorem C16_exactly_the_inliers_survive :
  forall (pose pt3 : Type) (env : rs_env pose pt3), fair_shuffles env ->
  forall cam board_pts pose0 thresh it (o o' : bobs pt2) p,
  length (o_pts o) = length (o_ids o) -> (4 <= length (o_pts o))%nat ->
  Forall (fun i => (0 <= i < Z.of_nat (length board_pts))%Z) (o_ids o) ->
  (cp_model cam = 0 \/ cp_model cam = 1)%Z ->
  boardobs_estimatePose env cam board_pts pose0 thresh it o = Some (o', p) ->
  exists scene keep, 
    Forall2 (fun i s => (0 <= i)%Z /\ nth_error board_pts (Z.to_nat i) = Some s) (o_ids o) scene /\
    sublist_at (o_pts o) keep (o_pts o') /\ sublist_at (o_ids o) keep (o_ids o') /\
    (keep = [] \/ exists q,
       consensus env (cp_K cam) (if Z.eqb (cp_model cam) 0 then cp_D cam else [0;0;0;0;0]) scene
         (if Z.eqb (cp_model cam) 0 then o_pts o else
          map (fun m => let (x, y) := rs_undistort env (cp_K cam) (cp_D cam) m in
                        (x * k_fx (cp_K cam) + k_u0 (cp_K cam), y * k_fy (cp_K cam) + k_v0 (cp_K cam))) (o_pts o))
         thresh q keep).
Proof.
  intros pose pt3 env fair cam bp p0 th it o o' p H1 H2 H3 Hm E.
  destruct (estimate_main env fair cam bp p0 th it o H1 H2 H3) as (o1 & p1 & k & A & B & C & D & E1 & F & G & _ & _ & H & sc & r & S1 & S2 & S3 & S4).
  rewrite E in A. injection A as -> ->.
  exists sc, k. split; [auto|]. split; [auto|]. split; [auto|].
  assert (Ls : length sc = length (o_pts o)). { rewrite H1. clear -S1. induction S1; cbn; auto. }
  destruct Hm as [Hm|Hm]; rewrite Hm in *; cbn [Z.eqb] in *; unfold ransacP3PDistortion in S2; cbn [Z.eqb Pos.eqb] in S2; cbn [Pos.eqb].
  - destruct (ransac_main env fair (cp_K cam) (cp_D cam) sc (o_pts o) th (99/100) p0 it true) as (r' & qs & A & _ & _ & _ & B'); auto; try lia.
    rewrite S2 in A. injection A as ->. destruct B' as [(E2 & _)|(j & q & l & _ & Q & _ & E2 & _)]; [left; congruence|].
    right. exists q. congruence.
  - destruct (ransac_main env fair (cp_K cam) [0;0;0;0;0] sc (map (undistorted env (cp_K cam) (cp_D cam)) (o_pts o)) th (99/100) p0 it true)
      as (r' & qs & A & _ & _ & _ & B'); rewrite ?map_length; try lia.
    rewrite S2 in A. injection A as ->. destruct B' as [(E2 & _)|(j & q & l & _ & Q & _ & E2 & _)]; [left; congruence|].
    right. exists q. assert (EM : forall m, undistorted env (cp_K cam) (cp_D cam) m = let (x, y) := rs_undistort env (cp_K cam) (cp_D cam) m in
                        (x * k_fx (cp_K cam) + k_u0 (cp_K cam), y * k_fy (cp_K cam) + k_v0 (cp_K cam))).
    { intros m. unfold undistorted. destruct (rs_undistort env (cp_K cam) (cp_D cam) m). reflexivity. }
    rewrite <- (map_ext _ _ EM). congruence.
Qed.
Print Assumptions C16_exactly_the_inliers_survive.

(** the reported error of an observation is the mean distance between its corners and
    the projections of the 3D points of the same identifiers, and is never negative *)
Theorem C16_reported_error_is_mean_distance :
  forall (pt3 : Type) (project : pt3 -> pt2) pts3 ids pts,
  length pts = length ids -> Forall (fun i => (0 <= i < Z.of_nat (length pts3))%Z) ids ->
  exists e ds, computeReprojectionError project pts3 ids pts = Some e /\
    Forall2 (fun '(i, p) d => exists s, nth_error pts3 (Z.to_nat i) = Some s /\ d = dist2 p (project s))
            (combine ids pts) ds /\
    e = match ds with [] => 0 | _ => mean ds end /\ 0 <= e.
Proof. intros pt3 project. apply reprojection_error_main. Qed.
Print Assumptions C16_reported_error_is_mean_distance.

(** ** Examples: a pose is a 2D shift, a scene point a 2D point, P3P returns the shift
    of its first sample, shuffles do nothing; five corners, the fourth one far off. *)
Definition ex_env : rs_env (R * R) (R * R) :=
  mkRS (fun _ _ s i _ => match s, i with a :: _, b :: _ => (fst b - fst a, snd b - snd a) | _, _ => (0, 0) end)
       (fun _ _ _ _ p => p)
       (fun _ _ p s => (fst s + fst p, snd s + snd p)) (fun _ _ p => p) (fun _ l => l) (0, 0).
Definition ex_board : list (R * R) := [(0,0); (1,0); (0,1); (1,1); (2,2); (3,3)].
Definition ex_obs : bobs pt2 := mkObs 0 0 0 [(10,10); (11,10); (10,11); (50,50); (12,12)] [0;1;2;3;4]%Z true.
Example ex_env_fair : fair_shuffles ex_env.
Proof. intros k l. cbn. apply Permutation_refl. Qed.
Example C16_nonvacuous : length (o_pts ex_obs) = length (o_ids ex_obs) /\ (4 <= length (o_pts ex_obs))%nat /\
  Forall (fun i => (0 <= i < Z.of_nat (length ex_board))%Z) (o_ids ex_obs).
Proof. split; [reflexivity|]. split; [cbn; lia|]. cbn. repeat constructor; lia. Qed.
(** the consensus set of the true shift is everything but the fourth corner *)
Example C15_consensus_example : forall K D,
  consensus ex_env K D [(0,0); (1,0); (0,1); (1,1); (2,2)] (o_pts ex_obs) 1 (10,10) [0;1;2;4]%nat.
Proof.
  assert (Z0 : sqrt 0 < 1) by (rewrite sqrt_0; lra).
  intros K D. split; [repeat constructor; cbn; lia|].
  assert (G : forall a b, a = b -> dist2 a b < 1).
  { intros a b ->. unfold dist2. match goal with |- sqrt ?x < _ => replace x with 0 by ring end. auto. }
  intros k. split.
  - intros [<-|[<-|[<-|[<-|[]]]]]; eexists; eexists; (split; [reflexivity|]; split; [reflexivity|]); apply G;
      cbn; f_equal; ring.
  - intros (s & m & E1 & E2 & L). destruct k as [|[|[|[|[|k]]]]]; cbn in *; auto 6.
    + injection E1 as <-. injection E2 as <-. exfalso. unfold dist2 in L. cbn in L.
      match type of L with sqrt ?x < _ => assert (sqrt 1 <= sqrt x) as Q by (apply sqrt_le_1; lra) end.
      rewrite sqrt_1 in Q. lra.
    + destruct k; discriminate.
Qed.
