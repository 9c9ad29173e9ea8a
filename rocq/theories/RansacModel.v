(** Model of the RANSAC pose estimation: geometrytools.cpp 233-326 (ransacP3P) and
    709-751 (ransacP3PDistortion), BoardObs.cpp 121-163 (estimatePose) and 165-202
    (computeReprojectionError), Object3DObs.cpp 222-248 (estimatePose) and 255-290.

    Oracles (arguments, arbitrary functions unless a theorem says otherwise): OpenCV's
    solvePnP (minimal P3P and iterative refinement), projectPoints,
    fisheye::undistortPoints, and the random shuffles.  Real arithmetic replaces
    float/double.  An access outside a vector is the outcome None. *)
From Coq Require Import List ZArith Lia Reals.
From Verif Require Import SMap DataModel DetectModel.
Import ListNotations.
Open Scope R_scope.

(** fx, fy, u0, v0 of the 3x3 camera matrix *)
Record kmat := mkK { k_fx : R; k_fy : R; k_u0 : R; k_v0 : R }.
Definition dist_t : Type := list R.

Section Ransac.
Variables pose pt3 : Type.

(** The parts of OpenCV that are called, and the source of randomness.
    rs_p3p: solvePnP(..., false, SOLVEPNP_P3P), the last argument is the value the
    output matrices had before (left unchanged when no solution is found);
    rs_refine: solvePnP(..., true, SOLVEPNP_ITERATIVE) starting from a pose;
    rs_project: cv::projectPoints for one point;
    rs_undistort: fisheye::undistortPoints for one point;
    rs_shuffle k: the k-th std::shuffle. *)
Record rs_env := mkRS {
  rs_p3p : kmat -> dist_t -> list pt3 -> list pt2 -> pose -> pose;
  rs_refine : kmat -> dist_t -> list pt3 -> list pt2 -> pose -> pose;
  rs_project : kmat -> dist_t -> pose -> pt3 -> pt2;
  rs_undistort : kmat -> dist_t -> pt2 -> pt2;
  rs_shuffle : nat -> list nat -> list nat;
  rs_uninit : pose  (* content of the local Rot, Trans before the first solvePnP *) }.
Variable env : rs_env.

(** geometrytools.cpp 275-281: reprojection error *)
Definition repro_error (p q : pt2) : R :=
  sqrt ((fst p - fst q) ^ 2 + (snd p - snd q) ^ 2).

(** vector access v[i] for each i in idx *)
Definition pick {A} (l : list A) (idx : list nat) : option (list A) :=
  collect (map (nth_error l) idx).

(** geometrytools.cpp 256-257: {myvector[0], ..., myvector[3]} *)
Definition first_four (v : list nat) : option (list nat) :=
  match v with a :: b :: c :: d :: _ => Some [a; b; c; d] | _ => None end.

(** geometrytools.cpp 271-283 : the indices, in increasing order, whose error is below
    the threshold; None when there are fewer image points than scene points. *)
Definition find_inliers (K : kmat) (D : dist_t) (scene : list pt3) (img : list pt2) (thresh : R) (p : pose)
  : option (list nat) :=
  if Nat.leb (length scene) (length img) then
    Some (map fst (filter (fun '(_, (s, m)) => Rltb (repro_error m (rs_project env K D p s)) thresh)
                          (combine (seq 0 (length scene)) (combine scene img))))
  else None.

(** geometrytools.cpp 295-304: number of trials still wanted without improvement;
    [prob] is p.  double-to-int conversion: see C15_trial_count_fits_int. *)
Definition wanted_trials (prob : R) (nb_inliers nb_pts : nat) : Z :=
  let frac := INR nb_inliers / INR nb_pts in
  let eps := 1 / 100000 in
  let q0 := 1 - frac ^ 3 in
  let q1 := if Req_EM_T q0 0 then eps else q0 in
  let q2 := if Rltb (1 - eps) q1 then 1 - eps else q1 in
  round_half_up (ln (1 - prob) / ln q2).

(** local variables of the loop: myvector, Rot/Trans, InliersR, BestInNb, BestR/BestT,
    N, trialcount; [s_iter] = countit. *)
Record rs_state := mkS {
  s_vec : list nat; s_cur : pose; s_inl : list nat; s_bestnb : nat; s_best : pose;
  s_N : Z; s_trial : Z; s_iter : nat }.

(** geometrytools.cpp 252-307: one iteration *)
Definition ransac_step (K : kmat) (D : dist_t) (scene : list pt3) (img : list pt2) (thresh prob : R)
           (st : rs_state) : option rs_state :=
  let v := rs_shuffle env (s_iter st) (s_vec st) in
  match first_four v with
  | None => None
  | Some idx =>
    match pick scene idx, pick img idx with
    | Some s4, Some i4 =>
      let cur := rs_p3p env K D s4 i4 (s_cur st) in
      match find_inliers K D scene img thresh cur with
      | None => None
      | Some il =>
        if Nat.ltb (s_bestnb st) (length il)
        then Some (mkS v cur il (length il) cur (wanted_trials prob (length il) (length scene)) 0
                       (S (s_iter st)))
        else Some (mkS v cur (s_inl st) (s_bestnb st) (s_best st) (s_N st) (s_trial st + 1)
                       (S (s_iter st)))
      end
    | _, _ => None
    end
  end.

(** geometrytools.cpp 250: while (N > trialcount && countit < it); [left] = it - countit *)
Fixpoint ransac_loop K D scene img thresh prob (left : nat) (st : rs_state) : option rs_state :=
  match left with
  | O => Some st
  | S n => if Z.ltb (s_trial st) (s_N st)
           then match ransac_step K D scene img thresh prob st with
                | Some st' => ransac_loop K D scene img thresh prob n st'
                | None => None
                end
           else Some st
  end.

(** inliers, pose and (for the statements only) number of trials *)
Record rs_result := mkRR { rr_inliers : list nat; rr_pose : pose; rr_trials : nat }.

(** geometrytools.cpp 233-326.  [best0] = the caller's BestR/BestT on entry. *)
Definition ransacP3P (K : kmat) (D : dist_t) (scene : list pt3) (img : list pt2) (best0 : pose)
           (thresh : R) (it : Z) (prob : R) (refine : bool) : option rs_result :=
  match ransac_loop K D scene img thresh prob (Z.to_nat it)
          (mkS (seq 0 (length img)) (rs_uninit env) [] 0 best0 it 0 0) with
  | None => None
  | Some st =>
    if refine && Nat.leb 4 (s_bestnb st) then
      match pick img (s_inl st), pick scene (s_inl st) with
      | Some ii, Some si =>
          Some (mkRR (s_inl st) (rs_refine env K D si ii (s_best st)) (s_iter st))
      | _, _ => None
      end
    else Some (mkRR (s_inl st) (s_best st) (s_iter st))
  end.

(** geometrytools.cpp 733-741 *)
Definition undistorted (K : kmat) (D : dist_t) (p : pt2) : pt2 :=
  let u := rs_undistort env K D p in
  (fst u * k_fx K + k_u0 K, snd u * k_fy K + k_v0 K).

(** geometrytools.cpp 709-751.  Line 730-731: undistortPoints of an empty vector is an
    OpenCV assertion; not modelled. *)
Definition ransacP3PDistortion (K : kmat) (D : dist_t) (scene : list pt3) (img : list pt2) (best0 : pose)
           (thresh : R) (it : Z) (model : Z) (prob : R) (refine : bool) : option rs_result :=
  if Z.eqb model 0 then ransacP3P K D scene img best0 thresh it prob refine
  else if Z.eqb model 1 then
    ransacP3P K [0; 0; 0; 0; 0] scene (map (undistorted K D) img) best0 thresh it prob refine
  else Some (mkRR [] best0 0).

(** ** Users *)

(** Calibrated camera as seen by the estimators: getCameraMat,
    getDistortionVectorVector, distortion_model_. *)
Record cam_par := mkCP { cp_K : kmat; cp_D : dist_t; cp_model : Z }.

(** v[i] for an int i *)
Definition zget {A} (l : list A) (i : Z) : option A :=
  if (i <? 0)%Z then None else nth_error l (Z.to_nat i).

(** BoardObs.cpp 121-163 with p = 0.99 and refine = true (geometrytools.hpp 56-57).
    [pose0] = the uninitialised r_vec, t_vec.  The weak pointers to the camera and the
    board are alive (both are owned by Calibration). *)
Definition boardobs_estimatePose (cam : cam_par) (board_pts : list pt3) (pose0 : pose)
           (thresh : R) (it : Z) (o : bobs pt2) : option (bobs pt2 * pose) :=
  match collect (map (zget board_pts) (o_ids o)) with
  | None => None
  | Some scene =>
    match ransacP3PDistortion (cp_K cam) (cp_D cam) scene (o_pts o) pose0 thresh it (cp_model cam)
                              (99 / 100) true with
    | None => None
    | Some r =>
      match pick (o_pts o) (rr_inliers r), pick (o_ids o) (rr_inliers r) with
      | Some pts, Some ids =>
        Some (mkObs (o_cam o) (o_frame o) (o_board o) pts ids
                    (if Nat.ltb (length (rr_inliers r)) 4 then false else o_valid o),
              rr_pose r)
      | _, _ => None
      end
    end
  end.

(** Object3DObs.cpp 222-248: [ids] = pts_id_, [pts] = pts_2d_. *)
Definition objectobs_estimatePose (cam : cam_par) (object_pts : list pt3) (pose0 : pose)
           (thresh : R) (it : Z) (ids : list Z) (pts : list pt2) : option pose :=
  match collect (map (zget object_pts) ids) with
  | None => None
  | Some scene =>
    option_map rr_pose
      (ransacP3PDistortion (cp_K cam) (cp_D cam) scene pts pose0 thresh it (cp_model cam) (99 / 100) true)
  end.

(** BoardObs.cpp 165-202 and Object3DObs.cpp 255-290: mean reprojection error, 0 when
    there is no point.  [project] = projectPointsWithDistortion (755-771) for the camera
    and pose, pointwise. *)
Definition computeReprojectionError (project : pt3 -> pt2) (pts3 : list pt3) (ids : list Z) (pts : list pt2)
  : option R :=
  match collect (map (zget pts3) ids) with
  | None => None
  | Some scene =>
    if Nat.leb (length scene) (length pts) then
      let errs := map (fun '(s, p) => repro_error p (project s)) (combine scene pts) in
      Some (if Nat.ltb 0 (length errs)
            then fold_left Rplus errs 0 / INR (length errs) else 0)
    else None
  end.

End Ransac.

Arguments mkRS {pose pt3}. Arguments rs_p3p {pose pt3}. Arguments rs_refine {pose pt3}.
Arguments rs_project {pose pt3}. Arguments rs_undistort {pose pt3}. Arguments rs_shuffle {pose pt3}.
Arguments rs_uninit {pose pt3}.
Arguments find_inliers {pose pt3}. Arguments ransac_step {pose pt3}. Arguments ransac_loop {pose pt3}.
Arguments ransacP3P {pose pt3}. Arguments undistorted {pose pt3}. Arguments ransacP3PDistortion {pose pt3}.
Arguments boardobs_estimatePose {pose pt3}. Arguments objectobs_estimatePose {pose pt3}.
Arguments computeReprojectionError {pt3}.
Arguments mkS {pose}. Arguments s_vec {pose}. Arguments s_cur {pose}. Arguments s_inl {pose}.
Arguments s_bestnb {pose}. Arguments s_best {pose}. Arguments s_N {pose}. Arguments s_trial {pose}.
Arguments s_iter {pose}.
Arguments mkRR {pose}. Arguments rr_inliers {pose}. Arguments rr_pose {pose}. Arguments rr_trials {pose}.
