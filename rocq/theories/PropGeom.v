(** C18-C21: median, quaternions, averaging, rigid poses. *)
From Coq Require Import List ZArith Lia Reals Lra Sorted Permutation.
From Verif Require Import DetectModel DetectSpec DetectProofs GeomModel GeomSpec GeomProofs GeomQuat GeomMedian GeomLog.
From Coq Require ClassicalEpsilon.
Import ListNotations.
Open Scope R_scope.

(** C18 *)
Theorem C18_is_the_median : forall v m, v <> [] -> (is_median v m <-> m = median v).
Proof.
  intros v m Hn. split; [intros H|intros ->; apply median_spec; auto].
  eapply is_median_unique; eauto. apply median_spec; auto.
Qed.
Print Assumptions C18_is_the_median.
Theorem C18_order_independent : forall v v', Permutation v v' -> median v = median v'.
Proof. exact median_perm. Qed.
Print Assumptions C18_order_independent.
Theorem C18_within_range : forall v a b, v <> [] -> (forall x, In x v -> a <= x <= b) -> a <= median v <= b.
Proof. exact median_bounds. Qed.
Print Assumptions C18_within_range.
Theorem C18_commutes_with_translation : forall v c, v <> [] -> median (map (fun x => x + c) v) = median v + c.
Proof. exact median_translate. Qed.
Print Assumptions C18_commutes_with_translation.
(** Rleb x y = true <-> x <= y *)
Theorem C18_half_on_each_side : forall v, v <> [] ->
  (length v <= 2 * length (filter (fun x => Rleb x (median v)) v))%nat /\
  (length v <= 2 * length (filter (fun x => Rleb (median v) x) v))%nat.
Proof. exact median_half. Qed.
Print Assumptions C18_half_on_each_side.
(** robust: a majority inside [a,b] keeps the median inside [a,b], whatever the rest is *)
Theorem C18_majority_decides : forall v a b,
  (length v < 2 * length (filter (fun x => andb (Rleb a x) (Rleb x b)) v))%nat -> a <= median v <= b.
Proof. exact median_breakdown. Qed.
Print Assumptions C18_majority_decides.
Example C18_example : median [5; 1; 4] = 4 /\ median [3; 1; 2; 100] = (3 + 2) / 2.
Proof.
  split; symmetry; apply C18_is_the_median; try discriminate.
  - exists [1; 4; 5]. split.
    + split; [|repeat constructor; lra]. apply perm_trans with [1; 5; 4]; constructor; constructor.
    + left. exists [1], 4, [5]. auto.
  - exists [1; 2; 3; 100]. split.
    + split; [|repeat constructor; lra]. 
      apply perm_trans with [1; 3; 2; 100]; [constructor|]. constructor. constructor.
    + right. exists [1], 2, 3, [100]. split; auto. split; auto. lra.
Qed.

(** C19 *)
Theorem C19_rotation_to_quaternion_and_back : forall A, rotation A ->
  exists q, quat_of_rot A = Some q /\ unit_quat q /\ rot_of_quat q = A.
Proof. exact quat_of_rot_main. Qed.
Print Assumptions C19_rotation_to_quaternion_and_back.
Theorem C19_quaternion_to_rotation : forall q, unit_quat q -> rotation (rot_of_quat q).
Proof. exact rot_of_quat_rotation. Qed.
Print Assumptions C19_quaternion_to_rotation.
Theorem C19_same_rotation_iff_same_up_to_sign : forall p q, unit_quat p -> unit_quat q ->
  (rot_of_quat p = rot_of_quat q <-> p = q \/ p = qneg q).
Proof.
  intros p q Hp Hq. split; [apply rot_of_quat_inj; auto|]. intros [-> | ->]; auto. apply rot_of_quat_neg.
Qed.
Print Assumptions C19_same_rotation_iff_same_up_to_sign.
(** quaternion to rotation and back: the same quaternion up to sign *)
Theorem C19_quaternion_round_trip : forall q, unit_quat q ->
  exists q', quat_of_rot (rot_of_quat q) = Some q' /\ (q' = q \/ q' = qneg q).
Proof.
  intros q H. destruct (quat_of_rot_main _ (rot_of_quat_rotation q H)) as (q' & E & U & R).
  exists q'. split; auto. apply rot_of_quat_inj; auto.
Qed.
Print Assumptions C19_quaternion_round_trip.
(** every rotation vector gives a rotation matrix, so conversion never fails on them *)
Theorem C19_rodrigues_gives_rotations : forall r, rotation (exp_rot r).
Proof. exact exp_rot_rotation. Qed.
Print Assumptions C19_rodrigues_gives_rotations.
(** the four branches are reachable *)
Definition diag (a b c : R) : mat3 := M3 a 0 0 0 b 0 0 0 c.
Example C19_nonvacuous : rotation mid /\ rotation (diag 1 (-1) (-1)) /\ rotation (diag (-1) 1 (-1)) /\
  rotation (diag (-1) (-1) 1) /\ rotation (M3 0 (-1) 0 1 0 0 0 0 1).
Proof. repeat (split; [split; [apply mat3_eq; cbn; ring|unfold det; cbn; ring]|]). split; [apply mat3_eq; cbn; ring|unfold det; cbn; ring]. Qed.

(** C20: [avg_matrix qs] is the 4x4 matrix handed to the SVD *)
Theorem C20_order_does_not_matter : forall qs qs' i j, Permutation qs qs' -> avg_matrix qs i j = avg_matrix qs' i j.
Proof. exact avg_perm. Qed.
Print Assumptions C20_order_does_not_matter.
Theorem C20_sign_does_not_matter : forall qs qs' i j, Forall2 (fun q q' => q' = q \/ q' = qneg q) qs qs' ->
  avg_matrix qs i j = avg_matrix qs' i j.
Proof. exact avg_sign. Qed.
Print Assumptions C20_sign_does_not_matter.
Theorem C20_symmetric_psd_trace_one : forall qs, qs <> [] -> Forall unit_quat qs ->
  (forall i j, avg_matrix qs i j = avg_matrix qs j i) /\
  (forall v, 0 <= sum4 (fun i => sum4 (fun j => v i * avg_matrix qs i j * v j))) /\
  sum4 (fun i => avg_matrix qs i i) = 1.
Proof. intros qs H1 H2. split; [intros; apply avg_sym|]. split; [intros; apply avg_psd|apply avg_trace; auto]. Qed.
Print Assumptions C20_symmetric_psd_trace_one.
(** what is computed: the unit quaternion with the largest mean squared cosine to the
    quaternions that are averaged *)
Theorem C20_average_maximises_agreement : forall qs u v, dominant (avg_matrix qs) u -> unit_quat v ->
  mean (map (fun q => (sum4 (fun i => qget v i * qget q i)) ^ 2) qs) <=
  mean (map (fun q => (sum4 (fun i => qget u i * qget q i)) ^ 2) qs).
Proof. intros qs u v H Hv. apply dominant_max; auto. Qed.
Print Assumptions C20_average_maximises_agreement.
(** rotation vectors of one and the same rotation average to that rotation *)
Theorem C20_average_of_equal_rotations : forall svd log_rot rs A, svd_ok svd -> log_ok log_rot -> rs <> [] ->
  (forall r, In r rs -> exp_rot r = A) ->
  exists r, getAverageRotation svd log_rot true rs = Some r /\ exp_rot r = A.
Proof. exact quat_average_same. Qed.
Print Assumptions C20_average_of_equal_rotations.
(** equal relative poses average to that pose, with either averaging method *)
Theorem C20_average_of_equal_poses : forall svd log_rot use_quat ps P, svd_ok svd -> log_ok log_rot -> rigid P ->
  ps <> [] -> (forall p, In p ps -> p = P) -> average_pose svd log_rot use_quat ps = Some P.
Proof. exact average_pose_same. Qed.
Print Assumptions C20_average_of_equal_poses.
(** without quaternions (the median of the rotation vectors, which is what the stray
    colon of C40 always selects) two vectors of the SAME rotation average to the
    identity: C20 fails for that method *)
Theorem C20_rotation_vector_median_refuted : forall svd log_rot,
  exists rs A r, (forall s, In s rs -> exp_rot s = A) /\ rs <> [] /\
    getAverageRotation svd log_rot false rs = Some r /\ exp_rot r <> A.
Proof.
  intros svd lr. destruct (vec_average_wraps svd lr) as (r & E & R).
  exists [V3 PI 0 0; V3 (-PI) 0 0], half_turn, r. split; [|split; [discriminate|split; [auto|]]].
  - intros s [<-|[<-|[]]]; [apply half_turn_p|apply half_turn_n].
  - rewrite R. intros H. apply (f_equal m11) in H. cbn in H. lra.
Qed.
Print Assumptions C20_rotation_vector_median_refuted.
(** the hypotheses on the oracles can be met *)
Example C20_log_exists : exists log_rot, log_ok log_rot.
Proof. exists log_quat. exact log_quat_ok. Qed.
Example C20_svd_exists : exists svd, svd_ok svd.
Proof.
  exists (fun M => ClassicalEpsilon.epsilon (inhabits (Q4 0 0 0 1)) (dominant M)).
  intros M H. apply ClassicalEpsilon.epsilon_spec. auto.
Qed.
Example C20_nonvacuous : unit_quat (Q4 0 0 0 1) /\ dominant (avg_matrix [Q4 0 0 0 1; Q4 0 0 0 (-1)]) (Q4 0 0 0 1).
Proof.
  assert (U : unit_quat (Q4 0 0 0 1)) by (unfold unit_quat; cbn; ring). split; auto.
  assert (E : forall i j, avg_matrix [Q4 0 0 0 1; Q4 0 0 0 (-1)] i j = avg_matrix [Q4 0 0 0 1; Q4 0 0 0 1] i j).
  { intros. apply avg_sign. constructor; [left; auto|]. constructor; [right|constructor]. unfold qneg; cbn. f_equal; ring. }
  assert (D : dominant (avg_matrix [Q4 0 0 0 1; Q4 0 0 0 1]) (Q4 0 0 0 1)).
  { apply same_dominant; auto. discriminate. }
  destruct D as (D1 & lam & D2 & D3). split; auto. exists lam. split.
  - intros i Hi. rewrite <- (D2 i Hi). unfold sum4. rewrite !E. auto.
  - intros v Hv. apply D3 in Hv. unfold sum4 in *. rewrite !E. auto.
Qed.

(** C21 *)
Theorem C21_inverse : forall P, rigid P ->
  rigid (pinv P) /\ pinv (pinv P) = P /\ pmul P (pinv P) = pid /\ pmul (pinv P) P = pid.
Proof.
  intros P H. split; [apply rigid_inv; auto|]. split; [apply pinv_pinv; auto|]. split; [apply pinv_r; auto|apply pinv_l; auto].
Qed.
Print Assumptions C21_inverse.
Theorem C21_composition : forall P Q S, 
  pmul P (pmul Q S) = pmul (pmul P Q) S /\ pmul pid P = P /\ pmul P pid = P /\
  (rigid P -> rigid Q -> rigid (pmul P Q) /\ pinv (pmul P Q) = pmul (pinv Q) (pinv P)).
Proof.
  intros. split; [apply pmul_assoc|]. split; [apply pmul_id_l|]. split; [apply pmul_id_r|].
  intros. split; [apply rigid_mul; auto|apply pinv_pmul; auto].
Qed.
Print Assumptions C21_composition.
Theorem C21_action_on_points : forall P Q pts,
  transform3DPts pts (pmul P Q) = transform3DPts (transform3DPts pts Q) P /\ transform3DPts pts pid = pts.
Proof.
  intros. unfold transform3DPts. rewrite map_map. split; [apply map_ext; intros; apply pact_mul|].
  rewrite <- (map_id pts) at 2. apply map_ext. intros. apply pact_id.
Qed.
Print Assumptions C21_action_on_points.
Theorem C21_distances_are_preserved : forall P pts, rigid P ->
  forall i j a b a' b', nth_error pts i = Some a -> nth_error pts j = Some b ->
  nth_error (transform3DPts pts P) i = Some a' -> nth_error (transform3DPts pts P) j = Some b' ->
  distance a' b' = distance a b.
Proof.
  intros P pts H i j a b a' b' H1 H2 H3 H4. unfold transform3DPts in *.
  rewrite (map_nth_error _ _ _ H1) in H3. rewrite (map_nth_error _ _ _ H2) in H4.
  injection H3 as <-. injection H4 as <-. apply rigid_distance; auto.
Qed.
Print Assumptions C21_distances_are_preserved.
(** in terms of rotation and translation vectors, through cv::Rodrigues *)
Theorem C21_invert_rotation_vector : forall log_rot r t, log_ok log_rot ->
  let (r', t') := invertRvecT log_rot r t in
  RVecT2Proj r' t' = pinv (RVecT2Proj r t) /\ pmul (RVecT2Proj r' t') (RVecT2Proj r t) = pid.
Proof.
  intros lr r t H. unfold invertRvecT, Proj2RT.
  assert (E : RVecT2Proj (lr (fst (pinv (RVecT2Proj r t)))) (snd (pinv (RVecT2Proj r t))) = pinv (RVecT2Proj r t)).
  { unfold RVecT2Proj at 1. rewrite H; [destruct (pinv (RVecT2Proj r t)); auto|].
    apply (rigid_inv (RVecT2Proj r t)). apply exp_rot_rotation. }
  rewrite E. split; auto. apply pinv_l. apply exp_rot_rotation.
Qed.
Print Assumptions C21_invert_rotation_vector.
Example C21_nonvacuous : rigid (exp_rot (V3 1 2 3), V3 4 5 6) /\ (exp_rot (V3 PI 0 0), V3 1 0 0) <> pid.
Proof.
  split; [apply exp_rot_rotation|]. rewrite half_turn_p. intros E. apply (f_equal (fun x => m11 (fst x))) in E. cbn in E. lra.
Qed.
