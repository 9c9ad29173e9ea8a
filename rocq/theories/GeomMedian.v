(** Proofs about median and about averaging of equal poses. *)
From Coq Require Import List ZArith Lia Reals Lra Sorted Permutation.
From Verif Require Import DetectModel DetectSpec DetectProofs GeomModel GeomSpec GeomProofs GeomQuat.
Import ListNotations.
Open Scope R_scope.

Lemma insert_perm x l : Permutation (x :: l) (insert x l).
Proof.
  induction l as [|y l IH]; cbn; auto. destruct (Rltb y x); auto.
  apply perm_trans with (y :: x :: l); [apply perm_swap|]. constructor; auto.
Qed.
Lemma sort_perm l : Permutation l (sort l).
Proof. induction l as [|x l IH]; cbn; auto. eapply perm_trans; [|apply insert_perm]. constructor; auto. Qed.
Lemma insert_sorted x l : StronglySorted Rle l -> StronglySorted Rle (insert x l).
Proof.
  induction 1 as [|y l Hs IH Hf]; cbn; [constructor; constructor|].
  destruct (Rltb y x) eqn:E.
  - apply Rltb_true in E. constructor; auto. apply Forall_forall. intros z Hz.
    apply (Permutation_in _ (Permutation_sym (insert_perm x l))) in Hz. destruct Hz as [<-|Hz]; [lra|].
    rewrite Forall_forall in Hf. auto.
  - apply Rltb_false in E. constructor; [constructor; auto|]. constructor; [lra|].
    eapply Forall_impl; [|exact Hf]. cbn; intros; lra.
Qed.
Lemma sort_sorted l : StronglySorted Rle (sort l).
Proof. induction l; cbn; [constructor|apply insert_sorted; auto]. Qed.
Lemma sorted_unique l : forall l', StronglySorted Rle l -> StronglySorted Rle l' -> Permutation l l' -> l = l'.
Proof.
  induction l as [|x l IH]; intros l' Hs Hs' P.
  - apply Permutation_nil in P. auto.
  - destruct l' as [|y l']; [apply Permutation_sym, Permutation_nil in P; discriminate|].
    inversion Hs as [|? ? Hs1 Hf1]; inversion Hs' as [|? ? Hs2 Hf2]; subst.
    rewrite Forall_forall in Hf1, Hf2.
    assert (x = y).
    { assert (In x (y :: l')) as [->|Hx] by (eapply Permutation_in; [exact P|left; auto]); auto.
      assert (In y (x :: l)) as [->|Hy] by (eapply Permutation_in; [exact (Permutation_sym P)|left; auto]); auto.
      apply Hf2 in Hx. apply Hf1 in Hy. lra. }
    subst y. f_equal. apply IH; auto. eapply Permutation_cons_inv; eauto.
Qed.
Lemma sorted_version_sort v s : sorted_version v s <-> s = sort v.
Proof.
  split.
  - intros (P & S). apply sorted_unique; auto using sort_sorted. eapply perm_trans; [apply Permutation_sym; eauto|apply sort_perm].
  - intros ->. split; [apply sort_perm|apply sort_sorted].
Qed.
Lemma sort_length v : length (sort v) = length v.
Proof. symmetry. apply Permutation_length, sort_perm. Qed.

Lemma nth_split_at (s : list R) k : (k < length s)%nat -> s = firstn k s ++ nth k s 0 :: skipn (S k) s.
Proof.
  revert k. induction s as [|x s IH]; intros [|k] H; cbn in *; try lia; auto. f_equal. apply IH. lia.
Qed.

Lemma median_spec v : v <> [] -> is_median v (median v).
Proof.
  intros Hn. exists (sort v). split; [apply sorted_version_sort; auto|].
  unfold median. assert (length v <> 0)%nat as L by (destruct v; cbn; congruence).
  apply Nat.eqb_neq in L. rewrite L. apply Nat.eqb_neq in L.
  pose proof (Nat.div_mod_eq (length v) 2) as D. pose proof (Nat.mod_upper_bound (length v) 2).
  destruct (Nat.eqb_spec (Nat.modulo (length v) 2) 0) as [E|E].
  - right. set (k := Nat.div (length v) 2) in *. assert (1 <= k)%nat by lia.
    exists (firstn (k-1) (sort v)), (nth (k-1) (sort v) 0), (nth k (sort v) 0), (skipn (S k) (sort v)).
    split; [|split; [|lra]].
    + transitivity (firstn (k-1) (sort v) ++ nth (k-1) (sort v) 0 :: skipn (S (k - 1)) (sort v)).
      { apply nth_split_at. rewrite sort_length. lia. }
      f_equal. f_equal. replace (S (k-1)) with k by lia.
      assert (K : (k < length (sort v))%nat) by (rewrite sort_length; lia).
      revert K. generalize (sort v), k. clear. intros s. induction s as [|x s IH]; intros [|k] K; cbn in *; try lia; auto.
      apply IH. lia.
    + rewrite firstn_length, skipn_length, sort_length. lia.
  - left. set (k := Nat.div (length v) 2) in *.
    exists (firstn k (sort v)), (nth k (sort v) 0), (skipn (S k) (sort v)).
    split; [|split; auto].
    + apply nth_split_at. rewrite sort_length. lia.
    + rewrite firstn_length, skipn_length, sort_length. lia.
Qed.

Lemma app_len_inj {A} (l l' r r' : list A) : length l = length l' -> l ++ r = l' ++ r' -> l = l' /\ r = r'.
Proof.
  revert l'. induction l as [|x l IH]; intros [|y l'] H E; cbn in *; try discriminate; auto.
  injection E as -> E. injection H as H. destruct (IH _ H E) as [-> ->]. auto.
Qed.
Lemma is_median_unique v m m' : is_median v m -> is_median v m' -> m = m'.
Proof.
  intros (s & Hs & C) (s' & Hs' & C'). apply sorted_version_sort in Hs, Hs'. subst s s'.
  destruct C as [(l & x & r & E & L & ->)|(l & x & y & r & E & L & ->)];
  destruct C' as [(l' & x' & r' & E' & L' & ->)|(l' & x' & y' & r' & E' & L' & ->)];
  rewrite E in E'; pose proof (f_equal (@length R) E') as Q; rewrite !app_length in Q; cbn in Q; try (exfalso; lia).
  - apply app_len_inj in E' as [_ E']; [|lia]. injection E'. auto.
  - apply app_len_inj in E' as [_ E']; [|lia]. injection E'. intros; subst. auto.
Qed.
Lemma is_median_perm v v' m : Permutation v v' -> is_median v m -> is_median v' m.
Proof. intros P (s & (Q & S) & C). exists s. split; auto. split; auto. eapply perm_trans; [apply Permutation_sym|]; eauto. Qed.
Lemma median_perm v v' : Permutation v v' -> median v = median v'.
Proof.
  intros P. destruct v as [|x v].
  - apply Permutation_nil in P. subst. auto.
  - apply (is_median_unique v').
    + eapply is_median_perm; [exact P|]. apply median_spec. discriminate.
    + apply median_spec. intros ->. apply Permutation_sym, Permutation_nil in P. discriminate.
Qed.
Lemma is_median_between v m : is_median v m -> exists x y, In x v /\ In y v /\ x <= m <= y.
Proof.
  intros (s & (P & S) & [(l & x & r & E & _ & ->)|(l & x & y & r & E & _ & ->)]).
  - exists x, x. assert (In x v). { eapply Permutation_in; [apply Permutation_sym; exact P|]. subst s. apply in_elt. }
    split; auto. split; auto. lra.
  - exists x, y. 
    assert (x <= y).
    { subst s. clear P. induction l as [|a l IH]; cbn in S; inversion S as [|? ? S1 F1]; subst; auto.
      rewrite Forall_forall in F1. apply F1. left; auto. }
    split; [|split; [|lra]]; (eapply Permutation_in; [apply Permutation_sym; exact P|]); subst s; apply in_or_app; cbn; auto.
Qed.
Lemma median_bounds v a b : v <> [] -> (forall x, In x v -> a <= x <= b) -> a <= median v <= b.
Proof.
  intros Hn H. destruct (is_median_between v _ (median_spec v Hn)) as (x & y & Hx & Hy & B).
  apply H in Hx, Hy. lra.
Qed.
Lemma median_translate v c : v <> [] -> median (map (fun x => x + c) v) = median v + c.
Proof.
  intros Hn. apply (is_median_unique (map (fun x => x + c) v)).
  - apply median_spec. destruct v; [congruence|discriminate].
  - destruct (median_spec v Hn) as (s & (P & S) & C). exists (map (fun x => x + c) s). split.
    + split; [apply Permutation_map; auto|]. clear -S. induction S; cbn; constructor; auto.
      apply Forall_map. eapply Forall_impl; [|exact H]. cbn; intros; lra.
    + destruct C as [(l & x & r & -> & L & ->)|(l & x & y & r & -> & L & ->)].
      * left. exists (map (fun x => x + c) l), (x + c), (map (fun x => x + c) r).
        rewrite map_app, !map_length. auto.
      * right. exists (map (fun x => x + c) l), (x + c), (y + c), (map (fun x => x + c) r).
        rewrite map_app, !map_length. split; auto. split; auto. lra.
Qed.
Lemma median_const {A} (f : A -> R) l c : l <> [] -> (forall x, In x l -> f x = c) -> median (map f l) = c.
Proof.
  intros Hn H. assert (c <= median (map f l) <= c); [|lra]. apply median_bounds.
  - destruct l; [congruence|discriminate].
  - intros x Hx. apply in_map_iff in Hx as (y & <- & Hy). rewrite H; auto. lra.
Qed.

(** at least half of the values on each side *)
Definition Rleb (x y : R) : bool := negb (Rltb y x).
Lemma Rleb_true x y : Rleb x y = true <-> x <= y.
Proof.
  unfold Rleb. destruct (Rltb y x) eqn:E; cbn; [apply Rltb_true in E|apply Rltb_false in E]; split; intros; auto; try discriminate; lra.
Qed.
Lemma filter_perm_length {A} (f : A -> bool) l l' : Permutation l l' -> length (filter f l) = length (filter f l').
Proof. induction 1; cbn; try lia; [destruct (f x); cbn; lia|destruct (f x), (f y); cbn; lia]. Qed.
Lemma filter_all {A} (f : A -> bool) l : (forall x, In x l -> f x = true) -> filter f l = l.
Proof. induction l as [|x l IH]; cbn; intros H; auto. rewrite H by auto. f_equal. apply IH. auto. Qed.

Lemma sorted_app_le l : forall x r, StronglySorted Rle (l ++ x :: r) -> (forall y, In y l -> y <= x) /\ (forall y, In y r -> x <= y).
Proof.
  induction l as [|a l IH]; cbn; intros x r S; inversion S as [|? ? S1 F1]; subst; rewrite Forall_forall in F1.
  - split; [intros y []|auto].
  - destruct (IH _ _ S1) as (I1 & I2). split; auto. intros y [<-|Hy]; auto. apply F1. apply in_elt.
Qed.
Lemma median_half v : v <> [] ->
  (length v <= 2 * length (filter (fun x => Rleb x (median v)) v))%nat /\
  (length v <= 2 * length (filter (fun x => Rleb (median v) x) v))%nat.
Proof.
  intros Hn. destruct (median_spec v Hn) as (s & (P & S) & C).
  rewrite (Permutation_length P), !(filter_perm_length _ _ _ P). set (m := median v) in *. clearbody m.
  destruct C as [(l & x & r & -> & L & ->)|(l & x & y & r & -> & L & ->)].
  - destruct (sorted_app_le _ _ _ S) as (I1 & I2). rewrite !filter_app. cbn [filter].
    assert (Rleb x x = true) as -> by (apply Rleb_true; lra).
    rewrite !app_length; cbn [length]. split.
    + rewrite (filter_all _ l); [lia|]. intros; apply Rleb_true; auto.
    + rewrite (filter_all _ r); [lia|]. intros; apply Rleb_true; auto.
  - assert (S2 : StronglySorted Rle ((l ++ [x]) ++ y :: r)) by (rewrite <- app_assoc; auto).
    destruct (sorted_app_le _ _ _ S) as (I1 & I2). destruct (sorted_app_le _ _ _ S2) as (I3 & I4).
    assert (x <= y) by (apply I2; left; auto).
    rewrite !filter_app. cbn [filter].
    assert (Rleb x ((x + y) / 2) = true) as -> by (apply Rleb_true; lra).
    assert (Rleb ((x + y) / 2) y = true) as -> by (apply Rleb_true; lra).
    rewrite !app_length; cbn [length]. split.
    + rewrite (filter_all _ l); [lia|]. intros z Hz; apply Rleb_true. apply I1 in Hz. lra.
    + rewrite (filter_all _ r); [destruct (Rleb ((x+y)/2) x); cbn [length]; lia|]. intros z Hz; apply Rleb_true. apply I4 in Hz. lra.
Qed.

(** breakdown: if strictly more than half of the values lie in [a,b], so does the median *)
Lemma filter_split {A} (f g : A -> bool) l : (forall x, In x l -> f x = true -> g x = true -> False) ->
  (length (filter f l) + length (filter g l) <= length l)%nat.
Proof.
  induction l as [|x l IH]; cbn; intros H; auto.
  assert (length (filter f l) + length (filter g l) <= length l)%nat by (apply IH; intros; eapply H; eauto).
  destruct (f x) eqn:F, (g x) eqn:G; cbn; try lia. exfalso. eapply H; eauto.
Qed.
Lemma median_breakdown v a b :
  (length v < 2 * length (filter (fun x => andb (Rleb a x) (Rleb x b)) v))%nat -> a <= median v <= b.
Proof.
  intros H. assert (Hn : v <> []) by (intros ->; cbn in H; lia).
  destruct (median_half v Hn) as (H1 & H2). split.
  - destruct (Rle_or_lt a (median v)) as [|K]; auto. exfalso.
    pose proof (filter_split (fun x => andb (Rleb a x) (Rleb x b)) (fun x => Rleb x (median v)) v) as Q.
    cut (length (filter (fun x => andb (Rleb a x) (Rleb x b)) v) + length (filter (fun x => Rleb x (median v)) v) <= length v)%nat; [lia|].
    apply Q. intros x _ A B. apply andb_prop in A as (A & _). apply Rleb_true in A, B. lra.
  - destruct (Rle_or_lt (median v) b) as [|K]; auto. exfalso.
    pose proof (filter_split (fun x => andb (Rleb a x) (Rleb x b)) (fun x => Rleb (median v) x) v) as Q.
    cut (length (filter (fun x => andb (Rleb a x) (Rleb x b)) v) + length (filter (fun x => Rleb (median v) x) v) <= length v)%nat; [lia|].
    apply Q. intros x _ A B. apply andb_prop in A as (_ & A). apply Rleb_true in A, B. lra.
Qed.

(** ** Averages of equal rotations and poses *)
Lemma collect_total {A B} (f : A -> option B) l : (forall x, In x l -> exists y, f x = Some y) ->
  exists ys, collect (map f l) = Some ys /\ Forall2 (fun x y => f x = Some y) l ys.
Proof.
  induction l as [|x l IH]; intros H; cbn; [eexists; split; [reflexivity|constructor]|].
  destruct (H x) as (y & E); [left; auto|]. destruct IH as (ys & E2 & F); [intros; apply H; right; auto|].
  rewrite E, E2. eexists; split; [reflexivity|constructor; auto].
Qed.
Lemma quat_average_log svd log_rot rs A : svd_ok svd -> log_ok log_rot -> rs <> [] ->
  (forall r, In r rs -> exp_rot r = A) ->
  getAverageRotation svd log_rot true rs = Some (log_rot A) /\ exp_rot (log_rot A) = A.
Proof.
  intros Hs Hl Hn H. 
  assert (HA : rotation A). { destruct rs as [|r rs]; [congruence|]. rewrite <- (H r) by (left; auto). apply exp_rot_rotation. }
  destruct (quat_of_rot_main A HA) as (q & Eq & Uq & Rq).
  destruct (collect_total (fun r => quat_of_rot (exp_rot r)) rs) as (ys & E & F).
  { intros r Hr. rewrite (H r Hr). eauto. }
  assert (Fq : Forall (fun p => p = q) ys).
  { clear -F H Eq. induction F as [|x y l l' E F IH]; constructor.
    - rewrite (H x) in E by (left; auto). congruence.
    - apply IH. intros; apply H; right; auto. }
  assert (Ny : ys <> []) by (intros ->; inversion F; subst; congruence).
  split; [|apply Hl; auto]. unfold getAverageRotation. rewrite E. destruct ys as [|y ys]; [congruence|].
  assert (D : dominant (avg_matrix (y :: ys)) (svd (avg_matrix (y :: ys)))).
  { apply Hs. exists q. apply same_dominant; auto. }
  assert (rot_of_quat (svd (avg_matrix (y :: ys))) = A) as ->.
  { destruct (dominant_same _ _ _ Ny Fq Uq D) as [-> | ->]; auto. rewrite rot_of_quat_neg. auto. }
  auto.
Qed.
Lemma quat_average_same svd log_rot rs A : svd_ok svd -> log_ok log_rot -> rs <> [] ->
  (forall r, In r rs -> exp_rot r = A) ->
  exists r, getAverageRotation svd log_rot true rs = Some r /\ exp_rot r = A.
Proof. intros Hs Hl Hn H. exists (log_rot A). apply quat_average_log; auto. Qed.
Lemma vec_average_same svd log_rot rs r : rs <> [] -> (forall r', In r' rs -> r' = r) ->
  getAverageRotation svd log_rot false rs = Some r.
Proof.
  intros Hn H. cbn. rewrite (median_const vx rs (vx r)), (median_const vy rs (vy r)), (median_const vz rs (vz r)); auto;
    try (intros x Hx; rewrite (H x Hx); auto). destruct r; auto.
Qed.
Lemma average_pose_same svd log_rot b ps P : svd_ok svd -> log_ok log_rot -> rigid P -> ps <> [] ->
  (forall p, In p ps -> p = P) -> average_pose svd log_rot b ps = Some P.
Proof.
  intros Hs Hl HP Hn H. unfold average_pose, Proj2RT. rewrite !map_map. cbn [fst snd].
  rewrite (median_const (fun x : pose => vx (snd x)) ps (vx (snd P))),
    (median_const (fun x : pose => vy (snd x)) ps (vy (snd P))),
    (median_const (fun x : pose => vz (snd x)) ps (vz (snd P))); auto;
    try (intros x Hx; rewrite (H x Hx); auto).
  assert (Nl : map (fun x : pose => log_rot (fst x)) ps <> []) by (destruct ps; [congruence|discriminate]).
  destruct b.
  - destruct (quat_average_same svd log_rot (map (fun x : pose => log_rot (fst x)) ps) (fst P) Hs Hl Nl) as (r & Er & E).
    { intros r Hr. apply in_map_iff in Hr as (p & <- & Hp). rewrite (H p Hp). apply Hl; auto. }
    rewrite Er.
    unfold RVecT2Proj. rewrite E. destruct P as [A [x y z]]; auto.
  - rewrite (vec_average_same svd log_rot _ (log_rot (fst P)) Nl).
    { unfold RVecT2Proj. rewrite Hl by auto. destruct P as [A [x y z]]; auto. }
    intros r Hr. apply in_map_iff in Hr as (p & <- & Hp). rewrite (H p Hp). auto.
Qed.

(** the rotation-vector median is not a rotation average: the same half turn written
    with the two opposite vectors averages to the identity *)
Lemma norm_x (x : R) : vnorm (V3 x 0 0) = Rabs x.
Proof. unfold vnorm, vdot; cbn. replace (x * x + 0 * 0 + 0 * 0) with (Rsqr x) by (unfold Rsqr; ring). apply sqrt_Rsqr_abs. Qed.
Definition half_turn : mat3 := M3 1 0 0 0 (-1) 0 0 0 (-1).
Lemma half_turn_p : exp_rot (V3 PI 0 0) = half_turn.
Proof.
  unfold exp_rot. rewrite norm_x. pose proof PI_RGT_0. rewrite Rabs_right by lra.
  destruct (Req_EM_T PI 0); [lra|]. rewrite cos_PI, sin_PI. cbn.
  rewrite Rinv_l by lra. apply mat3_eq; cbn; try ring.
Qed.
Lemma half_turn_n : exp_rot (V3 (-PI) 0 0) = half_turn.
Proof.
  unfold exp_rot. rewrite norm_x. pose proof PI_RGT_0. rewrite Rabs_Ropp, Rabs_right by lra.
  destruct (Req_EM_T PI 0); [lra|]. rewrite cos_PI, sin_PI. cbn.
  replace (/ PI * - PI) with (-1) by (field; lra). apply mat3_eq; cbn; try ring.
Qed.
Lemma exp_rot_0 : exp_rot vzero = mid.
Proof.
  unfold exp_rot. replace vzero with (V3 0 0 0) by auto. rewrite norm_x, Rabs_R0.
  destruct (Req_EM_T 0 0); [auto|congruence].
Qed.
Lemma vec_average_wraps svd log_rot :
  exists r, getAverageRotation svd log_rot false [V3 PI 0 0; V3 (-PI) 0 0] = Some r /\ exp_rot r = mid.
Proof.
  exists (V3 0 0 0). split; [|apply exp_rot_0]. cbn -[Rltb]. f_equal.
  pose proof PI_RGT_0.
  assert (Rltb (-PI) PI = true) as E by (apply Rltb_true; lra).
  assert (Rltb 0 0 = false) as E0 by (apply Rltb_false; lra).
  unfold median. cbn -[Rltb]. rewrite E, ?E0. cbn. f_equal; lra.
Qed.

