(** Pose estimation from noise-free detections finds the true poses. *)
From Coq Require Import List ZArith Lia Reals Lra Sorted Permutation.
From Verif Require Import SMap DataModel DataSpec DetectModel DetectSpec DetectProofs RansacModel RansacSpec RansacProofs RansacExact GeomModel GeomSpec GeomProofs
  CameraModel ResidualModel ResidualSpec ResidualProofs ResidualMain RigSpec.
Import ListNotations.
Open Scope R_scope.

Lemma matrix_Proj lr P : log_ok lr -> rigid P -> matrix (Proj2RT lr P) = P.
Proof. intros LO RP. unfold matrix, Proj2RT, RVecT2Proj. cbn [fst snd]. rewrite (LO _ RP). destruct P as [A [x y z]]; auto. Qed.
Lemma image_flat i P q : vz (pact P q) <> 0 ->
  image 0 (I9 (a0 i) (a1 i) (a2 i) (a3 i) 0 0 0 0 0) P q = Some (a0 i * (vx (pact P q) / vz (pact P q)) + a2 i, a1 i * (vy (pact P q) / vz (pact P q)) + a3 i).
Proof.
  intros N. unfold image. destruct (Req_EM_T (vz (pact P q)) 0) as [E|_]; [contradiction|]. cbn [lens option_map a0 a1 a2 a3 a4 a5 a6 a7 a8 fst snd]. apply some_pair; ring.
Qed.
Lemma Forall2_nth_in {A B} (R : A -> B -> Prop) l l' : Forall2 R l l' -> forall i x y, nth_error l i = Some x -> nth_error l' i = Some y -> R x y.
Proof. induction 1; intros [|i] a b E1 E2; cbn in *; try discriminate; eauto. injection E1 as <-. injection E2 as <-. auto. Qed.
Lemma Forall2_of_nth {A B} (R : A -> B -> Prop) l l' : length l = length l' -> (forall i x y, nth_error l i = Some x -> nth_error l' i = Some y -> R x y) -> Forall2 R l l'.
Proof.
  revert l'. induction l as [|a l IH]; intros [|b l'] L H; try discriminate L; constructor; [apply (H 0%nat); reflexivity|].
  apply IH; [cbn in L; lia|]. intros i x y E1 E2. apply (H (S i)); auto.
Qed.

Section PnP.
Variables (lr : mat3 -> vec3) (bpts : Z -> list vec3) (w : rig) (ins : list (insertion pt2)).
Hypothesis LO : log_ok lr.
Hypothesis RG : rigid_rig w.
Hypothesis ED : exact_detections bpts w ins.
Hypothesis GP : general_position bpts w ins.
Variable env : rs_env par6 vec3.
Hypothesis PN : exact_pnp lr env.
Hypothesis UN : exact_undistort bpts w ins env.

Lemma world_rigid c f : rigid (world_at w c f).
Proof. destruct RG as (_ & RC & RF & _). apply rigid_mul; auto. Qed.

(** the scene points are corners [cs] seen by camera c in frame f, in coordinates that B
    takes to the world *)
Variables (c f : Z) (B : pose) (scene : list vec3) (img : list pt2) (cs : list (Z * Z)).
Hypothesis RB : rigid B.
Hypothesis L1 : length scene = length img.
Hypothesis L2 : length cs = length img.
Hypothesis L4 : (4 <= length img)%nat.
Hypothesis ND : NoDup cs.
Hypothesis Sc : forall j b k s m, nth_error cs j = Some (b, k) -> nth_error scene j = Some s -> nth_error img j = Some m ->
  sighted ins c f b k m /\ forall q, corner bpts b k q -> pact B s = pact (rg_board w b) q.
Let X := pmul (world_at w c f) B.
Let i' := flat (rg_model w c) (rg_intr w c).
Let img' := if Z.eqb (rg_model w c) 0 then img else map (undistorted env (matrix_of (rg_intr w c)) [a4 (rg_intr w c); a5 (rg_intr w c); a6 (rg_intr w c); a7 (rg_intr w c)]) img.

Lemma X_rigid : rigid X.
Proof. apply rigid_mul; auto. apply world_rigid. Qed.
Lemma img'_length : length img' = length img.
Proof. unfold img'. destruct (Z.eqb _ _); [auto|apply map_length]. Qed.
(** each correspondence fits *)
Lemma fit_at j s m : nth_error scene j = Some s -> nth_error img' j = Some m -> 0 < vz (pact X s) /\ image 0 i' X s = Some m.
Proof.
  intros Es Em. assert (Hj : (j < length img)%nat) by (rewrite <- L1; apply nth_error_Some; congruence).
  destruct (nth_error cs j) as [(b, k)|] eqn:Ec; [|apply nth_error_None in Ec; lia].
  destruct (nth_error img j) as [u|] eqn:Eu; [|apply nth_error_None in Eu; lia].
  destruct (Sc j b k s u Ec Es Eu) as (Si & Wq). destruct (ed_image _ _ _ ED _ _ _ _ _ Si) as (q & Hq & Zp & Im).
  assert (EX : pact X s = pact (board_at w c f b) q) by (unfold X, board_at; rewrite !pact_mul, (Wq q Hq); auto).
  split; [rewrite EX; auto|].
  assert (E0 : image 0 i' X s = image 0 i' (board_at w c f b) q) by (unfold image; rewrite EX; auto). rewrite E0. clear E0.
  unfold i', flat, img' in *. destruct RG as (M & _). destruct (M c) as [E|E]; rewrite E in *; cbn [Z.eqb] in *.
  - rewrite Im. congruence.
  - rewrite nth_error_map, Eu in Em. cbn [option_map] in Em. injection Em as <-. rewrite image_flat by lra. unfold undistorted. rewrite (UN c f b k u q E Si Hq).
    cbn [fst snd matrix_of k_fx k_fy k_u0 k_v0]. apply some_pair; ring.
Qed.
Lemma all_fit : fits i' X scene img'.
Proof. apply Forall2_of_nth; [rewrite img'_length; auto|]. intros j s m. apply fit_at. Qed.

Lemma subset_fit idx s4 m4 P : Forall2 (fun i s => nth_error scene i = Some s) idx s4 -> Forall2 (fun i m => nth_error img' i = Some m) idx m4 ->
  fits i' P s4 m4 <-> (forall j, In j idx -> forall s m, nth_error scene j = Some s -> nth_error img' j = Some m -> 0 < vz (pact P s) /\ image 0 i' P s = Some m).
Proof.
  intros F1. revert m4. induction F1 as [|j s idx s4 Es F1 IH]; intros m4 F2; inversion F2 as [|? m ? m4' Em F2']; subst.
  - split; [intros _ j []|constructor].
  - split.
    + intros F. inversion F as [|? ? ? ? Fs Fr]; subst. intros j' [<-|Hj] s' m' Es' Em'; [rewrite Es in Es'; rewrite Em in Em'; injection Es' as <-; injection Em' as <-; auto|].
      exact (proj1 (IH m4' F2') Fr j' Hj s' m' Es' Em').
    + intros H. constructor; [apply (H j); auto; left; auto|]. apply (IH m4' F2'). intros j' Hj. apply H. right; auto.
Qed.

Lemma candidate before q : minimal_solution env (matrix_of i') (five i') scene img' before q -> q = Proj2RT lr X.
Proof.
  intros (idx & s4 & m4 & Li & Ni & F1 & F2 & ->).
  assert (Ls : length s4 = 4%nat) by (rewrite <- Li; clear - F1; induction F1; cbn; auto).
  assert (FX : fits i' X s4 m4) by (apply (subset_fit idx s4 m4 X F1 F2); intros j _ s m; apply fit_at).
  apply (pn_p3p _ _ PN); auto using X_rigid.
  intros P RP FP. 
  (* P seen from the world *)
  assert (EW : pmul P (pinv B) = world_at w c f).
  { set (l := flat_map (fun j => match nth_error cs j with Some bk => [bk] | None => [] end) idx).
    assert (Bd : forall j, In j idx -> (j < length cs)%nat).
    { intros j Hj. clear - F1 Hj L1 L2. induction F1 as [|a s idx s4 Es F1 IH]; [destruct Hj|]. destruct Hj as [<-|Hj]; [|auto]. rewrite L2, <- L1. apply nth_error_Some. congruence. }
    assert (Il : forall bk, In bk l <-> exists j, In j idx /\ nth_error cs j = Some bk).
    { intros bk. unfold l. rewrite in_flat_map. split; intros (j & Hj & H); exists j; (split; [auto|]).
      - destruct (nth_error cs j); [destruct H as [->|[]]; auto|destruct H].
      - rewrite H. left. auto. }
    apply (GP c f l).
    - unfold l. clear Il. rewrite <- Li. clear - Bd. induction idx as [|j idx IH]; cbn; auto.
      assert (Hj := Bd j (or_introl eq_refl)). destruct (nth_error cs j) as [bk|] eqn:E; [|apply nth_error_None in E; lia]. cbn. rewrite IH; auto. intros; apply Bd; right; auto.
    - unfold l. clear - Ni Bd ND. induction Ni as [|j idx Hj Ni IH]; cbn; [constructor|]. destruct (nth_error cs j) as [bk|] eqn:E; [|apply IH; intros; apply Bd; right; auto].
      cbn. constructor; [|apply IH; intros; apply Bd; right; auto]. intros H. apply in_flat_map in H as (j' & Hj' & H). destruct (nth_error cs j') as [bk'|] eqn:E'; [|destruct H].
      destruct H as [->|[]]. assert (j = j'); [|congruence]. apply (proj1 (NoDup_nth_error cs) ND); [apply Bd; left; auto|congruence].
    - intros b k H. apply Il in H as (j & Hj & Ec). assert (Hl := Bd j Hj). destruct (nth_error scene j) as [s|] eqn:Es; [|apply nth_error_None in Es; lia].
      destruct (nth_error img j) as [u|] eqn:Eu; [|apply nth_error_None in Eu; lia]. exists u. apply (Sc j b k s u Ec Es Eu).
    - apply rigid_mul; auto using rigid_inv.
    - intros b k q H Hq. apply Il in H as (j & Hj & Ec). assert (Hl := Bd j Hj). destruct (nth_error scene j) as [s|] eqn:Es; [|apply nth_error_None in Es; lia].
      destruct (nth_error img j) as [u|] eqn:Eu; [|apply nth_error_None in Eu; lia]. destruct (nth_error img' j) as [u'|] eqn:Eu'; [|apply nth_error_None in Eu'; rewrite img'_length in Eu'; lia].
      destruct (Sc j b k s u Ec Es Eu) as (_ & Wq). rewrite <- (Wq q Hq).
      assert (EP : forall x, pact (pmul P (pinv B)) (pact B x) = pact P x) by (intros x; rewrite <- pact_mul, <- pmul_assoc, pinv_l, pmul_id_r by auto; auto).
      rewrite EP. destruct (proj1 (subset_fit idx s4 m4 P F1 F2) FP j Hj s u' Es Eu') as (Zp & Ip). split; [auto|].
      destruct (fit_at j s u' Es Eu') as (_ & Ix). fold i'. transitivity (image 0 i' P s); [unfold image; rewrite EP; reflexivity|]. rewrite Ip, <- Ix. unfold X, image. rewrite pact_mul. reflexivity. }
  unfold X. rewrite <- EW, <- pmul_assoc, pinv_l, pmul_id_r by auto. auto.
Qed.

Theorem pnp_exact best0 thresh it prob : 0 < thresh -> (0 < it)%Z ->
  exists r, ransacP3PDistortion env (matrix_of (rg_intr w c)) (getDistortionVector (rg_model w c) (rg_intr w c)) scene img best0 thresh it (rg_model w c) prob true = Some r /\
    rr_inliers r = seq 0 (length img) /\ rr_pose r = Proj2RT lr X.
Proof.
  intros Tp Hit.
  destruct (ransac_exact env (pn_fair _ _ PN) (matrix_of i') (five i') scene img' thresh prob (Proj2RT lr X)) with (best0 := best0) (it := it) as (r & Er & Ei & Ep).
  - rewrite img'_length. auto.
  - rewrite img'_length. auto.
  - auto.
  - apply candidate.
  - intros j s m Es Em. apply (pn_project _ _ PN). rewrite matrix_Proj by (auto using X_rigid). apply (fit_at j s m Es Em).
  - auto.
  - exists r. rewrite img'_length in Ei. rewrite (pn_refine _ _ PN i' X scene img' X_rigid all_fit) in Ep. split; [|auto].
    unfold ransacP3PDistortion, i', flat, img' in *. destruct RG as (M & _). destruct (M c) as [E|E]; rewrite E in *; cbn [Z.eqb] in *; exact Er.
Qed.
End PnP.
