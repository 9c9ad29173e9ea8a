(** Pose estimation from detections with wrong corners leaves the right ones. *)
From Coq Require Import List ZArith Lia Reals Lra Sorted Permutation.
From Verif Require Import SMap DataModel DataSpec DataProofs DetectModel DetectSpec DetectProofs RansacModel RansacSpec RansacProofs RansacExact RansacRobust GeomModel GeomSpec GeomProofs
  CameraModel ResidualModel ResidualSpec ResidualProofs ResidualMain RigSpec RigPnP OutlierSpec.
Import ListNotations.
Open Scope R_scope.

Lemma sub_index {A} (l : list A) idx : incl idx l -> exists ps, Forall2 (fun p j => nth_error l p = Some j) ps idx.
Proof.
  induction idx as [|j idx IH]; intros H; [exists []; constructor|]. destruct (In_nth_error l j (H j (or_introl eq_refl))) as (p & Hp).
  destruct IH as (ps & F); [intros x Hx; apply H; right; auto|]. exists (p :: ps). constructor; auto.
Qed.
Lemma sub_index_NoDup {A} (l : list A) ps idx : Forall2 (fun p j => nth_error l p = Some j) ps idx -> NoDup idx -> NoDup ps.
Proof.
  induction 1 as [|p j ps idx E F IH]; intros N; [constructor|]. inversion N as [|? ? N1 N2]; subst. constructor; [|auto]. intros Hp. apply N1. clear - E F Hp.
  induction F as [|p' j' ps idx E' F IH]; [destruct Hp|]. destruct Hp as [->|Hp]; [left; congruence|right; auto].
Qed.
Lemma sublist_nth {A} (l : list A) idx r p j x : sublist_at l idx r -> nth_error idx p = Some j -> nth_error l j = Some x -> nth_error r p = Some x.
Proof. intros H. revert p. induction H as [|k y idx r E H IH]; intros [|p] Hp Hx; cbn in *; try discriminate Hp; [injection Hp as ->; congruence|auto]. Qed.
Lemma sublist_back {A} (l : list A) idx r p x : sublist_at l idx r -> nth_error r p = Some x -> exists j, nth_error idx p = Some j /\ nth_error l j = Some x.
Proof. intros H. revert p. induction H as [|k y idx r E H IH]; intros [|p] Hx; cbn in *; try discriminate Hx; [injection Hx as ->; eauto|auto]. Qed.
Lemma sublist_sub {A} (l : list A) keep r ps idx s : sublist_at l keep r -> Forall2 (fun p j => nth_error keep p = Some j) ps idx -> sublist_at l idx s -> Forall2 (fun p x => nth_error r p = Some x) ps s.
Proof.
  intros H F. revert s. induction F as [|p j ps idx E F IH]; intros s S; inversion S; subst; constructor; [eapply sublist_nth; eauto|auto].
Qed.
Lemma sublist_map {A B} (f : A -> B) l idx r : sublist_at l idx r -> sublist_at (map f l) idx (map f r).
Proof. induction 1 as [|k y idx r E H IH]; cbn [map]; constructor; [rewrite nth_error_map, E; auto|auto]. Qed.
Lemma sublist_map_back {A B} (f : A -> B) l idx r : sublist_at (map f l) idx r -> exists r0, sublist_at l idx r0 /\ r = map f r0.
Proof.
  induction 1 as [|k y idx r E H IH]; [exists []; split; [constructor|auto]|]. rewrite nth_error_map in E. destruct (nth_error l k) as [x|] eqn:Ex; [|discriminate E]. injection E as <-.
  destruct IH as (r0 & F & ->). exists (x :: r0). split; [constructor; auto|auto].
Qed.
Lemma sublist_len {A} (l : list A) idx r : sublist_at l idx r -> length r = length idx.
Proof. induction 1; cbn; auto. Qed.

Lemma corners_found bpts b ids sc : Forall2 (corner bpts b) ids sc -> collect (map (zget (bpts b)) ids) = Some sc.
Proof. induction 1 as [|k s ids sc Hk F IH]; [reflexivity|]. cbn [map collect]. rewrite (proj2 (zget_some _ _ _) Hk), IH. reflexivity. Qed.

Section Wrong.
Variables (lr : mat3 -> vec3) (bpts : Z -> list vec3) (w : rig) (ins : list (insertion pt2)).
Hypothesis LO : log_ok lr.
Hypothesis RG : rigid_rig w.
Hypothesis ED : exact_detections bpts w ins.
Hypothesis GP : general_position bpts w ins.
Variable env : rs_env par6 vec3.
Hypothesis PN : exact_pnp lr env.
Hypothesis UN : exact_undistort bpts w ins env.
Variables (thresh : R) (it : Z) (i i0 : insertion pt2).
Hypothesis Tp : 0 < thresh.
Hypothesis Hi0 : In i0 ins.
Hypothesis CL : cleaned bpts w i i0.
Hypothesis TA : told_apart bpts w thresh it env i i0.
Let c := i_cam i.
Let f := i_frame i.
Let b := i_board i.
Let ic := rg_intr w c.
Let fl := flat (rg_model w c) ic.
Let X := board_at w c f b.
Let img := map (working w env c) (i_pts i).

Lemma X_rigid' : rigid X.
Proof. destruct RG as (_ & RC & RF & RB). apply rigid_mul; [apply rigid_mul|]; auto. Qed.
Lemma working_flat m : rg_model w c = 0%Z -> working w env c m = m.
Proof. intros E. unfold working. rewrite E. reflexivity. Qed.
Lemma working_fish m : rg_model w c = 1%Z -> working w env c m = undistorted env (matrix_of ic) [a4 ic; a5 ic; a6 ic; a7 ic] m.
Proof. intros E. unfold working, undistorted. rewrite E. fold ic. cbn [Z.eqb matrix_of k_fx k_fy k_u0 k_v0]. destruct (rs_undistort env _ _ m) as (x, y). reflexivity. Qed.

(** a right corner fits after undistortion *)
Lemma right_fit j k m q : right bpts w i j -> nth_error (i_ids i) j = Some k -> nth_error (i_pts i) j = Some m -> corner bpts b k q ->
  0 < vz (pact X q) /\ image 0 fl X q = Some (working w env c m).
Proof.
  intros R Hk Hm Hq. assert (S : sighted ins c f b k m).
  { destruct CL as (E1 & E2 & E3 & _ & keep & _ & KR & SI & SP). apply KR in R. destruct (In_nth_error _ _ R) as (p & Hp). exists i0, p.
    split; [auto|]. split; [auto|]. split; [auto|]. split; [auto|]. split; [exact (sublist_nth _ _ _ _ _ _ SI Hp Hk)|exact (sublist_nth _ _ _ _ _ _ SP Hp Hm)]. }
  destruct (ed_image _ _ _ ED _ _ _ _ _ S) as (q' & Hq' & Z & I). assert (q' = q) by (destruct Hq as (_ & A), Hq' as (_ & B); congruence). subst q'. fold X in Z, I. split; [exact Z|].
  destruct RG as (M & _). destruct (M c) as [E|E].
  - rewrite working_flat by auto. unfold fl, flat. rewrite E in *. exact I.
  - rewrite working_fish by auto. unfold fl, flat. rewrite E. cbn [Z.eqb]. rewrite image_flat by lra. unfold undistorted. unfold ic. rewrite (UN c f b k m q E S Hq). fold X.
    cbn [fst snd matrix_of k_fx k_fy k_u0 k_v0]. apply some_pair; ring.
Qed.

Variable sc : list vec3.
Hypothesis Esc : Forall2 (corner bpts b) (i_ids i) sc.
Lemma sc_length : length sc = length img.
Proof. unfold img. rewrite map_length, <- (ta_length _ _ _ _ _ _ _ TA). clear - Esc. induction Esc; cbn; auto. Qed.
Lemma sc_nth j s : nth_error sc j = Some s -> exists k m, nth_error (i_ids i) j = Some k /\ nth_error (i_pts i) j = Some m /\ corner bpts b k s /\ nth_error img j = Some (working w env c m).
Proof.
  intros H. assert (L : (j < length sc)%nat) by (apply nth_error_Some; congruence). rewrite sc_length in L. unfold img in *. rewrite map_length in L.
  destruct (nth_error (i_ids i) j) as [k|] eqn:Ek; [|apply nth_error_None in Ek; rewrite (ta_length _ _ _ _ _ _ _ TA) in Ek; lia].
  destruct (nth_error (i_pts i) j) as [m|] eqn:Em; [|apply nth_error_None in Em; lia].
  exists k, m. split; [auto|]. split; [auto|]. split; [exact (Forall2_nth_in _ _ _ Esc j k s Ek H)|]. rewrite nth_error_map, Em. reflexivity.
Qed.
Lemma right_consensus keep : StronglySorted lt keep -> (forall j, In j keep <-> right bpts w i j) ->
  consensus env (matrix_of fl) (five fl) sc img thresh (Proj2RT lr X) keep.
Proof.
  intros S KR. split; [auto|]. intros j. split.
  - intros Hj. apply KR in Hj. assert (Hj' := Hj). destruct Hj' as (k & m & q & Hk & Hm & Hq & _). destruct (right_fit j k m q Hj Hk Hm Hq) as (_ & I).
    destruct (nth_error sc j) as [s|] eqn:Es.
    2:{ apply nth_error_None in Es. rewrite sc_length in Es. unfold img in Es. rewrite map_length in Es. assert (j < length (i_pts i))%nat by (apply nth_error_Some; congruence). lia. }
    exists s, (working w env c m). split; [auto|]. split; [unfold img; rewrite nth_error_map, Hm; auto|].
    assert (s = q) by (assert (Q := Forall2_nth_in _ _ _ Esc j k s Hk Es); destruct Q as (_ & A), Hq as (_ & B); unfold b in A; congruence). subst s.
    rewrite (pn_project _ _ PN fl (Proj2RT lr X) q (working w env c m)) by (rewrite matrix_Proj by (auto using X_rigid'); auto).
    unfold dist2. replace (_ + _) with 0 by ring. rewrite sqrt_0. auto.
  - intros (s & m' & Es & Em' & Dm). destruct (in_dec Nat.eq_dec j keep) as [|N]; [auto|exfalso]. destruct (sc_nth j s Es) as (k & m & Hk & Hm & Hq & Ei). assert (m' = working w env c m) by congruence. subst m'.
    destruct (ta_far _ _ _ _ _ _ _ TA j k m s Hk Hm Hq) as (m' & I & F); [rewrite <- KR; auto|]. fold c in I, F. fold f in I. fold b in I. fold X in I. fold ic in I. fold fl in I.
    rewrite (pn_project _ _ PN fl (Proj2RT lr X) s m') in Dm by (rewrite matrix_Proj by (auto using X_rigid'); auto). lra.
Qed.
Lemma right_sample keep idx before q : (forall j, In j keep <-> right bpts w i j) -> sublist_at (i_ids i) keep (i_ids i0) -> sublist_at (i_pts i) keep (i_pts i0) ->
  NoDup keep -> incl idx keep -> length idx = 4%nat -> NoDup idx -> made_from env (matrix_of fl) (five fl) sc img idx before q -> q = Proj2RT lr X.
Proof.
  intros KR SI SP NK I L N (s4 & m4 & Hs & Hm & ->). destruct (ed_corners _ _ _ ED i0 Hi0) as (NI & LI & L4).
  assert (Lk : length keep = length (i_pts i0)) by (symmetry; eapply sublist_len; eauto).
  assert (SS : exists sc0, sublist_at sc keep sc0).
  { destruct (pick_total sc keep) as (sc0 & E); [|exists sc0; apply pick_Some; auto]. apply Forall_forall. intros j Hj. apply KR in Hj as (k & m & ? & _ & Hm' & _). rewrite sc_length. unfold img. rewrite map_length. apply nth_error_Some. congruence. }
  destruct SS as (sc0 & SS). destruct (sub_index keep idx I) as (ps & Ps).
  change X with (pmul (world_at w c f) (rg_board w b)).
  apply (candidate lr bpts w ins RG ED GP env PN UN c f (rg_board w b) sc0 (i_pts i0) (map (pair b) (i_ids i0))) with (before := before).
  - apply RG.
  - rewrite (sublist_len _ _ _ SS), Lk. auto.
  - rewrite map_length. auto.
  - lia.
  - clear - NI. induction NI; cbn; constructor; auto. intros Q. apply in_map_iff in Q as (k & E & Q). injection E as ->. auto.
  - intros j b' k s m Hc Hs' Hm'. rewrite nth_error_map in Hc. destruct (nth_error (i_ids i0) j) as [k'|] eqn:Ek; [|discriminate Hc]. injection Hc as <- <-.
    destruct CL as (E1 & E2 & E3 & _). split; [exists i0, j; auto 10|]. intros q Hq.
    destruct (sublist_back _ _ _ _ _ SS Hs') as (j' & Hj & Es). destruct (sublist_back _ _ _ _ _ SI Ek) as (j2 & Hj2 & Ek2). assert (j2 = j') by congruence. subst j2.
    assert (Q := Forall2_nth_in _ _ _ Esc j' k' s Ek2 Es). destruct Q as (_ & A), Hq as (_ & B). f_equal. congruence.
  - exists ps, s4, m4. split; [rewrite <- L; clear - Ps; induction Ps; cbn; auto|]. split; [eapply sub_index_NoDup; eauto|]. split; [exact (sublist_sub _ _ _ _ _ _ SS Ps Hs)|]. split; [|reflexivity].
    unfold img in Hm. assert (SPm := sublist_map (working w env c) _ _ _ SP). destruct RG as (M & _). destruct (M c) as [E|E].
    + rewrite E. cbn [Z.eqb]. replace (i_pts i0) with (map (working w env c) (i_pts i0)) by (rewrite (map_ext _ (fun m => m)); [apply map_id|intros; apply working_flat; auto]). exact (sublist_sub _ _ _ _ _ _ SPm Ps Hm).
    + rewrite E. cbn [Z.eqb]. fold ic. rewrite (map_ext _ (working w env c)); [|intros; symmetry; apply working_fish; auto]. exact (sublist_sub _ _ _ _ _ _ SPm Ps Hm).
Qed.
Theorem wrong_removed cam p0 : (cp_K cam, cp_D cam, cp_model cam) = (matrix_of ic, getDistortionVector (rg_model w c) ic, rg_model w c) ->
  boardobs_estimatePose env cam (bpts b) p0 thresh it (new_obs i) = Some (new_obs i0, Proj2RT lr X).
Proof.
  intros Ecam. injection Ecam as EK EDv EM. assert (CL' := CL). destruct CL' as (E1 & E2 & E3 & _ & keep & SK & KR & SI & SP).
  assert (FC : collect (map (zget (bpts b)) (i_ids i)) = Some sc).
  { apply corners_found. exact Esc. }
  unfold boardobs_estimatePose. cbn [new_obs o_ids o_pts o_cam o_frame o_board o_valid]. rewrite FC, EK, EDv, EM.
  destruct (ta_lucky _ _ _ _ _ _ _ TA) as (k0 & K1 & K2 & K3). assert (Ln : length img = length (i_pts i)) by (unfold img; apply map_length).
  destruct (ed_corners _ _ _ ED i0 Hi0) as (NI & LI & L4). assert (Lk : length keep = length (i_ids i0)) by (symmetry; eapply sublist_len; eauto).
  assert (NK : NoDup keep) by (clear - SK; induction SK as [|x l S IH F]; constructor; auto; intros H; assert (Q := proj1 (Forall_forall _ _) F x H); lia).
  assert (N4 : (4 <= length img)%nat).
  { assert (Q : (length keep <= length (seq 0 (length (i_pts i))))%nat).
    { apply NoDup_incl_length; auto. intros j Hj. apply KR in Hj as (k & m & ? & _ & Hm & _). apply in_seq. assert (j < length (i_pts i))%nat by (apply nth_error_Some; congruence). lia. }
    rewrite seq_length in Q. lia. }
  assert (CC := right_consensus keep SK KR).
  assert (Nrm : ransacP3PDistortion env (matrix_of ic) (getDistortionVector (rg_model w c) ic) sc (i_pts i) p0 thresh it (rg_model w c) (99 / 100) true = ransacP3P env (matrix_of fl) (five fl) sc img p0 thresh it (99 / 100) true).
  { unfold ransacP3PDistortion, fl, flat, img. destruct RG as (M & _). destruct (M c) as [E|E]; rewrite E; cbn [Z.eqb].
    - rewrite (map_ext _ (fun m => m)); [rewrite map_id|intros; apply working_flat; auto]. reflexivity.
    - rewrite (map_ext _ (working w env c)); [reflexivity|intros; symmetry; apply working_fish; auto]. }
  rewrite Nrm. assert (Kf : matrix_of fl = matrix_of ic) by (unfold fl, flat; destruct (Z.eqb _ 0); reflexivity).
  assert (FS := pn_fair _ _ PN).
  destruct (ransac_robust env FS (matrix_of fl) (five fl) sc img thresh (99 / 100) (Proj2RT lr X) keep it sc_length CC) with (k0 := k0) (best0 := p0) as (r & ls & li & Er & Ei & Sl & Sm & Ep).
  - intros k before q _ I Md. apply (right_sample keep (sample env (length img) k) before q KR SI SP NK I); auto.
    + unfold sample. rewrite firstn_length, (order_length env FS img). lia.
    + unfold sample. assert (Q : NoDup (order env (length img) (S k))) by (eapply Permutation_NoDup; [apply Permutation_sym; apply (order_perm env FS img)|apply seq_NoDup]).
      rewrite <- (firstn_skipn 4 (order env (length img) (S k))) in Q. clear - Q. induction (firstn 4 (order env (length img) (S k))) as [|x l IH]; [constructor|]. inversion Q; subst. constructor; [|auto].
      intros H. apply H1. apply in_app_iff. auto.
  - intros k before q l Hk I Md C. rewrite Lk. rewrite Ln in *.
    apply (ta_fewer _ _ _ _ _ _ _ TA k before q l sc Hk Esc).
    + destruct (Forall_Exists_dec (fun j => In j keep) (fun j => in_dec Nat.eq_dec j keep) (sample env (length (i_pts i)) k)) as [F|F].
      * exfalso. apply I. intros j Hj. exact (proj1 (Forall_forall _ _) F j Hj).
      * apply Exists_exists in F as (j & Hj & Nj). exists j. split; [auto|]. rewrite <- KR. auto.
    + rewrite Kf in Md. exact Md.
    + rewrite Kf in C. exact C.
  - auto.
  - intros j Hj. apply KR. apply K2. rewrite <- Ln. auto.
  - intros l Hl. rewrite Ln. apply K3. lia.
  - auto.
  - rewrite Er, Ei. rewrite (proj2 (pick_Some _ _ _) SP), (proj2 (pick_Some _ _ _) SI). destruct (Nat.ltb_spec (length keep) 4); [lia|].
    assert (F : fits fl X ls li).
    { apply Forall2_of_nth; [rewrite (sublist_len _ _ _ Sl), (sublist_len _ _ _ Sm); auto|]. intros p s m Hs Hm. destruct (sublist_back _ _ _ _ _ Sl Hs) as (j & Hj & Es). destruct (sublist_back _ _ _ _ _ Sm Hm) as (j' & Hj' & Em).
      assert (j' = j) by congruence. subst j'. destruct (sc_nth j s Es) as (k & m' & Hk & Hm' & Hq & Ei'). assert (m = working w env c m') by congruence. subst m.
      apply (right_fit j k m' s); auto. apply KR. eapply nth_error_In; eauto. }
    rewrite Ep, (pn_refine _ _ PN fl X ls li X_rigid' F). unfold new_obs. rewrite E1, E2, E3. reflexivity.
Qed.
End Wrong.

(** ** The tables *)
(** the tables do not depend on the corners *)
Definition same_labels (i i' : insertion pt2) : Prop := i_cam i' = i_cam i /\ i_frame i' = i_frame i /\ i_board i' = i_board i /\ i_path i' = i_path i.
Definition same_books (t t' : tables pt2) : Prop :=
  t_cams t' = t_cams t /\ t_boards t' = t_boards t /\ t_frames t' = t_frames t /\ t_camobs t' = t_camobs t /\
  exists l l', t_obs t = dense l /\ t_obs t' = dense l' /\ length l = length l'.
Lemma insert_same t t' i i' : same_books t t' -> same_labels i i' -> forall t1, insertNewBoard t i = Some t1 -> exists t1', insertNewBoard t' i' = Some t1' /\ same_books t1 t1'.
Proof.
  destruct t as [obs cams boards frames camobs], t' as [obs' cams' boards' frames' camobs'], i as [c f b pts ids path], i' as [c' f' b' pts' ids' path'].
  intros (E1 & E2 & E3 & E4 & l & l' & E5 & E6 & E7) (L1 & L2 & L3 & L4). cbn [t_obs t_cams t_boards t_frames t_camobs i_cam i_frame i_board i_path] in *. subst.
  assert (Ln : @length (Z * bobs pt2) (dense l) = @length (Z * bobs pt2) (dense l')) by (rewrite !dense_length; auto).
  intros t1. unfold insertNewBoard. cbn [t_obs t_cams t_boards t_frames t_camobs i_cam i_frame i_board i_path i_pts i_ids]. rewrite Ln.
  destruct (mfind c cams) as [rc|]; [|intros H; discriminate H]. destruct (mfind b boards) as [rb|]; [|intros H; discriminate H].
  destruct (mfind f frames) as [rf|]; destruct (mfind (c, f) camobs) as [rco|]; intros H; injection H as <-; (eexists; split; [reflexivity|]);
    do 4 (split; [reflexivity|]); cbn [t_obs]; rewrite !dpush_dense; do 2 eexists; (split; [reflexivity|]); (split; [reflexivity|]); rewrite !app_length; cbn; lia.
Qed.
Lemma insert_all_same ins : forall ins' t t', Forall2 same_labels ins ins' -> same_books t t' -> forall t1, insert_all t ins = Some t1 -> exists t1', insert_all t' ins' = Some t1' /\ same_books t1 t1'.
Proof.
  induction ins as [|i ins IH]; intros ins' t t' F S t1 E; inversion F as [|? i' ? r Hi Fr]; subst; cbn [insert_all] in *; [injection E as <-; eauto|].
  destruct (insertNewBoard t i) as [t2|] eqn:E2; [|discriminate E]. destruct (insert_same t t' i i' S Hi t2 E2) as (t2' & -> & S2). exact (IH r t2 t2' Fr S2 t1 E).
Qed.
Lemma dense_swap {A} (l l' : list A) : length l = length l' -> combine (mkeys (dense l)) l' = dense l'.
Proof.
  unfold dense, mkeys. generalize 0%nat. revert l'. induction l as [|a l IH]; intros [|b l'] n L; cbn in *; try discriminate L; auto. f_equal. apply IH. lia.
Qed.
