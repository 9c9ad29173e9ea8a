(** The reported average reprojection error, and the cost of an exact calibration. *)
From Coq Require Import List ZArith QArith Lia Reals Lra Psatz Permutation Sorted.
From Verif Require Import SMap GraphModel GraphSpec DataModel DataSpec DataProofs DetectModel DetectSpec DetectProofs RansacModel RansacSpec RansacProofs
  GeomModel GeomSpec GeomProofs GeomMedian ChainModel ChainSpec ChainProofs ChainCam
  ObjectsModel ObjectsSpec ObjectsProofs ObjectsSave ObjectsBuild ObjectsMerge ObjectsObs
  GroupModel GroupSpec GroupProofs GroupMerge GroupObs StageModel StageSpec StageProofs StageMain StageCams StageMerge
  PipelineModel PipelineSpec PipelineProofs ObjectsMain EstimateAll CameraModel ResidualModel ResidualSpec ResidualProofs ResidualMain ResidualGroup ResidualSolve.
Import ListNotations.
Close Scope Q_scope.
Close Scope R_scope.
Open Scope nat_scope.

(** ** Means *)
Lemma fold_left_sum l : forall a, (fold_left Rplus l a = a + fold_right Rplus 0 l)%R.
Proof. induction l as [|x l IH]; intros a; cbn; [ring|rewrite IH; ring]. Qed.
Lemma sum_perm l l' : Permutation l l' -> fold_right Rplus 0%R l = fold_right Rplus 0%R l'.
Proof. induction 1; cbn; lra. Qed.
Lemma mean_perm l l' : Permutation l l' -> mean l = mean l'.
Proof. intros P. unfold mean. rewrite (sum_perm _ _ P), (Permutation_length P). auto. Qed.
Lemma sum_bounds lo hi l : Forall (fun e => lo <= e <= hi)%R l -> (INR (length l) * lo <= fold_right Rplus 0 l <= INR (length l) * hi)%R.
Proof.
  induction 1 as [|x l H F IH]; [cbn; lra|]. change (length (x :: l)) with (S (length l)). rewrite S_INR. cbn [fold_right]. lra.
Qed.
Lemma len_pos {A} (l : list A) : l <> [] -> (0 < INR (length l))%R.
Proof. intros H. apply lt_0_INR. destruct l; [contradiction|cbn; lia]. Qed.
Lemma mean_bounds lo hi l : l <> [] -> Forall (fun e => lo <= e <= hi)%R l -> (lo <= mean l <= hi)%R.
Proof.
  intros NE F. apply sum_bounds in F as (F1 & F2). assert (P := len_pos l NE). unfold mean.
  split; apply (Rmult_le_reg_l (INR (length l))); auto; field_simplify; lra.
Qed.
Lemma sum_zero l : Forall (fun e => 0 <= e)%R l -> (fold_right Rplus 0 l = 0 <-> Forall (fun e => e = 0) l)%R.
Proof.
  induction 1 as [|x l H F IH]; [split; constructor|]. cbn [fold_right].
  assert (P : (0 <= fold_right Rplus 0 l)%R) by (clear -F; induction F; cbn; lra). split.
  - intros E. constructor; [lra|]. apply IH. lra.
  - intros Q. inversion Q; subst. rewrite (proj2 IH) by auto. lra.
Qed.
Lemma mean_zero l : l <> [] -> Forall (fun e => 0 <= e)%R l -> (mean l = 0%R <-> Forall (fun e => e = 0%R) l).
Proof.
  intros NE F. rewrite <- sum_zero by auto. assert (P := len_pos l NE). unfold mean. split; intros E.
  - apply (Rmult_eq_reg_r (/ INR (length l))); [rewrite Rmult_0_l; auto|]. apply Rinv_neq_0_compat. lra.
  - rewrite E. unfold Rdiv. ring.
Qed.

(** ** Costs *)
Lemma huber_nonneg x : (0 <= x)%R -> (0 <= huber x)%R.
Proof.
  intros H. unfold huber. destruct (Rle_dec x 1); auto. assert (1 <= sqrt x)%R by (rewrite <- sqrt_1; apply sqrt_le_1; lra). lra.
Qed.
Lemma huber_zero x : (0 <= x)%R -> (huber x = 0%R <-> x = 0%R).
Proof.
  intros H. unfold huber. destruct (Rle_dec x 1) as [|N]; [tauto|].
  assert (1 <= sqrt x)%R by (rewrite <- sqrt_1; apply sqrt_le_1; lra). split; intros; lra.
Qed.
Lemma sq2_zero (r : pt2) : (fst r ^ 2 + snd r ^ 2 = 0)%R <-> r = (0, 0)%R.
Proof.
  destruct r as (x, y). cbn [fst snd]. split.
  - intros E. assert (x = 0 /\ y = 0)%R by (split; nra). destruct H as (-> & ->). auto.
  - intros E. injection E as -> ->. ring.
Qed.
Lemma cost_zero p bs : cost p bs = Some 0%R <-> exists rs, collect (map (eval p) bs) = Some rs /\ Forall (fun r => r = (0, 0)%R) rs.
Proof.
  unfold cost. destruct (collect (map (eval p) bs)) as [rs|]; cbn [option_map].
  2:{ split; [discriminate|intros (rs & E & _); discriminate]. }
  assert (F : Forall (fun e => 0 <= e)%R (map (fun r : pt2 => huber (fst r ^ 2 + snd r ^ 2)) rs)).
  { apply Forall_forall. intros e H. apply in_map_iff in H as (r & <- & _). apply huber_nonneg. nra. }
  assert (Q : forall x : R, Some (x / 2)%R = Some 0%R <-> x = 0%R).
  { intros x. split; [intros E; injection E as E; lra|intros ->; f_equal; lra]. }
  rewrite Q. rewrite (sum_zero _ F). rewrite Forall_map. split.
  - intros H. exists rs. split; auto. eapply Forall_impl; [|exact H]. cbn. intros r Hr. apply sq2_zero. refine (proj1 (huber_zero _ _) Hr). apply Rplus_le_le_0_compat; apply pow2_ge_0.
  - intros (rs' & E & H). injection E as <-. eapply Forall_impl; [|exact H]. cbn. intros r ->. apply huber_zero; cbn; lra.
Qed.
Lemma cost_nonneg p bs c : cost p bs = Some c -> (0 <= c)%R.
Proof.
  unfold cost. destruct (collect (map (eval p) bs)) as [rs|]; cbn [option_map]; [|discriminate]. intros E. injection E as <-.
  assert (H : (0 <= fold_right Rplus 0 (map (fun r : pt2 => huber (fst r ^ 2 + snd r ^ 2)) rs))%R).
  { induction rs as [|r rs IH]; cbn [map fold_right]; [lra|].
    assert (0 <= huber (fst r ^ 2 + snd r ^ 2))%R by (apply huber_nonneg; apply Rplus_le_le_0_compat; apply pow2_ge_0). lra. }
  unfold Rdiv. apply Rmult_le_pos; [exact H|]. lra.
Qed.

(** ** collect *)
Lemma collect_nth {A B} (f : A -> option B) l rs : collect (map f l) = Some rs <->
  length rs = length l /\ forall i r, nth_error rs i = Some r -> exists a, nth_error l i = Some a /\ f a = Some r.
Proof.
  rewrite collect_Some. split.
  - intros E. split; [apply (f_equal (@length _)) in E; rewrite !map_length in E; auto|]. intros i r H.
    apply (f_equal (fun l => nth_error l i)) in E. rewrite !nth_error_map, H in E. cbn in E.
    destruct (nth_error l i) as [a|]; [|discriminate]. cbn in E. injection E as E. eauto.
  - revert rs. induction l as [|a l IH]; intros [|r rs] (L & H); try discriminate; auto. cbn [map].
    destruct (H 0 r eq_refl) as (a' & Ea & E). injection Ea as <-. rewrite E. f_equal. apply IH. split; [cbn in L; lia|].
    intros i r' Hr. apply (H (S i) r'). auto.
Qed.
Lemma gather_single {A B} (h : A -> option B) l : gather (fun a => option_map (fun e => [e]) (h a)) l = collect (map h l).
Proof.
  induction l as [|a l IH]; auto. rewrite gather_cons, IH. cbn [map collect]. destruct (h a); cbn [option_map]; [destruct (collect (map h l)); reflexivity|reflexivity].
Qed.
Lemma gather_flat {A B C} (v : A -> list B) (h : A -> B -> option C) l :
  gather (fun a => collect (map (h a) (v a))) l = collect (map (fun ab => h (fst ab) (snd ab)) (flat_map (fun a => map (pair a) (v a)) l)).
Proof.
  induction l as [|a l IH]; auto. rewrite gather_cons, IH. cbn [flat_map]. rewrite map_app, collect_app, map_map. cbn [fst snd]. auto.
Qed.
Lemma gather_map {A B C} (g : A -> B) (f : B -> option (list C)) l : gather f (map g l) = gather (fun a => f (g a)) l.
Proof. unfold gather. rewrite map_map. auto. Qed.
Lemma collect_ext {A B} (f g : A -> option B) l : (forall a, In a l -> f a = g a) -> collect (map f l) = collect (map g l).
Proof. intros H. f_equal. apply map_ext_in. auto. Qed.
Lemma gather_ext {A B} (f g : A -> option (list B)) l : (forall a, In a l -> f a = g a) -> gather f l = gather g l.
Proof. intros H. unfold gather. f_equal. apply collect_ext. auto. Qed.

(** distances *)
Lemma repro_distance m r : repro_error m r = distance m r.
Proof. unfold repro_error, distance. f_equal. ring. Qed.
Lemma distances_eq : forall (pts rp pre : list pt2), length rp = length pts ->
  collect (map (fun '(i, r) => option_map (fun m => repro_error m r) (nth_error (pre ++ pts) i)) (combine (seq (length pre) (length rp)) rp)) =
  Some (map (fun mr => distance (fst mr) (snd mr)) (combine pts rp)).
Proof.
  induction pts as [|m pts IH]; intros [|r rp] pre L; try discriminate; auto. cbn [length seq combine map collect].
  rewrite nth_error_app2 by auto. rewrite Nat.sub_diag. cbn [nth_error option_map fst snd].
  specialize (IH rp (pre ++ [m])). rewrite app_length in IH. cbn [length] in IH. rewrite Nat.add_1_r, <- app_assoc in IH. cbn [app] in IH.
  rewrite IH by (cbn in L; lia). cbn [option_map]. rewrite repro_distance. auto.
Qed.
Lemma distances_eq0 pts rp : length rp = length pts -> computeDistanceBetweenPoints pts rp = Some (map (fun mr => distance (fst mr) (snd mr)) (combine pts rp)).
Proof. intros L. apply (distances_eq pts rp []). auto. Qed.
Lemma distance_nonneg m r : (0 <= distance m r)%R.
Proof. apply sqrt_pos. Qed.
Lemma distance_zero m r : distance m r = 0%R <-> r = m.
Proof.
  unfold distance. split.
  - intros E. apply sqrt_eq_0 in E; [|apply Rplus_le_le_0_compat; apply pow2_ge_0]. destruct m as (a, b), r as (c, d). cbn [fst snd] in *. apply (sq2_zero (c - a, d - b)%R) in E. injection E as E1 E2. f_equal; lra.
  - intros ->. replace ((fst m - fst m) ^ 2 + (snd m - snd m) ^ 2)%R with 0%R by ring. apply sqrt_0.
Qed.
Lemma distances_zero : forall (pts rp : list pt2), length rp = length pts ->
  (Forall (fun e => e = 0%R) (map (fun mr => distance (fst mr) (snd mr)) (combine pts rp)) <-> rp = pts).
Proof.
  induction pts as [|m pts IH]; intros [|r rp] L; try discriminate; cbn [combine map]; [split; constructor|]. split.
  - intros H. inversion H; subst. cbn [fst snd] in *. f_equal; [apply distance_zero; auto|apply IH; auto]. 
  - intros E. injection E as -> ->. constructor; [apply distance_zero; auto|]. apply IH; auto.
Qed.
Lemma errors_zero : forall (pts rp : list pt2), length rp = length pts -> (Forall (fun e => e = (0, 0)%R) (errors_of pts rp) <-> rp = pts).
Proof.
  unfold errors_of. induction pts as [|m pts IH]; intros [|r rp] L; try discriminate; cbn [combine map]; [split; constructor|]. 
  assert (Q : minus m r = (0, 0)%R <-> r = m).
  { unfold minus. destruct m as (a, b), r as (c, d). cbn [fst snd]. split; intros E; injection E as E1 E2; [f_equal; lra|f_equal; lra]. }
  split.
  - intros H. inversion H; subst. cbn [fst snd] in *. f_equal; [apply Q; auto|apply IH; auto]. 
  - intros E. injection E as -> ->. constructor; [apply Q; auto|]. apply IH; auto.
Qed.

Section A.
Variables (bpts : Z -> list vec3) (t : tables pt2) (cams : Z -> Z) (p : params).
Variables (bss : list (list (Z * pose))) (ol : list obj3d) (css : list (list (Z * pose))) (gl : list cgroup) (s : calib pt2).
Hypothesis CO : calib_ok bpts t bss ol css gl s.
Hypothesis TR : forall o, In o (mvals (t_obs t)) -> trimmed bpts o.
Hypothesis FR : forall oo, In oo (ot_all (ca_oobs s)) -> In (oo_frame oo) (mkeys (t_frames t)).

Lemma reprojected_spec G oo o rp : Forall (fun z => (0 <= z)%Z) (oo_ids oo) -> 
  (reprojected cams p G (cg_id G, oo_frame oo) oo o = Some rp <->
   length rp = length (oo_ids oo) /\ forall i r, nth_error rp i = Some r -> reprojects cams p G oo o i r).
Proof.
  intros NN. rewrite reprojected_image.
  set (h := image (cams (oo_cam oo)) (pa_intr p (oo_cam oo)) (matrix (pa_pose p (KCam (cg_id G) (oo_cam oo))))).
  set (O := matrix (pa_pose p (KGroup (cg_id G, oo_frame oo) (oo_obj oo)))).
  replace (match collect (map (zget (ob_pts o)) (oo_ids oo)) with Some sc => collect (map h (map (pact O) sc)) | None => None end)
    with (match collect (map (zget (ob_pts o)) (oo_ids oo)) with Some sc => collect (map (fun x => h (pact O x)) sc) | None => None end)
    by (destruct (collect (map (zget (ob_pts o)) (oo_ids oo))); auto; rewrite map_map; auto).
  rewrite collect_bind, collect_nth. split; intros (L & H); split; auto; intros i r Hr.
  - destruct (H i r Hr) as (z & Hz & E). destruct (zget (ob_pts o) z) as [x|] eqn:Ex; [|discriminate]. apply zget_nth in Ex as (Pz & Ex).
    exists (Z.to_nat z), x. rewrite Z2Nat.id by lia. split; [auto|]. split; [auto|]. rewrite image_mul. exact E.
  - destruct (H i r Hr) as (k & x & H1 & H2 & H3). exists (Z.of_nat k). split; [auto|].
    assert (Ez : zget (ob_pts o) (Z.of_nat k) = Some x) by (apply zget_nth; rewrite Nat2Z.id; split; [lia|auto]). rewrite Ez.
    rewrite image_mul in H3. exact H3.
Qed.
Lemma observation_spec G n oo o e : nth_error (ot_all (ca_oobs s)) n = Some oo -> mfind (oo_obj oo) (ca_objs s) = Some o ->
  (observation_error cams p G (cg_id G, oo_frame oo) oo o = Some e <-> exists rs, observation_mean cams p G oo o rs e).
Proof.
  intros Hn Hm. destruct (view_ok bpts t bss ol css gl s CO TR n oo Hn) as (o' & bs & V & Io & _ & Eo & W & OO & Ga & L & Rg).
  assert (o' = o). { unfold view_data in V. rewrite Hn, Hm in V. congruence. } subst o'.
  assert (NN : Forall (fun z => (0 <= z)%Z) (oo_ids oo)) by (eapply Forall_impl; [|exact Rg]; cbn; lia).
  assert (NE := ga_nonempty _ _ _ Ga). unfold observation_error. split.
  - destruct (reprojected cams p G (cg_id G, oo_frame oo) oo o) as [rp|] eqn:E; [|discriminate].
    apply reprojected_spec in E as (Lr & H); auto. rewrite distances_eq0 by lia. intros Q. exists rp. split; [lia|]. split; [auto|].
    destruct (map _ (combine (oo_pts oo) rp)) as [|d ds] eqn:Ed; [discriminate|]. injection Q as <-. unfold mean. rewrite fold_left_sum. cbn [fold_right]. f_equal. ring.
  - intros (rs & Lr & H & ->). assert (E : reprojected cams p G (cg_id G, oo_frame oo) oo o = Some rs) by (apply reprojected_spec; auto; split; [lia|auto]).
    rewrite E, distances_eq0 by lia. destruct (map _ (combine (oo_pts oo) rs)) as [|d ds] eqn:Ed.
    { apply (f_equal (@length _)) in Ed. rewrite map_length, combine_length, Lr, Nat.min_id in Ed. destruct (oo_pts oo); [contradiction|discriminate]. }
    unfold mean. cbn [fold_left fold_right]. rewrite fold_left_sum. f_equal. f_equal. ring.
Qed.

(** all views of all groups: one per object observation *)
Definition all_views : list (cgroup * ((Z * Z) * nat)) := flat_map (fun G => map (pair G) (group_views_of s G)) gl.
Lemma all_views_In G k n : In (G, (k, n)) all_views <-> In G gl /\ In (k, n) (group_views_of s G).
Proof.
  unfold all_views. rewrite in_flat_map. split.
  - intros (G' & HG & H). apply in_map_iff in H as (x & E & H). injection E as -> ->. auto.
  - intros (HG & H). exists G. split; auto. apply in_map. auto.
Qed.
Lemma camera_group c G G' : In G gl -> In G' gl -> In c (cg_cams G) -> In c (cg_cams G') -> G = G'.
Proof.
  intros HG HG' H H'. destruct CO as [E1 OK OT Ob Cov E2 GK GT NU CA KE]. apply In_nth_error in HG as (i & HG), HG' as (j & HG').
  assert (F := gk_built _ _ GK). 
  assert (X : forall i G, nth_error gl i = Some G -> exists cs, nth_error css i = Some cs /\ cg_cams G = map fst cs).
  { clear -F. induction F as [|cs G css gl Hg F IH]; intros [|i] G' E; cbn in E; try discriminate; [injection E as <-; exists cs; split; [auto|apply Hg]|exact (IH i G' E)]. }
  destruct (X i G HG) as (cs & Hcs & Ec), (X j G' HG') as (cs' & Hcs' & Ec'). rewrite Ec in H. rewrite Ec' in H'.
  assert (i = j); [|congruence].
  assert (N := gk_disjoint _ _ GK). rewrite concat_map in N. 
  apply (NoDup_concat_unique (map (map fst) css) i j (map fst cs) (map fst cs') c N); auto; rewrite nth_error_map; [rewrite Hcs|rewrite Hcs']; auto.
Qed.
Lemma obs_group n oo : nth_error (ot_all (ca_oobs s)) n = Some oo -> exists G, In G gl /\ In (oo_cam oo) (cg_cams G).
Proof.
  intros Hn. destruct CO as [E1 OK OT Ob Cov E2 GK GT NU CA KE]. destruct (Ob oo (nth_error_In _ _ Hn)) as (i & o & _ & _ & Ga).
  destruct (ga_content _ _ _ Ga) as (bs & F & _ & EP & _). assert (NE := ga_nonempty _ _ _ Ga). rewrite EP in NE.
  assert (exists m b, In m (oo_bobs oo) /\ nth_error (mvals (t_obs t)) m = Some b /\ o_pts b <> []) as (m & b & Hm & Hb & NB).
  { clear -F NE. induction F as [|m b ms bs H F IH]; [contradiction NE; auto|]. cbn [flat_map] in NE. destruct (o_pts b) as [|x xs] eqn:Eb.
    - destruct (IH NE) as (m' & b' & H1 & H2). exists m', b'. split; [right; auto|auto].
    - exists m, b. split; [left; auto|]. split; [auto|congruence]. }
  assert (K := KE m b Hb NB). apply (ga_bobs _ _ _ Ga) in Hm as (b' & Hb' & Ec & _). assert (b' = b) by congruence. subst b'. rewrite Ec in K.
  rewrite concat_map in K. apply in_concat in K as (cs' & H1 & H2). apply in_map_iff in H1 as (cs & <- & H1).
  assert (F' := gk_built _ _ GK). clear -F' H1 H2. induction F' as [|cs' G css gl Hg F' IH]; [destruct H1|].
  destruct H1 as [->|H1]; [exists G; split; [left; auto|rewrite (gr_cams _ _ Hg); auto]|]. destruct (IH H1) as (G' & HG & HC). exists G'. split; [right; auto|auto].
Qed.
Lemma all_views_perm : Permutation (seq 0 (length (ot_all (ca_oobs s)))) (map (fun v => snd (snd v)) all_views).
Proof.
  apply NoDup_Permutation; [apply seq_NoDup| |].
  - assert (V : forall G k n, In (G, (k, n)) all_views -> exists oo, In G gl /\ nth_error (ot_all (ca_oobs s)) n = Some oo /\ k = (cg_id G, oo_frame oo) /\ In (oo_cam oo) (cg_cams G)).
    { intros G k n H. apply all_views_In in H as (HG & H). apply (views_In bpts t cams bss ol css gl s CO FR G k n HG) in H as (oo & H). exists oo. auto. }
    assert (D : forall {X Y} (f : X -> Y) l, NoDup l -> (forall a b, In a l -> In b l -> f a = f b -> a = b) -> NoDup (map f l)).
    { clear. intros X Y f l N. induction N as [|a l Ha N IH]; intros H; cbn; constructor.
      - intros Hi. apply in_map_iff in Hi as (b & E & Hb). assert (b = a) by (apply H; [right|left|]; auto). congruence.
      - apply IH. intros; apply H; auto; right; auto. }
    apply D.
    + unfold all_views.
      assert (Ng : NoDup gl).
      { apply NoDup_nth_error. intros i j Hi E. destruct (nth_error gl i) as [G|] eqn:EG; [|apply nth_error_None in EG; lia].
        assert (GK := co_groups_ok _ _ _ _ _ _ _ CO). assert (A := gk_ids _ _ GK i G EG). rewrite (gk_ids _ _ GK j G (eq_sym E)) in A. lia. }
      assert (X : forall l, NoDup l -> (forall G, In G l -> In G gl) -> NoDup (flat_map (fun G => map (pair G) (group_views_of s G)) l)).
      { intros l N. induction N as [|G l HG N IH]; intros Hl; cbn; [constructor|]. apply NoDup_app_intro'.
        - apply FinFun.Injective_map_NoDup; [intros x y [=]; auto|]. eapply views_NoDup; eauto. apply Hl. left. auto.
        - apply IH. intros; apply Hl; right; auto.
        - intros (G', kn) H1 H2. apply in_map_iff in H1 as (x & E & _). injection E as -> _. apply in_flat_map in H2 as (G2 & HG2 & H2).
          apply in_map_iff in H2 as (x2 & E2 & _). injection E2 as -> _. auto. }
      apply X; auto.
    + intros (G, (k, n)) (G', (k', n')) H H' E. cbn in E. subst n'. destruct (V _ _ _ H) as (oo & H1 & H2 & -> & H3), (V _ _ _ H') as (oo' & H1' & H2' & -> & H3').
      assert (oo' = oo) by congruence. subst oo'. assert (G' = G) by (eapply camera_group; eauto). congruence.
  - intros n. rewrite in_seq. split.
    + intros (_ & H). destruct (nth_error (ot_all (ca_oobs s)) n) as [oo|] eqn:E; [|apply nth_error_None in E; lia].
      destruct (obs_group n oo E) as (G & HG & HC). apply in_map_iff. exists (G, ((cg_id G, oo_frame oo), n)). split; [auto|].
      apply all_views_In. split; auto. apply (views_In bpts t cams bss ol css gl s CO FR G _ n HG). eauto.
    + intros H. apply in_map_iff in H as ((G, (k, n')) & E & H). cbn in E. subst n'. apply all_views_In in H as (HG & H).
      apply (views_In bpts t cams bss ol css gl s CO FR G k n HG) in H as (oo & H & _). split; [lia|]. apply nth_error_Some. congruence.
Qed.

Definition view_error (v : cgroup * ((Z * Z) * nat)) : option R :=
  match view_data s (snd (snd v)) with Some (oo, o) => observation_error cams p (fst v) (fst (snd v)) oo o | None => None end.
Lemma all_errors_eq : all_errors cams p s = collect (map view_error all_views).
Proof.
  unfold all_errors. 
  assert (GE : forall (f : cgroup -> option (list R)) (m : smap Z cgroup), gather (fun '(_, G) => f G) m = gather f (mvals m)).
  { intros f m. unfold mvals. rewrite gather_map. apply gather_ext. intros (?, ?) _. auto. }
  rewrite (GE (fun G => gather _ (group_views_of s G))), (co_groups _ _ _ _ _ _ _ CO), dense_vals.
  unfold all_views. rewrite (collect_ext view_error (fun ab => view_error (fst ab, snd ab))) by (intros (?, ?) _; auto).
  rewrite <- (gather_flat (group_views_of s) (fun G kn => view_error (G, kn)) gl).
  apply gather_ext. intros G HG. rewrite <- gather_single. apply gather_ext. intros (k, n) Hv.
  apply (views_In bpts t cams bss ol css gl s CO FR G k n HG) in Hv as (oo & Hn & _). unfold view_error. cbn [fst snd].
  destruct (view_ok bpts t bss ol css gl s CO TR n oo Hn) as (o' & bs & V & _). rewrite V. auto.
Qed.
Lemma view_error_ok v e : In v all_views -> (view_error v = Some e <->
  exists oo o rs, nth_error (ot_all (ca_oobs s)) (snd (snd v)) = Some oo /\ In (fst v) gl /\ In (oo_cam oo) (cg_cams (fst v)) /\ mfind (oo_obj oo) (ca_objs s) = Some o /\
    observation_mean cams p (fst v) oo o rs e).
Proof.
  destruct v as (G, (k, n)). intros Hv. apply all_views_In in Hv as (HG & Hv). apply (views_In bpts t cams bss ol css gl s CO FR G k n HG) in Hv as (oo & Hn & -> & HC).
  cbn [fst snd]. unfold view_error. cbn [fst snd].
  destruct (view_ok bpts t bss ol css gl s CO TR n oo Hn) as (o & bs & V & _). rewrite V.
  assert (Hm : mfind (oo_obj oo) (ca_objs s) = Some o).
  { unfold view_data in V. rewrite Hn in V. destruct (mfind (oo_obj oo) (ca_objs s)); congruence. }
  rewrite (observation_spec G n oo o e Hn Hm). split.
  - intros (rs & H). exists oo, o, rs. auto.
  - intros (oo' & o' & rs & H1 & H2 & H3 & H4 & H5). assert (oo' = oo) by congruence. subst. assert (o' = o) by congruence. subst. eauto.
Qed.

(** the errors in the order of the observations *)
Lemma average_main a : computeAvgReprojectionError cams p s = Some a <->
  exists es, length es = length (ot_all (ca_oobs s)) /\ es <> [] /\ a = mean es /\
    forall n oo e, nth_error (ot_all (ca_oobs s)) n = Some oo -> nth_error es n = Some e ->
      exists G o rs, In G gl /\ In (oo_cam oo) (cg_cams G) /\ mfind (oo_obj oo) (ca_objs s) = Some o /\ observation_mean cams p G oo o rs e.
Proof.
  destruct (Permutation_map_inv _ _ all_views_perm) as (V' & EV & PV).
  assert (LV : length V' = length (ot_all (ca_oobs s))) by (apply (f_equal (@length _)) in EV; rewrite seq_length, map_length in EV; auto).
  assert (NV : forall n v, nth_error V' n = Some v -> snd (snd v) = n).
  { intros n v H. apply (f_equal (fun l => nth_error l n)) in EV. rewrite nth_error_map, H in EV. cbn in EV.
    assert (n < length (ot_all (ca_oobs s))) by (rewrite <- LV; apply nth_error_Some; congruence). 
    rewrite nth_error_nth' with (d := 0) in EV by (rewrite seq_length; auto). rewrite seq_nth in EV by auto. injection EV as EV. lia. }
  assert (CP : forall es, collect (map view_error V') = Some es -> exists es0, collect (map view_error all_views) = Some es0 /\ Permutation es0 es).
  { intros es E. apply collect_Some in E. assert (P := Permutation_map view_error PV). rewrite E in P. 
    destruct (Permutation_map_inv _ _ P) as (es0 & E0 & P0). exists es0. split; [apply collect_Some; auto|symmetry; auto]. }
  assert (CP' : forall es0, collect (map view_error all_views) = Some es0 -> exists es, collect (map view_error V') = Some es /\ Permutation es0 es).
  { intros es E. apply collect_Some in E. assert (P := Permutation_map view_error (Permutation_sym PV)). rewrite E in P.
    destruct (Permutation_map_inv _ _ P) as (es0 & E0 & P0). exists es0. split; [apply collect_Some; auto|auto]. }
  assert (IV : forall v, In v V' -> In v all_views) by (intros v H; eapply Permutation_in; [symmetry; exact PV|auto]).
  unfold computeAvgReprojectionError. rewrite all_errors_eq. split.
  - destruct (collect (map view_error all_views)) as [[|e0 es0]|] eqn:E; try discriminate. intros Q. injection Q as <-.
    destruct (CP' _ eq_refl) as (es & E' & P). apply collect_nth in E' as (L & H). exists es. split; [lia|]. split.
    { intros ->. apply Permutation_length in P. discriminate. }
    split. { rewrite <- (mean_perm _ _ P). unfold mean. cbn [fold_right]. rewrite fold_left_sum. f_equal. ring. }
    intros n oo e Hn He. destruct (H n e He) as (v & Hv & Ev). assert (Hv' := nth_error_In _ _ Hv).
    apply view_error_ok in Ev as (oo' & o & rs & H1 & H2 & H3 & H4 & H5); [|auto]. rewrite (NV n v Hv) in H1. assert (oo' = oo) by congruence. subst oo'. 
    exists (fst v), o, rs. auto.
  - intros (es & L & NE & -> & H). assert (E' : collect (map view_error V') = Some es).
    { apply collect_nth. split; [lia|]. intros i e He. destruct (nth_error V' i) as [v|] eqn:Ev.
      2:{ apply nth_error_None in Ev. assert (i < length es) by (apply nth_error_Some; congruence). lia. }
      exists v. split; [auto|]. assert (Iv := IV v (nth_error_In _ _ Ev)). assert (En := NV i v Ev). apply view_error_ok; auto.
      destruct v as (G, (k, n)). cbn in En. subst n. apply all_views_In in Iv as (HG & Iv).
      apply (views_In bpts t cams bss ol css gl s CO FR G k i HG) in Iv as (oo & Hn & -> & HC).
      destruct (H i oo e Hn He) as (G' & o & rs & H1 & H2 & H3 & H4). assert (G' = G) by (eapply camera_group; eauto). subst G'.
      exists oo, o, rs. cbn [fst snd]. auto. }
    destruct (CP _ E') as (es0 & -> & P). destruct es0 as [|e0 es0]; [apply Permutation_nil in P; subst; contradiction|].
    rewrite <- (mean_perm _ _ P). unfold mean. cbn [fold_right fold_left]. rewrite fold_left_sum. f_equal. f_equal. ring.
Qed.
End A.
