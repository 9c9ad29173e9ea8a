(** Camera groups from object observations. *)
From Coq Require Import List ZArith QArith Lia Reals Permutation Sorted Relations.
From Verif Require Import SMap GraphModel GraphSpec GraphComp GraphDijkstra GraphPath DataModel DataSpec DataProofs DetectModel DetectProofs
  GeomModel GeomSpec GeomProofs GeomQuat GeomMedian
  ChainModel ChainSpec ChainProofs ChainCam ObjectsModel ObjectsSpec ObjectsProofs ObjectsSave ObjectsBuild ObjectsMerge ObjectsObs
  GroupModel GroupSpec GroupProofs StageModel StageSpec StageProofs StageMain.
Import ListNotations.
Close Scope Q_scope.
Close Scope R_scope.
Open Scope nat_scope.

Lemma NoDup_map_weaken {A K L} (k : A -> K) (h : A -> L) (l : list A) : NoDup (map k l) ->
  (forall x y, In x l -> In y l -> h x = h y -> k x = k y) -> NoDup (map h l).
Proof.
  induction l as [|a l IH]; cbn; intros N H; [constructor|]. inversion N; subst. constructor.
  - intros Hi. apply in_map_iff in Hi as (y & E & Hy). apply H2. rewrite <- (H y a); auto. apply in_map; auto.
  - apply IH; auto.
Qed.
Lemma NoDup_map_filter {A K} (k : A -> K) (p : A -> bool) l : NoDup (map k l) -> NoDup (map k (filter p l)).
Proof.
  induction l as [|a l IH]; cbn; intros N; [constructor|]. inversion N; subst. destruct (p a); cbn; auto. constructor; auto.
  intros Hi. apply H1. apply in_map_iff in Hi as (y & E & Hy). apply filter_In in Hy as (Hy & _). apply in_map_iff. eauto.
Qed.
Lemma where_from_In {A} (p : A -> bool) (l : list A) : forall s n,
  In n (map fst (filter (fun e => p (snd e)) (combine (seq s (length l)) l))) <-> exists j x, n = s + j /\ nth_error l j = Some x /\ p x = true.
Proof.
  induction l as [|a l IH]; intros s n; cbn [length seq combine filter map].
  - split; [intros []|intros ([|j] & x & _ & H & _); discriminate].
  - cbn [snd]. assert (G : In n (map fst (filter (fun e => p (snd e)) (combine (seq (S s) (length l)) l))) <-> exists j x, n = s + S j /\ nth_error (a :: l) (S j) = Some x /\ p x = true).
    { rewrite IH. cbn [nth_error]. split; intros (j & x & E & H); exists j, x; (split; [lia|auto]). }
    destruct (p a) eqn:E; cbn [map fst In].
    + rewrite G. split.
      * intros [<-|(j & x & H)]; [exists 0, a; split; [lia|auto]|eauto].
      * intros ([|j] & x & E1 & H1 & H2); [left; lia|right; eauto].
    + rewrite G. split; [intros (j & x & H); eauto|]. intros ([|j] & x & E1 & H1 & H2); eauto. cbn in H1. injection H1 as ->. congruence.
Qed.
Lemma where_In {A} (p : A -> bool) (l : list A) n : In n (where_ p l) <-> exists x, nth_error l n = Some x /\ p x = true.
Proof.
  unfold where_. rewrite where_from_In. split; [intros (j & x & -> & H); eauto|intros (x & H); exists n, x; auto].
Qed.
Lemma where_from_filter {A} (p : A -> bool) (l pre : list A) : 
  flat_map (fun n => match nth_error (pre ++ l) n with Some x => [x] | None => [] end)
    (map fst (filter (fun e => p (snd e)) (combine (seq (length pre) (length l)) l))) = filter p l.
Proof.
  revert pre. induction l as [|a l IH]; intros pre; cbn [length seq combine filter map]; auto.
  assert (E : pre ++ a :: l = (pre ++ [a]) ++ l) by (rewrite <- app_assoc; auto).
  specialize (IH (pre ++ [a])). rewrite app_length in IH. cbn [length] in IH. rewrite Nat.add_1_r in IH.
  cbn [snd]. destruct (p a); cbn [map flat_map fst]; rewrite E; rewrite IH; auto.
  rewrite <- E, nth_error_app2, Nat.sub_diag by lia. auto.
Qed.
Lemma where_filter {A} (p : A -> bool) (l : list A) :
  flat_map (fun n => match nth_error l n with Some x => [x] | None => [] end) (where_ p l) = filter p l.
Proof. apply (where_from_filter p l []). Qed.
Lemma where_NoDup {A} (p : A -> bool) (l : list A) : NoDup (where_ p l).
Proof.
  unfold where_. apply NoDup_map_filter. 
  assert (G : forall s, map fst (combine (seq s (length l)) l) = seq s (length l)).
  { clear. induction l as [|a l IH]; intros s; cbn; auto. f_equal. auto. }
  rewrite G. apply seq_NoDup.
Qed.

Section Cams.
Context {pt : Type}.
Variables (nc nb : nat) (ins : list (insertion pt)) (t : tables pt).
Hypothesis AD : after_detection nc nb ins t.
Hypothesis Hp : paired t.
Variables (bpts : Z -> list vec3) (bss : list (list (Z * pose))) (ol : list obj3d).
Hypothesis OK : objects_ok bpts bss ol.
Variable ot : otables pt.
Hypothesis Eot : initAll3DObjectObs t (dense ol) empty_otables = Some ot.
Notation LU := (ad_linked nc nb ins t AD).

Lemma ot_eq : ot = store_all (pass t (dense ol)) empty_otables.
Proof. rewrite init_all in Eot by auto. congruence. Qed.
Lemma ot_list : ot_all ot = map snd (pass t (dense ol)).
Proof. rewrite ot_eq, store_all_list. auto. Qed.
Lemma ot_good : otables_ok ot.
Proof.
  rewrite ot_eq. apply store_all_ok; [apply empty_ok|]. intros k oo H. destruct (pass_ok t ol (k, oo) LU Hp H) as (E & _). exact E.
Qed.
Lemma ot_In oo : In oo (ot_all ot) -> exists i o, nth_error ol i = Some o /\ oo_obj oo = Z.of_nat i /\ gathers t o oo.
Proof.
  rewrite ot_list. intros H. apply in_map_iff in H as (e & <- & He). destruct (pass_ok t ol e LU Hp He) as (_ & H). exact H.
Qed.
Lemma ot_nodup : NoDup (map okey (ot_all ot)).
Proof. rewrite ot_list. apply pass_keys_NoDup; auto. apply LU. Qed.
Lemma bobs_nonempty oo : In oo (ot_all ot) -> oo_bobs oo <> [].
Proof.
  intros H. destruct (ot_In oo H) as (i & o & _ & _ & G). destruct (ga_content _ _ _ G) as (bs & F & _ & Ep & _).
  intros E. rewrite E in F. inversion F; subst. apply (ga_nonempty _ _ _ G). rewrite Ep. auto.
Qed.
Lemma same_bobs x y n : In x (ot_all ot) -> In y (ot_all ot) -> In n (oo_bobs x) -> In n (oo_bobs y) -> okey x = okey y.
Proof.
  intros Hx Hy Nx Ny. destruct (ot_In x Hx) as (i & o & Ho & Ei & G). destruct (ot_In y Hy) as (j & o' & Ho' & Ej & G').
  apply (ga_bobs _ _ _ G) in Nx as (b & B1 & B2 & B3 & B4). apply (ga_bobs _ _ _ G') in Ny as (b' & C1 & C2 & C3 & C4).
  assert (b' = b) by congruence. subst b'.
  destruct (nth_error_length_ex ol bss i o (eq_sym (ok_len _ _ _ OK)) Ho) as (bs & Hbs).
  destruct (nth_error_length_ex ol bss j o' (eq_sym (ok_len _ _ _ OK)) Ho') as (bs' & Hbs').
  destruct (keys_In_bs bpts bs o _ (ok_wb _ _ _ OK _ _ _ Hbs Ho) B4) as (P & HP).
  destruct (keys_In_bs bpts bs' o' _ (ok_wb _ _ _ OK _ _ _ Hbs' Ho') C4) as (P' & HP').
  assert (i = j) by (eapply (ok_board_unique _ _ _ OK); eauto). unfold okey. congruence.
Qed.
Lemma frames_of f r : mfind f (t_frames t) = Some r -> f_obs r = dense (positions (by_frame f) ins).
Proof.
  intros H. destruct (ad_holds nc nb ins t AD) as (t0 & H0 & R). rewrite (rl_frames _ _ R) in H.
  destruct (hd_frame _ _ _ _ H0 f r H) as (_ & E & _). exact E.
Qed.
Lemma frames_sorted : msorted (t_frames t).
Proof. destruct (ad_holds nc nb ins t AD) as (t0 & H0 & R). rewrite (rl_frames _ _ R). apply H0. Qed.
Lemma frames_keys f : In f (mkeys (t_frames t)) <-> exists n o, obs_at t n o /\ o_frame o = f.
Proof.
  destruct (ad_holds nc nb ins t AD) as (t0 & H0 & R). rewrite (rl_frames _ _ R), (hd_frame_keys _ _ _ _ H0). split.
  - intros (i & Hi & <-). apply In_nth_error in Hi as (n & Hn). destruct (ad_ins_obs nc nb ins t AD n i Hn) as (o & Ho & _ & B & _). eauto.
  - intros (n & o & Ho & <-). destruct (ad_obs_ins nc nb ins t AD n o Ho) as (i & Hi & _ & B & _). exists i. split; [eapply nth_error_In; eauto|auto].
Qed.
Lemma oo_frame_known oo : In oo (ot_all ot) -> In (oo_frame oo) (mkeys (t_frames t)).
Proof.
  intros H. assert (NE := bobs_nonempty oo H). destruct (ot_In oo H) as (i & o & _ & _ & G). destruct (oo_bobs oo) as [|n l] eqn:E; [congruence|].
  assert (I : In n (oo_bobs oo)) by (rewrite E; left; auto). apply (ga_bobs _ _ _ G) in I as (b & B1 & B2 & B3 & B4). apply frames_keys. exists n, b. auto.
Qed.

Lemma frame_entry op n fr : In (n, fr) (cam_frames t ot op) -> exists f r, mfind f (t_frames t) = Some r /\ n = length (f_obs r) /\
  fr = flat_map (fun n => match nth_error (ot_all ot) n with Some oo => [((oo_cam oo, oo_obj oo), op n)] | None => [] end)
         (where_ (fun oo => Z.eqb (oo_frame oo) f) (ot_all ot)).
Proof.
  unfold cam_frames. intros H. apply in_map_iff in H as ([f r] & E & Hin). cbn [fst snd] in E. injection E as <- <-.
  exists f, r. split; [apply In_mfind; auto; apply frames_sorted|]. split; auto. rewrite (ot_ok_frames _ ot_good). auto.
Qed.
Lemma frame_In op n fr c o p : In (n, fr) (cam_frames t ot op) -> 
  (In (c, o, p) fr -> exists m oo, nth_error (ot_all ot) m = Some oo /\ oo_cam oo = c /\ oo_obj oo = o /\ p = op m).
Proof.
  intros H Hin. apply frame_entry in H as (f & r & Hf & -> & ->). apply in_flat_map in Hin as (m & Hm & Hin).
  destruct (nth_error (ot_all ot) m) as [oo|] eqn:E; [|destruct Hin]. destruct Hin as [[= <- <- <-]|[]]. exists m, oo. auto.
Qed.
Lemma cams_gated op : gated (cam_frames t ot op).
Proof.
  intros n fr H. apply frame_entry in H as (f & r & Hf & -> & ->). rewrite (frames_of f r Hf), dense_length.
  set (p := fun oo => Z.eqb (oo_frame oo) f).
  assert (L : length (flat_map (fun n => match nth_error (ot_all ot) n with Some oo => [((oo_cam oo, oo_obj oo), op n)] | None => [] end) (where_ p (ot_all ot)))
            = length (filter p (ot_all ot))).
  { rewrite <- where_filter. generalize (where_ p (ot_all ot)). intros l. induction l as [|m l IH]; cbn; auto.
    rewrite !app_length, IH. destruct (nth_error (ot_all ot) m); auto. }
  rewrite L. set (h := fun oo : objobs pt => hd 0 (oo_bobs oo)).
  rewrite <- (map_length h). apply NoDup_incl_length.
  - apply (NoDup_map_weaken okey); [apply NoDup_map_filter, ot_nodup|]. intros x y Hx Hy E.
    apply filter_In in Hx as (Hx & _). apply filter_In in Hy as (Hy & _).
    assert (I : forall z, In z (ot_all ot) -> In (h z) (oo_bobs z)).
    { intros z Hz. unfold h. assert (N := bobs_nonempty z Hz). destruct (oo_bobs z); [congruence|left; auto]. }
    apply (same_bobs x y (h x)); auto. rewrite E. auto.
  - intros n Hn. apply in_map_iff in Hn as (oo & <- & Ho). apply filter_In in Ho as (Ho & Ef). unfold p in Ef. apply Z.eqb_eq in Ef.
    assert (N := bobs_nonempty oo Ho). destruct (ot_In oo Ho) as (i & o & _ & _ & G).
    assert (I : In (h oo) (oo_bobs oo)) by (unfold h; destruct (oo_bobs oo); [congruence|left; auto]).
    apply (ga_bobs _ _ _ G) in I as (b & B1 & B2 & B3 & B4). destruct (ad_obs_ins nc nb ins t AD _ b B1) as (ii & Hi & _ & C & _).
    apply positions_In. exists ii. split; auto. unfold by_frame. apply Z.eqb_eq. congruence.
Qed.
Lemma oo_cam_observed oo : In oo (ot_all ot) -> In (oo_cam oo) (observed_cams t).
Proof.
  intros H. assert (NE := bobs_nonempty oo H). destruct (ot_In oo H) as (i & o & _ & _ & G). destruct (oo_bobs oo) as [|n l] eqn:E; [congruence|].
  assert (I : In n (oo_bobs oo)) by (rewrite E; left; auto). apply (ga_bobs _ _ _ G) in I as (b & B1 & B2 & B3 & B4).
  apply (observed_cams_ok nc nb ins t AD). exists n, b. auto.
Qed.
Lemma cams_table_good op : good_table (observed_cams t) (computeCamerasPairPose (cam_frames t ot op)).
Proof.
  destruct (observed_cams_ok nc nb ins t AD) as (S & O). apply cameras_good; [apply cams_gated|apply sorted_lt_NoDup; auto|].
  intros n fr c o p H Hin. destruct (frame_In op n fr c o p H Hin) as (m & oo & Hm & <- & _). apply oo_cam_observed. eapply nth_error_In; eauto.
Qed.
Lemma cam_together_obs op a b p : In p (cam_together (cam_frames t ot op) a b) <->
  exists m k x y, nth_error (ot_all ot) m = Some x /\ nth_error (ot_all ot) k = Some y /\
    oo_cam x = a /\ oo_cam y = b /\ oo_frame x = oo_frame y /\ oo_obj x = oo_obj y /\ p = pmul (op k) (pinv (op m)).
Proof.
  rewrite cam_together_In. split.
  - intros (n & fr & o & p1 & p2 & H & H1 & H2 & ->). assert (H' := H). apply frame_entry in H' as (f & r & Hf & -> & ->).
    apply in_flat_map in H1 as (m & Hm & H1). apply in_flat_map in H2 as (k & Hk & H2).
    apply where_In in Hm as (x & Ex & Px). apply where_In in Hk as (y & Ey & Py). rewrite Ex in H1. rewrite Ey in H2.
    destruct H1 as [[= <- <- <-]|[]]. destruct H2 as [[= <- E2 <-]|[]]. apply Z.eqb_eq in Px, Py. subst.
    exists m, k, x, y. split; [auto|]. split; [auto|]. split; [auto|]. split; [auto|]. split; [congruence|]. split; auto.
  - intros (m & k & x & y & Ex & Ey & <- & <- & Ef & Eo & ->).
    assert (K := oo_frame_known x (nth_error_In _ _ Ex)). apply mfind_Some_key in K as (r & Hr).
    exists (length (f_obs r)), (flat_map (fun n => match nth_error (ot_all ot) n with Some oo => [((oo_cam oo, oo_obj oo), op n)] | None => [] end)
                  (table_of (oo_frame x) (ot_frames ot))), (oo_obj x), (op m), (op k).
    split; [unfold cam_frames; apply in_map_iff; exists (oo_frame x, r); split; auto; apply mfind_In; auto|].
    rewrite (ot_ok_frames _ ot_good). split; [|split; [|reflexivity]].
    + apply in_flat_map. exists m. split; [apply where_In; exists x; split; auto; apply Z.eqb_refl|]. rewrite Ex. left. auto.
    + apply in_flat_map. exists k. split; [apply where_In; exists y; split; auto; apply Z.eqb_eq; auto|]. rewrite Ey. left. congruence.
Qed.
Lemma cams_covisible op a b : covisible (counts (computeCamerasPairPose (cam_frames t ot op))) a b <-> share_object (ot_all ot) a b.
Proof.
  rewrite (covisible_both _ a b (good_both _ _ (cams_table_good op))). rewrite counts_keys, mfind_Some_key, cameras_table by apply cams_gated. unfold share_object.
  destruct (Z.eqb_spec a b) as [->|N]; [split; [intros (v & H); discriminate|intros (H & _); congruence]|]. split.
  - intros (v & H). apply as_vector_Some in H as (<- & NE). split; auto.
    destruct (cam_together (cam_frames t ot op) a b) as [|p l] eqn:E; [congruence|].
    assert (I : In p (cam_together (cam_frames t ot op) a b)) by (rewrite E; left; auto). apply cam_together_obs in I.
    destruct I as (m & k & x & y & Ex & Ey & A & B & C & D & _). exists x, y. split; [eapply nth_error_In; eauto|]. split; [eapply nth_error_In; eauto|]. auto.
  - intros (_ & x & y & Hx & Hy & A & B & C & D). apply In_nth_error in Hx as (m & Hm). apply In_nth_error in Hy as (k & Hk).
    assert (I : In (pmul (op k) (pinv (op m))) (cam_together (cam_frames t ot op) a b)) by (apply cam_together_obs; exists m, k, x, y; auto 10).
    destruct (cam_together (cam_frames t ot op) a b) as [|p l]; [destruct I|]. eexists. reflexivity.
Qed.

Variables (svd : (nat -> nat -> R) -> quat) (lr : mat3 -> vec3) (uq : bool) (pick : dstate -> nat) (g0 : graph).
Hypothesis Hpick : good_heap pick.
Variable op : nat -> pose.
Notation pairs := (computeCamerasPairPose (cam_frames t ot op)).
Notation g := (covis_graph g0 (observed_cams t) (counts pairs)).

Lemma connected_share a b : connected (counts pairs) a b <-> clos_refl_trans Z (share_object (ot_all ot)) a b.
Proof.
  unfold connected. split; induction 1; try apply rt_refl; try (eapply rt_trans; eassumption).
  - apply rt_step. apply (cams_covisible op). auto.
  - apply rt_step. apply (cams_covisible op). auto.
Qed.
Lemma cameras_stage_main : exists gl css, cameras_stage svd lr uq pick g0 t ot op = Some (dense gl) /\ groups_ok css gl /\
  (forall c, In c (map fst (concat css)) <-> exists n o, obs_at t n o /\ o_cam o = c) /\
  (forall a b, In a (map fst (concat css)) -> In b (map fst (concat css)) ->
     ((exists cs, In cs css /\ In a (map fst cs) /\ In b (map fst cs)) <-> clos_refl_trans Z (share_object (ot_all ot)) a b)) /\
  (forall i cs c P, nth_error css i = Some cs -> In (c, P) cs -> rigid P) /\
  forall tr, initInterTransform svd lr uq pairs = Some tr ->
    forall i cs G c P, nth_error css i = Some cs -> nth_error gl i = Some G -> In (c, P) cs ->
      exists l, route (counts pairs) (cg_ref G) c l /\ chain_transform step_fwd tr l = Some P.
Proof.
  assert (GT := cams_table_good op). assert (PP := good_proper _ _ GT).
  destruct (observed_cams_ok nc nb ins t AD) as (So & O).
  destruct (transforms_total svd lr uq pairs (gt_sorted _ _ GT) (gt_nonempty _ _ GT)) as (tr & E & K & R).
  assert (Keys : mkeys tr = mkeys (counts pairs)) by (rewrite counts_keys; auto).
  destruct (initCameraGroup_ok (observed_cams t) (counts pairs) tr PP So Keys (good_both _ _ (cams_table_good op)) pick Hpick g0) as (gl & css & EO & GK & MB & MR & MP).
  exists gl, css. split; [unfold cameras_stage; rewrite E; auto|]. split; [auto|].
  destruct (comps_partition (observed_cams t) (counts pairs) PP g0) as (ND & CO & CC).
  split; [|split; [|split]].
  - intros b. rewrite concat_map, MB, CO, O. tauto.
  - intros a b Ha Hb. rewrite concat_map, MB, CO in Ha, Hb. rewrite <- connected_share, <- (CC a b Ha Hb), <- MB. split.
    + intros (bs & H1 & H2 & H3). exists (map fst bs). split; [apply in_map; auto|auto].
    + intros (c & Hc & H2 & H3). apply in_map_iff in Hc as (bs & <- & Hbs). eauto.
  - intros i cs c P Hb Hin.
    assert (Hc : nth_error (connectedComponents g) i = Some (map fst cs)) by (rewrite <- MB, nth_error_map, Hb; auto).
    specialize (MP i _ cs c P Hc Hb Hin). eapply path_pose_rigid; [| |exact MP]; auto.
    intros x y Hx Hy. apply rigid_mul; auto.
  - intros tr' E' i cs G c P Hb Ho Hin. assert (tr' = tr) by congruence. subst tr'.
    assert (Hc : nth_error (connectedComponents g) i = Some (map fst cs)) by (rewrite <- MB, nth_error_map, Hb; auto).
    rewrite (MR i _ G Hc Ho). specialize (MP i _ cs c P Hc Hb Hin).
    destruct (comp_path (observed_cams t) (counts pairs) tr PP pick Hpick g0 step_fwd (map fst cs) c) as (l & Rl & El).
    + eapply nth_error_In; eauto.
    + apply (in_map fst) in Hin; auto.
    + exists l. split; auto. congruence.
Qed.

(** noise-free *)
Variables (C : Z -> pose) (Y : Z -> Z -> pose).
Hypothesis EX : exact_objects (ot_all ot) C Y op.
Hypothesis Hsvd : svd_ok svd.
Hypothesis Hlr : log_ok lr.
Lemma cam_transforms_exact : exists tr, initInterTransform svd lr uq pairs = Some tr /\ mkeys tr = mkeys pairs /\
  forall a b p, mfind (a, b) tr = Some p -> p = pmul (C b) (pinv (C a)).
Proof.
  assert (GT := cams_table_good op).
  destruct (initInterTransform_exact svd lr uq pairs (fun k => pmul (C (snd k)) (pinv (C (fst k)))) Hsvd Hlr) as (tr & E & K & F).
  - intros [a b] ps Hin. split; [eapply gt_nonempty; eauto|]. cbn [fst snd].
    destruct EX as (HC & HY & HO). split; [apply rigid_mul; auto; apply rigid_inv; auto|].
    intros p Hin2. apply In_mfind in Hin; [|apply GT]. rewrite cameras_table in Hin by apply cams_gated. destruct (Z.eqb a b); [discriminate|].
    apply as_vector_Some in Hin as (<- & _). apply cam_together_obs in Hin2 as (m & k & x & y & Ex & Ey & <- & <- & Ef & Eo & ->).
    rewrite (HO _ _ Ex), (HO _ _ Ey), Ef, Eo. rewrite pinv_pmul by auto.
    rewrite <- pmul_assoc, (pmul_assoc (Y (oo_frame y) (oo_obj y))), pinv_r, pmul_id_l by auto. auto.
  - exists tr. split; auto. split; auto. intros a b p H. rewrite F in H. destruct (mfind (a, b) pairs); [|discriminate]. injection H as <-. auto.
Qed.
End Cams.
