(** Consequences for 3D objects: C17, C22, C24, C26, C27, C28. *)
From Coq Require Import List ZArith QArith Lia Reals Permutation Sorted Relations.
From Verif Require Import SMap GraphModel GraphSpec GraphDijkstra DataModel DataSpec DataProofs DetectModel RansacModel RansacSpec RansacProofs
  GeomModel GeomSpec GeomProofs ChainModel ChainSpec ChainProofs ChainCam
  ObjectsModel ObjectsSpec ObjectsProofs ObjectsSave ObjectsBuild ObjectsMerge ObjectsObs
  GroupModel GroupSpec GroupProofs GroupMerge GroupObs StageModel StageSpec StageProofs StageMain StageCams StageMerge
  PipelineModel PipelineSpec PipelineProofs.
Import ListNotations.
Close Scope Q_scope.
Close Scope R_scope.
Open Scope nat_scope.

Lemma corners_count bpts l : length (corners bpts l) = fold_right Nat.add 0 (map (fun b => length (bpts b)) l).
Proof. unfold corners. induction l as [|b l IH]; cbn; auto. rewrite app_length, map_length, seq_length, IH. auto. Qed.
Lemma sum_perm (l m : list nat) : Permutation l m -> fold_right Nat.add 0 l = fold_right Nat.add 0 m.
Proof. induction 1; cbn; lia. Qed.

Lemma well_built_numbered bpts bs o : well_built bpts bs o -> numbered bpts o.
Proof.
  intros W.
  assert (L2 : length (ob_o2b o) = ob_nb_pts o) by (rewrite (wb_o2b _ _ _ W), (wb_nb_pts _ _ _ W); auto).
  assert (INV : forall b k n, mfind (b, k) (ob_b2o o) = Some (Z.of_nat n) <-> nth_error (ob_o2b o) n = Some (b, k)).
  { intros b k n. rewrite (wb_b2o _ _ _ W). split; [intros (m & E & H); apply Nat2Z.inj in E; subst; auto|intros H; eauto]. }
  constructor; auto.
  - rewrite (wb_nb_pts _ _ _ W), corners_count. apply sum_perm. apply Permutation_map. apply NoDup_Permutation.
    + apply W.
    + apply msorted_NoDup, W.
    + intros b. symmetry. apply W.
  - rewrite (wb_pts _ _ _ W), corners_length, (wb_nb_pts _ _ _ W). auto.
  - intros b k. rewrite (wb_boards _ _ _ W), <- corners_In, <- (wb_o2b _ _ _ W). split.
    + intros (z & H). apply (wb_b2o _ _ _ W) in H as (n & _ & H). apply nth_error_In in H. auto.
    + intros H. apply In_nth_error in H as (n & H). exists (Z.of_nat n). apply INV; auto.
  - intros b k z H. apply (wb_b2o _ _ _ W) in H as (n & -> & H). assert (n < length (ob_o2b o)) by (apply nth_error_Some; congruence). lia.
Qed.

Lemma save_main bpts bs o : well_built bpts bs o -> exists cols, save3DObj bpts o = Some cols /\ length cols = ob_nb_pts o /\
  NoDup (map (fun c => (snd (fst c), snd c)) cols) /\
  (forall b k, In (b, k) (map (fun c => (snd (fst c), snd c)) cols) <-> In b (mkeys (ob_boards o)) /\ (0 <= k < Z.of_nat (length (bpts b)))%Z) /\
  forall p b k, In (p, b, k) cols -> exists n P q, mfind (b, k) (ob_b2o o) = Some (Z.of_nat n) /\ nth_error (ob_pts o) n = Some p /\
    mfind b (ob_poses o) = Some P /\ nth_error (bpts b) (Z.to_nat k) = Some q /\ p = pact P q.
Proof.
  intros W. destruct (save_ok bpts bs o W) as (cols & E & C & M & L). exists cols. split; [auto|]. split; [auto|].
  rewrite M. split; [apply corners_NoDup, msorted_NoDup, W|]. split; [intros; apply corners_In|].
  intros p b k H. apply C in H as (P & q & j & HP & -> & Hq & ->).
  destruct (wb_lookup bpts bs o b P j W HP) as (n & _ & H1 & _ & _ & H2); [apply nth_error_Some; congruence|].
  exists n, P, q. rewrite Nat2Z.id, H2, Hq. split; [auto|]. split; [auto|]. split; [apply W; auto|]. auto.
Qed.

Lemma true_object_intro bpts bs o W : well_built bpts bs o -> (forall b, rigid (W b)) ->
  (forall b P, In (b, P) bs -> P = pmul (pinv (W (ob_ref o))) (W b)) -> true_object bpts W o.
Proof.
  intros WB R H b Hb. destruct (keys_In_bs _ _ _ _ WB Hb) as (P & HP). assert (E := H b P HP). subst P. split; [apply WB; auto|].
  intros k q Hq. destruct (wb_lookup bpts bs o b _ k WB HP) as (n & _ & H1 & _ & _ & H2); [apply nth_error_Some; congruence|].
  exists n. eexists. split; [eauto|]. rewrite H2, Hq. split; [reflexivity|].
  rewrite <- pact_mul, pmul_assoc, pinv_r, pmul_id_l; auto.
Qed.
Lemma true_object_poses bpts bs o W : well_built bpts bs o -> true_object bpts W o ->
  forall b P, In (b, P) bs -> P = pmul (pinv (W (ob_ref o))) (W b).
Proof.
  intros WB T b P HP. assert (Hb : In b (mkeys (ob_boards o))) by (apply WB; apply (in_map fst) in HP; auto).
  destruct (T b Hb) as (E & _). apply (wb_poses _ _ _ WB) in HP. congruence.
Qed.

Section Main.
Context {pt : Type}.
Variables (svd : (nat -> nat -> R) -> quat) (lr : mat3 -> vec3) (uq : bool) (pick : dstate -> nat) (g0 : graph).
Hypothesis Hpick : good_heap pick.
Variables (bpts : Z -> list vec3) (nc nb : nat) (ins : list (insertion pt)) (t : tables pt).
Hypothesis AD : after_detection nc nb ins t.

Lemma stage_true W X bp : svd_ok svd -> log_ok lr -> exact_boards t W X bp ->
  exists objs, objects_stage svd lr uq pick g0 bpts t bp = Some objs /\
    (forall b, (exists n o, obs_at t n o /\ o_board o = b) <-> exists k o, In (k, o) objs /\ In b (mkeys (ob_boards o))) /\
    forall k o, In (k, o) objs -> true_object bpts W o.
Proof.
  intros Hs Hl EX. destruct (objects_stage_main nc nb ins t AD svd lr uq pick g0 Hpick bpts bp) as (ol0 & bss0 & E0 & OK0 & Cov & _).
  destruct (objects_stage_exact nc nb ins t AD svd lr uq pick g0 Hpick bpts bp W X EX Hs Hl) as (ol & bss & E & OK & H).
  exists (dense ol). split; [auto|]. split.
  - assert (ol0 = ol). { rewrite E in E0. injection E0 as E0. rewrite <- (dense_vals ol), <- (dense_vals ol0), E0. auto. } subst ol0.
    intros b. rewrite <- Cov. rewrite concat_map, in_concat. split.
    + intros (l & Hl' & Hb). apply in_map_iff in Hl' as (bs & <- & Hbs). apply In_nth_error in Hbs as (i & Hi).
      destruct (nth_error_length_ex bss0 ol i bs (ok_len _ _ _ OK0) Hi) as (o & Ho). exists (Z.of_nat i), o.
      split; [apply dense_In; eauto|]. apply (ok_wb _ _ _ OK0 i bs o Hi Ho). auto.
    + intros (k & o & Hin & Hb). apply dense_In in Hin as (i & -> & Ho).
      destruct (nth_error_length_ex ol bss0 i o (eq_sym (ok_len _ _ _ OK0)) Ho) as (bs & Hbs).
      exists (map fst bs). split; [apply in_map; eapply nth_error_In; eauto|]. apply (ok_wb _ _ _ OK0 i bs o Hbs Ho). auto.
  - intros k o Hin. apply dense_In in Hin as (i & -> & Ho).
    destruct (nth_error_length_ex ol bss i o (eq_sym (ok_len _ _ _ OK)) Ho) as (bs & Hbs).
    eapply true_object_intro; [eapply ok_wb; eauto|apply EX|]. intros b P. eapply H; eauto.
Qed.

Hypothesis Hp : paired t.
Lemma merge_true s W X gp : reached svd lr uq pick g0 bpts t s -> svd_ok svd -> log_ok lr ->
  (forall b, rigid (W b)) -> (forall k, rigid (X k)) ->
  (forall k o, In (k, o) (ca_objs s) -> true_object bpts W o) ->
  (forall k go j o, mfind k (gt_obs (ca_gobs s)) = Some go -> In j (go_ids go) -> mfind j (ca_objs s) = Some o ->
     gp k j = pmul (X k) (W (ob_ref o))) ->
  exists objs, merge_stage svd lr uq pick g0 bpts (ca_objs s) (ca_oobs s) (ca_gobs s) gp = Some objs /\
    forall k o, In (k, o) objs -> true_object bpts W o.
Proof.
  intros Rd Hs Hl RW RX T EG. destruct (reached_ok svd lr uq pick g0 Hpick bpts nc nb ins t AD Hp s Rd) as (bss & ol & css & gl & [E1 OK OT Ob Cov E2 GK GT NU CA KE]).
  assert (Objs : forall oo, In oo (ot_all (ca_oobs s)) -> exists i o, nth_error ol i = Some o /\ oo_obj oo = Z.of_nat i)
    by (intros oo H; destruct (Ob oo H) as (i & o & H1 & H2 & _); eauto).
  assert (Fr := known_frames nc nb ins t AD _ _ Ob).
  rewrite E1 in T, EG |- *.
  assert (EB : forall i bs o b P, nth_error bss i = Some bs -> nth_error ol i = Some o -> In (b, P) bs -> P = pmul (pinv (W (ob_ref o))) (W b)).
  { intros i bs o b P Hi Ho. apply (true_object_poses bpts bs o W); [eapply ok_wb; eauto|]. apply (T (Z.of_nat i)). apply dense_In. eauto. }
  assert (EX : exact_group_poses (ca_gobs s) (vpose ol W) X gp).
  { split; [|split; [auto|]].
    - intros j. unfold vpose. destruct (mfind j (dense ol)); auto. apply rigid_id.
    - intros k go j Hk Hj.
      destruct (gobs_ids (ca_oobs s) gl _ (ca_gobs s) GT k go Hk) as (i & f & G & _ & _ & _ & I).
      apply I in Hj as Hj'. destruct Hj' as (oo & Hoo & _ & Eo). destruct (Objs oo Hoo) as (i' & o & Ho & Ei).
      assert (F : mfind j (dense ol) = Some o) by (rewrite <- Eo, Ei; apply dense_nth; auto).
      rewrite (EG k go j o Hk Hj F). unfold vpose. rewrite F. auto. }
  destruct (merge_stage_exact bpts bss ol OK (ca_oobs s) OT Objs gl _ (ca_gobs s) GT Fr svd lr uq pick g0 Hpick gp W X RW EB EX Hs Hl)
    as (ol' & bss' & E & OK' & H).
  exists (dense ol'). split; [auto|]. intros k o Hin. apply dense_In in Hin as (i & -> & Ho).
  destruct (nth_error_length_ex ol' bss' i o (eq_sym (ok_len _ _ _ OK')) Ho) as (bs & Hbs).
  eapply true_object_intro; [eapply ok_wb; eauto|auto|]. intros b P. eapply H; eauto.
Qed.

Lemma reached_objects s k o : reached svd lr uq pick g0 bpts t s -> In (k, o) (ca_objs s) -> exists bs, well_built bpts bs o /\ origin_ok o.
Proof.
  intros Rd Hin. destruct (reached_ok svd lr uq pick g0 Hpick bpts nc nb ins t AD Hp s Rd) as (bss & ol & css & gl & [E1 OK OT Ob Cov E2 GK GT NU CA KE]).
  rewrite E1 in Hin. apply dense_In in Hin as (i & -> & Ho).
  destruct (nth_error_length_ex ol bss i o (eq_sym (ok_len _ _ _ OK)) Ho) as (bs & Hbs). exists bs.
  split; [eapply ok_wb; eauto|eapply ok_or; eauto].
Qed.
Lemma reached_groups s k G : reached svd lr uq pick g0 bpts t s -> In (k, G) (ca_groups s) -> exists cs, grouped cs G /\ group_origin G.
Proof.
  intros Rd Hin. destruct (reached_ok svd lr uq pick g0 Hpick bpts nc nb ins t AD Hp s Rd) as (bss & ol & css & gl & [E1 OK OT Ob Cov E2 GK GT NU CA KE]).
  rewrite E2 in Hin. apply dense_In in Hin as (i & -> & Ho).
  destruct (nth_error_length_ex gl css i G (eq_sym (gk_len _ _ GK)) Ho) as (bs & Hbs). exists bs.
  split; [eapply gk_wb; eauto|eapply gk_or; eauto].
Qed.

(** C27 *)
Lemma first_pass_count bp rf s : keeps_boards rf -> calibrate3DObjects svd lr uq pick g0 bpts t bp rf = Some s ->
  forall n b, obs_at t n b -> o_pts b <> [] ->
  exists oo o, filter (fun oo => existsb (Nat.eqb n) (oo_bobs oo)) (ot_all (ca_oobs s)) = [oo] /\
    oo_cam oo = o_cam b /\ oo_frame oo = o_frame b /\ mfind (oo_obj oo) (ca_objs s) = Some o /\
    In (o_board b) (mkeys (ob_boards o)) /\ gathers t o oo.
Proof.
  intros K E n b Hn Hpts. destruct (objects_stage_main nc nb ins t AD svd lr uq pick g0 Hpick bpts bp) as (ol & bss & Es & OK & Cov & _).
  unfold calibrate3DObjects in E. rewrite Es, init_all in E by auto. injection E as <-. cbn [ca_oobs ca_objs].
  assert (Hb : In (o_board b) (map fst (concat bss))) by (apply Cov; eauto).
  rewrite concat_map in Hb. apply in_concat in Hb as (l & Hl & Hb). apply in_map_iff in Hl as (bs & <- & Hl).
  apply In_nth_error in Hl as (i & Hi). destruct (nth_error_length_ex bss ol i bs (ok_len _ _ _ OK) Hi) as (o & Ho).
  assert (Hk : In (o_board b) (mkeys (ob_boards o))) by (apply (ok_wb _ _ _ OK i bs o Hi Ho); auto).
  destruct (pass_count t bpts bss ol n b i o OK (ad_linked nc nb ins t AD) Hp Hn Hpts Ho Hk) as (oo & F & Ek).
  unfold okey in Ek. injection Ek as K1 K2 K3. exists oo, (updateObjectPts bpts o (rf o)).
  split; [rewrite store_all_list; exact F|]. split; [auto|]. split; [auto|].
  split; [rewrite K1, refine_dense; apply dense_nth; apply retake_nth; eauto|]. split; [auto|].
  apply gathers_update. assert (Hin : In oo (map snd (pass t (dense ol)))).
  { assert (I : In oo (filter (uses n) (map snd (pass t (dense ol))))) by (rewrite F; left; auto). apply filter_In in I. tauto. }
  apply in_map_iff in Hin as (e & <- & He). destruct (pass_ok t ol e (ad_linked nc nb ins t AD) Hp He) as (_ & i' & o' & Ho' & Ei & G).
  assert (i' = i) by lia. subst i'. congruence.
Qed.

(** C28 *)
Lemma filter_concat_repeat {A} (p : A -> bool) l x k : filter p l = [x] -> filter p (concat (repeat l k)) = repeat x k.
Proof. intros E. induction k as [|k IH]; cbn; auto. rewrite filter_app, E, IH. auto. Qed.
Lemma merge_count gp rf rg s s' : reached svd lr uq pick g0 bpts t s -> keeps_boards rf -> keeps_cams rg ->
  merge3DObjects svd lr uq pick g0 bpts t gp rf rg s = Some s' ->
  forall n b, obs_at t n b -> o_pts b <> [] ->
  exists oo o, filter (fun oo => existsb (Nat.eqb n) (oo_bobs oo)) (ot_all (ca_oobs s')) = repeat oo (length (ca_objs s')) /\
    oo_cam oo = o_cam b /\ oo_frame oo = o_frame b /\ mfind (oo_obj oo) (ca_objs s') = Some o /\
    In (o_board b) (mkeys (ob_boards o)) /\ gathers t o oo.
Proof.
  intros Rd K KG E n b Hn Hpts. destruct (reached_ok svd lr uq pick g0 Hpick bpts nc nb ins t AD Hp s Rd) as (bss & ol & css & gl & CO).
  destruct (merge_keeps_ok svd lr uq pick g0 Hpick bpts nc nb ins t AD Hp gp rf rg s bss ol css gl K KG CO)
    as (s1 & bss' & ol' & css' & gl' & ol0 & F & C & _ & L & Eall & bss0 & OK0 & M).
  assert (s1 = s') by congruence. subst s1. destruct C as [E1 OK OT Ob Cov E2 GK GT NU CA KE].
  destruct (Cov n b Hn Hpts) as (Hb & _). rewrite concat_map, M, <- concat_map in Hb.
  rewrite concat_map in Hb. apply in_concat in Hb as (l & Hl & Hb). apply in_map_iff in Hl as (bs & <- & Hl).
  apply In_nth_error in Hl as (i & Hi). destruct (nth_error_length_ex bss0 ol0 i bs (ok_len _ _ _ OK0) Hi) as (o & Ho).
  assert (Hk : In (o_board b) (mkeys (ob_boards o))) by (apply (ok_wb _ _ _ OK0 i bs o Hi Ho); auto).
  destruct (pass_count t bpts bss0 ol0 n b i o OK0 (ad_linked nc nb ins t AD) Hp Hn Hpts Ho Hk) as (oo & Fl & Ek).
  unfold okey in Ek. injection Ek as K1 K2 K3.
  assert (Hin : In oo (ot_all (ca_oobs s'))).
  { rewrite Eall. apply in_concat. exists (map snd (pass t (dense ol0))). split.
    - destruct (length ol0) eqn:E0; [|left; auto]. destruct ol0; [destruct i; discriminate|discriminate].
    - assert (I : In oo (filter (uses n) (map snd (pass t (dense ol0))))) by (rewrite Fl; left; auto). apply filter_In in I. tauto. }
  destruct (Ob oo Hin) as (i' & o' & Ho' & Ei & G).
  exists oo, o'. split; [rewrite Eall, E1, dense_length, L; apply filter_concat_repeat; exact Fl|].
  split; [auto|]. split; [auto|]. split; [rewrite E1, Ei; apply dense_nth; auto|]. split; [|auto].
  assert (U : In n (oo_bobs oo)). { assert (I : In oo (filter (uses n) (map snd (pass t (dense ol0))))) by (rewrite Fl; left; auto).
    apply filter_In in I as (_ & I). apply uses_true in I. auto. }
  apply (ga_bobs _ _ _ G) in U as (b' & Hb' & _ & _ & I). unfold obs_at in Hn. congruence.
Qed.

(** corner numbers *)
Lemma numbers_right o oo bs : well_built bpts bs o -> gathers t o oo ->
  exists l, Forall2 (fun n b => obs_at t n b) (oo_bobs oo) l /\ oo_pts oo = flat_map o_pts l /\
    oo_ids oo = flat_map (fun b => map (b2o o (o_board b)) (o_ids b)) l /\
    forall b k, In b l -> In k (o_ids b) -> (0 <= k < Z.of_nat (length (bpts (o_board b))))%Z ->
      (0 <= b2o o (o_board b) k)%Z /\ nth_error (ob_o2b o) (Z.to_nat (b2o o (o_board b) k)) = Some (o_board b, k).
Proof.
  intros W G. destruct (ga_content _ _ _ G) as (l & F & _ & E1 & E2). exists l. split; [exact F|]. split; [auto|]. split; [auto|].
  intros b k Hb _ Hk.
  assert (Hm : In (o_board b) (mkeys (ob_boards o))).
  { assert (Q : forall n' l', Forall2 (fun n b => nth_error (mvals (t_obs t)) n = Some b) n' l' -> In b l' -> exists n, In n n' /\ nth_error (mvals (t_obs t)) n = Some b).
    { induction 1 as [|x y n' l' H1 H2 IH]; intros []; [subst; exists x; split; [left; auto|auto]|].
      destruct (IH H) as (n & A & B). exists n. split; [right; auto|auto]. }
    destruct (Q _ _ F Hb) as (n & A & B). apply (ga_bobs _ _ _ G) in A as (b' & B' & _ & _ & I). congruence. }
  destruct (keys_In_bs _ _ _ _ W Hm) as (P & HP).
  destruct (wb_lookup bpts bs o (o_board b) P (Z.to_nat k) W HP) as (n & A & _ & _ & B & _); [lia|].
  rewrite Z2Nat.id in A, B by lia. rewrite A, Nat2Z.id. split; [lia|auto].
Qed.
End Main.
