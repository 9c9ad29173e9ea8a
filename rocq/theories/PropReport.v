(** C61 (continued), C62, C63: the scripts of python_utils on the files of a calibration.
    Specification: AnalysisSpec.v, FileSpec.v, RigSpec.v. *)
From Coq Require Import List ZArith Lia Reals Lra Sorted.
From Verif Require Import SMap GraphModel GraphSpec DataModel DataProofs DetectModel DetectProofs RansacModel GeomModel GeomSpec GeomProofs ObjectsModel ObjectsSpec ObjectsMerge ObjectsObs ObjectsSave GroupModel GroupSpec StageModel StageSpec
  PipelineModel PipelineSpec PipelineProofs EstimateAll CameraModel ResidualModel ResidualSpec FileModel FileSpec PropObjects PropGroup GraphPath PropResidual PropFile RigSpec AnalysisModel AnalysisSpec AnalysisProofs PropAnalysis.
Import ListNotations.
Open Scope R_scope.

(** *** C61: several groups *)
Section Groups.
Variables (svd : (nat -> nat -> R) -> quat) (lr : mat3 -> vec3) (uq : bool) (pick : dstate -> nat) (g0 : graph).
Hypothesis Hh : good_heap pick.
Variables (bpts : Z -> list vec3) (nc nb : nat) (ins : list (insertion pt2)) (t : tables pt2).
Hypothesis AD : after_detection nc nb ins t.
Hypothesis Hp : paired t.
Variable s : calib pt2.
Hypothesis Rd : reached svd lr uq pick g0 bpts t s.
Variable cams : smap Z camera_t.
Hypothesis CK : mkeys cams = map Z.of_nat (seq 0 nc).
(** A calibration that ends with more than one group cannot be compared with a ground truth (nor displayed): the cameras of
    the other groups are not in the file, and the script raises. *)
Theorem C61_several_groups_cannot_be_compared : forall g, (1 < length (ca_groups s))%nat ->
  compute_pose_error_vs_gt nc (saveCamerasParams cams (ca_groups s)) g = None.
Proof.
  intros g L. apply C61_every_camera_is_needed. left.
  destruct (reached_ok svd lr uq pick g0 Hh bpts nc nb ins t AD Hp s Rd) as (bss & ol & css & gl & CO).
  assert (HG : exists G, mfind 1%Z (ca_groups s) = Some G).
  { rewrite (co_groups _ _ _ _ _ _ _ CO) in *. rewrite dense_length in L. destruct gl as [|G0 [|G1 gl]]; cbn in L; try lia. exists G1. apply (dense_find (G0 :: G1 :: gl) 1). }
  destruct HG as (G & HG). destruct (group_members svd lr uq pick g0 Hh bpts nc nb ins t AD Hp s Rd 1%Z G HG) as (_ & _ & _ & PM).
  assert (Hc : In (cg_ref G) (cg_cams G)).
  { destruct (co_groups_ok _ _ _ _ _ _ _ CO) as [_ _ GO _ _]. rewrite Forall_forall in GO. rewrite (co_groups _ _ _ _ _ _ _ CO) in HG. apply mfind_In in HG. apply dense_In in HG as (i & _ & HG).
    apply GO. eapply nth_error_In; eauto. }
  assert (Lost := C36_other_groups_are_lost svd lr uq pick g0 Hh bpts nc nb ins t AD Hp s Rd cams CK 1%Z G (cg_ref G) HG ltac:(lia) Hc).
  destruct (proj1 (PM _) Hc) as (P & EP). destruct (member_known svd lr uq pick g0 Hh bpts nc nb ins t AD Hp s Rd cams CK 1%Z G (cg_ref G) P HG EP) as (k0 & Hk0).
  apply mfind_In in Hk0. apply (in_map fst) in Hk0. cbn [fst] in Hk0. fold (mkeys cams) in Hk0. rewrite CK in Hk0. apply in_map_iff in Hk0 as (n & En & Hn). apply in_seq in Hn.
  exists n. split; [lia|]. rewrite En. destruct (entry _ _) as [r|] eqn:Er; [|reflexivity]. exfalso. apply Lost. unfold entry in Er. destruct (find _ _) as [(c, r')|] eqn:Ef in Er; [|discriminate Er].
  apply List.find_some in Ef as (Hin & Eq). apply Z.eqb_eq in Eq. cbn in Eq. subst c. apply (in_map fst) in Hin. exact Hin.
Qed.
End Groups.
Print Assumptions C61_several_groups_cannot_be_compared.

(** *** C62: the statistic of the reprojection errors *)
Lemma mean_average l : l <> [] -> exists m, np_mean (map Some l) = Some m /\ average l m.
Proof.
  intros N. assert (E := np_mean_Some (fun x : R => x) l N). cbv beta in E. rewrite map_id in E. change (map (fun x : R => Some x) l) with (map Some l) in E. rewrite E.
  eexists. split; [reflexivity|]. split; [auto|]. assert (0 < INR (length l)) by (apply INR_pos; destruct l; [contradiction|cbn; lia]). field. lra.
Qed.
Lemma find_unique {A} (key : A -> Z) l x : NoDup (map key l) -> In x l -> find (fun y => Z.eqb (key y) (key x)) l = Some x.
Proof.
  induction l as [|a l IH]; cbn [map find]; intros N H; [destruct H|]. inversion N as [|? ? N1 N2]; subst. destruct H as [-> |H]; [rewrite Z.eqb_refl; auto|].
  destruct (Z.eqb_spec (key a) (key x)) as [E|_]; [exfalso; apply N1; rewrite E; apply in_map; auto|auto].
Qed.
Lemma collect_Forall2 {A B} (f : A -> option B) (P : A -> B -> Prop) l : (forall x, In x l -> exists y, f x = Some y /\ P x y) -> exists ys, collect (map f l) = Some ys /\ Forall2 P l ys.
Proof.
  induction l as [|a l IH]; intros H; cbn [map collect]; [exists []; split; [auto|constructor]|].
  destruct (H a (or_introl eq_refl)) as (y & -> & Py). destruct (IH (fun x Hx => H x (or_intror Hx))) as (ys & -> & F). exists (y :: ys). split; [reflexivity|constructor; auto].
Qed.
Definition camera_average (ce : cam_errors) (m : R) : Prop := average (ce_errors ce) m.
Definition frame_average (fe : frame_errors) (bar : R) : Prop := exists ms, Forall2 camera_average (fe_cams fe) ms /\ average ms bar.
(** A frame in which the entries have at least one point each, and those of the same camera give the same numbers. *)
Record single_entries (fe : frame_errors) : Prop := {
  se_list : fe_list fe = map ce_cam (fe_cams fe);
  se_some : fe_cams fe <> [];
  se_once : forall ce ce', In ce (fe_cams fe) -> In ce' (fe_cams fe) -> ce_cam ce = ce_cam ce' -> ce_errors ce = ce_errors ce';
  se_cams : forall ce, In ce (fe_cams fe) -> (0 <= ce_cam ce < 100)%Z /\ ce_errors ce <> [] }.
Lemma find_some_key (cams : list cam_errors) ce : In ce cams -> exists ce', find (fun y => Z.eqb (ce_cam y) (ce_cam ce)) cams = Some ce' /\ In ce' cams /\ ce_cam ce' = ce_cam ce.
Proof.
  intros H. destruct (find _ cams) as [ce'|] eqn:E.
  - apply List.find_some in E as (A & B). apply Z.eqb_eq in B. eauto.
  - exfalso. assert (X := List.find_none _ _ E ce H). cbv beta in X. rewrite Z.eqb_refl in X. discriminate X.
Qed.
Lemma camera_mean_right fe ce : single_entries fe -> In ce (fe_cams fe) -> exists m, camera_mean fe (ce_cam ce) = Some (Some m) /\ camera_average ce m.
Proof.
  intros [E1 E2 E3 E4] H. destruct (E4 ce H) as (B & NE). unfold camera_mean, python_index.
  replace ((- (100) <=? ce_cam ce) && (ce_cam ce <? 100))%Z%bool with true by (symmetry; apply andb_true_iff; split; [apply Z.leb_le|apply Z.ltb_lt]; lia).
  destruct (find_some_key (fe_cams fe) ce H) as (ce' & -> & H' & Ec). assert (Es := E3 ce' ce H' H Ec). rewrite Es. destruct (mean_average (ce_errors ce) NE) as (m & Em & Av). exists m.
  destruct (ce_errors ce) as [|e es] eqn:Ee; [contradiction|]. rewrite Em. split; [auto|]. unfold camera_average. rewrite Ee. auto.
Qed.
Lemma frame_mean_right ge fe : NoDup (map fe_frame (ge_frames ge)) -> In fe (ge_frames ge) -> single_entries fe -> exists bar, frame_mean ge (fe_frame fe) = Some (Some bar) /\ frame_average fe bar.
Proof.
  intros ND H SE. unfold frame_mean. rewrite (find_unique fe_frame (ge_frames ge) fe) by auto. destruct SE as [E1 E2 E3 E4] eqn:X. clear X.
  destruct (collect_Forall2 (camera_mean fe) (fun c v => exists ce m, In ce (fe_cams fe) /\ ce_cam ce = c /\ v = Some m /\ camera_average ce m) (fe_list fe)) as (vs & Ev & Fv).
  { intros c Hc. rewrite E1 in Hc. apply in_map_iff in Hc as (ce & <- & Hce). destruct (camera_mean_right fe ce SE Hce) as (m & Em & Av). exists (Some m). split; [auto|]. exists ce, m. auto. }
  assert (Y : exists ms, vs = map Some ms /\ Forall2 camera_average (fe_cams fe) ms).
  { rewrite E1 in Fv. clear Ev.
    assert (G : forall l, incl l (fe_cams fe) -> forall vs, Forall2 (fun c v => exists ce m, In ce (fe_cams fe) /\ ce_cam ce = c /\ v = Some m /\ camera_average ce m) (map ce_cam l) vs ->
      exists ms, vs = map Some ms /\ Forall2 camera_average l ms).
    { induction l as [|ce l IH]; intros I us Fu; inversion Fu as [|? v ? vs' (ce' & m & A & B & Ev & D) Fv']; subst.
      - exists []. split; [auto|constructor].
      - destruct (IH (fun x Hx => I x (or_intror Hx)) vs' Fv') as (ms & -> & Fm). exists (m :: ms). split; [auto|]. constructor; [|auto]. unfold camera_average in *. rewrite <- (E3 ce' ce A (I ce (or_introl eq_refl)) B). auto. }
    apply (G (fe_cams fe)); [intros x; auto|auto]. }
  destruct Y as (ms & -> & Fm). assert (NM : ms <> []) by (intros ->; inversion Fm as [Q|]; subst; congruence). destruct (mean_average ms NM) as (bar & Eb & Ab).
  exists bar. destruct (fe_list fe) as [|c l] eqn:EL; [destruct (fe_cams fe); [contradiction|discriminate E1]|]. rewrite Ev. cbn [option_map]. rewrite Eb. split; [auto|]. exists ms. auto.
Qed.
(** The bars of a file with one group whose frames have one entry per camera: for each frame, the average over its cameras
    of the average distance. *)
Lemma bars_of_a_file ge : ge_group ge = 0%Z -> ge_frames ge <> [] -> ge_list ge = map fe_frame (ge_frames ge) -> NoDup (map fe_frame (ge_frames ge)) ->
  (forall fe, In fe (ge_frames ge) -> single_entries fe) ->
  exists bars, compute_error_statistic (1%nat, [ge]) = Some (map Some bars) /\ Forall2 frame_average (ge_frames ge) bars.
Proof.
  intros E0 NE EL ND SE. unfold compute_error_statistic. cbn [fst snd Nat.eqb find]. rewrite E0, Z.eqb_refl.
  assert (X : exists bars, collect (map (frame_mean ge) (map fe_frame (ge_frames ge))) = Some (map Some bars) /\ Forall2 frame_average (ge_frames ge) bars).
  { rewrite map_map. destruct (collect_Forall2 (fun fe => frame_mean ge (fe_frame fe)) (fun fe v => exists bar, v = Some bar /\ frame_average fe bar) (ge_frames ge)) as (vs & Ev & Fv).
    - intros fe H. destruct (frame_mean_right ge fe ND H (SE fe H)) as (bar & Eb & Fb). exists (Some bar). eauto.
    - rewrite Ev. clear Ev ND SE EL NE. assert (Y : exists bars, vs = map Some bars /\ Forall2 frame_average (ge_frames ge) bars); [|destruct Y as (bars & -> & F); exists bars; auto].
      induction Fv as [|fe v l vs (bar & -> & Fb) Fv IH]; [exists []; split; [auto|constructor]|]. destruct IH as (bars & -> & F). exists (bar :: bars). split; [auto|constructor; auto]. }
  destruct X as (bars & Eb & Fb). exists bars. split; [|auto]. rewrite EL. destruct (map fe_frame (ge_frames ge)) as [|f l] eqn:Ef; [destruct (ge_frames ge); [contradiction|discriminate Ef]|]. exact Eb.
Qed.
Lemma from_view {A B} (P : A -> B -> Prop) l l' : Forall2 P l l' -> forall y, In y l' -> exists x, In x l /\ P x y.
Proof. intros F y H. induction F as [|x y' l l' A0 F IH]; [destruct H|]. destruct H as [<- |H]; [exists x; split; [left; auto|auto]|]. destruct (IH H) as (x' & H1 & H2). exists x'. split; [right; auto|auto]. Qed.
Section Bars.
Variables (svd : (nat -> nat -> R) -> quat) (lr : mat3 -> vec3) (uq : bool) (pick : dstate -> nat) (g0 : graph).
Hypothesis Hh : good_heap pick.
Variables (bpts : Z -> list vec3) (nc nb : nat) (ins : list (insertion pt2)) (t : tables pt2).
Hypothesis AD : after_detection nc nb ins t.
Hypothesis TR : forall o, In o (mvals (t_obs t)) -> trimmed bpts o.
Variable s : calib pt2.
Hypothesis Rd : reached svd lr uq pick g0 bpts t s.
Variables (cams : Z -> Z) (p : params).

(** what the file of a calibration with one group contains *)
Lemma file_shape n file : saveReprojectionErrorToFile cams p s = Some (n, file) -> length (ca_groups s) = 1%nat -> (nc <= 100)%nat -> (exists k b, obs_at t k b /\ o_pts b <> []) ->
  exists G ge, n = 1%nat /\ file = [ge] /\ mfind 0%Z (ca_groups s) = Some G /\ ge_group ge = 0%Z /\ ge_frames ge <> [] /\ ge_list ge = map fe_frame (ge_frames ge) /\
    StronglySorted Z.lt (map fe_frame (ge_frames ge)) /\ (forall f, In f (map fe_frame (ge_frames ge)) <-> sees_in t G f) /\
    forall fe, In fe (ge_frames ge) -> Forall2 (proper_errors cams p s G) (filter (seen_by G (fe_frame fe)) (ot_all (ca_oobs s))) (fe_cams fe) /\ fe_list fe = map ce_cam (fe_cams fe) /\
      fe_cams fe <> [] /\ forall ce, In ce (fe_cams fe) -> (0 <= ce_cam ce < 100)%Z /\ ce_errors ce <> [].
Proof.
  intros E L Nc (k0 & b0 & Hb0 & NE0). destruct (C37_contents_of_the_file svd lr uq pick g0 Hh bpts nc nb ins t AD TR s Rd cams p n file E) as (En & Lf & C).
  rewrite L in En. subst n. destruct file as [|ge [|]]; try discriminate Lf. destruct (C 0%nat ge eq_refl) as (G & HG & Gi & Sf & Ff & Fe & Ll). cbn [firstn map concat] in Ll. rewrite app_nil_r in Ll.
  destruct (setting svd lr uq pick g0 Hh bpts nc nb ins t AD TR s Rd) as (bss & ol & css & gl & CO & FR). assert (Hp := trimmed_paired bpts t TR).
  assert (All : forall c, In c (map fst (concat css)) -> In c (cg_cams G)).
  { intros c Hc. assert (L' := L). assert (HG' := HG). rewrite (co_groups _ _ _ _ _ _ _ CO) in L', HG'. rewrite dense_length in L'. destruct gl as [|G' [|]]; try discriminate L'. cbn in HG'. injection HG' as ->.
    destruct (co_groups_ok _ _ _ _ _ _ _ CO) as [GB _ _ _ _]. inversion GB as [|cs ? ? ? Gr GB']; subst. inversion GB'; subst. cbn [concat] in Hc. rewrite app_nil_r in Hc. rewrite (gr_cams _ _ Gr). auto. }
  assert (Cover : forall k b, obs_at t k b -> o_pts b <> [] -> exists oo, In oo (ot_all (ca_oobs s)) /\ oo_cam oo = o_cam b /\ oo_frame oo = o_frame b).
  { intros k b Hb NE. destruct (co_cover _ _ _ _ _ _ _ CO k b Hb NE) as (_ & oo & Hoo & Hk). exists oo. split; [auto|]. destruct (co_obs _ _ _ _ _ _ _ CO oo Hoo) as (i & o & _ & _ & Ga).
    apply (ga_bobs _ _ _ Ga) in Hk as (b' & Hb' & H1 & H2 & _). unfold obs_at in Hb. assert (b' = b) by congruence. subst b'. auto. }
  assert (NF : ge_frames ge <> []).
  { intros Q. assert (X : In (o_frame b0) (map fe_frame (ge_frames ge))); [|rewrite Q in X; destruct X]. apply Ff. exists k0, b0. split; [auto|]. split; [auto|]. split; [|auto]. apply All. exact (co_kept _ _ _ _ _ _ _ CO k0 b0 Hb0 NE0). }
  exists G, ge. split; [auto|]. split; [auto|]. split; [auto|]. split; [auto|]. split; [auto|]. split; [auto|]. split; [auto|]. split; [auto|].
  intros fe Hfe. destruct (Fe fe Hfe) as (F2 & El). split; [auto|]. split; [exact El|]. split.
  - intros Q. rewrite Q in F2. inversion F2 as [X|]. assert (HS : sees_in t G (fe_frame fe)) by (apply Ff, in_map; auto). destruct HS as (k & b & Hb & NE & Hc & Hf).
      destruct (Cover k b Hb NE) as (oo & Ho & H1 & H2). assert (Y : In oo (filter (seen_by G (fe_frame fe)) (ot_all (ca_oobs s)))); [|rewrite <- X in Y; destruct Y].
      apply filter_In. split; [auto|]. unfold seen_by. rewrite H2, Hf, Z.eqb_refl. cbn [andb]. apply existsb_exists. exists (o_cam b). split; [auto|]. rewrite H1. apply Z.eqb_refl.
  - intros ce Hce. destruct (from_view _ _ _ F2 ce Hce) as (oo & Ho & (A1 & A2 & o & rp & A3 & A4 & A5 & A6)). apply filter_In in Ho as (Ho & Hs). split.
      + rewrite A1. unfold seen_by in Hs. apply andb_true_iff in Hs as (_ & Hs). apply existsb_exists in Hs as (c & Hc & Ec). apply Z.eqb_eq in Ec. rewrite Ec.
        destruct (group_members svd lr uq pick g0 Hh bpts nc nb ins t AD Hp s Rd 0%Z G HG) as (_ & _ & _ & PM). destruct (proj1 (PM c) Hc) as (P & EP).
        set (dummy := map (fun m => (Z.of_nat m, mkCamera (I9 0 0 0 0 0 0 0 0 0) 0 0 0)) (seq 0 nc)). assert (CK : mkeys dummy = map Z.of_nat (seq 0 nc)) by (unfold dummy, mkeys; rewrite map_map; reflexivity).
        destruct (member_known svd lr uq pick g0 Hh bpts nc nb ins t AD Hp s Rd dummy CK 0%Z G c P HG EP) as (k1 & Hk1). apply mfind_In in Hk1. apply (in_map fst) in Hk1. cbn [fst] in Hk1. fold (mkeys dummy) in Hk1. rewrite CK in Hk1. apply in_map_iff in Hk1 as (m & <- & Hm). apply in_seq in Hm. lia.
      + assert (NP := obs_nonempty svd lr uq pick g0 Hh bpts nc nb ins t AD TR s Rd oo Ho). rewrite A6. destruct (oo_pts oo) as [|x xs]; [contradiction|]. destruct rp as [|y ys]; [discriminate A4|]. discriminate.
Qed.
(** the mean distance, over the corners of an object observation, between the corner detected and the corner reprojected *)
Definition mean_distance (G : cgroup) (oo : objobs pt2) (m : R) : Prop :=
  exists ce, proper_errors cams p s G oo ce /\ average (ce_errors ce) m.
(** all the views of a camera in a frame are of the same object, with the same corners (views listed twice, C28, do not matter) *)
Definition one_object_per_image (u : calib pt2) : Prop :=
  forall oo oo', In oo (ot_all (ca_oobs u)) -> In oo' (ot_all (ca_oobs u)) -> oo_cam oo = oo_cam oo' -> oo_frame oo = oo_frame oo' ->
  oo_obj oo = oo_obj oo' /\ oo_ids oo = oo_ids oo' /\ oo_pts oo = oo_pts oo'.
(** If the calibration ended with one group, there are at most 100 cameras, some corner was kept, and no camera sees two
    objects in one image, the bars are what they should be: one for each frame in which a corner was seen, in order, with
    the average over the views of that frame of the mean distance. *)
Theorem C62_bars_are_mean_errors : forall n file,
  saveReprojectionErrorToFile cams p s = Some (n, file) -> length (ca_groups s) = 1%nat -> (nc <= 100)%nat ->
  (exists k b, obs_at t k b /\ o_pts b <> []) ->
  one_object_per_image s ->
  exists G frames bars, mfind 0%Z (ca_groups s) = Some G /\ compute_error_statistic (n, file) = Some (map Some bars) /\
    StronglySorted Z.lt frames /\ (forall f, In f frames <-> sees_in t G f) /\
    Forall2 (fun f bar => exists ms, Forall2 (mean_distance G) (filter (seen_by G f) (ot_all (ca_oobs s))) ms /\ average ms bar) frames bars.
Proof.
  intros n file E L Nc K ND. destruct (file_shape n file E L Nc K) as (G & ge & -> & -> & HG & Gi & NF & Ll & Sf & Ff & Fe).
  assert (SE : forall fe, In fe (ge_frames ge) -> single_entries fe).
  { intros fe Hfe. destruct (Fe fe Hfe) as (F2 & El & Ne & Cs). constructor; [exact El|exact Ne| |exact Cs].
    intros ce ce' Hce Hce' Ec. destruct (from_view _ _ _ F2 ce Hce) as (oo & Ho & (A1 & A2 & o & rp & A3 & A4 & A5 & A6)). destruct (from_view _ _ _ F2 ce' Hce') as (oo' & Ho' & (B1 & B2 & o' & rp' & B3 & B4 & B5 & B6)).
      apply filter_In in Ho as (Ho & Hs), Ho' as (Ho' & Hs'). unfold seen_by in Hs, Hs'. apply andb_true_iff in Hs as (Hs & _), Hs' as (Hs' & _). apply Z.eqb_eq in Hs, Hs'.
      destruct (ND oo oo' Ho Ho' ltac:(congruence) ltac:(congruence)) as (D1 & D2 & D3). rewrite A6, B6, D3. do 2 f_equal. assert (o' = o) by congruence. subst o'.
      apply ObjectsSave.nth_error_ext. intros i. destruct (nth_error rp i) as [r|] eqn:E1.
      + assert (i < length rp')%nat by (rewrite B4, <- D3, <- A4; apply nth_error_Some; rewrite E1; discriminate). destruct (nth_error rp' i) as [r'|] eqn:E2; [|apply nth_error_None in E2; lia]. f_equal.
        assert (X := A5 i r E1). assert (Y := B5 i r' E2). destruct X as (k & x & X1 & X2 & X3), Y as (k' & x' & Y1 & Y2 & Y3). rewrite D2 in X1. assert (k' = k) by (apply Nat2Z.inj; congruence). subst k'. assert (x' = x) by congruence. subst x'.
        assert (Q1 : oo_cam oo = oo_cam oo') by congruence. assert (Q2 : oo_frame oo = oo_frame oo') by congruence. rewrite Q1, Q2, D1 in X3. congruence.
      + apply nth_error_None in E1. symmetry. apply nth_error_None. rewrite B4, <- D3, <- A4. auto. }
  destruct (bars_of_a_file ge Gi NF Ll) as (bars & Eb & Fb).
  - clear -Sf. induction (map fe_frame (ge_frames ge)) as [|f l IH]; [constructor|]. inversion Sf as [|? ? S1 S2]; subst. constructor; [|auto]. intros H. rewrite Forall_forall in S2. specialize (S2 f H). lia.
  - exact SE.
  - exists G, (map fe_frame (ge_frames ge)), bars. split; [auto|]. split; [auto|]. split; [auto|]. split; [auto|].
    assert (X : forall l bs, incl l (ge_frames ge) -> Forall2 frame_average l bs ->
      Forall2 (fun f bar => exists ms, Forall2 (mean_distance G) (filter (seen_by G f) (ot_all (ca_oobs s))) ms /\ average ms bar) (map fe_frame l) bs); [|apply X; [intros x; auto|auto]].
    intros l bs I F. induction F as [|fe bar l bs (ms & Fm & Av) F IH]; cbn [map]; constructor; [|apply IH; intros x Hx; apply I; right; auto].
    exists ms. split; [|auto]. destruct (Fe fe (I fe (or_introl eq_refl))) as (F2 & _). clear -F2 Fm. revert ms Fm. induction F2 as [|oo ce l l' A F IH]; intros ms Fm; inversion Fm as [|? m ? ms' B Fm']; subst; constructor; [|auto].
    exists ce. auto.
Qed.

(** With one group and at most 100 cameras there is a bar for every frame in which a corner was seen, whatever was seen. *)
Theorem C62_a_bar_for_every_frame : forall n file,
  saveReprojectionErrorToFile cams p s = Some (n, file) -> length (ca_groups s) = 1%nat -> (nc <= 100)%nat -> (exists k b, obs_at t k b /\ o_pts b <> []) ->
  exists G frames bars, mfind 0%Z (ca_groups s) = Some G /\ StronglySorted Z.lt frames /\ (forall f, In f frames <-> sees_in t G f) /\
    compute_error_statistic (n, file) = Some (map Some bars) /\ length bars = length frames.
Proof.
  intros n file E L Nc K. destruct (file_shape n file E L Nc K) as (G & ge & -> & -> & HG & Gi & NF & Ll & Sf & Ff & Fe).
  assert (FM : forall fe, In fe (ge_frames ge) -> exists bar, frame_mean ge (fe_frame fe) = Some (Some bar)).
  { intros fe Hfe. destruct (Fe fe Hfe) as (_ & El & Ne & Cs). unfold frame_mean. rewrite (find_unique fe_frame (ge_frames ge) fe); [|clear -Sf; induction (map fe_frame (ge_frames ge)) as [|f l IH]; [constructor|]; inversion Sf as [|? ? S1 S2]; subst; constructor; [|auto]; intros H; rewrite Forall_forall in S2; specialize (S2 f H); lia|auto].
    destruct (collect_Forall2 (camera_mean fe) (fun _ v => exists m, v = Some m) (fe_list fe)) as (vs & Ev & Fv).
    { intros c Hc. rewrite El in Hc. apply in_map_iff in Hc as (ce & <- & Hce). destruct (Cs ce Hce) as (B & _). unfold camera_mean, python_index.
      replace ((- (100) <=? ce_cam ce) && (ce_cam ce <? 100))%Z%bool with true by (symmetry; apply andb_true_iff; split; [apply Z.leb_le|apply Z.ltb_lt]; lia).
      destruct (find_some_key (fe_cams fe) ce Hce) as (ce' & -> & H' & _). destruct (Cs ce' H') as (_ & NE). destruct (mean_average (ce_errors ce') NE) as (m & Em & _). exists (Some m). split; [|eauto].
      destruct (ce_errors ce'); [contradiction|]. rewrite Em. reflexivity. }
    assert (Y : exists ms, vs = map Some ms) by (clear -Fv; induction Fv as [|x v l vs (m & ->) F (ms & ->)]; [exists []; auto|exists (m :: ms); auto]). destruct Y as (ms & ->).
    assert (NM : ms <> []) by (intros ->; inversion Fv as [Q|]; rewrite El in Q; destruct (fe_cams fe); [contradiction|discriminate Q]). destruct (mean_average ms NM) as (bar & Eb & _). exists bar.
    destruct (fe_list fe) as [|c l] eqn:EL; [destruct (fe_cams fe); [contradiction|discriminate El]|]. rewrite Ev. cbn [option_map]. rewrite Eb. auto. }
  destruct (collect_Forall2 (fun fe => frame_mean ge (fe_frame fe)) (fun _ v => exists m, v = Some m) (ge_frames ge)) as (vs & Ev & Fv); [intros fe H; destruct (FM fe H) as (bar & Eb); eauto|].
  assert (Y : exists ms, vs = map Some ms) by (clear -Fv; induction Fv as [|x v l vs (m & ->) F (ms & ->)]; [exists []; auto|exists (m :: ms); auto]). destruct Y as (bars & ->).
  exists G, (map fe_frame (ge_frames ge)), bars. split; [auto|]. split; [auto|]. split; [auto|]. split.
  - unfold compute_error_statistic. cbn [fst snd Nat.eqb find]. rewrite Gi, Z.eqb_refl, Ll. rewrite <- map_map in Ev. destruct (map fe_frame (ge_frames ge)) as [|f l] eqn:Ef; [destruct (ge_frames ge); [contradiction|discriminate Ef]|]. exact Ev.
  - apply collect_length in Ev. rewrite !map_length in Ev. rewrite map_length. auto.
Qed.
End Bars.
Print Assumptions C62_a_bar_for_every_frame.
Print Assumptions C62_bars_are_mean_errors.

(** The bars are zero if all the distances are (C59: the files of a calibration from exact detections). *)
Lemma collect_map_in {A B} (f : A -> option B) l v y : collect (map f l) = Some v -> In y v -> exists x, In x l /\ f x = Some y.
Proof. intros E H. apply collect_Some in E. apply (in_map Some) in H. rewrite <- E in H. apply in_map_iff in H as (x & E' & H). eauto. Qed.
Lemma collect_all_Some {A B} (f : A -> option B) l v x : collect (map f l) = Some v -> In x l -> exists y, f x = Some y.
Proof. intros E H. apply collect_Some in E. apply (in_map f) in H. rewrite E in H. apply in_map_iff in H as (y & E' & _). eauto. Qed.
Lemma mean_zero l m : Forall (fun v => v = Some 0) l -> np_mean l = Some m -> m = 0.
Proof.
  intros F. unfold np_mean. destruct l as [|a l]; [intros Q; discriminate Q|]. assert (E : a :: l = map Some (map (fun _ => 0) (a :: l))) by (induction F as [|x l0 -> F IH]; cbn [map]; [auto|rewrite <- IH; auto]).
  rewrite E. destruct (mean_average (map (fun _ => 0) (a :: l)) ltac:(discriminate)) as (m' & N & (_ & Av)). unfold np_mean in N. cbn [map] in N, Av |- *. rewrite N. intros Q. injection Q as <-.
  rewrite (sum_zero_conv (0 :: _)) in Av by (intros x [<- |H]; [auto|apply in_map_iff in H as (y & <- & _); auto]).
  assert (P : 0 < INR (length (0 :: map (fun _ : option R => 0) l))) by (apply INR_pos; cbn; lia). apply Rmult_integral in Av as [Av|Av]; [auto|lra].
Qed.
Theorem C62_no_distance_no_bar : forall n file bars,
  (forall ge fe ce e, In ge file -> In fe (ge_frames ge) -> In ce (fe_cams fe) -> In e (ce_errors ce) -> e = 0) ->
  compute_error_statistic (n, file) = Some bars -> forall bar, In bar bars -> bar = Some 0.
Proof.
  intros n file bars Z E. unfold compute_error_statistic in E. cbn [fst snd] in E. destruct (Nat.eqb n 1); [|discriminate E]. destruct (find _ file) as [ge|] eqn:Eg; [|discriminate E].
  apply List.find_some in Eg as (Hg & _). destruct (ge_list ge) as [|f0 fl]; [discriminate E|]. intros bar Hb. destruct (collect_map_in _ _ _ _ E Hb) as (f & _ & Ef). unfold frame_mean in Ef. destruct (find _ (ge_frames ge)) as [fe|] eqn:Ee; [|discriminate Ef].
  apply List.find_some in Ee as (Hf & _). destruct (fe_list fe) as [|c0 cl]; [discriminate Ef|]. destruct (collect (map (camera_mean fe) (c0 :: cl))) as [ms|] eqn:Em; [|discriminate Ef]. cbn [option_map] in Ef. injection Ef as <-.
  assert (A : Forall (fun v => v = Some 0) ms).
  { apply Forall_forall. intros v Hv. destruct (collect_map_in _ _ _ _ Em Hv) as (c & _ & Ec). unfold camera_mean in Ec. destruct (python_index 100 c); [|discriminate Ec]. destruct (find _ (fe_cams fe)) as [ce|] eqn:Ece; [|discriminate Ec].
    apply List.find_some in Ece as (Hc & _). destruct (ce_errors ce) as [|e es] eqn:Ees; [discriminate Ec|]. injection Ec as <-. destruct (mean_average (e :: es) ltac:(discriminate)) as (m & Emm & _). match goal with |- ?a = _ => change a with (np_mean (map Some (e :: es))) end. rewrite Emm. f_equal. apply (mean_zero (map Some (e :: es))); [|auto].
    apply Forall_forall. intros x Hx. apply in_map_iff in Hx as (y & <- & Hy). f_equal. apply (Z ge fe ce y Hg Hf Hc). rewrite Ees. auto. }
  assert (L := collect_length _ _ Em). rewrite map_length in L. destruct ms as [|v ms]; [discriminate L|].
  assert (X : exists m, np_mean (v :: ms) = Some m).
  { assert (Q : v :: ms = map Some (map (fun _ => 0) (v :: ms))) by (clear -A; induction A as [|x l0 -> F IH]; cbn [map]; [auto|rewrite <- IH; auto]). rewrite Q.
    destruct (mean_average (map (fun _ => 0) (v :: ms)) ltac:(discriminate)) as (m & Q' & _). eauto. }
  destruct X as (m & X). rewrite X. f_equal. apply (mean_zero (v :: ms)); auto.
Qed.
Print Assumptions C62_no_distance_no_bar.

(** There is no statistic for several groups, and none if a camera after the hundredth is listed. *)
Theorem C62_when_nothing_is_reported : forall n file, n <> 1%nat \/
  (exists ge f fe c, In ge file /\ ge_group ge = 0%Z /\ (forall ge', In ge' file -> ge_group ge' = 0%Z -> ge' = ge) /\
     In f (ge_list ge) /\ In fe (ge_frames ge) /\ fe_frame fe = f /\ (forall fe', In fe' (ge_frames ge) -> fe_frame fe' = f -> fe' = fe) /\
     In c (fe_list fe) /\ (100 <= c)%Z) ->
  compute_error_statistic (n, file) = None.
Proof.
  intros n file H. unfold compute_error_statistic. cbn [fst snd]. destruct (Nat.eqb_spec n 1) as [-> |_]; [|reflexivity]. destruct H as [H|(ge & f & fe & c & H1 & H2 & H3 & H4 & H5 & H6 & H7 & H8 & H9)]; [lia|].
  destruct (find _ file) as [ge'|] eqn:Eg; [|reflexivity]. apply List.find_some in Eg as (Hg & Ez). apply Z.eqb_eq in Ez. assert (ge' = ge) by (apply H3; auto). subst ge'.
  destruct (ge_list ge) as [|f0 fl]; [reflexivity|]. destruct (collect _) as [bars|] eqn:E; [|reflexivity]. exfalso.
  destruct (collect_all_Some _ _ _ _ E H4) as (v & Ev). unfold frame_mean in Ev. destruct (find _ (ge_frames ge)) as [fe'|] eqn:Ef; [|discriminate Ev].
  apply List.find_some in Ef as (Hf & Ez'). apply Z.eqb_eq in Ez'. assert (fe' = fe) by (apply H7; auto). subst fe'. destruct (fe_list fe) as [|c0 cl]; [destruct H8|].
  destruct (collect (map (camera_mean fe) _)) as [ms|] eqn:Em; [|discriminate Ev]. destruct (collect_all_Some _ _ _ _ Em H8) as (m & Ec). unfold camera_mean, python_index in Ec.
  destruct (Z.ltb_spec c 100); [lia|]. rewrite andb_false_r in Ec. discriminate Ec.
Qed.
Print Assumptions C62_when_nothing_is_reported.

(** A camera with several entries in a frame: only the distances of the first entry are used.  [fe'] differs from [fe] in
    the distances of a later entry of the same camera; the statistic is the same. *)
Theorem C62_later_entries_ignored : forall n ges1 ges2 gid gl fs1 fs2 f fl cs1 cs2 first c nb nb' es es',
  In first cs1 -> ce_cam first = c ->
  compute_error_statistic (n, ges1 ++ mkGE gid (fs1 ++ mkFE f (cs1 ++ mkCE c nb es :: cs2) fl :: fs2) gl :: ges2) =
  compute_error_statistic (n, ges1 ++ mkGE gid (fs1 ++ mkFE f (cs1 ++ mkCE c nb' es' :: cs2) fl :: fs2) gl :: ges2).
Proof.
  intros n ges1 ges2 gid gl fs1 fs2 f fl cs1 cs2 first c nb nb' es es' Hi Ec.
  assert (A : forall d, camera_mean (mkFE f (cs1 ++ mkCE c nb es :: cs2) fl) d = camera_mean (mkFE f (cs1 ++ mkCE c nb' es' :: cs2) fl) d).
  { intros d. unfold camera_mean. cbn [fe_cams]. destruct (python_index 100 d); [|reflexivity]. destruct (Z.eqb_spec c d) as [<-|Nd].
    - assert (X : forall l', find (fun ce => (ce_cam ce =? c)%Z) (cs1 ++ l') = find (fun ce => (ce_cam ce =? c)%Z) cs1).
      { intros l'. clear -Hi Ec. induction cs1 as [|a l IH]; [destruct Hi|]. cbn [find app]. destruct (Z.eqb_spec (ce_cam a) c) as [_|N]; [reflexivity|]. apply IH. destruct Hi as [-> |H]; [contradiction|auto]. }
      rewrite !X. reflexivity.
    - assert (X : forall a b, find (fun ce => (ce_cam ce =? d)%Z) (cs1 ++ mkCE c a b :: cs2) = find (fun ce => (ce_cam ce =? d)%Z) (cs1 ++ cs2)).
      { intros a b. clear -Nd. induction cs1 as [|x l IH]; cbn [find app ce_cam]; [destruct (Z.eqb_spec c d); [contradiction|reflexivity]|]. destruct (ce_cam x =? d)%Z; [reflexivity|apply IH]. }
      rewrite !X. reflexivity. }
  set (fe := mkFE f (cs1 ++ mkCE c nb es :: cs2) fl) in *. set (fe' := mkFE f (cs1 ++ mkCE c nb' es' :: cs2) fl) in *.
  assert (B : forall g, frame_mean (mkGE gid (fs1 ++ fe :: fs2) gl) g = frame_mean (mkGE gid (fs1 ++ fe' :: fs2) gl) g).
  { intros g. unfold frame_mean. cbn [ge_frames]. assert (X : (exists y, find (fun e => (fe_frame e =? g)%Z) (fs1 ++ fe :: fs2) = y /\ find (fun e => (fe_frame e =? g)%Z) (fs1 ++ fe' :: fs2) = y) \/
      (find (fun e => (fe_frame e =? g)%Z) (fs1 ++ fe :: fs2) = Some fe /\ find (fun e => (fe_frame e =? g)%Z) (fs1 ++ fe' :: fs2) = Some fe')).
    { clear B || idtac. induction fs1 as [|x l IH]; cbn [find app].
      - change (fe_frame fe) with f. change (fe_frame fe') with f. destruct (f =? g)%Z; [right; auto|left; eauto].
      - destruct (fe_frame x =? g)%Z; [left; eauto|exact IH]. }
    destruct X as [(y & -> & ->)|(-> & ->)]; [reflexivity|]. change (fe_list fe) with fl. change (fe_list fe') with fl. destruct fl as [|c0 cl]; [reflexivity|]. do 2 f_equal. apply map_ext. exact A. }
  set (ge := mkGE gid (fs1 ++ fe :: fs2) gl) in *. set (ge' := mkGE gid (fs1 ++ fe' :: fs2) gl) in *. unfold compute_error_statistic. cbn [fst snd]. destruct (Nat.eqb n 1); [|reflexivity].
  assert (X : (exists y, find (fun e => (ge_group e =? 0)%Z) (ges1 ++ ge :: ges2) = y /\ find (fun e => (ge_group e =? 0)%Z) (ges1 ++ ge' :: ges2) = y) \/
      (find (fun e => (ge_group e =? 0)%Z) (ges1 ++ ge :: ges2) = Some ge /\ find (fun e => (ge_group e =? 0)%Z) (ges1 ++ ge' :: ges2) = Some ge')).
  { induction ges1 as [|x l IH]; cbn [find app].
    - change (ge_group ge) with gid. change (ge_group ge') with gid. destruct (gid =? 0)%Z; [right; auto|left; eauto].
    - destruct (ge_group x =? 0)%Z; [left; eauto|exact IH]. }
  destruct X as [(y & -> & ->)|(-> & ->)]; [reflexivity|]. change (ge_list ge) with gl. change (ge_list ge') with gl. destruct gl as [|c0 cl]; [reflexivity|]. f_equal. apply map_ext. exact B.
Qed.
Print Assumptions C62_later_entries_ignored.

(** A file with one group and two frames; in the second the camera 0 has two entries (C37), of which the second is not used:
    "the bar is the average over the entries of the frame" is false of such a file. *)
Theorem C62_average_over_all_entries_refuted : exists n ge fe bars,
  compute_error_statistic (n, [ge]) = Some bars /\ In fe (ge_frames ge) /\ fe_list fe = map ce_cam (fe_cams fe) /\ nth_error (ge_list ge) 0 = Some (fe_frame fe) /\
  ~ exists bar, nth_error bars 0 = Some (Some bar) /\ frame_average fe bar.
Proof.
  exists 1%nat, (mkGE 0 [mkFE 0 [mkCE 0 1 [1]; mkCE 0 1 [3]] [0%Z; 0%Z]] [0%Z]), (mkFE 0 [mkCE 0 1 [1]; mkCE 0 1 [3]] [0%Z; 0%Z]). eexists. split; [reflexivity|]. split; [left; reflexivity|]. split; [reflexivity|]. split; [reflexivity|].
  intros (bar & E & (ms & F & (_ & Av))). injection E as <-. cbn [fe_cams] in F. inversion F as [|? m1 ? ms1 (_ & A1) F1]; subst. inversion F1 as [|? m2 ? ms2 (_ & A2) F2]; subst. inversion F2; subst. cbn in *. lra.
Qed.
Print Assumptions C62_average_over_all_entries_refuted.
Example C62_example : forall svd lr uq, exists s n file, reached svd lr uq pick_first empty_graph grid two_t s /\
  saveReprojectionErrorToFile (fun _ => 0%Z) exact_p s = Some (n, file) /\ length (ca_groups s) = 1%nat /\
  (exists k b, obs_at two_t k b /\ o_pts b <> []) /\ one_object_per_image s /\
  exists b0 bars, compute_error_statistic (n, file) = Some (Some b0 :: bars).
Proof.
  intros svd lr uq. destruct (two_state svd lr uq) as (s0 & s & E0 & E & EG & (o0 & o1 & EO & P0 & P1) & a & b & EA & A1 & B1 & A2 & B2 & A3 & B3 & A4 & B4 & A5 & B5).
  assert (Rd : reached svd lr uq pick_first empty_graph grid two_t s).
  { eapply rd_merge; [apply keep_boards|apply keep_cams|apply start_reached; eauto|exact E]. }
  assert (W : exists r, saveReprojectionErrorToFile (fun _ => 0%Z) exact_p s = Some r).
  { apply (C37_written_iff_projectable svd lr uq pick_first empty_graph pick_first_good grid 1 2 two_ins two_t two_after two_trimmed s Rd).
    intros k G oo _ Hoo _. rewrite EA in Hoo. destruct Hoo as [<-|[<-|[<-|[<-|[]]]]].
    1,3: apply exact_errors with o0; auto; rewrite EO, A1; reflexivity.
    1,2: apply exact_errors with o1; auto; rewrite EO, B1; reflexivity. }
  destruct W as ((n, file) & W). exists s, n, file. split; [auto|]. split; [auto|]. split; [rewrite EG; reflexivity|].
  assert (K : exists k b, obs_at two_t k b /\ o_pts b <> []) by (exists 0%nat; eexists; split; [reflexivity|discriminate]). split; [auto|].
  assert (OO : one_object_per_image s).
  { intros x y Hx Hy H1 H2. rewrite EA in Hx, Hy. destruct Hx as [<-|[<-|[<-|[<-|[]]]]]; destruct Hy as [<-|[<-|[<-|[<-|[]]]]]; auto; exfalso; congruence. }
  split; [auto|]. destruct (C62_bars_are_mean_errors svd lr uq pick_first empty_graph pick_first_good grid 1 2 two_ins two_t two_after two_trimmed s Rd (fun _ => 0%Z) exact_p n file W) as (G & fs & bars & HG & Es & _ & Hs & F2);
    [rewrite EG; reflexivity|lia|auto|auto|].
  assert (H0 : In 0%Z fs).
  { apply Hs. rewrite EG in HG. injection HG as <-. exists 0%nat. eexists. split; [reflexivity|]. split; [discriminate|]. split; [left; reflexivity|reflexivity]. }
  destruct F2 as [|f bar fs' bars' _ _]; [destruct H0|]. rewrite Es. cbn [map]. eauto.
Qed.
