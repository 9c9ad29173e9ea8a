(** C36, C37, C38: result files. *)
From Coq Require Import List ZArith QArith Lia Reals Lra Sorted String.
From Verif Require Import SMap GraphModel GraphSpec DataModel DataSpec DataProofs DetectModel DetectSpec DetectProofs RansacModel RansacSpec
  GeomModel GeomSpec GeomProofs ChainModel ChainSpec ChainProofs
  ObjectsModel ObjectsSpec ObjectsProofs ObjectsSave ObjectsBuild ObjectsMerge ObjectsObs
  GroupModel GroupSpec GroupProofs GroupObs StageModel StageSpec StageProofs StageMain StageCams StageMerge
  PipelineModel PipelineSpec PipelineProofs ObjectsMain EstimateAll CameraModel ResidualModel ResidualSpec ResidualProofs ResidualMain ResidualGroup ResidualSolve
  ResidualAvg FileModel FileSpec FileProofs PropObjects PropGroup GraphPath PropResidual.
Import ListNotations.
Close Scope string_scope.
Close Scope Q_scope.
Close Scope R_scope.
Open Scope list_scope.
Open Scope nat_scope.

(** ** C36 *)
Lemma save_first cams (groups : smap Z cgroup) : saveCamerasParams cams groups =
  match groups with (g, G) :: _ => group_records cams g G | [] => [] end.
Proof.
  unfold saveCamerasParams. destruct groups as [|(g, G) r]; auto. cbn [fold_left app].
  assert (Q : forall l out, fst (fold_left (fun '(out, is_open) '(g, G) => (if is_open : bool then out ++ group_records cams g G else out, false)) l (out, false)) = out).
  { induction l as [|(g', G') l IH]; intros out; cbn [fold_left]; auto. }
  apply Q.
Qed.
Lemma records_In cams g G c r : In (c, r) (group_records cams g G) <-> exists k P, In c (mkeys (cg_map G)) /\ mfind c cams = Some k /\ mfind c (cg_poses G) = Some P /\
  r = mkRec (getCameraMat (k_intr k)) (getDistortionVector (k_model k) (k_intr k)) (k_model k) g (k_cols k) (k_rows k) (pinv P).
Proof.
  unfold group_records. rewrite in_flat_map. split.
  - intros (c' & Hc & H). destruct (mfind c' cams) as [k|] eqn:E1; [|destruct H]. destruct (mfind c' (cg_poses G)) as [P|] eqn:E2; [|destruct H].
    destruct H as [H|[]]. injection H as <- <-. eauto 8.
  - intros (k & P & Hc & E1 & E2 & ->). exists c. split; [auto|]. rewrite E1, E2. left. auto.
Qed.
Lemma records_keys cams g G : NoDup (mkeys (cg_map G)) -> NoDup (map fst (group_records cams g G)).
Proof.
  unfold group_records. induction 1 as [|c l Hc N IH]; cbn [flat_map map]; [constructor|]. rewrite map_app.
  destruct (mfind c cams) as [k|]; [|auto]. destruct (mfind c (cg_poses G)) as [P|]; [|auto]. cbn [map fst app]. constructor; [|auto].
  intros H. apply Hc. apply in_map_iff in H as ((c', r) & E & H). cbn in E. subst c'. apply in_flat_map in H as (c' & Hc' & H).
  destruct (mfind c' cams); [|destruct H]. destruct (mfind c' (cg_poses G)); [|destruct H]. destruct H as [H|[]]. injection H as -> _. auto.
Qed.
Lemma entry_In (file : list (Z * cam_rec)) c r : NoDup (map fst file) -> (entry file c = Some r <-> In (c, r) file).
Proof.
  unfold entry. induction file as [|(c', r') file IH]; intros N; cbn [find map fst] in *; [split; [intros H; discriminate H|intros []]|].
  inversion N as [|? ? Hc N']; subst. destruct (Z.eqb_spec c' c) as [->|Ne].
  - cbn [option_map snd]. split; [intros [= ->]; left; auto|]. intros [E|H]; [congruence|]. exfalso. apply Hc. apply (in_map fst) in H. auto.
  - rewrite (IH N'). split; [intros; right; auto|]. intros [E|H]; [congruence|auto].
Qed.

Section Setting.
Variables (svd : (nat -> nat -> R) -> quat) (lr : mat3 -> vec3) (uq : bool) (pick : dstate -> nat) (g0 : graph).
Hypothesis Hh : good_heap pick.
Variables (bpts : Z -> list vec3) (nc nb : nat) (ins : list (insertion pt2)) (t : tables pt2).
Hypothesis AD : after_detection nc nb ins t.
Hypothesis Hp : paired t.
Variable s : calib pt2.
Hypothesis Rd : reached svd lr uq pick g0 bpts t s.
(** cams_ holds the cameras 0 .. nc-1 (McCalib.cpp 109-113) *)
Variable cams : smap Z camera_t.
Hypothesis CK : mkeys cams = map Z.of_nat (seq 0 nc).

Lemma camera_known n b : obs_at t n b -> exists k, mfind (o_cam b) cams = Some k.
Proof.
  intros Hn. apply mfind_Some_key. rewrite CK. destruct (ad_obs_ins nc nb ins t AD n b Hn) as (i & Hi & Ec & _). apply nth_error_In in Hi.
  destruct AD as (KN & _). rewrite Forall_forall in KN. destruct (KN i Hi) as (Kc & _). apply in_map_iff. exists (Z.to_nat (o_cam b)).
  rewrite in_seq, Ec. split; lia.
Qed.
Lemma member_known gi G c P : mfind gi (ca_groups s) = Some G -> mfind c (cg_poses G) = Some P -> exists k, mfind c cams = Some k.
Proof.
  intros HG HP. destruct (reached_ok svd lr uq pick g0 Hh bpts nc nb ins t AD Hp s Rd) as (bss & ol & css & gl & CO).
  rewrite (co_groups _ _ _ _ _ _ _ CO) in HG. apply mfind_In in HG. apply dense_In in HG as (i & -> & HG).
  destruct (co_groups_ok _ _ _ _ _ _ _ CO) as [GB _ _ _ _].
  assert (X : exists cs, nth_error css i = Some cs /\ grouped cs G).
  { clear -GB HG. revert i HG. induction GB as [|cs G' css gl H F IH]; intros [|i] E; cbn in E; try discriminate E; [injection E as ->; exists cs; auto|apply IH; auto]. }
  destruct X as (cs & Hcs & Gr). apply (gr_poses _ _ Gr) in HP.
  assert (Hc : In c (map fst (concat css))).
  { apply in_map_iff. exists (c, P). split; [auto|]. apply in_concat. exists cs. split; [eapply nth_error_In; eauto|auto]. }
  destruct (co_cams _ _ _ _ _ _ _ CO c Hc) as (n & b & Hn & <-). eapply camera_known; eauto.
Qed.
Lemma group_members gi G : mfind gi (ca_groups s) = Some G -> msorted (cg_map G) /\ cg_id G = gi /\
  (forall c, In c (mkeys (cg_map G)) <-> In c (cg_cams G)) /\ (forall c, In c (cg_cams G) <-> exists P, mfind c (cg_poses G) = Some P).
Proof.
  intros HG. destruct (reached_ok svd lr uq pick g0 Hh bpts nc nb ins t AD Hp s Rd) as (bss & ol & css & gl & CO).
  rewrite (co_groups _ _ _ _ _ _ _ CO) in HG. apply mfind_In in HG. apply dense_In in HG as (i & -> & HG).
  destruct (co_groups_ok _ _ _ _ _ _ _ CO) as [GB _ _ _ GI].
  assert (X : exists cs, grouped cs G).
  { clear -GB HG. revert i HG. induction GB as [|cs G' css gl H F IH]; intros [|i] E; cbn in E; try discriminate E; [injection E as ->; exists cs; auto|eapply IH; eauto]. }
  destruct X as (cs & Gr). split; [apply Gr|]. split; [apply GI; auto|]. split; [intros c; rewrite (gr_map _ _ Gr), (gr_cams _ _ Gr); tauto|].
  intros c. rewrite (gr_cams _ _ Gr). split.
  - intros Hc. apply in_map_iff in Hc as ((c', P) & E & Hc). cbn in E. subst c'. exists P. apply (gr_poses _ _ Gr). auto.
  - intros (P & HP). apply (gr_poses _ _ Gr) in HP. apply (in_map fst) in HP. auto.
Qed.

(** The file holds one record for each camera of group 0, and nothing else; the record has
    the camera's values and the inverse of its pose. *)
Theorem C36_contents_of_the_file :
  let file := saveCamerasParams cams (ca_groups s) in
  NoDup (map fst file) /\
  (forall c r, In (c, r) file -> exists G k P, mfind 0%Z (ca_groups s) = Some G /\ In c (cg_cams G) /\
     mfind c cams = Some k /\ mfind c (cg_poses G) = Some P /\ proper_record k 0 P r /\
     (rigid P -> pmul (r_pose r) P = pid /\ pmul P (r_pose r) = pid)) /\
  (forall G c, mfind 0%Z (ca_groups s) = Some G -> In c (cg_cams G) -> exists r, In (c, r) file).
Proof.
  cbv zeta. rewrite save_first. destruct (reached_ok svd lr uq pick g0 Hh bpts nc nb ins t AD Hp s Rd) as (bss & ol & css & gl & CO).
  assert (E0 : match ca_groups s with [] => mfind 0%Z (ca_groups s) = None | (g, G) :: _ => g = 0%Z /\ mfind 0%Z (ca_groups s) = Some G end).
  { rewrite (co_groups _ _ _ _ _ _ _ CO). destruct gl; cbn; auto. }
  destruct (ca_groups s) as [|(g, G) rest] eqn:EG.
  - split; [constructor|]. split; [intros c r []|]. intros G c H. congruence.
  - destruct E0 as (-> & E0). rewrite <- EG in E0. destruct (group_members 0%Z G E0) as (SM & Ei & KM & PM). split.
    { apply records_keys. apply msorted_NoDup. auto. }
    split.
    + intros c r H. apply records_In in H as (k & P & Hc & Ek & EP & ->). exists G, k, P. rewrite <- EG. split; [auto|]. split; [apply KM; auto|].
      split; [auto|]. split; [auto|]. split.
      { unfold proper_record. cbn [r_K r_dist r_type r_group r_cols r_rows r_pose]. split; [reflexivity|]. split; [intros ->; reflexivity|]. split; [intros ->; reflexivity|]. auto 6. }
      intros RP. cbn [r_pose]. split; [apply pinv_l; auto|apply pinv_r; auto].
    + intros G' c H Hc. rewrite <- EG in H. assert (G' = G) by congruence. subst G'. destruct (proj1 (PM c) Hc) as (P & EP).
      destruct (member_known 0%Z G c P E0 EP) as (k & Ek). eexists. apply records_In. exists k, P. split; [apply KM; auto|]. auto.
Qed.
(** With a single group every camera that saw a corner is in the file. *)
Theorem C36_one_group_is_complete : length (ca_groups s) = 1 ->
  forall n b, obs_at t n b -> o_pts b <> [] -> exists r, In (o_cam b, r) (saveCamerasParams cams (ca_groups s)).
Proof.
  intros L n b Hn NE. destruct C36_contents_of_the_file as (_ & _ & H).
  destruct (reached_ok svd lr uq pick g0 Hh bpts nc nb ins t AD Hp s Rd) as (bss & ol & css & gl & CO).
  assert (Hc := co_kept _ _ _ _ _ _ _ CO n b Hn NE). rewrite (co_groups _ _ _ _ _ _ _ CO) in *. rewrite dense_length in L.
  destruct gl as [|G [|]]; try discriminate L. apply (H G); [reflexivity|]. destruct (co_groups_ok _ _ _ _ _ _ _ CO) as [GB _ _ _ _].
  inversion GB as [|cs ? ? ? Gr GB']; subst. inversion GB'; subst. cbn [concat] in Hc. rewrite app_nil_r in Hc. rewrite (gr_cams _ _ Gr). auto.
Qed.
(** The cameras of all other groups are missing. *)
Theorem C36_other_groups_are_lost : forall gi G c, mfind gi (ca_groups s) = Some G -> gi <> 0%Z -> In c (cg_cams G) ->
  ~ In c (map fst (saveCamerasParams cams (ca_groups s))).
Proof.
  intros gi G c HG Ngi Hc H. apply in_map_iff in H as ((c', r) & E & H). cbn in E. subst c'.
  destruct C36_contents_of_the_file as (_ & F & _). destruct (F c r H) as (G' & k & P & HG' & Hc' & _).
  destruct (reached_ok svd lr uq pick g0 Hh bpts nc nb ins t AD Hp s Rd) as (bss & ol & css & gl & CO).
  assert (I : forall gi G, mfind gi (ca_groups s) = Some G -> In G gl /\ cg_id G = gi).
  { intros gj X HX. split; [|apply (group_members gj X HX)]. rewrite (co_groups _ _ _ _ _ _ _ CO) in HX. apply mfind_In in HX. apply dense_In in HX as (i & _ & HX). eapply nth_error_In; eauto. }
  destruct (I _ _ HG) as (I1 & J1). destruct (I _ _ HG') as (I2 & J2).
  assert (G = G') by (eapply (camera_group bpts t bss ol css gl s CO); eauto). subst G'. congruence.
Qed.
End Setting.

(** two cameras that see different boards in different frames *)
Definition far_ins : list (insertion pt2) :=
  [mkIns 0%Z 0%Z 0%Z flat_corners five_ids EmptyString; mkIns 1%Z 1%Z 1%Z flat_corners five_ids EmptyString].
Definition far_t : tables pt2 := run_of 2 2 far_ins.
Lemma far_after : after_detection 2 2 far_ins far_t.
Proof. apply run_after. unfold far_ins. repeat constructor; cbn; lia. Qed.
Lemma far_trimmed : forall o, In o (mvals (t_obs far_t)) -> trimmed grid o.
Proof.
  intros b H; vm_compute in H; repeat (destruct H as [<-|H]; [|]); try destruct H; 
  (split; [reflexivity|]; split; [repeat constructor; cbn; lia|]; cbn; split; auto; intros; lia).
Qed.
Lemma far_start svd lr uq : exists s, start_of svd lr uq far_t = Some s /\ ca_groups s = [single 0 0; single 1 1] /\
  (exists o0 o1, ca_objs s = [(0%Z, o0); (1%Z, o1)] /\ ob_pts o0 = grid 0 /\ ob_pts o1 = grid 0) /\
  ot_all (ca_oobs s) = [mkOO 0 0 0 [0%Z] [0] flat_corners five_ids; mkOO 1 1 1 [1%Z] [1] flat_corners five_ids].
Proof.
  destruct (start_of svd lr uq far_t) as [s|] eqn:E; [|exfalso; vm_compute in E; discriminate E].
  exists s. split; [reflexivity|]. vm_compute in E. injection E as <-. 
  split; [reflexivity|]. split; [|reflexivity]. do 2 eexists. split; [reflexivity|]. 
  cbn [ob_pts]. unfold grid. split; (repeat apply f_equal2; try reflexivity; apply vec3_eq; cbn [vx vy vz]; cbn; ring).
Qed.
Definition far_camera : camera_t := mkCamera (I9 1 1 0 0 0 0 0 0 0)%R 0%Z 640%Z 480%Z.
Definition far_cams : smap Z camera_t := [(0%Z, far_camera); (1%Z, far_camera)].
(** a camera that saw a board is not in the file *)
Theorem C36_camera_missing_refuted : forall svd lr uq, exists nc nb ins t s cams n b,
  after_detection nc nb ins t /\ (forall o, In o (mvals (t_obs t)) -> trimmed grid o) /\
  reached svd lr uq pick_first empty_graph grid t s /\ mkeys cams = map Z.of_nat (seq 0 nc) /\
  obs_at t n b /\ o_valid b = true /\ o_pts b <> [] /\ ~ In (o_cam b) (map fst (saveCamerasParams cams (ca_groups s))).
Proof.
  intros svd lr uq. destruct (far_start svd lr uq) as (s & E & EG & _). assert (Rd := start_reached svd lr uq far_t s E).
  exists 2, 2, far_ins, far_t, s, far_cams, 1. eexists. split; [apply far_after|]. split; [apply far_trimmed|]. split; [auto|]. split; [reflexivity|].
  split; [reflexivity|]. split; [reflexivity|]. split; [discriminate|]. rewrite EG. cbn. intros [H|[]]. discriminate H.
Qed.
(** C36_contents_of_the_file and C36_other_groups_are_lost on this run: one record, of camera 0 *)
Example C36_example : forall svd lr uq, exists s, reached svd lr uq pick_first empty_graph grid far_t s /\
  mkeys far_cams = map Z.of_nat (seq 0 2) /\ length (ca_groups s) = 2 /\ map fst (saveCamerasParams far_cams (ca_groups s)) = [0%Z] /\
  (exists G, mfind 1%Z (ca_groups s) = Some G /\ In 1%Z (cg_cams G)).
Proof.
  intros svd lr uq. destruct (far_start svd lr uq) as (s & E & EG & _). assert (Rd := start_reached svd lr uq far_t s E).
  exists s. rewrite EG. split; [auto|]. split; [reflexivity|]. split; [reflexivity|]. split; [reflexivity|]. eexists. split; [reflexivity|left; auto].
Qed.
Print Assumptions C36_contents_of_the_file.
Print Assumptions C36_one_group_is_complete.
Print Assumptions C36_other_groups_are_lost.
Print Assumptions C36_camera_missing_refuted.

(** ** C38 *)
(** a matrix without skew, and as many coefficients as the model has *)
Definition proper_matrix (K : mat3) : Prop :=
  m01 K = 0%R /\ m10 K = 0%R /\ m20 K = 0%R /\ m21 K = 0%R /\ m22 K = 1%R.
Definition coefficients (model : Z) (n : nat) : Prop := (model = 0%Z /\ n = 5) \/ (model = 1%Z /\ n = 4).

Lemma dist_length model i : (model = 0%Z \/ model = 1%Z) -> coefficients model (length (getDistortionVector model i)).
Proof. intros [-> | ->]; [left|right]; auto. Qed.
(** what is set is read back *)
Theorem C38_set_then_get : forall model K d i, proper_matrix K -> coefficients model (length d) ->
  exists i', setIntrinsics model K d i = Some i' /\ getIntrinsics model i' = (K, d).
Proof.
  intros model K d i (H1 & H2 & H3 & H4 & H5) C. destruct K as [k0 k1 k2 k3 k4 k5 k6 k7 k8]. cbn in H1, H2, H3, H4, H5. subst.
  destruct C as [(-> & L)|(-> & L)].
  - destruct d as [|d0 [|d1 [|d2 [|d3 [|d4 [|]]]]]]; try discriminate L. eexists. split; reflexivity.
  - destruct d as [|d0 [|d1 [|d2 [|d3 [|]]]]]; try discriminate L. eexists. split; reflexivity.
Qed.
(** what is read can be set again and changes nothing that can be read *)
Theorem C38_get_then_set : forall model i i0, model = 0%Z \/ model = 1%Z ->
  exists i', setIntrinsics model (fst (getIntrinsics model i)) (snd (getIntrinsics model i)) i0 = Some i' /\
             getIntrinsics model i' = getIntrinsics model i /\ (model = 0%Z -> i' = i).
Proof.
  intros model [b0 b1 b2 b3 b4 b5 b6 b7 b8] i0 [-> | ->]; eexists; (split; [reflexivity|]); (split; [reflexivity|]); [auto|intros H; discriminate H].
Qed.
(** the matrix and the coefficients do not disturb each other *)
Theorem C38_setters_independent : forall model K d i i',
  getDistortionVector model (setCameraMat K i) = getDistortionVector model i /\
  (setDistortionVector model d i = Some i' -> getCameraMat i' = getCameraMat i).
Proof.
  intros model K d i i'. split; [unfold getDistortionVector; destruct (Z.eqb model 0), (Z.eqb model 1); reflexivity|].
  unfold setDistortionVector. destruct (Z.eqb model 0).
  - destruct d as [|d0 [|d1 [|d2 [|d3 [|d4 r]]]]]; intros E; try discriminate E. injection E as <-. reflexivity.
  - destruct (Z.eqb model 1); [|intros [= <-]; auto]. destruct d as [|d0 [|d1 [|d2 [|d3 r]]]]; intros E; try discriminate E. injection E as <-. reflexivity.
Qed.
(** too few coefficients are read beyond their end *)
Theorem C38_short_vector_undefined : forall model K d i, (model = 0%Z /\ length d < 5) \/ (model = 1%Z /\ length d < 4) ->
  setIntrinsics model K d i = None.
Proof.
  intros model K d i [(-> & L)|(-> & L)]; destruct d as [|d0 [|d1 [|d2 [|d3 [|d4 r]]]]]; try reflexivity; cbn in L; lia.
Qed.

(** saved and reloaded; the loaded cameras [cams0] have whatever intrinsics before *)
Lemma load_spec file cams0 cams1 : load_cameras file cams0 = Some cams1 <->
  mkeys cams1 = mkeys cams0 /\ Forall2 (fun e e' => load_camera file (fst e) (snd e) = Some (snd e')) cams0 cams1.
Proof.
  unfold load_cameras. revert cams1. induction cams0 as [|(c, k) cams0 IH]; intros cams1; cbn [map collect].
  - cbn. split; [intros [= <-]; split; [auto|constructor]|]. intros (E & F). inversion F. auto.
  - change (mkeys ((c, k) :: cams0)) with (c :: mkeys cams0). split.
    + intros E. destruct (load_camera file c k) as [k'|] eqn:El; [|discriminate E]. destruct (collect _) as [l|] eqn:Ec in E; [|discriminate E].
      cbn [option_map combine] in E. injection E as <-. destruct (proj1 (IH (combine (mkeys cams0) l))) as (E1 & E2).
      { rewrite Ec. auto. }
      split; [change (c :: mkeys (combine (mkeys cams0) l) = c :: mkeys cams0); f_equal; auto|]. constructor; [cbn; auto|]. auto.
    + intros (E & F). inversion F as [|? (c', k') ? l Hk F']; subst. cbn in Hk. injection E as Ec El. cbn in Ec. subst c'. rewrite Hk.
      assert (Q : option_map (combine (mkeys cams0)) (collect (map (fun '(c, k) => load_camera file c k) cams0)) = Some l) by (apply IH; auto).
      destruct (collect _) as [l'|]; [|discriminate Q]. cbn [option_map combine] in Q |- *. injection Q as <-. auto.
Qed.
Section Reload.
Variables (svd : (nat -> nat -> R) -> quat) (lr : mat3 -> vec3) (uq : bool) (pick : dstate -> nat) (g0 : graph).
Hypothesis Hh : good_heap pick.
Variables (bpts : Z -> list vec3) (nc nb : nat) (ins : list (insertion pt2)) (t : tables pt2).
Hypothesis AD : after_detection nc nb ins t.
Hypothesis Hp : paired t.
Variable s : calib pt2.
Hypothesis Rd : reached svd lr uq pick g0 bpts t s.
Variables cams cams0 : smap Z camera_t.
Hypothesis CK : mkeys cams = map Z.of_nat (seq 0 nc).
Hypothesis CK0 : mkeys cams0 = map Z.of_nat (seq 0 nc).
(** one group, to which all cameras belong; cams0 are configured with the same models *)
Theorem C38_saved_parameters_reload : length (ca_groups s) = 1 ->
  (forall c, In c (mkeys cams) -> exists n b, obs_at t n b /\ o_pts b <> [] /\ o_cam b = c) ->
  (forall c k k0, mfind c cams = Some k -> mfind c cams0 = Some k0 -> k_model k0 = k_model k /\ (k_model k = 0%Z \/ k_model k = 1%Z)) ->
  exists cams1, load_cameras (saveCamerasParams cams (ca_groups s)) cams0 = Some cams1 /\ mkeys cams1 = mkeys cams0 /\
    forall c k k1, mfind c cams = Some k -> In (c, k1) cams1 -> same_reading k k1.
Proof.
  intros L Cov Mo. set (file := saveCamerasParams cams (ca_groups s)).
  destruct (C36_contents_of_the_file svd lr uq pick g0 Hh bpts nc nb ins t AD Hp s Rd cams CK) as (ND & F & _). fold file in ND, F.
  assert (One := C36_one_group_is_complete svd lr uq pick g0 Hh bpts nc nb ins t AD Hp s Rd cams CK L). fold file in One.
  assert (S0 : forall c k0, In (c, k0) cams0 -> mfind c cams0 = Some k0).
  { intros c k0 H. apply In_mfind; auto. eapply seq_keys_sorted; eauto. }
  assert (LC : forall c k0, In (c, k0) cams0 -> exists k1, load_camera file c k0 = Some k1 /\ forall k, mfind c cams = Some k -> same_reading k k1).
  { intros c k0 H. assert (Kc : In c (mkeys cams)) by (rewrite CK, <- CK0; apply (in_map fst) in H; auto).
    destruct (Cov c Kc) as (n & b & Hn & NE & Eb). destruct (One n b Hn NE) as (r & Hr). rewrite Eb in Hr.
    destruct (F c r Hr) as (G & k & P & _ & _ & Ek & _ & (HK & HD0 & HD1 & _) & _).
    destruct (Mo c k k0 Ek (S0 c k0 H)) as (Em & M01). unfold load_camera. rewrite (proj2 (entry_In file c r ND) Hr).
    assert (ER : r_dist r = getDistortionVector (k_model k) (k_intr k)) by (destruct M01 as [M|M]; rewrite M; [apply HD0|apply HD1]; auto).
    destruct (C38_get_then_set (k_model k) (k_intr k) (k_intr k0) M01) as (i' & E1 & E2 & _). cbn [getIntrinsics fst snd] in E1.
    rewrite HK, ER, Em. change (M3 _ _ _ _ _ _ _ _ _) with (getCameraMat (k_intr k)). rewrite E1. cbn [option_map]. eexists. split; [reflexivity|].
    intros k' Ek'. assert (k' = k) by congruence. subst k'. split; [cbn; auto|]. cbn [k_model k_intr]. auto. }
  clear S0 Mo. assert (X : exists l, Forall2 (fun e e' => load_camera file (fst e) (snd e) = Some (snd e') /\ forall k, mfind (fst e') cams = Some k -> same_reading k (snd e')) cams0 l /\ mkeys l = mkeys cams0).
  { clear CK0. revert LC. clear. induction cams0 as [|(c, k0) l IH]; intros LC; [exists []; split; [constructor|auto]|].
    destruct (LC c k0 (or_introl eq_refl)) as (k1 & E & SR). destruct (IH (fun c k H => LC c k (or_intror H))) as (l' & F & K).
    exists ((c, k1) :: l'). split; [constructor; [cbn; auto|auto]|]. cbn. f_equal. auto. }
  destruct X as (l & Fl & K). exists l. split; [|split; [auto|]].
  - apply load_spec. split; [auto|]. clear -Fl. induction Fl as [|e e' l l' (H & _) F IH]; constructor; auto.
  - intros c k k1 Ek Hin. clear -Fl Ek Hin. induction Fl as [|e e' l l' (_ & H) F IH]; [destruct Hin|]. destruct Hin as [->|Hin]; auto.
Qed.
(** with more than one group the file cannot be used as initial parameters: matrices that
    are not in the file are read *)
Theorem C38_several_groups_cannot_reload : 1 < length (ca_groups s) -> load_cameras (saveCamerasParams cams (ca_groups s)) cams0 = None.
Proof.
  intros L. destruct (load_cameras _ _) as [cams1|] eqn:E; [exfalso|auto]. apply load_spec in E as (_ & E).
  destruct (reached_ok svd lr uq pick g0 Hh bpts nc nb ins t AD Hp s Rd) as (bss & ol & css & gl & CO).
  assert (HG : exists G, mfind 1%Z (ca_groups s) = Some G).
  { rewrite (co_groups _ _ _ _ _ _ _ CO) in *. rewrite dense_length in L. destruct gl as [|G0 [|G1 gl]]; cbn in L; try lia. exists G1. apply (dense_find (G0 :: G1 :: gl) 1). }
  destruct HG as (G & HG). destruct (group_members svd lr uq pick g0 Hh bpts nc nb ins t AD Hp s Rd 1%Z G HG) as (_ & _ & _ & PM).
  assert (Hc : In (cg_ref G) (cg_cams G)).
  { destruct (co_groups_ok _ _ _ _ _ _ _ CO) as [_ _ GO _ _]. rewrite Forall_forall in GO. rewrite (co_groups _ _ _ _ _ _ _ CO) in HG. apply mfind_In in HG. apply dense_In in HG as (i & _ & HG).
    apply GO. eapply nth_error_In; eauto. }
  assert (Lost := C36_other_groups_are_lost svd lr uq pick g0 Hh bpts nc nb ins t AD Hp s Rd cams CK 1%Z G (cg_ref G) HG ltac:(lia) Hc).
  destruct (proj1 (PM _) Hc) as (P & EP). destruct (member_known svd lr uq pick g0 Hh bpts nc nb ins t AD Hp s Rd cams0 CK0 1%Z G (cg_ref G) P HG EP) as (k0 & Hk0).
  apply mfind_In in Hk0. clear -E Hk0 Lost. induction E as [|e e' l l' H F IH]; [destruct Hk0|]. destruct Hk0 as [->|Hk0]; [|auto].
  unfold load_camera in H. cbn [fst] in H. destruct (entry _ _) as [r|] eqn:Er in H; [|discriminate H]. unfold entry in Er.
  destruct (find _ _) as [(c, r')|] eqn:Ef in Er; [|discriminate Er]. apply find_some in Ef as (Hin & Eq). apply Z.eqb_eq in Eq. cbn in Eq. subst c.
  apply Lost. apply (in_map fst) in Hin. auto.
Qed.
End Reload.
(** the saved model is not looked at: five coefficients of a perspective camera are taken
    for those of a fisheye camera *)
Theorem C38_model_not_checked_refuted : exists file c r k k', entry file c = Some r /\ r_type r = 0%Z /\ k_model k = 1%Z /\
  load_camera file c k = Some k' /\ getDistortionVector 1 (k_intr k') <> r_dist r.
Proof.
  exists [(0%Z, mkRec mid [1; 2; 3; 4; 5]%R 0 0 640 480 pid)], 0%Z. eexists. exists (mkCamera (I9 0 0 0 0 0 0 0 0 0)%R 1 640 480). eexists.
  split; [reflexivity|]. split; [reflexivity|]. split; [reflexivity|]. split; [reflexivity|]. cbn. intros H. discriminate H.
Qed.
Definition pair_ins : list (insertion pt2) :=
  [mkIns 0%Z 0%Z 0%Z flat_corners five_ids EmptyString; mkIns 1%Z 0%Z 0%Z flat_corners five_ids EmptyString].
Definition pair_t : tables pt2 := run_of 2 1 pair_ins.
(** the hypotheses of C38_saved_parameters_reload: two cameras that see the same board *)
Example C38_example : forall svd lr, exists s, after_detection 2 1 pair_ins pair_t /\ paired pair_t /\
  reached svd lr false pick_first empty_graph grid pair_t s /\ mkeys far_cams = map Z.of_nat (seq 0 2) /\ length (ca_groups s) = 1 /\
  (forall c, In c (mkeys far_cams) -> exists n b, obs_at pair_t n b /\ o_pts b <> [] /\ o_cam b = c) /\
  (forall c k k0, mfind c far_cams = Some k -> mfind c far_cams = Some k0 -> k_model k0 = k_model k /\ (k_model k = 0%Z \/ k_model k = 1%Z)).
Proof.
  intros svd lr. assert (EL : option_map (fun s => length (ca_groups s)) (start_of svd lr false pair_t) = Some 1) by (vm_compute; reflexivity).
  destruct (start_of svd lr false pair_t) as [s|] eqn:E; [|discriminate EL]. cbn [option_map] in EL.
  assert (Rd := start_reached svd lr false pair_t s E). exists s. split; [apply run_after; unfold pair_ins; repeat constructor; cbn; lia|]. split.
  { intros b H. vm_compute in H. repeat (destruct H as [<-|H]; [reflexivity|]). destruct H. }
  split; [auto|]. split; [reflexivity|]. split; [injection EL as ->; reflexivity|]. split.
  - intros c [<-|[<-|[]]]; [exists 0|exists 1]; (eexists; split; [reflexivity|]; split; [discriminate|reflexivity]).
  - intros c k k0 E1 E2. assert (k0 = k) by congruence. subst k0. split; [auto|]. left. cbn [far_cams mfind] in E1.
    destruct (kcmp c 0%Z); try (injection E1 as <-; reflexivity); try discriminate E1; destruct (kcmp c 1%Z); try (injection E1 as <-; reflexivity); discriminate E1.
Qed.
Print Assumptions C38_set_then_get.
Print Assumptions C38_get_then_set.
Print Assumptions C38_setters_independent.
Print Assumptions C38_short_vector_undefined.
Print Assumptions C38_saved_parameters_reload.
Print Assumptions C38_several_groups_cannot_reload.
Print Assumptions C38_model_not_checked_refuted.

(** ** C37 *)
Lemma collect_total' {A B} (f : A -> option B) l : (forall x, In x l -> exists y, f x = Some y) -> exists ys, collect (map f l) = Some ys.
Proof. intros H. destruct (GeomMedian.collect_total f l H) as (ys & E & _). eauto. Qed.
Section Errors.
Variables (svd : (nat -> nat -> R) -> quat) (lr : mat3 -> vec3) (uq : bool) (pick : dstate -> nat) (g0 : graph).
Hypothesis Hh : good_heap pick.
Variables (bpts : Z -> list vec3) (nc nb : nat) (ins : list (insertion pt2)) (t : tables pt2).
Hypothesis AD : after_detection nc nb ins t.
Hypothesis TR : forall o, In o (mvals (t_obs t)) -> trimmed bpts o.
Variable s : calib pt2.
Hypothesis Rd : reached svd lr uq pick g0 bpts t s.
Variables (cams : Z -> Z) (p : params).

(** The file has one entry per group, in order.  Its frames are those in which a camera of
    the group sees a corner, in order; a frame has one entry per object observation the
    group made in it, in order, with the camera, the number of points and the distances
    between detected and reprojected points.  The frame list of a group is that of all
    groups up to it. *)
Theorem C37_contents_of_the_file : forall n file, saveReprojectionErrorToFile cams p s = Some (n, file) ->
  n = length (ca_groups s) /\ length file = n /\
  forall i ge, nth_error file i = Some ge ->
  exists G, mfind (Z.of_nat i) (ca_groups s) = Some G /\ ge_group ge = Z.of_nat i /\
    StronglySorted Z.lt (map fe_frame (ge_frames ge)) /\
    (forall f, In f (map fe_frame (ge_frames ge)) <-> sees_in t G f) /\
    (forall fe, In fe (ge_frames ge) ->
       Forall2 (proper_errors cams p s G) (filter (seen_by G (fe_frame fe)) (ot_all (ca_oobs s))) (fe_cams fe) /\
       fe_list fe = map ce_cam (fe_cams fe)) /\
    ge_list ge = concat (map (fun g => map fe_frame (ge_frames g)) (firstn (S i) file)).
Proof.
  intros n file E. destruct (setting svd lr uq pick g0 Hh bpts nc nb ins t AD TR s Rd) as (bss & ol & css & gl & CO & FR).
  unfold saveReprojectionErrorToFile in E. rewrite write_groups in E.
  destruct (collect _) as [fss|] eqn:Ec in E; [|discriminate E]. cbn [option_map fst app] in E. injection E as <- <-.
  assert (F : Forall2 (fun e fs => collect (map (write_frame cams p s (snd e)) (group_frames (ca_gobs s) (cg_id (snd e)))) = Some fs) (ca_groups s) fss).
  { apply collect_Some in Ec. clear -Ec. revert fss Ec. induction (ca_groups s) as [|e l IH]; intros [|fs fss] Ec; try discriminate Ec; constructor; [injection Ec as H _; auto|].
    apply IH. injection Ec as _ H. auto. }
  assert (L : length fss = length (ca_groups s)) by (clear -F; induction F; cbn; auto).
  split; [auto|]. split; [rewrite written_length, combine_length, map_length; lia|]. intros i ge Hi.
  apply written_nth in Hi as (G & fs & Hn & ->).
  assert (HF : exists k, nth_error (ca_groups s) i = Some (k, G) /\ nth_error fss i = Some fs).
  { clear -Hn. revert i fss Hn. induction (ca_groups s) as [|(k, G') l IH]; intros i [|fs' fss] Hn; destruct i; try discriminate Hn.
    - cbn in Hn. injection Hn as -> ->. exists k. auto.
    - exact (IH i fss Hn). }
  destruct HF as (k & Hk & Hfs). assert (HC : collect (map (write_frame cams p s G) (group_frames (ca_gobs s) (cg_id G))) = Some fs).
  { clear -F Hk Hfs. revert i Hk Hfs. induction F as [|e fs' l l' H F IH]; intros [|i] Hk Hfs; try discriminate Hk; [cbn in Hk, Hfs; injection Hk as ->; injection Hfs as ->; auto|eapply IH; eauto]. }
  assert (HG : mfind (Z.of_nat i) (ca_groups s) = Some G).
  { rewrite (co_groups _ _ _ _ _ _ _ CO) in Hk |- *. rewrite dense_find. rewrite <- (dense_vals gl). unfold mvals. rewrite nth_error_map, Hk. auto. }
  assert (IG : In G gl). { rewrite (co_groups _ _ _ _ _ _ _ CO), dense_find in HG. eapply nth_error_In; eauto. }
  assert (Ei : cg_id G = Z.of_nat i). { rewrite (co_groups _ _ _ _ _ _ _ CO), dense_find in HG. apply (gk_ids _ _ (co_groups_ok _ _ _ _ _ _ _ CO)). auto. }
  assert (W : Forall2 (fun f fe => write_frame cams p s G f = Some fe) (group_frames (ca_gobs s) (cg_id G)) fs).
  { apply collect_Some in HC. clear -HC. revert fs HC. induction (group_frames (ca_gobs s) (cg_id G)) as [|f l IH]; intros [|fe fs] H; try discriminate H; constructor; [injection H as H _; auto|apply IH; injection H as _ H; auto]. }
  assert (EF : map fe_frame fs = group_frames (ca_gobs s) (cg_id G)).
  { clear -W CO TR FR IG. induction W as [|f fe l l' H F IH]; cbn [map]; auto. apply (write_frame_spec bpts t cams p bss ol css gl s CO TR FR G f fe IG) in H as (-> & _). f_equal. auto. }
  exists G. split; [auto|]. cbn [ge_group ge_frames ge_list]. split; [auto|]. rewrite EF. split; [apply group_frames_lt|].
  split; [intros f; apply (gframes_exact svd lr uq pick g0 Hh bpts nc nb ins t AD (trimmed_paired bpts t TR) s Rd (Z.of_nat i) G f HG)|]. split.
  - intros fe Hfe. assert (X : exists f, write_frame cams p s G f = Some fe).
    { clear -W Hfe. induction W as [|f fe' l l' H F IH]; [destruct Hfe|]. destruct Hfe as [->|Hfe]; eauto. }
    destruct X as (f & X). apply (write_frame_spec bpts t cams p bss ol css gl s CO TR FR G f fe IG) in X as (Ef & E1 & E2). rewrite Ef. auto.
  - cbn [app]. f_equal. change (@map group_errors) with (@map group_errors).
    rewrite <- (map_map (fun e : cgroup * list frame_errors => snd e) (map fe_frame)), <- (map_map ge_frames (map fe_frame)), <- !firstn_map, written_frames. auto.
Qed.
(** It is written unless some point of some observation has no image. *)
Theorem C37_written_iff_projectable :
  (exists r, saveReprojectionErrorToFile cams p s = Some r) <->
  forall k G oo, In (k, G) (ca_groups s) -> In oo (ot_all (ca_oobs s)) -> In (oo_cam oo) (cg_cams G) -> exists ce, proper_errors cams p s G oo ce.
Proof.
  destruct (setting svd lr uq pick g0 Hh bpts nc nb ins t AD TR s Rd) as (bss & ol & css & gl & CO & FR).
  assert (IG : forall k G, In (k, G) (ca_groups s) -> In G gl).
  { intros k G H. rewrite (co_groups _ _ _ _ _ _ _ CO) in H. apply dense_In in H as (i & _ & H). eapply nth_error_In; eauto. }
  split.
  - intros ((n, file) & E) k G oo Hk Hoo Hc. destruct (C37_contents_of_the_file n file E) as (-> & L & H).
    assert (Hk' := Hk). rewrite (co_groups _ _ _ _ _ _ _ CO) in Hk'. apply dense_In in Hk' as (i & -> & Hi).
    destruct (nth_error file i) as [ge|] eqn:Ege.
    2:{ apply nth_error_None in Ege. rewrite L, (co_groups _ _ _ _ _ _ _ CO), dense_length in Ege. assert (i < length gl) by (apply nth_error_Some; congruence). lia. }
    destruct (H i ge Ege) as (G' & HG' & _ & _ & HF & HC & _). rewrite (co_groups _ _ _ _ _ _ _ CO), dense_find in HG'. assert (G' = G) by congruence. subst G'.
    assert (S : sees_in t G (oo_frame oo)) by (apply (seen_sees bpts t bss ol css gl s G _ CO); exists oo; split; [auto|apply seen_by_iff; auto]).
    apply HF in S. apply in_map_iff in S as (fe & Ef & Hfe). destruct (HC fe Hfe) as (F2 & _).
    assert (Hin : In oo (filter (seen_by G (fe_frame fe)) (ot_all (ca_oobs s)))) by (apply filter_In; split; [auto|apply seen_by_iff; auto]).
    clear -F2 Hin. induction F2 as [|x ce l l' P F IH]; [destruct Hin|]. destruct Hin as [->|Hin]; eauto.
  - intros H. unfold saveReprojectionErrorToFile. rewrite write_groups.
    assert (X : exists fss, collect (map (fun e => collect (map (write_frame cams p s (snd e)) (group_frames (ca_gobs s) (cg_id (snd e))))) (ca_groups s)) = Some fss).
    { apply collect_total'. intros (k, G) HG. cbn [snd]. 
      assert (Y : exists fs, collect (map (write_frame cams p s G) (group_frames (ca_gobs s) (cg_id G))) = Some fs); [|auto].
      apply collect_total'. intros f _.
      assert (W : exists ces, Forall2 (proper_errors cams p s G) (filter (seen_by G f) (ot_all (ca_oobs s))) ces).
      { assert (Q : forall oo, In oo (filter (seen_by G f) (ot_all (ca_oobs s))) -> exists ce, proper_errors cams p s G oo ce).
        { intros oo Hoo. apply filter_In in Hoo as (Hoo & S). apply seen_by_iff in S as (_ & Hc). eapply H; eauto. }
        clear -Q. induction (filter _ _) as [|oo l IH]; [exists []; constructor|]. destruct (Q oo (or_introl eq_refl)) as (ce & P).
        destruct IH as (ces & F); [intros; apply Q; right; auto|]. exists (ce :: ces). constructor; auto. }
      destruct W as (ces & W). 
      assert (E : write_frame cams p s G f = Some (mkFE f ces (map ce_cam ces))) by (apply (write_frame_spec bpts t cams p bss ol css gl s CO TR FR G f _ (IG k G HG)); cbn; auto).
      eauto. }
    destruct X as (fss & ->). cbn [option_map]. eauto.
Qed.
(** Hence the list of the first group is right. *)
Theorem C37_first_group_right : forall n file ge, saveReprojectionErrorToFile cams p s = Some (n, file) -> nth_error file 0 = Some ge ->
  exists G, mfind 0%Z (ca_groups s) = Some G /\ StronglySorted Z.lt (ge_list ge) /\ forall f, In f (ge_list ge) <-> sees_in t G f.
Proof.
  intros n file ge E H. destruct (C37_contents_of_the_file n file E) as (_ & _ & C). destruct (C 0 ge H) as (G & HG & _ & S & F & _ & L).
  exists G. split; [auto|]. assert (EL : ge_list ge = map fe_frame (ge_frames ge)).
  { rewrite L. destruct file as [|g r]; [discriminate H|]. cbn in H. injection H as ->. cbn. apply app_nil_r. }
  rewrite EL. auto.
Qed.
End Errors.
Lemma exact_reprojects G oo o : oo_ids oo = five_ids -> ob_pts o = grid 0 ->
  forall i m, nth_error flat_corners i = Some m -> reprojects (fun _ => 0%Z) exact_p G oo o i m.
Proof.
  intros E2 E3 i m Hm. exists i, (nth i (grid 0) (V3 0 0 0)%R). rewrite E2, E3.
  assert (Id : matrix (pa_pose exact_p (KCam (cg_id G) (oo_cam oo))) = pid) by (rewrite exact_matrix; reflexivity).
  assert (EP : matrix (pa_pose exact_p (KGroup (cg_id G, oo_frame oo) (oo_obj oo))) = (mid, V3 0 0 1)%R) by (rewrite exact_matrix; reflexivity).
  rewrite EP, Id. rewrite pmul_id_l.
  destruct i as [|[|[|[|[|i]]]]]; cbn [nth_error flat_corners] in Hm; try (injection Hm as <-);
    try (split; [reflexivity|]; split; [reflexivity|]).
  6:{ destruct i; discriminate Hm. }
  all: unfold image; cbn [nth grid]; match goal with |- context [pact ?P ?q] => replace (pact P q) with (V3 (vx q) (vy q) 1)%R by (apply vec3_eq; cbn; ring) end;
    cbn [vx vy vz]; (destruct (Req_EM_T 1 0); [lra|]); cbn; apply some_pair; field.
Qed.
Lemma exact_errors s G oo o : mfind (oo_obj oo) (ca_objs s) = Some o -> ob_pts o = grid 0 -> oo_ids oo = five_ids -> length (oo_pts oo) = 5 ->
  exists ce, proper_errors (fun _ => 0%Z) exact_p s G oo ce.
Proof.
  intros E1 E2 E3 L. eexists (mkCE _ _ _). split; [reflexivity|]. split; [reflexivity|]. exists o, flat_corners. split; [auto|]. split; [rewrite L; reflexivity|].
  split; [apply exact_reprojects; auto|reflexivity].
Qed.
(** the list of group 1 has a frame in which group 1 sees nothing *)
Theorem C37_frame_of_other_group_refuted : forall svd lr uq, exists nc nb ins t s n file ge G f,
  after_detection nc nb ins t /\ (forall o, In o (mvals (t_obs t)) -> trimmed grid o) /\
  reached svd lr uq pick_first empty_graph grid t s /\
  saveReprojectionErrorToFile (fun _ => 0%Z) exact_p s = Some (n, file) /\
  nth_error file 1 = Some ge /\ mfind 1%Z (ca_groups s) = Some G /\ In f (ge_list ge) /\ ~ sees_in t G f.
Proof.
  intros svd lr uq. destruct (far_start svd lr uq) as (s & E & EG & (o0 & o1 & EO & P0 & P1) & EA).
  assert (Rd := start_reached svd lr uq far_t s E).
  assert (W : exists r, saveReprojectionErrorToFile (fun _ => 0%Z) exact_p s = Some r).
  { apply (C37_written_iff_projectable svd lr uq pick_first empty_graph pick_first_good grid 2 2 far_ins far_t far_after far_trimmed s Rd).
    intros k G oo _ Hoo _. rewrite EA in Hoo. destruct Hoo as [<-|[<-|[]]].
    - apply exact_errors with o0; auto. rewrite EO. reflexivity.
    - apply exact_errors with o1; auto. rewrite EO. reflexivity. }
  destruct W as ((n, file) & W).
  destruct (C37_contents_of_the_file svd lr uq pick_first empty_graph pick_first_good grid 2 2 far_ins far_t far_after far_trimmed s Rd _ _ n file W) as (-> & L & C).
  rewrite EG in L. destruct file as [|ge0 [|ge1 [|]]]; try discriminate L.
  destruct (C 1 ge1 eq_refl) as (G & HG & _ & _ & _ & _ & LL). destruct (C 0 ge0 eq_refl) as (G0 & HG0 & _ & _ & F0 & _).
  exists 2, 2, far_ins, far_t, s, (length (ca_groups s)), [ge0; ge1], ge1, G, 0%Z.
  split; [apply far_after|]. split; [apply far_trimmed|]. split; [auto|]. split; [auto|]. split; [auto|]. split; [auto|]. split.
  - rewrite LL. cbn [firstn map concat]. apply in_or_app. left. apply F0. rewrite EG in HG0. injection HG0 as <-.
    exists 0. eexists. split; [reflexivity|]. split; [discriminate|]. split; [left; reflexivity|reflexivity].
  - rewrite EG in HG. injection HG as <-. intros (m & b & Hm & _ & Hc & Hf).
    destruct (ad_obs_ins 2 2 far_ins far_t far_after m b Hm) as (i & Hi & Ec & Ef & _). destruct Hc as [Hc|[]].
    rewrite <- Hc in Ec. rewrite Hf in Ef. destruct m as [|[|m]]; cbn in Hi; try (injection Hi as <-; cbn in Ec, Ef; lia). destruct m; discriminate Hi.
Qed.

(** With two objects a camera appears twice in a frame (C28). *)
Lemma two_trimmed : forall o, In o (mvals (t_obs two_t)) -> trimmed grid o.
Proof.
  intros b H; vm_compute in H; repeat (destruct H as [<-|H]; [|]); try destruct H; 
  (split; [reflexivity|]; split; [repeat constructor; cbn; lia|]; cbn; split; auto; intros; lia).
Qed.
Lemma two_state svd lr uq : exists s0 s, start_of svd lr uq two_t = Some s0 /\
  merge3DObjects svd lr uq pick_first empty_graph grid two_t (fun _ _ => pid) ob_poses cg_poses s0 = Some s /\ ca_groups s = [single 0 0] /\
  (exists o0 o1, ca_objs s = [(0%Z, o0); (1%Z, o1)] /\ ob_pts o0 = grid 0 /\ ob_pts o1 = grid 0) /\
  exists a b, ot_all (ca_oobs s) = [a; b; a; b] /\ oo_obj a = 0%Z /\ oo_obj b = 1%Z /\ oo_cam a = 0%Z /\ oo_cam b = 0%Z /\ oo_frame a = 0%Z /\ oo_frame b = 1%Z /\
    oo_ids a = five_ids /\ oo_ids b = five_ids /\ length (oo_pts a) = 5 /\ length (oo_pts b) = 5.
Proof.
  destruct (start_of svd lr uq two_t) as [s0|] eqn:E0; [|exfalso; vm_compute in E0; discriminate E0].
  destruct (merge3DObjects svd lr uq pick_first empty_graph grid two_t (fun _ _ => pid) ob_poses cg_poses s0) as [s|] eqn:E;
    [|exfalso; vm_compute in E0; injection E0 as <-; vm_compute in E; discriminate E].
  exists s0, s. split; [auto|]. split; [auto|]. vm_compute in E0. injection E0 as <-. vm_compute in E. injection E as <-. 
  split; [reflexivity|]. split.
  - do 2 eexists. split; [reflexivity|]. 
    cbn [ob_pts]. unfold grid. split; (repeat apply f_equal2; try reflexivity; apply vec3_eq; cbn [vx vy vz]; cbn; ring).
  - do 2 eexists. split; [reflexivity|]. cbn. auto 12.
Qed.
Theorem C37_camera_listed_twice_refuted : forall svd lr uq, exists nc nb ins t s n file ge fe,
  after_detection nc nb ins t /\ (forall o, In o (mvals (t_obs t)) -> trimmed grid o) /\
  reached svd lr uq pick_first empty_graph grid t s /\
  saveReprojectionErrorToFile (fun _ => 0%Z) exact_p s = Some (n, file) /\
  In ge file /\ In fe (ge_frames ge) /\ fe_list fe = [0%Z; 0%Z] /\ map ce_cam (fe_cams fe) = [0%Z; 0%Z].
Proof.
  intros svd lr uq. destruct (two_state svd lr uq) as (s0 & s & E0 & E & EG & (o0 & o1 & EO & P0 & P1) & a & b & EA & A1 & B1 & A2 & B2 & A3 & B3 & A4 & B4 & A5 & B5).
  assert (Rd : reached svd lr uq pick_first empty_graph grid two_t s).
  { eapply rd_merge; [apply keep_boards|apply keep_cams|apply start_reached; eauto|exact E]. }
  assert (W : exists r, saveReprojectionErrorToFile (fun _ => 0%Z) exact_p s = Some r).
  { apply (C37_written_iff_projectable svd lr uq pick_first empty_graph pick_first_good grid 1 2 two_ins two_t two_after two_trimmed s Rd).
    intros k G oo _ Hoo _. rewrite EA in Hoo. destruct Hoo as [<-|[<-|[<-|[<-|[]]]]].
    1,3: apply exact_errors with o0; auto; rewrite EO, A1; reflexivity.
    1,2: apply exact_errors with o1; auto; rewrite EO, B1; reflexivity. }
  destruct W as ((n, file) & W).
  destruct (C37_contents_of_the_file svd lr uq pick_first empty_graph pick_first_good grid 1 2 two_ins two_t two_after two_trimmed s Rd _ _ n file W) as (-> & L & C).
  rewrite EG in L. destruct file as [|ge [|]]; try discriminate L.
  destruct (C 0 ge eq_refl) as (G & HG & _ & _ & F & HC & _). rewrite EG in HG. injection HG as HG.
  assert (H0 : In 0%Z (map fe_frame (ge_frames ge))).
  { apply F. rewrite <- HG. exists 0. eexists. split; [reflexivity|]. split; [discriminate|]. split; [left; reflexivity|reflexivity]. }
  apply in_map_iff in H0 as (fe & Ef & Hfe). destruct (HC fe Hfe) as (F2 & EL). rewrite Ef, EA in F2.
  assert (SA : seen_by G 0 a = true) by (apply seen_by_iff; rewrite <- HG, A2; split; [auto|left; auto]).
  assert (SB : seen_by G 0 b = false) by (unfold seen_by; rewrite B3; auto).
  cbn [filter] in F2. rewrite SA, SB in F2.
  assert (EC : map ce_cam (fe_cams fe) = [0%Z; 0%Z]).
  { inversion F2 as [|? c1 ? l1 (Q1 & _) F3]; subst. inversion F3 as [|? c2 ? l2 (Q2 & _) F4]; subst. inversion F4; subst. cbn [map]. congruence. }
  exists 1, 2, two_ins, two_t, s, (length (ca_groups s)), [ge], ge, fe.
  split; [apply two_after|]. split; [apply two_trimmed|]. split; [auto|]. split; [auto|]. split; [left; auto|]. split; [auto|]. split; [congruence|auto].
Qed.
Print Assumptions C37_contents_of_the_file.
Print Assumptions C37_written_iff_projectable.
Print Assumptions C37_first_group_right.
Print Assumptions C37_frame_of_other_group_refuted.
Print Assumptions C37_camera_listed_twice_refuted.
