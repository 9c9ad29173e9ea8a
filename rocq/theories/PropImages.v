(** C56: the pictures saved after a calibration (McCalib.cpp 1893-2081, calibrate.cpp 70-74). *)
From Coq Require Import Ascii String List ZArith QArith Lia Reals Lra Permutation Sorted DecimalString DecimalNat DecimalZ DecimalPos.
From Verif Require Import SMap GraphModel GraphSpec GraphPath DataModel DataSpec DataProofs DetectModel DetectSpec DetectProofs RansacModel RansacSpec RansacProofs
  GeomModel GeomSpec GeomProofs GeomMedian ChainModel ChainSpec ChainProofs ChainCam
  ObjectsModel ObjectsSpec ObjectsProofs ObjectsSave ObjectsBuild ObjectsMerge ObjectsObs
  GroupModel GroupSpec GroupProofs GroupMerge GroupObs GroupPose StageModel StageSpec StageProofs StageMain StageCams StageMerge
  PipelineModel PipelineSpec PipelineProofs StalePairs ObjectsMain EstimateAll HandEyeModel HandEyeSpec HandEyeProofs CameraModel ResidualModel ResidualSpec ResidualProofs ResidualMain ResidualGroup
  ResidualSolve ResidualAvg FileModel IntrinsicModel GroupAll PropChain PropObjects PropGroup PropStale PropResidual WorkflowModel WorkflowRigid WorkflowProofs WorkflowReach WorkflowWhole PropWorkflow
  InputModel RigSpec RigPnP RigExample PropGeom PropRig ImagesModel ImagesSpec.
Import ListNotations.
Close Scope Q_scope.
Close Scope R_scope.
Open Scope nat_scope.

(** ** File names *)
Open Scope string_scope.
Fixpoint no_minus (s : string) : string := match s with "" => "" | String a r => if Ascii.eqb a "-"%char then no_minus r else String a (no_minus r) end.
Fixpoint has_minus (s : string) : bool := match s with "" => false | String a r => Ascii.eqb a "-"%char || has_minus r end.
Lemma no_minus_app a b : no_minus (a ++ b) = no_minus a ++ no_minus b.
Proof. induction a as [|x a IH]; cbn [append no_minus]; [auto|]. destruct (Ascii.eqb x "-"%char); [auto|]. cbn. congruence. Qed.
Lemma has_minus_app a b : has_minus (a ++ b) = has_minus a || has_minus b.
Proof. induction a as [|x a IH]; cbn [append has_minus]; [auto|]. rewrite IH, Bool.orb_assoc. auto. Qed.
Lemma zeros_plain k : no_minus (zeros k) = zeros k /\ has_minus (zeros k) = false.
Proof. induction k as [|k (A & B)]; cbn; [auto|]. split; [congruence|auto]. Qed.
Lemma digits_plain d : no_minus (NilEmpty.string_of_uint d) = NilEmpty.string_of_uint d /\ has_minus (NilEmpty.string_of_uint d) = false.
Proof. induction d as [|d (A & B)|d (A & B)|d (A & B)|d (A & B)|d (A & B)|d (A & B)|d (A & B)|d (A & B)|d (A & B)|d (A & B)]; cbn; split; auto; f_equal; auto. Qed.
Lemma padded_digits k d : exists d', NilEmpty.uint_of_string (zeros k ++ NilEmpty.string_of_uint d) = Some d' /\ N.of_uint d' = N.of_uint d.
Proof.
  revert d. induction k as [|k IH]; intros d; cbn [zeros append].
  - exists d. split; [apply NilEmpty.usu|reflexivity].
  - destruct (IH d) as (d' & A & B). exists (Decimal.D0 d'). cbn [NilEmpty.uint_of_string]. rewrite A. split; [reflexivity|]. rewrite <- B. reflexivity.
Qed.
Definition magnitude (i : Decimal.signed_int) : Decimal.uint := match i with Decimal.Pos d => d | Decimal.Neg d => d end.
Definition negative (i : Decimal.signed_int) : bool := match i with Decimal.Pos _ => false | Decimal.Neg _ => true end.
Lemma padded_parts w z : exists k, no_minus (padded w z) = zeros k ++ NilEmpty.string_of_uint (magnitude (Z.to_int z)) /\ has_minus (padded w z) = negative (Z.to_int z).
Proof.
  unfold padded. set (s := NilEmpty.string_of_int (Z.to_int z)). exists (w - String.length s). rewrite no_minus_app, has_minus_app. destruct (zeros_plain (w - String.length s)) as (A & B). rewrite A, B.
  unfold s. destruct (Z.to_int z) as [d|d]; cbn [NilEmpty.string_of_int magnitude negative no_minus has_minus Ascii.eqb Bool.eqb orb]; destruct (digits_plain d) as (C & D); rewrite C; try rewrite D; auto.
Qed.
Lemma padded_inj w z z' : padded w z = padded w z' -> z = z'.
Proof.
  intros E. destruct (padded_parts w z) as (k & A & B), (padded_parts w z') as (k' & A' & B'). rewrite E, A' in A. rewrite E, B' in B.
  destruct (padded_digits k (magnitude (Z.to_int z))) as (d & D1 & D2), (padded_digits k' (magnitude (Z.to_int z'))) as (d' & D1' & D2').
  rewrite <- A, D1' in D1. injection D1 as <-. rewrite D2' in D2. rewrite <- (DecimalZ.of_to z), <- (DecimalZ.of_to z').
  destruct (Z.to_int z), (Z.to_int z'); cbn [negative magnitude] in *; try discriminate B; cbn; unfold Z.of_uint; unfold N.of_uint in D2; rewrite D2; auto.
Qed.
Lemma image_file_inj root c f c' f' : image_file root c f = image_file root c' f' -> c = c' /\ f = f'.
Proof.
  intros E. injection E as E1 E2. split; [exact (padded_inj _ _ _ E1)|]. apply (padded_inj 6).
  assert (A : forall a b s : string, a ++ s = b ++ s -> a = b).
  { clear. intros a b s E. assert (L : String.length a = String.length b).
    { apply (f_equal String.length) in E. assert (Q : forall x y, String.length (x ++ y) = String.length x + String.length y) by (induction x; cbn; auto). rewrite !Q in E. lia. }
    revert b L E. induction a as [|x a IH]; intros [|y b] L E; cbn in *; try discriminate L; [auto|]. injection E as -> E. injection L as L. rewrite (IH b L E). auto. }
  exact (A _ _ _ E2).
Qed.
Close Scope string_scope.

(** ** Circles *)
Definition draw (mq : pt2 * pt2) : list (ink * (Z * Z)) := [(Red, pixel (snd mq)); (Green, pixel (fst mq))].
Lemma gather_draw {A B C} (d : B -> list C) (g : A -> option (list B)) l :
  gather (fun a => option_map (flat_map d) (g a)) l = option_map (flat_map d) (gather g l).
Proof.
  induction l as [|a l IH]; [reflexivity|]. rewrite !gather_cons, IH. destruct (g a) as [x|]; cbn; [|auto]. destruct (gather g l) as [y|]; cbn; [|auto]. rewrite flat_map_app. auto.
Qed.
Lemma draw_all : forall (pts rp pre : list pt2), length rp = length pts ->
  collect (map (fun '(i, m) => option_map (fun q => [(Red, pixel q); (Green, pixel m)]) (nth_error (pre ++ rp)%list i)) (combine (seq (length pre) (length pts)) pts)) =
  Some (map draw (combine pts rp)).
Proof.
  induction pts as [|m pts IH]; intros [|q rp] pre L; cbn in L; try discriminate L; [auto|]. cbn [length seq combine map collect].
  rewrite nth_error_app2, Nat.sub_diag by auto. cbn [nth_error option_map]. specialize (IH rp (pre ++ [q])%list ltac:(lia)).
  rewrite <- app_assoc, app_length, Nat.add_comm in IH. cbn [app length Nat.add] in IH. rewrite IH. auto.
Qed.
Lemma collect_Some_nth {A B} (f : A -> option B) l rs i a : collect (map f l) = Some rs -> nth_error l i = Some a -> exists b, nth_error rs i = Some b /\ f a = Some b.
Proof.
  intros E Ha. apply collect_nth in E as (L & E). destruct (nth_error rs i) as [b|] eqn:Eb.
  - destruct (E i b Eb) as (a' & Ha' & Hf). assert (a' = a) by congruence. subst. eauto.
  - apply nth_error_None in Eb. assert (i < length l) by (apply nth_error_Some; congruence). lia.
Qed.

Section Img.
Variables (bpts : Z -> list vec3) (models : Z -> Z) (lr : mat3 -> vec3) (r : run).
Variables (bss : list (list (Z * pose))) (ol : list obj3d) (css : list (list (Z * pose))) (gl : list cgroup).
Let t := ru_t r.
Let s := ru_s r.
Let p := ru_p r.
Hypothesis LO : log_ok lr.
Hypothesis CO : calib_ok bpts t bss ol css gl s.
Hypothesis TR : forall o, In o (mvals (t_obs t)) -> trimmed bpts o.
Hypothesis FR : forall oo, In oo (ot_all (ca_oobs s)) -> In (oo_frame oo) (mkeys (t_frames t)).
Hypothesis RP : represents p (ca_objs s) (ca_groups s).
Hypothesis GP : forall n oo G, nth_error (ot_all (ca_oobs s)) n = Some oo -> In G gl -> In (oo_cam oo) (cg_cams G) ->
  ru_gp r n = pa_pose p (KGroup (cg_id G, oo_frame oo) (oo_obj oo)).

(** all object observations of the group observations of a frame *)
Lemma frame_obs f k go n : In k (ptable f (gt_frames (ca_gobs s))) -> mfind k (gt_obs (ca_gobs s)) = Some go -> In n (go_nums go) ->
  exists oo G, nth_error (ot_all (ca_oobs s)) n = Some oo /\ oo_frame oo = f /\ In G gl /\ mfind (go_group go) (ca_groups s) = Some G /\ In (oo_cam oo) (cg_cams G).
Proof.
  intros Hk Hgo Hn. destruct CO as [E1 OK OT Ob Cov E2 GK GT NU CA KE]. apply (gto_frames _ _ _ _ GT) in Hk as (Ef & Hk). destruct k as (gi, f'). cbn in Ef. subst f'.
  apply (gto_keys _ _ _ _ GT) in Hk as (i & G & -> & HG & _). destruct (gto_obs _ _ _ _ GT i f G go HG Hgo) as (Eg & En & _). rewrite En in Hn. apply where_In in Hn as (oo & Hoo & S).
  apply andb_prop in S as (S1 & S2). apply Z.eqb_eq in S1. apply existsb_exists in S2 as (c & Hc & S2). apply Z.eqb_eq in S2. subst c.
  exists oo, G. split; [auto|]. split; [auto|]. split; [eapply nth_error_In; eauto|]. split; [|auto]. rewrite Eg, E2, dense_find. auto.
Qed.
Lemma obs_frame n oo G : nth_error (ot_all (ca_oobs s)) n = Some oo -> In G gl -> In (oo_cam oo) (cg_cams G) ->
  exists go, In (cg_id G, oo_frame oo) (ptable (oo_frame oo) (gt_frames (ca_gobs s))) /\ mfind (cg_id G, oo_frame oo) (gt_obs (ca_gobs s)) = Some go /\
    In n (go_nums go) /\ mfind (go_group go) (ca_groups s) = Some G.
Proof.
  intros Hn HG Hc. destruct CO as [E1 OK OT Ob Cov E2 GK GT NU CA KE]. apply In_nth_error in HG as (i & HG). assert (Eid := gk_ids _ _ GK i G HG).
  assert (Sb : seen_by G (oo_frame oo) oo = true).
  { unfold seen_by. rewrite Z.eqb_refl. cbn [andb]. apply existsb_exists. exists (oo_cam oo). split; [auto|apply Z.eqb_refl]. }
  assert (Hk : In (Z.of_nat i, oo_frame oo) (mkeys (gt_obs (ca_gobs s)))).
  { apply (gto_keys _ _ _ _ GT). exists i, G. split; [auto|]. split; [auto|]. split; [apply FR; eapply nth_error_In; eauto|]. exists oo. split; [eapply nth_error_In; eauto|auto]. }
  destruct (mfind (Z.of_nat i, oo_frame oo) (gt_obs (ca_gobs s))) as [go|] eqn:Eg; [|exfalso; apply mfind_None in Eg; auto].
  exists go. rewrite Eid. split; [apply (gto_frames _ _ _ _ GT); auto|]. split; [auto|]. destruct (gto_obs _ _ _ _ GT i _ G go HG Eg) as (Egr & En & _). split.
  - rewrite En. apply where_In. eauto.
  - rewrite Egr, E2, dense_find. auto.
Qed.

(** detections and reprojections drawn for one object observation *)
Definition obs_pairs (c : Z) (n : nat) : option (list (pt2 * pt2)) :=
  match nth_error (ot_all (ca_oobs s)) n with
  | None => None
  | Some oo =>
      if Z.eqb (oo_cam oo) c then
        match find (fun G => existsb (Z.eqb c) (cg_cams G)) gl, mfind (oo_obj oo) (ca_objs s) with
        | Some G, Some o => option_map (combine (oo_pts oo)) (reprojected models p G (cg_id G, oo_frame oo) oo o)
        | _, _ => None
        end
      else Some []
  end.
Lemma group_found c G : In G gl -> In c (cg_cams G) -> find (fun G => existsb (Z.eqb c) (cg_cams G)) gl = Some G.
Proof.
  intros HG Hc. destruct (find (fun G => existsb (Z.eqb c) (cg_cams G)) gl) as [G'|] eqn:E.
  - apply List.find_some in E as (HG' & E). apply existsb_exists in E as (c' & Hc' & E). apply Z.eqb_eq in E. subst c'. f_equal. exact (camera_group bpts t bss ol css gl s CO c G' G HG' HG Hc' Hc).
  - exfalso. apply (List.find_none _ _ E) in HG. assert (X : existsb (Z.eqb c) (cg_cams G) = true) by (apply existsb_exists; exists c; split; [auto|apply Z.eqb_refl]). congruence.
Qed.
Lemma marks_pairs c f k go n : In k (ptable f (gt_frames (ca_gobs s))) -> mfind k (gt_obs (ca_gobs s)) = Some go -> In n (go_nums go) ->
  repro_marks lr models r c go n = option_map (flat_map draw) (obs_pairs c n).
Proof.
  intros Hk Hgo Hn. destruct (frame_obs f k go n Hk Hgo Hn) as (oo & G & Hoo & Ef & HG & Hm & Hc).
  destruct (view_ok bpts t bss ol css gl s CO TR n oo Hoo) as (o & bs & V & _ & Io & _ & W & _ & Ga & L & Rg).
  assert (Ho : mfind (oo_obj oo) (ca_objs s) = Some o). { unfold view_data in V. rewrite Hoo in V. destruct (mfind (oo_obj oo) (ca_objs s)); [|discriminate V]. congruence. }
  unfold repro_marks, obs_pairs. fold s p. rewrite Hoo, Hm, Ho. destruct (Z.eqb_spec (oo_cam oo) c) as [<-|_]; [|reflexivity].
  rewrite (group_found _ G HG Hc), reprojected_image.
  assert (EP : RVecT2Proj (fst (Proj2RT lr (pmul (pose_of p (KCam (cg_id G) (oo_cam oo))) (as_matrix (ru_gp r n))))) (snd (Proj2RT lr (pmul (pose_of p (KCam (cg_id G) (oo_cam oo))) (as_matrix (ru_gp r n)))))
             = pmul (matrix (pa_pose p (KCam (cg_id G) (oo_cam oo)))) (matrix (pa_pose p (KGroup (cg_id G, oo_frame oo) (oo_obj oo))))).
  { rewrite (GP n oo G Hoo HG Hc). change (as_matrix (pa_pose p (KGroup (cg_id G, oo_frame oo) (oo_obj oo)))) with (matrix (pa_pose p (KGroup (cg_id G, oo_frame oo) (oo_obj oo)))).
    change (pose_of p (KCam (cg_id G) (oo_cam oo))) with (matrix (pa_pose p (KCam (cg_id G) (oo_cam oo)))).
    set (P := pmul _ _). assert (RPo : rigid P) by (apply rigid_mul; apply rvec_rigid). unfold Proj2RT, RVecT2Proj. cbn [fst snd]. rewrite LO by exact RPo. destruct P; auto. }
  destruct (collect (map (zget (ob_pts o)) (oo_ids oo))) as [sc|] eqn:Esc; [|reflexivity].
  rewrite EP, map_map. set (h := fun x => image (models (oo_cam oo)) (pa_intr p (oo_cam oo)) (matrix (pa_pose p (KCam (cg_id G) (oo_cam oo)))) (pact (matrix (pa_pose p (KGroup (cg_id G, oo_frame oo) (oo_obj oo)))) x)).
  rewrite (collect_ext _ h) by (intros x _; unfold h; rewrite project_ok, <- image_mul; reflexivity).
  destruct (collect (map h sc)) as [rp|] eqn:Erp; [|reflexivity]. cbn [option_map].
  assert (Lr : length rp = length (oo_pts oo)) by (apply collect_nth in Erp as (L1 & _); apply collect_nth in Esc as (L2 & _); congruence).
  assert (D := draw_all (oo_pts oo) rp [] Lr). cbn [Datatypes.app Datatypes.length] in D. rewrite D. clear D. cbn [option_map]. rewrite <- flat_map_concat_map. auto.
Qed.

(** the pairs drawn for an image *)
Definition image_pairs (c f : Z) : option (list (pt2 * pt2)) :=
  gather (fun k => match mfind k (gt_obs (ca_gobs s)) with Some go => gather (obs_pairs c) (go_nums go) | None => Some [] end) (ptable f (gt_frames (ca_gobs s))).
Lemma image_marks c f : gather (fun k => match mfind k (gt_obs (ca_gobs s)) with Some go => gather (repro_marks lr models r c go) (go_nums go) | None => Some [] end) (ptable f (gt_frames (ca_gobs s))) =
  option_map (flat_map draw) (image_pairs c f).
Proof.
  unfold image_pairs. rewrite <- gather_draw. apply gather_ext. intros k Hk. destruct (mfind k (gt_obs (ca_gobs s))) as [go|] eqn:Eg; [|reflexivity].
  rewrite <- gather_draw. apply gather_ext. intros n Hn. eapply marks_pairs; eauto.
Qed.

(** an object has its boards for itself *)
Lemma board_object i i' o o' b : In (i, o) (ca_objs s) -> In (i', o') (ca_objs s) -> In b (mkeys (ob_boards o)) -> In b (mkeys (ob_boards o')) -> o = o'.
Proof.
  intros H H' Hb Hb'. destruct CO as [E1 OK _ _ _ _ _ _ _ _ _]. rewrite E1 in H, H'. apply dense_In in H as (a & -> & H), H' as (a' & -> & H').
  assert (X : forall i o, nth_error ol i = Some o -> In b (mkeys (ob_boards o)) -> exists bs, nth_error bss i = Some bs /\ In b (map fst bs)).
  { intros i o1 Ho1 Hb1. destruct (nth_error_length_ex ol bss i o1 (eq_sym (ok_len _ _ _ OK)) Ho1) as (bs & Hbs). exists bs. split; [auto|].
    apply (wb_boards _ _ _ (ok_wb _ _ _ OK i bs o1 Hbs Ho1)). auto. }
  destruct (X a o H Hb) as (bs & Hbs & Ib), (X a' o' H' Hb') as (bs' & Hbs' & Ib'). assert (a' = a); [|subst; congruence].
  assert (ND := ok_disjoint _ _ _ OK). rewrite concat_map in ND. eapply NoDup_concat_unique; [exact ND|rewrite nth_error_map, Hbs'; reflexivity|rewrite nth_error_map, Hbs; reflexivity|exact Ib'|exact Ib].
Qed.
(** corner k of board b in an image is a corner of an object observation of the image *)
Lemma corner_obs c f b k m : corner_left t c f b k m ->
  exists n oo G o x i h, nth_error (ot_all (ca_oobs s)) n = Some oo /\ oo_cam oo = c /\ oo_frame oo = f /\ In G gl /\ In c (cg_cams G) /\
    mfind (oo_obj oo) (ca_objs s) = Some o /\ oo_obj oo = ob_id o /\ In b (mkeys (ob_boards o)) /\ (0 <= k)%Z /\ nth_error (bpts b) (Z.to_nat k) = Some x /\
    nth_error (oo_pts oo) i = Some m /\ nth_error (oo_ids oo) i = Some (Z.of_nat h) /\ nth_error (ob_pts o) h = Some (pact (matrix (pa_pose p (KBoard (ob_id o) b))) x).
Proof.
  intros (bo & j & Hbo & <- & <- & <- & Hm & Hk). assert (Tb := TR bo Hbo). destruct Tb as (Lb & Rb & _). rewrite Forall_forall in Rb.
  assert (Kr := Rb k (nth_error_In _ _ Hk)). destruct (nth_error (bpts (o_board bo)) (Z.to_nat k)) as [x|] eqn:Ex; [|apply nth_error_None in Ex; lia].
  destruct (In_nth_error _ _ Hbo) as (nb & Hnb). assert (NE : o_pts bo <> []) by (intros E; rewrite E in Hm; destruct j; discriminate Hm).
  destruct (co_cover _ _ _ _ _ _ _ CO nb bo Hnb NE) as (_ & oo & Hoo & Hin). destruct (In_nth_error _ _ Hoo) as (n & Hn).
  destruct (view_ok bpts t bss ol css gl s CO TR n oo Hn) as (o & bs & V & _ & Io & Eo & W & _ & Ga & L & Rg).
  assert (Ho : mfind (oo_obj oo) (ca_objs s) = Some o). { unfold view_data in V. rewrite Hn in V. destruct (mfind (oo_obj oo) (ca_objs s)); [|discriminate V]. congruence. }
  assert (B := Hin). apply (ga_bobs _ _ _ Ga) in B as (bo' & Hbo' & Ec & Ef & Hb). assert (bo' = bo) by congruence. subst bo'.
  destruct (obs_group bpts t bss ol css gl s CO n oo Hn) as (G & HG & Hc).
  destruct (proj2 (gathered_corner bpts t TR o oo bs m (o_board bo) x W Ga)) as (i & h & j' & I1 & I2 & I3 & I4).
  { exists nb, bo. split; [auto|]. split; [auto|]. split; [auto|]. exists j, (Z.to_nat k). rewrite Z2Nat.id by lia. auto. }
  assert (Hr : (0 <= Z.of_nat h < Z.of_nat (length (ob_pts o)))%Z) by (rewrite Forall_forall in Rg; apply Rg; eapply nth_error_In; eauto).
  destruct (wb_corner bpts bs o (Z.of_nat h) W Hr) as (b' & k' & q' & P & Eo2 & _ & Eq & EP & Ept). apply zget_some in Eo2 as (_ & Eo2), Eq as (K0 & Eq), Ept as (_ & Ept). rewrite Nat2Z.id in *.
  rewrite I3 in Eo2. injection Eo2 as <- <-. rewrite Nat2Z.id in Eq. assert (q' = x) by congruence. subst q'.
  exists n, oo, G, o, x, i, h. do 2 (split; [auto|]). split; [auto|]. split; [auto|]. split; [rewrite Ec; auto|]. split; [auto|]. split; [auto|]. split; [auto|]. split; [lia|]. split; [auto|]. split; [auto|]. split; [auto|].
  rewrite (rp_boards _ _ _ RP (oo_obj oo) o (o_board bo) P Io EP). exact Ept.
Qed.
Lemma put_image c f b x i o j G k q : In (i, o) (ca_objs s) -> In b (mkeys (ob_boards o)) -> In (j, G) (ca_groups s) -> In c (cg_cams G) -> nth_error (bpts b) (Z.to_nat k) = Some x ->
  put_at bpts models p s c f b k q ->
  image (models c) (pa_intr p c) (pmul (matrix (pa_pose p (KCam (cg_id G) c))) (matrix (pa_pose p (KGroup (cg_id G, f) (ob_id o))))) (pact (matrix (pa_pose p (KBoard (ob_id o) b))) x) = Some q.
Proof.
  intros Ho Hb HG Hc Hx (i' & o' & j' & G' & x' & Ho' & Hb' & HG' & Hc' & _ & Hx' & E).
  assert (o' = o) by (eapply board_object; eauto). subst o'. assert (x' = x) by congruence. subst x'.
  assert (G' = G). { apply (camera_group bpts t bss ol css gl s CO c G' G); auto; rewrite <- (groups_vals bpts t bss ol css gl s CO); apply in_map_iff; [exists (j', G')|exists (j, G)]; auto. }
  subst G'. rewrite <- image_mul, <- pmul_assoc. exact E.
Qed.
Lemma pair_at c n oo G o ps : nth_error (ot_all (ca_oobs s)) n = Some oo -> oo_cam oo = c -> In G gl -> In c (cg_cams G) -> mfind (oo_obj oo) (ca_objs s) = Some o ->
  obs_pairs c n = Some ps -> forall m q, In (m, q) ps <-> exists i, nth_error (oo_pts oo) i = Some m /\ reprojects models p G oo o i q.
Proof.
  intros Hn Ec HG Hc Ho E m q. unfold obs_pairs in E. rewrite Hn, Ec, Z.eqb_refl, (group_found c G HG Hc), Ho in E. apply omap_Some in E as (rp & E & ->).
  destruct (view_ok bpts t bss ol css gl s CO TR n oo Hn) as (o' & bs & V & _ & Io & Eo & W & _ & Ga & L & Rg).
  assert (NN : Forall (fun z => (0 <= z)%Z) (oo_ids oo)) by (eapply Forall_impl; [|exact Rg]; cbn; lia).
  apply (reprojected_spec models p G oo o rp NN) in E as (Lr & E). split.
  - intros H. apply In_nth_error in H as (i & H). exists i.
    assert (X : forall (l : list pt2) (l' : list pt2) i, nth_error (combine l l') i = Some (m, q) -> nth_error l i = Some m /\ nth_error l' i = Some q).
    { induction l as [|y l IH]; intros [|y' l'] [|i'] Q; cbn in Q; try discriminate Q; [injection Q as -> ->; auto|]. cbn. auto. }
    apply X in H as (H1 & H2). auto.
  - intros (i & H1 & H2). assert (Hi : i < length rp) by (rewrite Lr, L; apply nth_error_Some; congruence). destruct (nth_error rp i) as [q'|] eqn:Eq; [|apply nth_error_None in Eq; lia].
    assert (Q := E i q' Eq). destruct H2 as (k & x & A1 & A2 & A3), Q as (k' & x' & B1 & B2 & B3). assert (k' = k) by (rewrite A1 in B1; injection B1; lia). subst k'. assert (x' = x) by congruence. subst x'.
    assert (q' = q) by congruence. subst q'. 
    assert (X : forall (l : list pt2) (l' : list pt2) i, nth_error l i = Some m -> nth_error l' i = Some q -> In (m, q) (combine l l')).
    { induction l as [|y l IH]; intros [|y' l'] [|i'] Q1 Q2; cbn in Q1, Q2; try discriminate Q1; try discriminate Q2; [injection Q1 as ->; injection Q2 as ->; left; auto|]. right. eapply IH; eauto. }
    eapply X; eauto.
Qed.
Lemma reprojects_corner n oo G o i m q : nth_error (ot_all (ca_oobs s)) n = Some oo -> In G gl -> In (oo_cam oo) (cg_cams G) -> mfind (oo_obj oo) (ca_objs s) = Some o ->
  nth_error (oo_pts oo) i = Some m -> reprojects models p G oo o i q ->
  exists b k, corner_left t (oo_cam oo) (oo_frame oo) b k m /\ put_at bpts models p s (oo_cam oo) (oo_frame oo) b k q.
Proof.
  intros Hn HG Hc Ho Hm (h & x & Hh & Hx & E).
  destruct (view_ok bpts t bss ol css gl s CO TR n oo Hn) as (o' & bs & V & _ & Io & Eo & W & _ & Ga & L & Rg).
  assert (o' = o). { unfold view_data in V. rewrite Hn, Ho in V. congruence. } subst o'.
  assert (Hr : (0 <= Z.of_nat h < Z.of_nat (length (ob_pts o)))%Z) by (rewrite Forall_forall in Rg; apply Rg; eapply nth_error_In; eauto).
  destruct (wb_corner bpts bs o (Z.of_nat h) W Hr) as (b & k & y & P & Eo2 & Eb & Eq & EP & Ept). apply zget_some in Eo2 as (_ & Eo2), Eq as (K0 & Eq), Ept as (_ & Ept). rewrite Nat2Z.id in *.
  apply existsb_exists in Eb as (b' & Hb & Eb). apply Z.eqb_eq in Eb. subst b'.
  destruct (proj1 (gathered_corner bpts t TR o oo bs m b y W Ga)) as (nb & bo & Hnb & Hbo & <- & j & kk & A1 & A2 & A3).
  { exists i, h, (Z.to_nat k). rewrite Z2Nat.id by lia. auto. }
  apply (ga_bobs _ _ _ Ga) in Hnb as (bo' & Hbo' & Ec & Ef & _). assert (bo' = bo) by congruence. subst bo'.
  exists (o_board bo), (Z.of_nat kk). split.
  - exists bo, j. split; [eapply nth_error_In; eauto|auto].
  - assert (HG' := HG). apply (groups_vals bpts t bss ol css gl s CO), in_map_iff in HG' as ((jj, G') & EG & HG'). cbn in EG. subst G'.
    exists (oo_obj oo), o, jj, G, y. do 4 (split; [auto|]). split; [lia|]. rewrite Nat2Z.id. split; [auto|].
    rewrite (rp_boards _ _ _ RP (oo_obj oo) o (o_board bo) P Io EP), pmul_assoc, image_mul, <- Eo. assert (x = pact P y) by congruence. subst x. exact E.
Qed.

Lemma pairs_spec c f ps : image_pairs c f = Some ps -> forall m q, In (m, q) ps <-> exists b k, corner_left t c f b k m /\ put_at bpts models p s c f b k q.
Proof.
  intros E m q. unfold image_pairs in E. rewrite (gather_In _ _ _ (m, q) E). split.
  - intros (k & y & Hk & Ey & Hy). destruct (mfind k (gt_obs (ca_gobs s))) as [go|] eqn:Eg; [|injection Ey as <-; destruct Hy].
    apply (gather_In _ _ _ (m, q) Ey) in Hy as (n & z & Hn & Ez & Hz). destruct (frame_obs f k go n Hk Eg Hn) as (oo & G & Hoo & <- & HG & Hm & Hc).
    destruct (Z.eq_dec (oo_cam oo) c) as [<-|N].
    + destruct (view_ok bpts t bss ol css gl s CO TR n oo Hoo) as (o & bs & V & _ & Io & Eo & W & _).
      assert (Ho : mfind (oo_obj oo) (ca_objs s) = Some o). { unfold view_data in V. rewrite Hoo in V. destruct (mfind (oo_obj oo) (ca_objs s)); [|discriminate V]. congruence. }
      destruct (proj1 (pair_at _ n oo G o z Hoo eq_refl HG Hc Ho Ez m q) Hz) as (i & H1 & H2). eapply reprojects_corner; eauto.
    + unfold obs_pairs in Ez. rewrite Hoo in Ez. apply Z.eqb_neq in N. rewrite N in Ez. injection Ez as <-. destruct Hz.
  - intros (b & k & Cl & Pu). destruct (corner_obs c f b k m Cl) as (n & oo & G & o & x & i & h & Hn & <- & <- & HG & Hc & Ho & Eo & Hb & K0 & Hx & H1 & H2 & H3).
    destruct (obs_frame n oo G Hn HG Hc) as (go & Hk & Hgo & Hin & Hgr).
    assert (exists y, gather (obs_pairs (oo_cam oo)) (go_nums go) = Some y) as (y & Ey).
    { unfold gather in E. destruct (collect _) as [ys|] eqn:Ec in E; [|discriminate E]. destruct (In_nth_error _ _ Hk) as (ik & Hik). destruct (collect_Some_nth _ _ _ _ _ Ec Hik) as (y & _ & Ey). rewrite Hgo in Ey. eauto. }
    assert (exists z, obs_pairs (oo_cam oo) n = Some z) as (z & Ez).
    { assert (Ey' := Ey). unfold gather in Ey'. destruct (collect _) as [ys|] eqn:Ec in Ey'; [|discriminate Ey']. destruct (In_nth_error _ _ Hin) as (ik & Hik). destruct (collect_Some_nth _ _ _ _ _ Ec Hik) as (z & _ & Ez). eauto. }
    exists (cg_id G, oo_frame oo), y. split; [auto|]. rewrite Hgo. split; [auto|]. apply (gather_In _ _ _ (m, q) Ey). exists n, z. split; [auto|]. split; [auto|].
    apply (pair_at _ n oo G o z Hn eq_refl HG Hc Ho Ez). exists i. split; [auto|]. exists h, (pact (matrix (pa_pose p (KBoard (ob_id o) b))) x). split; [auto|]. split; [auto|].
    assert (HG' := HG). apply (groups_vals bpts t bss ol css gl s CO), in_map_iff in HG' as ((jj, G') & EG & HG'). cbn in EG. subst G'.
    rewrite Eo. exact (put_image _ _ b x (oo_obj oo) o jj G k q (mfind_In _ _ _ Ho) Hb HG' Hc Hx Pu).
Qed.
Lemma pairs_total c f : (exists ps, image_pairs c f = Some ps) <-> forall b k m, corner_left t c f b k m -> exists q, put_at bpts models p s c f b k q.
Proof.
  split.
  - intros (ps & E) b k m Cl. destruct (corner_obs c f b k m Cl) as (n & oo & G & o & x & i & h & Hn & <- & <- & HG & Hc & Ho & Eo & Hb & K0 & Hx & H1 & H2 & H3).
    destruct (obs_frame n oo G Hn HG Hc) as (go & Hk & Hgo & Hin & Hgr). unfold image_pairs, gather in E. destruct (collect _) as [ys|] eqn:Ec in E; [|discriminate E].
    destruct (In_nth_error _ _ Hk) as (ik & Hik). destruct (collect_Some_nth _ _ _ _ _ Ec Hik) as (y & _ & Ey). rewrite Hgo in Ey. clear Ec E. destruct (collect _) as [zs|] eqn:Ec in Ey; [|discriminate Ey].
    destruct (In_nth_error _ _ Hin) as (im & Him). destruct (collect_Some_nth _ _ _ _ _ Ec Him) as (z & _ & Ez).
    unfold obs_pairs in Ez. rewrite Hn, Z.eqb_refl, (group_found _ G HG Hc), Ho in Ez. apply omap_Some in Ez as (rp & Ez & _).
    destruct (view_ok bpts t bss ol css gl s CO TR n oo Hn) as (o' & bs & V & _ & Io & _ & W & _ & Ga & L & Rg).
    assert (NN : Forall (fun z => (0 <= z)%Z) (oo_ids oo)) by (eapply Forall_impl; [|exact Rg]; cbn; lia).
    apply (reprojected_spec models p G oo o rp NN) in Ez as (Lr & Ez). assert (Hi : i < length rp) by (rewrite Lr; apply nth_error_Some; congruence).
    destruct (nth_error rp i) as [q|] eqn:Eq; [|apply nth_error_None in Eq; lia]. destruct (Ez i q Eq) as (h' & x' & A1 & A2 & A3). assert (h' = h) by (rewrite H2 in A1; injection A1; lia). subst h'.
    assert (x' = pact (matrix (pa_pose p (KBoard (ob_id o) b))) x) by congruence. subst x'.
    assert (HG' := HG). apply (groups_vals bpts t bss ol css gl s CO), in_map_iff in HG' as ((jj, G') & EG & HG'). cbn in EG. subst G'.
    exists q, (oo_obj oo), o, jj, G, x. split; [apply mfind_In; auto|]. do 4 (split; [auto|]). split; [auto|]. rewrite pmul_assoc, image_mul. rewrite Eo in A3. exact A3.
  - intros H. apply gather_total. intros k Hk. destruct (mfind k (gt_obs (ca_gobs s))) as [go|] eqn:Eg; [|eauto]. apply gather_total. intros n Hn.
    destruct (frame_obs f k go n Hk Eg Hn) as (oo & G & Hoo & <- & HG & Hm & Hc). unfold obs_pairs. rewrite Hoo. destruct (Z.eqb_spec (oo_cam oo) c) as [<-|_]; [|eauto].
    destruct (view_ok bpts t bss ol css gl s CO TR n oo Hoo) as (o & bs & V & _ & Io & Eo & W & _ & Ga & L & Rg).
    assert (Ho : mfind (oo_obj oo) (ca_objs s) = Some o). { unfold view_data in V. rewrite Hoo in V. destruct (mfind (oo_obj oo) (ca_objs s)); [|discriminate V]. congruence. }
    rewrite (group_found _ G HG Hc), Ho, reprojected_image.
    destruct (collect_total (zget (ob_pts o)) (oo_ids oo)) as (sc & Esc & _).
    { intros z Hz. rewrite Forall_forall in Rg. specialize (Rg z Hz). destruct (nth_error (ob_pts o) (Z.to_nat z)) as [x|] eqn:Ex; [|apply nth_error_None in Ex; lia]. exists x. apply zget_nth. split; [lia|auto]. }
    rewrite Esc, map_map. match goal with |- exists x, option_map _ (collect (map ?g sc)) = Some x => destruct (collect_total g sc) as (ys & E & _); [|rewrite E; cbn; eauto] end.
    intros x Hx. apply In_nth_error in Hx as (i & Hx). apply collect_nth in Esc as (Ls & Esc). destruct (Esc i x Hx) as (z & Hz & Ez).
    assert (Hi : i < length (oo_pts oo)) by (rewrite <- L; apply nth_error_Some; congruence). destruct (nth_error (oo_pts oo) i) as [m|] eqn:Em; [|apply nth_error_None in Em; lia].
    assert (Zr : (0 <= z < Z.of_nat (length (ob_pts o)))%Z) by (rewrite Forall_forall in Rg; apply Rg; eapply nth_error_In; eauto).
    destruct (wb_corner bpts bs o z W Zr) as (b & k' & y & P & Eo2 & Eb & Eq & EP & Ept). apply zget_some in Eo2 as (_ & Eo2), Eq as (K0 & Eq).
    apply existsb_exists in Eb as (b' & Hb & Eb). apply Z.eqb_eq in Eb. subst b'.
    destruct (proj1 (gathered_corner bpts t TR o oo bs m b y W Ga)) as (nb & bo & Hnb & Hbo & <- & j & kk & A1 & A2 & A3).
    { exists i, (Z.to_nat z), (Z.to_nat k'). rewrite !Z2Nat.id by lia. auto. }
    apply (ga_bobs _ _ _ Ga) in Hnb as (bo' & Hbo' & Ec & Ef & _). assert (bo' = bo) by congruence. subst bo'.
    destruct (H (o_board bo) (Z.of_nat kk) m) as (q & Pu).
    { exists bo, j. split; [eapply nth_error_In; eauto|auto]. }
    assert (HG' := HG). apply (groups_vals bpts t bss ol css gl s CO), in_map_iff in HG' as ((jj, G') & EG & HG'). cbn in EG. subst G'. exists q.
    assert (A3' : nth_error (bpts (o_board bo)) (Z.to_nat (Z.of_nat kk)) = Some y) by (rewrite Nat2Z.id; auto).
    assert (Q := put_image _ _ (o_board bo) y (oo_obj oo) o jj G (Z.of_nat kk) q (mfind_In _ _ _ Ho) Hb HG' Hc A3' Pu).
    rewrite (rp_boards _ _ _ RP (oo_obj oo) o (o_board bo) P Io EP), image_mul in Q. rewrite Eo. assert (x = pact P y) by congruence. subst x. exact Q.
Qed.
End Img.

(** ** Object poses in the groups *)
Lemma update_inner (s : calib pt2) p k n oo : nth_error (ot_all (ca_oobs s)) n = Some oo -> forall ns gp,
  let res := fold_left (fun gp n => match nth_error (ot_all (ca_oobs s)) n with Some oo => gput n (pa_pose p (KGroup k (oo_obj oo))) gp | None => gp end) ns gp in
  (In n ns -> res n = pa_pose p (KGroup k (oo_obj oo))) /\ (~ In n ns -> res n = gp n).
Proof.
  intros Hn ns. induction ns as [|a ns IH]; intros gp; cbn [fold_left]; [split; [intros []|auto]|].
  specialize (IH (match nth_error (ot_all (ca_oobs s)) a with Some oo => gput a (pa_pose p (KGroup k (oo_obj oo))) gp | None => gp end)). cbv zeta in IH. destruct IH as (I1 & I2).
  destruct (in_dec Nat.eq_dec n ns) as [Hi|Hi].
  - split; [intros _; auto|]. intros N. exfalso. apply N. right. auto.
  - rewrite (I2 Hi). destruct (Nat.eq_dec a n) as [->|N].
    + rewrite Hn. unfold gput. rewrite Nat.eqb_refl. split; [auto|]. intros N. exfalso. apply N. left. auto.
    + assert (X : (match nth_error (ot_all (ca_oobs s)) a with Some oo => gput a (pa_pose p (KGroup k (oo_obj oo))) gp | None => gp end) n = gp n).
      { destruct (nth_error (ot_all (ca_oobs s)) a); [|auto]. unfold gput. destruct (Nat.eqb_spec a n); [contradiction|]. destruct (Nat.eqb_spec n a); [congruence|auto]. }
      rewrite X. split; [intros [E|H]; [contradiction|contradiction]|auto].
Qed.
Lemma update_poses (s : calib pt2) p k0 n oo : nth_error (ot_all (ca_oobs s)) n = Some oo ->
  (forall k go, In (k, go) (gt_obs (ca_gobs s)) -> In n (go_nums go) -> k = k0) -> (exists k go, In (k, go) (gt_obs (ca_gobs s)) /\ In n (go_nums go)) ->
  forall gp, updateObjObsPose s p gp n = pa_pose p (KGroup k0 (oo_obj oo)).
Proof.
  intros Hn U Ex gp. unfold updateObjObsPose.
  assert (X : forall L gp, (forall k go, In (k, go) L -> In n (go_nums go) -> k = k0) -> (gp n = pa_pose p (KGroup k0 (oo_obj oo)) \/ exists k go, In (k, go) L /\ In n (go_nums go)) ->
    fold_left (fun gp '(k, go) => fold_left (fun gp n => match nth_error (ot_all (ca_oobs s)) n with Some oo => gput n (pa_pose p (KGroup k (oo_obj oo))) gp | None => gp end) (go_nums go) gp) L gp n = pa_pose p (KGroup k0 (oo_obj oo))).
  { clear gp U Ex. induction L as [|(k, go) L IH]; intros gp U D; cbn [fold_left].
    - destruct D as [D|(k & go & [] & _)]; auto.
    - apply IH; [intros k' go' H; apply U; right; auto|]. destruct (update_inner s p k n oo Hn (go_nums go) gp) as (I1 & I2). destruct (in_dec Nat.eq_dec n (go_nums go)) as [Hi|Hi].
      + left. rewrite (U k go (or_introl eq_refl) Hi) in *. exact (I1 Hi).
      + destruct D as [D|(k' & go' & [E|H] & Hi')]; [left; rewrite I2; auto| |right; eauto]. injection E as <- <-. contradiction. }
  apply X; auto.
Qed.
Lemma update_same (s s' : calib pt2) p gp : ca_oobs s = ca_oobs s' -> ca_gobs s = ca_gobs s' -> updateObjObsPose s p gp = updateObjObsPose s' p gp.
Proof. intros E1 E2. unfold updateObjObsPose. rewrite E1, E2. auto. Qed.

(** after a run all stored object poses are those the last refinement left *)
Lemma final_poses svd lr uq solve bpts models thresh it env pose0 fixi r r' : run_final svd lr uq solve bpts models thresh it env pose0 fixi r = Some r' ->
  exists gp, ru_gp r' = updateObjObsPose (ru_s r') (ru_p r') gp.
Proof.
  intros E. apply bind_Some in E as (r1 & _ & E). apply bind_Some in E as (r2 & _ & E). apply bind_Some in E as (r3 & E3 & E). destruct (Z.eqb fixi 0).
  - apply omap_Some in E as (p & _ & ->). exists (ru_gp r3). cbn [ru_gp ru_s ru_p]. apply update_same; auto.
  - injection E as <-. apply omap_Some in E3 as (p & _ & ->). exists (ru_gp r2). cbn [ru_gp ru_s ru_p]. apply update_same; auto.
Qed.

(** ** All pictures *)
Lemma gather_NoDup {A B C} (key : B -> C) (f : A -> option (list B)) l r : NoDup l -> gather f l = Some r ->
  (forall a y, In a l -> f a = Some y -> NoDup (map key y)) ->
  (forall a a' y y' b b', In a l -> In a' l -> f a = Some y -> f a' = Some y' -> In b y -> In b' y' -> key b = key b' -> a = a') -> NoDup (map key r).
Proof.
  intros N. revert r. induction N as [|a l Ha N IH]; intros r E H1 H2.
  - injection E as <-. constructor.
  - rewrite gather_cons in E. destruct (f a) as [y|] eqn:Ey; [|discriminate E]. destruct (gather f l) as [z|] eqn:Ez; [|discriminate E]. injection E as <-. rewrite map_app. apply NoDup_app_intro'.
    + apply (H1 a); auto. left. auto.
    + apply IH; auto; [intros; eapply H1; [right|]; eauto|]. intros b b' x x' w w' Ib Ib' Fb Fb' Iw Iw' Ek. eapply H2; [right; exact Ib|right; exact Ib'|exact Fb|exact Fb'|exact Iw|exact Iw'|exact Ek].
    + intros x Hx Hx'. apply in_map_iff in Hx as (w & <- & Hw), Hx' as (w' & Ek & Hw'). apply (gather_In _ _ _ w' Ez) in Hw' as (a' & y' & Ha' & Ey' & Hw'). apply Ha.
      assert (a = a'); [|congruence]. eapply H2; [left; reflexivity|right; exact Ha'|exact Ey|exact Ey'|exact Hw|exact Hw'|auto].
Qed.

Section Pics.
Variables (nc nb : nat) (ins : list (insertion pt2)) (t : tables pt2).
Hypothesis AD : after_detection nc nb ins t.
Variables (readable : string -> bool) (root : string) (mk : Z -> Z -> option (list (ink * (Z * Z)))).
Hypothesis RE : readable ""%string = false.
Definition frame_pic (c : Z) (fr : Z * frame_t) : option (list picture) :=
  option_map (fun ms => if readable (path_of (snd fr) c) then [mkPic (image_file root c (f_idx (snd fr))) (path_of (snd fr) c) ms] else []) (mk c (fst fr)).
Definition all_pics : option (list picture) := gather (fun c => gather (frame_pic c) (t_frames t)) (mkeys (t_cams t)).

Lemma frame_facts f fr : In (f, fr) (t_frames t) -> f_idx fr = f /\ forall c, path_of fr c = match latest_path ins c f with Some x => x | None => ""%string end.
Proof.
  intros H. destruct (ad_holds nc nb ins t AD) as (t0 & HD & RL). rewrite (rl_frames _ _ RL) in H. assert (M : mfind f (t_frames t0) = Some fr) by (apply In_mfind; [apply (hd_frames_sorted _ _ _ _ HD)|auto]).
  destruct (hd_frame _ _ _ _ HD f fr M) as (A & _ & _ & _ & _ & B). split; [auto|]. intros c. unfold path_of. rewrite B. auto.
Qed.
Lemma frames_once : NoDup (t_frames t).
Proof.
  destruct (ad_holds nc nb ins t AD) as (t0 & HD & RL). rewrite (rl_frames _ _ RL). assert (N := msorted_NoDup _ (hd_frames_sorted _ _ _ _ HD)). apply (NoDup_map_inv fst). exact N.
Qed.
Lemma frames_of_paths c f x : latest_path ins c f = Some x -> (0 <= c < Z.of_nat nc)%Z /\ exists fr, In (f, fr) (t_frames t).
Proof.
  intros H. unfold latest_path in H. destruct (find (by_cam_frame c f) (rev ins)) as [i|] eqn:E; [|discriminate H]. apply List.find_some in E as (Hi & E). apply in_rev in Hi. apply andb_prop in E as (E1 & E2). apply Z.eqb_eq in E1, E2. subst c f.
  destruct AD as (Kn & _). rewrite Forall_forall in Kn. split; [apply (Kn i Hi)|].
  destruct (ad_holds nc nb ins t AD) as (t0 & HD & RL). rewrite (rl_frames _ _ RL). assert (M : In (i_frame i) (mkeys (t_frames t0))) by (apply (hd_frame_keys _ _ _ _ HD); eauto).
  apply in_map_iff in M as ((f, fr) & E & M). cbn in E. subst f. eauto.
Qed.
Lemma cam_keys c : In c (mkeys (t_cams t)) <-> (0 <= c < Z.of_nat nc)%Z.
Proof.
  destruct (ad_holds nc nb ins t AD) as (t0 & HD & RL).
  assert (E : mkeys (t_cams t) = mkeys (t_cams t0)). { assert (Q := rl_cams _ _ RL). apply (f_equal (map fst)) in Q. rewrite !map_map in Q. exact Q. }
  rewrite E, (hd_cam_keys _ _ _ _ HD), in_map_iff. split; [intros (x & <- & Hx); apply in_seq in Hx; lia|]. intros H. exists (Z.to_nat c). rewrite in_seq. lia.
Qed.
Lemma cams_once : NoDup (mkeys (t_cams t)).
Proof.
  destruct (ad_holds nc nb ins t AD) as (t0 & HD & RL).
  assert (E : mkeys (t_cams t) = mkeys (t_cams t0)). { assert (Q := rl_cams _ _ RL). apply (f_equal (map fst)) in Q. rewrite !map_map in Q. exact Q. }
  rewrite E, (hd_cam_keys _ _ _ _ HD). apply FinFun.Injective_map_NoDup; [intros x y; lia|apply seq_NoDup].
Qed.
Lemma pic_of c fr y pic : In fr (t_frames t) -> frame_pic c fr = Some y -> In pic y ->
  latest_path ins c (fst fr) = Some (pi_source pic) /\ readable (pi_source pic) = true /\ pi_file pic = image_file root c (fst fr) /\ mk c (fst fr) = Some (pi_marks pic).
Proof.
  intros Hf E Hp. apply omap_Some in E as (ms & E & ->). destruct fr as (f, fr). destruct (frame_facts f fr Hf) as (A & B). cbn [fst snd] in *. rewrite (B c) in Hp.
  destruct (latest_path ins c f) as [x|] eqn:El; [|rewrite RE in Hp; destruct Hp]. destruct (readable x) eqn:Er; [|destruct Hp]. destruct Hp as [<-|[]]. cbn. rewrite A. auto.
Qed.
Lemma pics_spec pics : all_pics = Some pics ->
  NoDup (map pi_file pics) /\
  (forall file, In file (map pi_file pics) <-> exists c f x, latest_path ins c f = Some x /\ readable x = true /\ file = image_file root c f) /\
  (forall pic c f, In pic pics -> pi_file pic = image_file root c f -> latest_path ins c f = Some (pi_source pic) /\ mk c f = Some (pi_marks pic)).
Proof.
  intros E. unfold all_pics in E.
  assert (IN : forall pic, In pic pics <-> exists c fr y, In c (mkeys (t_cams t)) /\ In fr (t_frames t) /\ frame_pic c fr = Some y /\ In pic y).
  { intros pic. rewrite (gather_In _ _ _ pic E). split.
    - intros (c & z & Hc & Ez & Hz). apply (gather_In _ _ _ pic Ez) in Hz as (fr & y & H). exists c, fr, y. tauto.
    - intros (c & fr & y & Hc & Hf & Ey & Hy). unfold gather in E. destruct (collect _) as [zs|] eqn:Ec in E; [|discriminate E]. destruct (In_nth_error _ _ Hc) as (i & Hi).
      destruct (collect_Some_nth _ _ _ _ _ Ec Hi) as (z & _ & Ez). exists c, z. split; [auto|]. split; [exact Ez|]. apply (gather_In (frame_pic c) (t_frames t) z pic Ez). eauto. }
  split; [|split].
  - apply (gather_NoDup pi_file _ _ _ cams_once E).
    + intros c y Hc Ey. apply (gather_NoDup pi_file _ _ _ frames_once Ey).
      * intros fr z Hf Ez. apply omap_Some in Ez as (ms & _ & ->). destruct (readable (path_of (snd fr) c)); cbn; [constructor; [intros []|constructor]|constructor].
      * intros (f, fr) (f', fr') z z' b b' Hf Hf' Ez Ez' Hb Hb' Ek. destruct (pic_of c _ z b Hf Ez Hb) as (_ & _ & A & _), (pic_of c _ z' b' Hf' Ez' Hb') as (_ & _ & A' & _). cbn [fst] in *.
        rewrite A, A' in Ek. apply image_file_inj in Ek as (_ & <-). f_equal. destruct (ad_holds nc nb ins t AD) as (t0 & HD & RL). rewrite (rl_frames _ _ RL) in Hf, Hf'.
        assert (S := hd_frames_sorted _ _ _ _ HD). apply (In_mfind _ _ _ S) in Hf, Hf'. congruence.
    + intros c c' y y' b b' Hc Hc' Ey Ey' Hb Hb' Ek. apply (gather_In _ _ _ b Ey) in Hb as (fr & z & Hf & Ez & Hb). apply (gather_In _ _ _ b' Ey') in Hb' as (fr' & z' & Hf' & Ez' & Hb').
      destruct (pic_of c _ z b Hf Ez Hb) as (_ & _ & A & _), (pic_of c' _ z' b' Hf' Ez' Hb') as (_ & _ & A' & _). rewrite A, A' in Ek. apply image_file_inj in Ek as (<- & _). auto.
  - intros file. rewrite in_map_iff. split.
    + intros (pic & <- & H). apply IN in H as (c & fr & y & Hc & Hf & Ey & Hy). destruct (pic_of c fr y pic Hf Ey Hy) as (A & B & C & _). exists c, (fst fr), (pi_source pic). auto.
    + intros (c & f & x & L & R & ->). destruct (frames_of_paths c f x L) as (Hc & fr & Hf). apply cam_keys in Hc.
      assert (exists y, frame_pic c (f, fr) = Some y) as (y & Ey).
      { unfold gather in E. destruct (collect _) as [zs|] eqn:Ec in E; [|discriminate E]. destruct (In_nth_error _ _ Hc) as (i & Hi). destruct (collect_Some_nth _ _ _ _ _ Ec Hi) as (z & _ & Ez).
        destruct (collect (map (frame_pic c) (t_frames t))) as [ws|] eqn:Ew; [|discriminate Ez]. destruct (In_nth_error _ _ Hf) as (j & Hj). destruct (collect_Some_nth _ _ _ _ _ Ew Hj) as (y & _ & Ey). eauto. }
      assert (Ey' := Ey). apply omap_Some in Ey' as (ms & Em & Ey'). cbn [fst snd] in Ey'. destruct (frame_facts f fr Hf) as (A & B). rewrite (B c), L, R in Ey'.
      eexists. split; [|apply IN; exists c, (f, fr), y; split; [auto|]; split; [auto|]; split; [auto|]; rewrite Ey'; left; reflexivity]. cbn. rewrite A. auto.
  - intros pic c f Hp Ef. apply IN in Hp as (c' & fr & y & Hc & Hf & Ey & Hy). destruct (pic_of c' fr y pic Hf Ey Hy) as (A & B & C & D). rewrite C in Ef. apply image_file_inj in Ef as (-> & <-). auto.
Qed.
Lemma pics_total : (exists pics, all_pics = Some pics) <-> forall c f, In c (mkeys (t_cams t)) -> In f (mkeys (t_frames t)) -> exists ms, mk c f = Some ms.
Proof.
  split.
  - intros (pics & E) c f Hc Hf. unfold all_pics, gather in E. destruct (collect _) as [zs|] eqn:Ec in E; [|discriminate E]. destruct (In_nth_error _ _ Hc) as (i & Hi). destruct (collect_Some_nth _ _ _ _ _ Ec Hi) as (z & _ & Ez).
    destruct (collect (map (frame_pic c) (t_frames t))) as [ws|] eqn:Ew; [|discriminate Ez]. apply in_map_iff in Hf as ((f', fr) & E' & Hf). cbn in E'. subst f'. destruct (In_nth_error _ _ Hf) as (j & Hj).
    destruct (collect_Some_nth _ _ _ _ _ Ew Hj) as (y & _ & Ey). apply omap_Some in Ey as (ms & Em & _). eauto.
  - intros H. apply gather_total. intros c Hc. apply gather_total. intros (f, fr) Hf. destruct (H c f Hc) as (ms & Em); [apply in_map_iff; exists (f, fr); auto|]. unfold frame_pic. cbn [fst]. rewrite Em. cbn. eauto.
Qed.
Lemma corner_image c f b k m : corner_left t c f b k m -> In c (mkeys (t_cams t)) /\ In f (mkeys (t_frames t)).
Proof.
  intros (bo & i & Hb & <- & <- & _). apply In_nth_error in Hb as (n & Hb). destruct (ad_obs_ins nc nb ins t AD n bo Hb) as (x & Hx & E1 & E2 & _). apply nth_error_In in Hx. split.
  - apply cam_keys. destruct AD as (Kn & _). rewrite Forall_forall in Kn. rewrite E1. apply (Kn x Hx).
  - destruct (ad_holds nc nb ins t AD) as (t0 & HD & RL). rewrite (rl_frames _ _ RL). apply (hd_frame_keys _ _ _ _ HD). eauto.
Qed.
End Pics.

Section Done.
Variables (svd : (nat -> nat -> R) -> quat) (lr : mat3 -> vec3) (uq : bool) (pick : dstate -> nat) (g0 : graph) (solve : list block -> params -> params) (bpts : Z -> list vec3) (models : Z -> Z).
Variables (thresh : R) (it : Z) (env : nat -> nat -> rs_env par6 vec3) (pose0 : nat -> nat -> par6) (calib2 : list pose -> list pose -> option pose) (fixi : Z).
Hypothesis CE : ceres solve.
Hypothesis Hh : good_heap pick.
Hypothesis LO : log_ok lr.
Hypothesis Fair : forall n, fair_shuffles (env 0 n).
Hypothesis Rc : forall l l' X, calib2 l l' = Some X -> rigid X.
Variables (nc nb : nat) (ins : list (insertion pt2)) (t0 : tables pt2).
Hypothesis Kn : Forall (known nc nb) ins.
Hypothesis Dw : Forall (detected_well bpts) ins.
Hypothesis Ei : insert_all (init_tables nc nb) ins = Some t0.
Variables (src : init_source) (p0 : params) (gp0 : nat -> par6) (r : run).
Hypothesis Er : calibrate svd lr uq pick g0 solve bpts models thresh it env pose0 calib2 fixi src t0 p0 gp0 = Some r.

Lemma done_facts : after_detection nc nb ins (ru_t r) /\ (forall o, In o (mvals (t_obs (ru_t r))) -> trimmed bpts o) /\
  exists bss ol css gl, calib_ok bpts (ru_t r) bss ol css gl (ru_s r) /\ (forall oo, In oo (ot_all (ca_oobs (ru_s r))) -> In (oo_frame oo) (mkeys (t_frames (ru_t r)))) /\
    represents (ru_p r) (ca_objs (ru_s r)) (ca_groups (ru_s r)) /\
    (forall n oo G, nth_error (ot_all (ca_oobs (ru_s r))) n = Some oo -> In G gl -> In (oo_cam oo) (cg_cams G) ->
       ru_gp r n = pa_pose (ru_p r) (KGroup (cg_id G, oo_frame oo) (oo_obj oo))).
Proof.
  destruct (calibrate_good svd lr uq pick g0 solve bpts models thresh it env pose0 calib2 fixi CE Hh LO Fair Rc nc nb ins t0 Kn Dw Ei src p0 gp0 r Er) as (A & B & C). split; [exact A|]. split; [exact B|].
  destruct C as [_ Rd RP _ _]. destruct (reached_ok svd lr uq pick g0 Hh bpts nc nb ins (ru_t r) A (trimmed_paired bpts (ru_t r) B) (ru_s r) Rd) as (bss & ol & css & gl & CO).
  assert (FR := known_frames nc nb ins (ru_t r) A (ca_oobs (ru_s r)) ol (co_obs _ _ _ _ _ _ _ CO)).
  exists bss, ol, css, gl. split; [auto|]. split; [exact FR|]. split; [auto|]. intros n oo G Hn HG Hc.
  assert (F : exists gp, ru_gp r = updateObjObsPose (ru_s r) (ru_p r) gp).
  { unfold calibrate in Er. apply bind_Some in Er as (r1 & _ & E). do 7 (apply bind_Some in E as (? & _ & E)). eapply final_poses. exact E. }
  destruct F as (gp & ->). apply update_poses; auto.
  - intros k go Hk Hin. destruct k as (gi, f). assert (Hm : mfind (gi, f) (gt_obs (ca_gobs (ru_s r))) = Some go) by (apply In_mfind; [apply (gto_sorted _ _ _ _ (co_gobs _ _ _ _ _ _ _ CO))|auto]).
    assert (Hk' : In (gi, f) (ptable f (gt_frames (ca_gobs (ru_s r))))).
    { apply (gto_frames _ _ _ _ (co_gobs _ _ _ _ _ _ _ CO)). split; [auto|]. apply in_map_iff. exists ((gi, f), go). auto. }
    destruct (frame_obs bpts r bss ol css gl CO f (gi, f) go n Hk' Hm Hin) as (oo' & G' & Hn' & Ef & HG' & Hg' & Hc'). assert (oo' = oo) by congruence. subst oo'.
    assert (G' = G) by (apply (camera_group bpts (ru_t r) bss ol css gl (ru_s r) CO (oo_cam oo)); auto). subst G'. subst f.
    assert (Q := Hk'). apply (gto_frames _ _ _ _ (co_gobs _ _ _ _ _ _ _ CO)) in Q as (_ & Q). apply (gto_keys _ _ _ _ (co_gobs _ _ _ _ _ _ _ CO)) in Q as (i & G' & -> & HGi & _).
    destruct (gto_obs _ _ _ _ (co_gobs _ _ _ _ _ _ _ CO) i _ G' go HGi Hm) as (Eg & _). rewrite Eg, (co_groups _ _ _ _ _ _ _ CO), dense_find, HGi in Hg'. injection Hg' as ->.
    rewrite (gk_ids _ _ (co_groups_ok _ _ _ _ _ _ _ CO) i G HGi). auto.
  - destruct (obs_frame bpts r bss ol css gl CO FR n oo G Hn HG Hc) as (go & _ & Hm & Hin & _). exists (cg_id G, oo_frame oo), go. split; [apply mfind_In; auto|auto].
Qed.

(** The pictures with the reprojections.  They are drawn if and only if all corners that are
    left have a finite reprojection.  There is one for every camera and frame whose image can
    be read again, under a name of its own; it is drawn into that image, and what is drawn is,
    for every corner left in the image, a red circle where the final poses put the corner
    and, over it, a green one where it was detected - nothing else. *)
Theorem C56_reprojection_images : forall readable, readable ""%string = false ->
  ((exists pics, saveReprojectionImagesAllCam lr models readable r = Some pics) <->
   forall c f b k m, corner_left (ru_t r) c f b k m -> exists q, put_at bpts models (ru_p r) (ru_s r) c f b k q) /\
  forall pics, saveReprojectionImagesAllCam lr models readable r = Some pics ->
    NoDup (map pi_file pics) /\
    (forall file, In file (map pi_file pics) <-> exists c f x, latest_path ins c f = Some x /\ readable x = true /\ file = image_file "Reprojection" c f) /\
    (forall pic c f, In pic pics -> pi_file pic = image_file "Reprojection" c f ->
       latest_path ins c f = Some (pi_source pic) /\
       exists drawn, pi_marks pic = flat_map (fun '(m, q) => [(Red, pixel q); (Green, pixel m)]) drawn /\
         forall m q, In (m, q) drawn <-> exists b k, corner_left (ru_t r) c f b k m /\ put_at bpts models (ru_p r) (ru_s r) c f b k q).
Proof.
  intros readable RE. destruct done_facts as (AD & TR & bss & ol & css & gl & CO & FR & RP & GP).
  set (mk := fun c f => option_map (flat_map draw) (image_pairs models r gl c f)).
  assert (E : saveReprojectionImagesAllCam lr models readable r = all_pics (ru_t r) readable "Reprojection" mk).
  { unfold saveReprojectionImagesAllCam, all_pics. apply gather_ext. intros c _. apply gather_ext. intros (f, fr) _. unfold frame_picture, frame_pic, mk. cbn [fst snd].
    rewrite <- (image_marks bpts models lr r bss ol css gl LO CO TR GP c f). reflexivity. }
  rewrite E. split.
  - rewrite (pics_total (ru_t r) readable "Reprojection" mk). split.
    + intros H c f b k m Cl. destruct (corner_image nc nb ins (ru_t r) AD c f b k m Cl) as (Hc & Hf). destruct (H c f Hc Hf) as (ms & Em). unfold mk in Em. apply omap_Some in Em as (ps & Ep & _).
      apply (proj1 (pairs_total bpts models r bss ol css gl CO TR FR RP c f) (ex_intro _ ps Ep) b k m Cl).
    + intros H c f _ _. destruct (proj2 (pairs_total bpts models r bss ol css gl CO TR FR RP c f) (H c f)) as (ps & Ep). unfold mk. rewrite Ep. cbn. eauto.
  - intros pics Ep. destruct (pics_spec nc nb ins (ru_t r) AD readable "Reprojection" mk RE pics Ep) as (A & B & C). split; [auto|]. split; [auto|]. intros pic c f Hp Hf.
    destruct (C pic c f Hp Hf) as (C1 & C2). split; [auto|]. unfold mk in C2. apply omap_Some in C2 as (ps & Eps & ->). exists ps. split.
    + apply flat_map_ext. intros (m, q). reflexivity.
    + apply (pairs_spec bpts models r bss ol css gl CO TR FR RP c f ps Eps).
Qed.

(** The pictures with the detections are always drawn, and hold the corners that are left,
    each in the colour of the object its board is part of. *)
Theorem C56_detection_images : forall readable, readable ""%string = false ->
  exists pics, saveDetectionImagesAllCam readable r = Some pics /\
    NoDup (map pi_file pics) /\
    (forall file, In file (map pi_file pics) <-> exists c f x, latest_path ins c f = Some x /\ readable x = true /\ file = image_file "Detection" c f) /\
    (forall pic c f, In pic pics -> pi_file pic = image_file "Detection" c f ->
       latest_path ins c f = Some (pi_source pic) /\
       forall mark, In mark (pi_marks pic) <-> exists b k m i o, corner_left (ru_t r) c f b k m /\ In (i, o) (ca_objs (ru_s r)) /\ In b (mkeys (ob_boards o)) /\ mark = (ColourOf (ob_id o), pixel m)).
Proof.
  intros readable RE. destruct done_facts as (AD & TR & bss & ol & css & gl & CO & FR & RP & GP).
  set (s := ru_s r) in *. set (t := ru_t r) in *.
  set (mk := fun c f => gather (fun k => match mfind k (gt_obs (ca_gobs s)) with Some go => gather (detect_marks r c go) (go_nums go) | None => Some [] end) (ptable f (gt_frames (ca_gobs s)))).
  change (saveDetectionImagesAllCam readable r) with (all_pics t readable "Detection" mk).
  assert (T : forall f k go n c, In k (ptable f (gt_frames (ca_gobs s))) -> mfind k (gt_obs (ca_gobs s)) = Some go -> In n (go_nums go) ->
    exists oo o, nth_error (ot_all (ca_oobs s)) n = Some oo /\ oo_frame oo = f /\ mfind (oo_obj oo) (ca_objs s) = Some o /\ 
      detect_marks r c go n = Some (if Z.eqb (oo_cam oo) c then map (fun m => (ColourOf (ob_id o), pixel m)) (oo_pts oo) else [])).
  { intros f k go n c Hk Hgo Hn. destruct (frame_obs bpts r bss ol css gl CO f k go n Hk Hgo Hn) as (oo & G & Hoo & Ef & HG & Hm & Hc). fold s in Hoo.
    destruct (view_ok bpts t bss ol css gl s CO TR n oo Hoo) as (o & bs & V & _ & Io & _). 
    assert (Ho : mfind (oo_obj oo) (ca_objs s) = Some o). { unfold view_data in V. rewrite Hoo in V. destruct (mfind (oo_obj oo) (ca_objs s)); [|discriminate V]. congruence. }
    exists oo, o. do 3 (split; [auto|]). unfold detect_marks. fold s. rewrite Hoo, Ho. destruct (Z.eqb (oo_cam oo) c); auto. }
  destruct (proj2 (pics_total t readable "Detection" mk)) as (pics & Ep).
  { intros c f _ _. apply gather_total. intros k Hk. destruct (mfind k (gt_obs (ca_gobs s))) as [go|] eqn:Eg; [|eauto]. apply gather_total. intros n Hn.
    destruct (T f k go n c Hk Eg Hn) as (oo & o & _ & _ & _ & ->). eauto. }
  exists pics. split; [auto|]. destruct (pics_spec nc nb ins t AD readable "Detection" mk RE pics Ep) as (A & B & C). split; [auto|]. split; [auto|]. intros pic c f Hp Hf.
  destruct (C pic c f Hp Hf) as (C1 & C2). split; [auto|]. intros mark. rewrite (gather_In _ _ _ mark C2). split.
  - intros (k & y & Hk & Ey & Hy). destruct (mfind k (gt_obs (ca_gobs s))) as [go|] eqn:Eg; [|injection Ey as <-; destruct Hy].
    apply (gather_In _ _ _ mark Ey) in Hy as (n & z & Hn & Ez & Hz). destruct (T f k go n c Hk Eg Hn) as (oo & o & Hoo & Ef & Ho & Em). rewrite Em in Ez. injection Ez as <-.
    destruct (Z.eqb_spec (oo_cam oo) c) as [Ec|_]; [|destruct Hz]. apply in_map_iff in Hz as (m & <- & Hm). apply In_nth_error in Hm as (i & Hm).
    destruct (view_ok bpts t bss ol css gl s CO TR n oo Hoo) as (o' & bs & V & _ & Io & Eo & W & _ & Ga & L & Rg).
    assert (o' = o). { unfold view_data in V. rewrite Hoo, Ho in V. congruence. } subst o'.
    assert (Hi : i < length (oo_ids oo)) by (rewrite L; apply nth_error_Some; congruence). destruct (nth_error (oo_ids oo) i) as [z|] eqn:Ez; [|apply nth_error_None in Ez; lia].
    assert (Zr : (0 <= z < Z.of_nat (length (ob_pts o)))%Z) by (rewrite Forall_forall in Rg; apply Rg; eapply nth_error_In; eauto).
    destruct (wb_corner bpts bs o z W Zr) as (b & k' & y' & P & Eo2 & Eb & Eq & EP & Ept). apply zget_some in Eo2 as (_ & Eo2), Eq as (K0 & Eq).
    apply existsb_exists in Eb as (b' & Hb & Eb). apply Z.eqb_eq in Eb. subst b'.
    destruct (proj1 (gathered_corner bpts t TR o oo bs m b y' W Ga)) as (nb' & bo & Hnb & Hbo & <- & j & kk & A1 & A2 & A3).
    { exists i, (Z.to_nat z), (Z.to_nat k'). rewrite !Z2Nat.id by lia. auto. }
    apply (ga_bobs _ _ _ Ga) in Hnb as (bo' & Hbo' & Ec' & Ef' & _). assert (bo' = bo) by congruence. subst bo'.
    exists (o_board bo), (Z.of_nat kk), m, (oo_obj oo), o. split; [|auto]. exists bo, j. split; [eapply nth_error_In; eauto|]. split; [congruence|]. split; [congruence|auto].
  - intros (b & k & m & i & o & Cl & Hio & Hb & ->). destruct (corner_obs bpts r bss ol css gl CO TR RP c f b k m Cl) as (n & oo & G & o' & x & i' & h & Hn & <- & <- & HG & Hc & Ho & Eo & Hb' & _ & _ & H1 & _).
    assert (o' = o) by (eapply (board_object bpts r bss ol css gl CO); [apply mfind_In; exact Ho|exact Hio|exact Hb'|exact Hb]). subst o'.
    destruct (obs_frame bpts r bss ol css gl CO FR n oo G Hn HG Hc) as (go & Hk & Hgo & Hin & Hgr). fold s in Hk, Hgo, Hgr, Hn.
    assert (exists y, gather (detect_marks r (oo_cam oo) go) (go_nums go) = Some y) as (y & Ey).
    { apply gather_total. intros n' Hn'. destruct (T _ _ go n' (oo_cam oo) Hk Hgo Hn') as (? & ? & _ & _ & _ & ->). eauto. }
    exists (cg_id G, oo_frame oo), y. split; [auto|]. rewrite Hgo. split; [auto|]. destruct (T _ _ go n (oo_cam oo) Hk Hgo Hin) as (oo' & o' & Hn' & _ & Ho' & Em).
    assert (oo' = oo) by congruence. subst oo'. assert (o' = o) by (fold s in Ho; congruence). subst o'. rewrite Z.eqb_refl in Em.
    apply (gather_In _ _ _ _ Ey). exists n. eexists. split; [auto|]. split; [exact Em|]. apply in_map_iff. exists m. split; [auto|]. eapply nth_error_In; eauto.
Qed.

(** If the reported error is 0, all pictures are drawn and every red circle is exactly under
    its green one. *)
Theorem C56_no_error_no_red : reported_error models r = Some 0%R -> forall c f b k m, corner_left (ru_t r) c f b k m -> forall q, put_at bpts models (ru_p r) (ru_s r) c f b k q <-> q = m.
Proof.
  intros R0 c f b k m Cl q. destruct (calibrate_good svd lr uq pick g0 solve bpts models thresh it env pose0 calib2 fixi CE Hh LO Fair Rc nc nb ins t0 Kn Dw Ei src p0 gp0 r Er) as (AD & TR & C).
  destruct C as [_ Rd _ _ _]. destruct done_facts as (_ & _ & bss & ol & css & gl & CO & FR & RP & GP).
  apply (C42_zero_iff_exact svd lr uq pick g0 Hh bpts nc nb ins (ru_t r) AD TR (ru_s r) Rd models (ru_p r)) in R0 as (_ & R0).
  destruct (corner_obs bpts r bss ol css gl CO TR RP c f b k m Cl) as (n & oo & G & o & x & i & h & Hn & <- & <- & HG & Hc & Ho & Eo & Hb & K0 & Hx & H1 & H2 & H3).
  destruct (R0 oo (nth_error_In _ _ Hn)) as (kk & G' & o' & HG' & Hc' & Ho' & H). assert (o' = o) by congruence. subst o'.
  assert (G' = G). { apply (camera_group bpts (ru_t r) bss ol css gl (ru_s r) CO (oo_cam oo)); auto. rewrite <- (groups_vals bpts (ru_t r) bss ol css gl (ru_s r) CO). apply in_map_iff. exists (kk, G'). auto. }
  subst G'. destruct (H i m H1) as (h' & x' & A1 & A2 & A3). assert (h' = h) by (rewrite H2 in A1; injection A1; lia). subst h'. rewrite H3 in A2. injection A2 as <-.
  rewrite Eo in A3. split.
  - intros Pu. assert (Q := put_image bpts models r bss ol css gl CO _ _ b x (oo_obj oo) o kk G k q (mfind_In _ _ _ Ho) Hb HG' Hc Hx Pu). assert (Z1 : Some q = Some m) by (etransitivity; [symmetry; exact Q|exact A3]). injection Z1; auto.
  - intros ->. exists (oo_obj oo), o, kk, G, x. split; [apply mfind_In; auto|]. do 4 (split; [auto|]). split; [auto|]. rewrite pmul_assoc, image_mul. exact A3.
Qed.
End Done.
Print Assumptions C56_reprojection_images.
Print Assumptions C56_detection_images.
Print Assumptions C56_no_error_no_red.

(** ** Example *)
Definition same_pairs (a b : run) : Prop := ru_prs b = ru_prs a.
Section NoPairs.
Variables (svd : (nat -> nat -> R) -> quat) (lr : mat3 -> vec3) (uq : bool) (pick : dstate -> nat) (g0 : graph) (solve : list block -> params -> params) (bpts : Z -> list vec3) (models : Z -> Z).
Variables (thresh : R) (it : Z) (env : nat -> nat -> rs_env par6 vec3) (pose0 : nat -> nat -> par6) (fixi : Z).
Lemma sp_estimate c r r' : estimate_objects_step models thresh it env pose0 c r = Some r' -> same_pairs r r'.
Proof. intros E. apply omap_Some in E as (x & _ & ->). reflexivity. Qed.
Lemma sp_poses r r' : group_poses_step svd lr uq r = Some r' -> same_pairs r r'.
Proof. intros E. apply omap_Some in E as (x & _ & ->). reflexivity. Qed.
Lemma sp_refine r r' : refine_step solve bpts models r = Some r' -> same_pairs r r'.
Proof. intros E. apply omap_Some in E as (x & _ & ->). reflexivity. Qed.
Lemma sp_refine_intr r r' : refine_intrinsic_step solve bpts models r = Some r' -> same_pairs r r'.
Proof. intros E. apply omap_Some in E as (x & _ & ->). reflexivity. Qed.
Lemma sp_merged r r' : merged_objects svd lr uq pick g0 bpts r = Some r' -> same_pairs r r'.
Proof. intros E. apply bind_Some in E as (x & _ & E). apply bind_Some in E as (y & _ & E). injection E as <-. reflexivity. Qed.
Lemma sp_groups r r' : run_mergeGroups lr pick g0 r = Some r' -> same_pairs r r'.
Proof. intros E. apply omap_Some in E as (x & _ & ->). reflexivity. Qed.
Lemma sp_merge c r r' : run_merge3DObjects svd lr uq pick g0 solve bpts models thresh it env pose0 c r = Some r' -> same_pairs r r'.
Proof.
  intros E. apply bind_Some in E as (r1 & E1 & E). apply bind_Some in E as (r2 & E2 & E). apply bind_Some in E as (r3 & E3 & E). apply bind_Some in E as (r4 & E4 & E). apply bind_Some in E as (r5 & E5 & E).
  unfold same_pairs. rewrite (sp_refine _ _ E), (sp_poses _ _ E5), (sp_estimate _ _ _ E4), (sp_merged _ _ E3), (sp_poses _ _ E2), (sp_estimate _ _ _ E1). auto.
Qed.
Lemma sp_final r r' : run_final svd lr uq solve bpts models thresh it env pose0 fixi r = Some r' -> same_pairs r r'.
Proof.
  intros E. apply bind_Some in E as (r1 & E1 & E). apply bind_Some in E as (r2 & E2 & E). apply bind_Some in E as (r3 & E3 & E). unfold same_pairs. rewrite <- (sp_estimate _ _ _ E1), <- (sp_poses _ _ E2), <- (sp_refine _ _ E3).
  destruct (Z.eqb fixi 0); [exact (sp_refine_intr _ _ E)|injection E as <-; auto].
Qed.
Lemma never_pairs src t0 p0 gp0 r : calibrate svd lr uq pick g0 solve bpts models thresh it env pose0 (fun _ _ => None) fixi src t0 p0 gp0 = Some r -> ru_prs r = [].
Proof.
  intros E. apply bind_Some in E as (r1 & _ & E). apply bind_Some in E as (r2 & _ & E). apply bind_Some in E as (r3 & _ & E). apply bind_Some in E as (r4 & _ & E). apply bind_Some in E as (r5 & E5 & E).
  apply bind_Some in E as (r6 & E6 & E). apply bind_Some in E as (r7 & E7 & E). apply bind_Some in E as (r8 & E8 & E). rewrite (sp_final _ _ E), (sp_groups _ _ E8), (sp_merge _ _ _ E7), (sp_groups _ _ E6).
  apply omap_Some in E5 as (prs & E5 & ->). cbn [ru_prs]. unfold findPoseNoOverlapAllCamGroup in E5. revert E5. generalize (distinct_pairs (ca_groups (ru_s r4))) as l.
  match goal with |- forall l, fold_left ?f l _ = _ -> _ => set (st := f) end.
  assert (N : forall l, fold_left st l None = None) by (induction l; cbn; auto). induction l as [|k l IH]; cbn [fold_left]; intros E5; [congruence|].
  apply IH. rewrite <- E5. f_equal. unfold st. unfold initNonOverlapPair in *. destruct (match mfind _ _ with Some q => q | None => _ end) as (o1, o2) eqn:Eo. destruct (Nat.leb _ 3) eqn:El; [reflexivity|].
  exfalso. unfold st in E5 at 2. unfold initNonOverlapPair in E5. rewrite Eo, El, N in E5. discriminate E5.
Qed.
End NoPairs.

(** The two cameras of C52: every assumption is met, all four images are drawn, and every
    red circle is under its green one. *)
Lemma rig_detected_well : Forall (detected_well rig_pts) rig_ins.
Proof. repeat constructor; cbn; lia. Qed.
Example C56_example : exists svd solve t r pics,
  ceres solve /\ good_heap pick_first /\ log_ok log0 /\ (forall n : nat, fair_shuffles (ideal_env log0)) /\
  Forall (known 2 1) rig_ins /\ Forall (detected_well rig_pts) rig_ins /\ insert_all (init_tables 2 1) rig_ins = Some t /\
  calibrate svd log0 true pick_first empty_graph solve rig_pts (rg_model two_rig) 1 1000 (fun _ _ => ideal_env log0) (fun _ _ => (vzero, vzero)) (fun _ _ => None) 0 (FromFile two_file) t
              (mkPar (fun _ => (vzero, vzero)) (fun _ => I9 0 0 0 0 0 0 0 0 0)%R) (fun _ => (vzero, vzero)) = Some r /\
  reported_error (rg_model two_rig) r = Some 0%R /\
  saveReprojectionImagesAllCam log0 (rg_model two_rig) (String.eqb rig_path) r = Some pics /\
  (forall c f, In c [0; 1]%Z -> In f [0; 1]%Z -> exists pic, In pic pics /\ pi_file pic = image_file "Reprojection" c f /\ pi_source pic = rig_path /\ forall x, In (Red, x) (pi_marks pic) <-> In (Green, x) (pi_marks pic)).
Proof.
  destruct C20_svd_exists as (svd & SO). destruct (two_run svd true (fun _ p => p) (fun _ _ => (vzero, vzero)) (fun _ _ => None) 0%Z (mkPar (fun _ => (vzero, vzero)) (fun _ => I9 0 0 0 0 0 0 0 0 0)%R) (fun _ => (vzero, vzero)) SO ceres_idle)
    as (t & r & Et & Er & R0 & _).
  assert (Fa : forall n : nat, fair_shuffles (ideal_env log0)) by (intros; apply (pn_fair _ _ (ideal_pnp log0))).
  assert (Rc : forall l l' X, (fun _ _ : list pose => @None pose) l l' = Some X -> rigid X) by (intros; discriminate).
  assert (NR := C56_no_error_no_red _ _ _ _ _ _ _ _ _ _ _ _ _ _ ceres_idle pick_first_good log0_ok Fa Rc 2 1 rig_ins t rig_known rig_detected_well Et _ _ _ r Er R0).
  destruct (C56_reprojection_images _ _ _ _ _ _ _ _ _ _ _ _ _ _ ceres_idle pick_first_good log0_ok Fa Rc 2 1 rig_ins t rig_known rig_detected_well Et _ _ _ r Er (String.eqb rig_path) eq_refl) as (T & Pr).
  destruct (proj2 T) as (pics & Ep). { intros c f b k m Cl. exists m. apply (NR c f b k m Cl). auto. }
  destruct (Pr pics Ep) as (_ & Fi & Co). exists svd, (fun _ p => p), t, r, pics. split; [apply ceres_idle|]. split; [apply pick_first_good|]. split; [apply log0_ok|]. split; [auto|]. split; [apply rig_known|].
  split; [apply rig_detected_well|]. split; [auto|]. split; [auto|]. split; [auto|]. split; [auto|].
  intros c f Hc Hf. assert (Lp : latest_path rig_ins c f = Some rig_path) by (cbn in Hc, Hf; destruct Hc as [<-|[<-|[]]], Hf as [<-|[<-|[]]]; reflexivity).
  assert (Q : In (image_file "Reprojection" c f) (map pi_file pics)). { apply Fi. exists c, f, rig_path. auto. }
  apply in_map_iff in Q as (pic & Ef & Hp). exists pic. split; [auto|]. split; [auto|]. destruct (Co pic c f Hp Ef) as (Ls & drawn & Em & D). split; [congruence|].
  intros x. rewrite Em, !in_flat_map. split; intros ((m, q) & Hd & Hx); destruct (proj1 (D m q) Hd) as (b & k & Cl & Pu); apply (NR c f b k m Cl) in Pu; subst q; exists (m, m); (split; [auto|]); cbn in Hx |- *;
    destruct Hx as [E|[E|[]]]; try discriminate E; injection E as <-; auto.
Qed.
Print Assumptions C56_example.
