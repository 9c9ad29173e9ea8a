(** The problems built for a camera group in a consistent calibration: their residuals are
    the reported reprojection errors. *)
From Coq Require Import List ZArith QArith Lia Reals Lra Psatz Permutation Sorted.
From Verif Require Import SMap GraphModel GraphSpec DataModel DataSpec DataProofs DetectModel DetectSpec DetectProofs RansacModel RansacSpec RansacProofs
  GeomModel GeomSpec GeomProofs GeomMedian ChainModel ChainSpec ChainProofs ChainCam
  ObjectsModel ObjectsSpec ObjectsProofs ObjectsSave ObjectsBuild ObjectsMerge ObjectsObs
  GroupModel GroupSpec GroupProofs GroupMerge GroupObs StageModel StageSpec StageProofs StageMain StageCams StageMerge
  PipelineModel PipelineSpec PipelineProofs ObjectsMain EstimateAll CameraModel ResidualModel ResidualSpec ResidualProofs ResidualMain.
Import ListNotations.
Close Scope Q_scope.
Close Scope R_scope.
Open Scope nat_scope.

Section P.
Variables (bpts : Z -> list vec3) (t : tables pt2) (cams : Z -> Z) (p : params).
Variables (bss : list (list (Z * pose))) (ol : list obj3d) (css : list (list (Z * pose))) (gl : list cgroup) (s : calib pt2).
Hypothesis CO : calib_ok bpts t bss ol css gl s.
Hypothesis TR : forall o, In o (mvals (t_obs t)) -> trimmed bpts o.
Hypothesis FR : forall oo, In oo (ot_all (ca_oobs s)) -> In (oo_frame oo) (mkeys (t_frames t)).

Lemma view_ok n oo : nth_error (ot_all (ca_oobs s)) n = Some oo ->
  exists o bs, view_data s n = Some (oo, o) /\ In o ol /\ In (oo_obj oo, o) (ca_objs s) /\ oo_obj oo = ob_id o /\ well_built bpts bs o /\ origin_ok o /\ gathers t o oo /\
    length (oo_ids oo) = length (oo_pts oo) /\ Forall (fun z => (0 <= z < Z.of_nat (length (ob_pts o)))%Z) (oo_ids oo).
Proof.
  intros H. destruct CO as [E1 OK OT Ob Cov E2 GK GT NU CA KE].
  destruct (Ob oo (nth_error_In _ _ H)) as (i & o & Ho & Ei & Ga).
  assert (M : mfind (oo_obj oo) (ca_objs s) = Some o) by (rewrite E1, Ei, dense_find; auto).
  destruct OK as [OB _ OO _ OI]. assert (exists bs, well_built bpts bs o) as (bs & W).
  { clear -OB Ho. revert i Ho. induction OB; intros [|i] E; cbn in E; try discriminate; [injection E as ->; eauto|eauto]. }
  exists o, bs. unfold view_data. rewrite H, M. split; [auto|]. split; [eapply nth_error_In; eauto|]. split; [apply mfind_In; auto|].
  split; [rewrite Ei; symmetry; auto|]. split; [auto|]. split; [rewrite Forall_forall in OO; apply OO; eapply nth_error_In; eauto|]. split; [auto|].
  eapply gathers_lengths; eauto.
Qed.

(** the residuals of a view, as reported *)
Definition view_residuals (G : cgroup) (kn : (Z * Z) * nat) : option (list pt2) :=
  match view_data s (snd kn) with
  | Some (oo, o) => option_map (errors_of (oo_pts oo)) (reprojected cams p G (fst kn) oo o)
  | None => Some []
  end.

Lemma reprojected_image G k oo o : reprojected cams p G k oo o =
  match collect (map (zget (ob_pts o)) (oo_ids oo)) with
  | Some sc => collect (map (image (cams (oo_cam oo)) (pa_intr p (oo_cam oo)) (matrix (pa_pose p (KCam (cg_id G) (oo_cam oo)))))
                            (map (pact (matrix (pa_pose p (KGroup k (oo_obj oo))))) sc))
  | None => None
  end.
Proof.
  unfold reprojected. destruct (collect (map (zget (ob_pts o)) (oo_ids oo))); auto. unfold transform3DPts, pose_of, matrix. f_equal. apply map_ext. intros q. apply project_ok.
Qed.

Hypothesis RP : represents p (ca_objs s) (ca_groups s).

Lemma ref_camera G : In G gl -> matrix (pa_pose p (KCam (cg_id G) (cg_ref G))) = pid.
Proof.
  intros HG. destruct CO as [E1 OK OT Ob Cov E2 GK GT NU CA KE]. assert (OR := gk_origin _ _ GK). rewrite Forall_forall in OR.
  destruct (In_nth_error _ _ HG) as (i & Hi). apply (rp_cams _ _ _ RP (Z.of_nat i)); [|apply (go_id _ (OR G HG))].
  rewrite E2. apply mfind_In. rewrite dense_find. auto.
Qed.
Lemma ref_board k o : In (k, o) (ca_objs s) -> origin_ok o -> matrix (pa_pose p (KBoard (ob_id o) (ob_ref o))) = pid.
Proof. intros H OO. apply (rp_boards _ _ _ RP k o); auto. apply OO. Qed.

Definition all_plain : Prop := forall k, plain (pa_pose p k).
Hypothesis PL : all_plain.

Lemma group_problem_residuals G : In G gl -> exists bs, group_problem cams p s G = Some bs /\
  collect (map (eval p) bs) = gather (view_residuals G) (group_views_of s G).
Proof.
  intros HG. set (f := fun '(k, n) => match view_data s n with
    | Some (oo, o) =>
        point_blocks (fun q m => BGroup m q (pa_intr p (oo_cam oo)) (negb (Z.eqb (cg_ref G) (oo_cam oo))) (cams (oo_cam oo))
                                        (KCam (cg_id G) (oo_cam oo)) (KGroup k (oo_obj oo)))
                     (ob_pts o) (oo_ids oo) (oo_pts oo)
    | None => Some []
    end).
  assert (ONE : forall kn, In kn (group_views_of s G) -> exists l, f kn = Some l /\ collect (map (eval p) l) = view_residuals G kn).
  { intros (k, n) H. apply (views_In bpts t cams bss ol css gl s CO FR G k n HG) in H as (oo & Hoo & -> & HC).
    destruct (view_ok n oo Hoo) as (o & bs & V & Io & Hm & Eo & W & OO & Ga & L & Rg).
    unfold f, view_residuals. cbn [fst snd]. rewrite V, reprojected_image. apply point_residuals; auto.
    intros q m. rewrite eval_ok by auto. cbn [block_uv block_model block_intr block_pose block_pt].
    destruct (Z.eqb_spec (cg_ref G) (oo_cam oo)) as [<-|_]; cbn [negb]; auto. rewrite ref_camera; auto. }
  destruct (gather_total f (group_views_of s G)) as (bs & E).
  { intros a Ha. destruct (ONE a Ha) as (l & E & _). eauto. }
  exists bs. split; [exact E|]. apply (gather_eval f (view_residuals G) p _ bs E). intros a x Ha Ex. destruct (ONE a Ha) as (l & E' & El). congruence.
Qed.
Lemma group_objects_residuals G : In G gl -> exists bs, group_objects_problem bpts cams p s G = Some bs /\
  collect (map (eval p) bs) = gather (view_residuals G) (group_views_of s G).
Proof.
  intros HG. set (f := fun '(k, n) => match view_data s n with
    | Some (oo, o) =>
        corner_blocks bpts (fun b q m => BBoth m q (pa_intr p (oo_cam oo)) (negb (Z.eqb (cg_ref G) (oo_cam oo))) (negb (Z.eqb (ob_ref o) b))
                                          (cams (oo_cam oo)) (KCam (cg_id G) (oo_cam oo)) (KGroup k (oo_obj oo)) (KBoard (ob_id o) b))
                      o (oo_ids oo) (oo_pts oo)
    | None => Some []
    end).
  assert (ONE : forall kn, In kn (group_views_of s G) -> exists l, f kn = Some l /\ collect (map (eval p) l) = view_residuals G kn).
  { intros (k, n) H. apply (views_In bpts t cams bss ol css gl s CO FR G k n HG) in H as (oo & Hoo & -> & HC).
    destruct (view_ok n oo Hoo) as (o & bs & V & Io & Hm & Eo & W & OO & Ga & L & Rg).
    unfold f, view_residuals. cbn [fst snd]. rewrite V, reprojected_image. apply (corner_residuals bpts bs); auto.
    intros b P q m HP. rewrite eval_ok by auto. cbn [block_uv block_model block_intr block_pose block_pt].
    assert (EB : (if negb (Z.eqb (ob_ref o) b) then matrix (pa_pose p (KBoard (ob_id o) b)) else pid) = P).
    { destruct (Z.eqb_spec (ob_ref o) b) as [<-|_]; cbn [negb]; [rewrite (or_id _ OO) in HP; congruence|]. apply (rp_boards _ _ _ RP _ _ _ _ Hm HP). }
    rewrite EB.
    destruct (Z.eqb_spec (cg_ref G) (oo_cam oo)) as [<-|_]; cbn [negb]; auto. rewrite ref_camera; auto. }
  destruct (gather_total f (group_views_of s G)) as (bs & E).
  { intros a Ha. destruct (ONE a Ha) as (l & E & _). eauto. }
  exists bs. split; [exact E|]. apply (gather_eval f (view_residuals G) p _ bs E). intros a x Ha Ex. destruct (ONE a Ha) as (l & E' & El). congruence.
Qed.
Lemma group_all_residuals G : In G gl -> exists bs, group_all_problem bpts cams s G = Some bs /\
  collect (map (eval p) bs) = gather (view_residuals G) (group_views_of s G).
Proof.
  intros HG. set (f := fun '(k, n) => match view_data s n with
    | Some (oo, o) =>
        corner_blocks bpts (fun b q m => BAll m q (negb (Z.eqb (cg_ref G) (oo_cam oo))) (negb (Z.eqb (ob_ref o) b))
                                          (cams (oo_cam oo)) (KCam (cg_id G) (oo_cam oo)) (KGroup k (oo_obj oo)) (KBoard (ob_id o) b) (oo_cam oo))
                      o (oo_ids oo) (oo_pts oo)
    | None => Some []
    end).
  assert (ONE : forall kn, In kn (group_views_of s G) -> exists l, f kn = Some l /\ collect (map (eval p) l) = view_residuals G kn).
  { intros (k, n) H. apply (views_In bpts t cams bss ol css gl s CO FR G k n HG) in H as (oo & Hoo & -> & HC).
    destruct (view_ok n oo Hoo) as (o & bs & V & Io & Hm & Eo & W & OO & Ga & L & Rg).
    unfold f, view_residuals. cbn [fst snd]. rewrite V, reprojected_image. apply (corner_residuals bpts bs); auto.
    intros b P q m HP. rewrite eval_ok by auto. cbn [block_uv block_model block_intr block_pose block_pt].
    assert (EB : (if negb (Z.eqb (ob_ref o) b) then matrix (pa_pose p (KBoard (ob_id o) b)) else pid) = P).
    { destruct (Z.eqb_spec (ob_ref o) b) as [<-|_]; cbn [negb]; [rewrite (or_id _ OO) in HP; congruence|]. apply (rp_boards _ _ _ RP _ _ _ _ Hm HP). }
    rewrite EB.
    destruct (Z.eqb_spec (cg_ref G) (oo_cam oo)) as [<-|_]; cbn [negb]; auto. rewrite ref_camera; auto. }
  destruct (gather_total f (group_views_of s G)) as (bs & E).
  { intros a Ha. destruct (ONE a Ha) as (l & E & _). eauto. }
  exists bs. split; [exact E|]. apply (gather_eval f (view_residuals G) p _ bs E). intros a x Ha Ex. destruct (ONE a Ha) as (l & E' & El). congruence.
Qed.
End P.
