(** A run goes through reached states whose poses are in the optimiser's parameters. *)
From Coq Require Import List ZArith QArith Lia Reals Lra Permutation Sorted.
From Verif Require Import SMap GraphModel GraphSpec DataModel DataSpec DataProofs DetectModel DetectSpec DetectProofs RansacModel RansacSpec RansacProofs
  GeomModel GeomSpec GeomProofs GeomMedian ChainModel ChainSpec ChainProofs ChainCam
  ObjectsModel ObjectsSpec ObjectsProofs ObjectsSave ObjectsBuild ObjectsMerge ObjectsObs
  GroupModel GroupSpec GroupProofs GroupMerge GroupObs StageModel StageSpec StageProofs StageMain StageCams StageMerge
  PipelineModel PipelineSpec PipelineProofs ObjectsMain EstimateAll HandEyeModel HandEyeProofs CameraModel ResidualModel ResidualSpec ResidualProofs ResidualMain ResidualGroup
  ResidualSolve FileModel IntrinsicModel GroupAll PropHandEye PropStale PropResidual WorkflowModel WorkflowRigid.
Import ListNotations.
Close Scope Q_scope.
Close Scope R_scope.
Open Scope nat_scope.

Lemma bind_Some {A B} (x : option A) (f : A -> option B) b : bind x f = Some b <-> exists a, x = Some a /\ f a = Some b.
Proof. destruct x as [a|]; cbn; split; [eauto|intros (a' & [= <-] & H); auto|intros H; discriminate H|intros (a & H & _); discriminate H]. Qed.
Lemma omap_Some {A B} (x : option A) (f : A -> B) b : option_map f x = Some b <-> exists a, x = Some a /\ b = f a.
Proof. destruct x as [a|]; cbn; split; [intros [= <-]; eauto|intros (a' & [= <-] & ->); auto|intros H; discriminate H|intros (a & H & _); discriminate H]. Qed.

(** ** Intrinsic parameters *)
Lemma refine_objects_intr solve bpts t models s p p' c : ceres solve -> refineAllObject3D solve bpts t models s p = Some p' -> pa_intr p' c = pa_intr p c.
Proof.
  intros CE E. eapply solve_each_intr; [eauto| |exact E]. intros o q bs b _ Eb Hb.
  apply (gather_In _ _ _ b Eb) in Hb as (n & y & _ & Ey & Hy). destruct (nth_error (ot_all (ca_oobs s)) n) as [oo|]; [|injection Ey as <-; destruct Hy].
  apply (gather_In _ _ _ b Ey) in Hy as (k & y' & _ & Ey' & Hy').
  destruct (nth_error (mvals (t_obs t)) k) as [bo|]; [|injection Ey' as <-; destruct Hy'].
  destruct (o_valid bo) eqn:V; [|injection Ey' as <-; destruct Hy']. destruct (point_blocks_shape _ _ _ _ _ _ Ey' Hy') as (x & m & ->). intros [].
Qed.
Lemma refine_both_intr solve bpts models s p p' c : ceres solve -> refineAllCameraGroupAndObjects solve bpts models s p = Some p' -> pa_intr p' c = pa_intr p c.
Proof.
  intros CE E. eapply solve_each_intr; [eauto| |exact E]. intros G q bs b _ Eb Hb.
  apply (gather_In _ _ _ b Eb) in Hb as ((k, n) & y & _ & Ey & Hy). destruct (view_data s n) as [(oo, o)|]; [|injection Ey as <-; destruct Hy].
  destruct (corner_blocks_shape _ _ _ _ _ _ _ Ey Hy) as (bd & x & m & ->). intros [].
Qed.

Section Run.
Variables (svd : (nat -> nat -> R) -> quat) (lr : mat3 -> vec3) (uq : bool) (pick : dstate -> nat) (g0 : graph).
Variables (solve : list block -> params -> params) (bpts : Z -> list vec3) (models : Z -> Z) (thresh : R) (it : Z).
Variables (env : nat -> nat -> rs_env par6 vec3) (pose0 : nat -> nat -> par6).
Variable calib2 : list pose -> list pose -> option pose.
Variable fix_intrinsic : Z.
Hypothesis CE : ceres solve.

Definition same_intr (r r' : run) : Prop := forall c, pa_intr (ru_p r') c = pa_intr (ru_p r) c.
Lemma estimate_intr c r r' : estimate_objects_step models thresh it env pose0 c r = Some r' -> same_intr r r'.
Proof. intros E. apply omap_Some in E as (ps & _ & ->). intros d. reflexivity. Qed.
Lemma put_group_intr m : forall p p', put_group_poses m p = Some p' -> pa_intr p' = pa_intr p.
Proof.
  unfold put_group_poses. assert (G : forall m (acc : option params) p', 
    fold_left (fun acc '(k, om) => fold_left (fun acc '(o, v) => match acc, v with Some p, Some P => Some (put_pose (KGroup k o) P p) | _, _ => None end) om acc) m acc = Some p' ->
    exists p, acc = Some p /\ pa_intr p' = pa_intr p).
  { clear m. induction m as [|(k, om) m IH]; intros acc p' E; cbn [fold_left] in E; [eauto|]. apply IH in E as (p1 & E & ->). clear IH m.
    revert acc E. induction om as [|(o, v) om IH]; intros acc E; cbn [fold_left] in E; [eauto|]. apply IH in E as (p2 & E & ->).
    destruct acc as [p|]; [|discriminate E]. destruct v as [P|]; [|discriminate E]. injection E as <-. exists p. auto. }
  intros p p' E. apply G in E as (q & [= <-] & ->). auto.
Qed.
Lemma group_poses_intr r r' : group_poses_step svd lr uq r = Some r' -> same_intr r r'.
Proof. intros E. apply omap_Some in E as (p & E & ->). intros d. cbn [ru_p]. rewrite (put_group_intr _ _ _ E). auto. Qed.
Lemma refine_intr r r' : refine_step solve bpts models r = Some r' -> same_intr r r'.
Proof. intros E. apply omap_Some in E as (p & E & ->). intros d. cbn [ru_p]. eapply refine_both_intr; eauto. Qed.
Lemma refine_objs_intr r r' : refine_objects_step solve bpts models r = Some r' -> same_intr r r'.
Proof. intros E. apply omap_Some in E as (p & E & ->). intros d. cbn [ru_p with_ps]. eapply refine_objects_intr; eauto. Qed.
Lemma same_trans r1 r2 r3 : same_intr r1 r2 -> same_intr r2 r3 -> same_intr r1 r3.
Proof. intros H1 H2 c. rewrite (H2 c). apply H1. Qed.
Lemma new_objects_intr r r' : new_objects svd lr uq pick g0 bpts r = Some r' -> same_intr r r'.
Proof. intros E. apply bind_Some in E as (objs & _ & E). apply bind_Some in E as (ot & _ & E). injection E as <-. intros c. reflexivity. Qed.
Lemma new_groups_intr r r' : new_groups svd lr uq pick g0 r = Some r' -> same_intr r r'.
Proof. intros E. apply bind_Some in E as (gs & _ & E). injection E as <-. intros c. reflexivity. Qed.
Lemma merged_objects_intr r r' : merged_objects svd lr uq pick g0 bpts r = Some r' -> same_intr r r'.
Proof. intros E. apply bind_Some in E as (objs & _ & E). apply bind_Some in E as (ot & _ & E). injection E as <-. intros c. reflexivity. Qed.
Lemma mergeGroups_intr r r' : run_mergeGroups lr pick g0 r = Some r' -> same_intr r r'.
Proof. intros E. apply omap_Some in E as (s & _ & ->). intros c. reflexivity. Qed.
Lemma pairs_intr r r' : run_pairs calib2 r = Some r' -> same_intr r r'.
Proof. intros E. apply omap_Some in E as (s & _ & ->). intros c. reflexivity. Qed.
Lemma merge_intr c r r' : run_merge3DObjects svd lr uq pick g0 solve bpts models thresh it env pose0 c r = Some r' -> same_intr r r'.
Proof.
  intros E. apply bind_Some in E as (r1 & E1 & E). apply bind_Some in E as (r2 & E2 & E). apply bind_Some in E as (r3 & E3 & E).
  apply bind_Some in E as (r4 & E4 & E). apply bind_Some in E as (r5 & E5 & E).
  eapply same_trans; [eapply estimate_intr; eauto|]. eapply same_trans; [eapply group_poses_intr; eauto|]. eapply same_trans; [eapply merged_objects_intr; eauto|].
  eapply same_trans; [eapply estimate_intr; eauto|]. eapply same_trans; [eapply group_poses_intr; eauto|]. eapply refine_intr; eauto.
Qed.

(** with fixed intrinsics the parameters after the run are those after initialisation *)
Lemma calibrate_intr src t0 p0 gp0 r : fix_intrinsic <> 0%Z ->
  calibrate svd lr uq pick g0 solve bpts models thresh it env pose0 calib2 fix_intrinsic src t0 p0 gp0 = Some r ->
  exists i, initializeCalibrationAllCam bpts models src t0 (pa_intr p0) = Some i /\ forall c, pa_intr (ru_p r) c = i c.
Proof.
  intros F E. unfold calibrate in E. apply bind_Some in E as (r0 & E0 & E). unfold initIntrinsic in E0.
  destruct (initializeCalibrationAllCam bpts models src t0 (pa_intr p0)) as [i|]; [|discriminate E0]. exists i. split; [auto|].
  destruct (estimatePoseAllBoards _ _ _ _ _ _ _) as [(t, ps)|] in E0; [|discriminate E0].
  rewrite (proj2 (Z.eqb_neq _ _) F) in E0. injection E0 as <-.
  match type of E with bind (_ ?x) _ = _ => set (r0 := x) in E end. enough (S : same_intr r0 r) by exact S. clearbody r0.
  apply bind_Some in E as (r1 & E1 & E). apply bind_Some in E as (r2 & E2 & E). apply bind_Some in E as (r3 & E3 & E). apply bind_Some in E as (r4 & E4 & E).
  apply bind_Some in E as (r5 & E5 & E). apply bind_Some in E as (r6 & E6 & E). apply bind_Some in E as (r7 & E7 & E).
  apply bind_Some in E1 as (x1 & E1 & E1'). apply bind_Some in E1' as (x2 & E1' & E1'').
  apply bind_Some in E2 as (y1 & E2 & E2'). apply bind_Some in E2' as (y2 & E2' & E2'').
  apply bind_Some in E as (z1 & E & E'). apply bind_Some in E' as (z2 & E' & E''). apply bind_Some in E'' as (z3 & E'' & E3').
  rewrite (proj2 (Z.eqb_neq _ _) F) in E3'. injection E3' as <-.
  eapply same_trans; [eapply new_objects_intr; eauto|]. eapply same_trans; [eapply estimate_intr; eauto|]. eapply same_trans; [eapply refine_objs_intr; eauto|].
  eapply same_trans; [eapply new_groups_intr; eauto|]. eapply same_trans; [eapply group_poses_intr; eauto|]. eapply same_trans; [eapply refine_intr; eauto|].
  eapply same_trans; [eapply merge_intr; eauto|]. eapply same_trans; [eapply pairs_intr; eauto|]. eapply same_trans; [eapply mergeGroups_intr; eauto|].
  eapply same_trans; [eapply merge_intr; eauto|]. eapply same_trans; [eapply mergeGroups_intr; eauto|].
  eapply same_trans; [eapply estimate_intr; eauto|]. eapply same_trans; [eapply group_poses_intr; eauto|]. eapply refine_intr; eauto.
Qed.
End Run.
