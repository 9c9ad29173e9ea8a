(** C69: the calibration looks at the boards only through what was detected of them. *)
From Coq Require Import List ZArith Lia Reals Sorting.Sorted.
From Verif Require ObjectsSave.
From Verif Require Import SMap GraphModel DataModel DataSpec DataProofs DetectModel DetectProofs RansacModel GeomModel ChainModel ChainCam ObjectsModel GroupModel StageModel StageSpec StageProofs
  PipelineModel HandEyeModel CameraModel ResidualModel FileModel IntrinsicModel GroupAll WorkflowModel LogModel EstimateAll.
Import ListNotations.
Close Scope R_scope.
Open Scope nat_scope.

Definition orel {A B} (R : A -> B -> Prop) (x : option A) (y : option B) : Prop :=
  match x, y with Some a, Some b => R a b | None, None => True | _, _ => False end.
Lemma orel_bind {A B C D} (R : A -> B -> Prop) (Q : C -> D -> Prop) x y f g :
  orel R x y -> (forall a b, R a b -> orel Q (f a) (g b)) -> orel Q (bind x f) (bind y g).
Proof. destruct x, y; cbn; auto; try contradiction. Qed.
Lemma orel_map {A B C D} (R : A -> B -> Prop) (Q : C -> D -> Prop) x y (f : A -> C) (g : B -> D) :
  orel R x y -> (forall a b, R a b -> Q (f a) (g b)) -> orel Q (option_map f x) (option_map g y).
Proof. destruct x, y; cbn; auto; try contradiction. Qed.
Lemma orel_eq {A} (x y : option A) : x = y -> orel eq x y.
Proof. intros ->. destruct y; cbn; auto. Qed.
Lemma gather_ext {A B} (f g : A -> option (list B)) l : (forall x, In x l -> f x = g x) -> gather f l = gather g l.
Proof. intros H. unfold gather. do 2 f_equal. apply map_ext_in. exact H. Qed.
Lemma mapi_ext {A B} (f g : nat -> A -> B) l : forall n, (forall n x, In x l -> f n x = g n x) -> mapi f n l = mapi g n l.
Proof. induction l as [|a l IH]; cbn; intros n H; [auto|]. f_equal; [apply H; auto|]. apply IH. intros m x Hx. apply H. auto. Qed.
Lemma fold_left_ext {A B} (f g : A -> B -> A) l : forall a, (forall a b, In b l -> f a b = g a b) -> fold_left f l a = fold_left g l a.
Proof. induction l as [|b l IH]; cbn; intros a H; [auto|]. rewrite H by auto. apply IH. auto. Qed.
Lemma solve_each_ext {A} solve (f g : params -> A -> option (list block)) l p : (forall p a, In a l -> f p a = g p a) -> solve_each solve f l p = solve_each solve g l p.
Proof. intros H. unfold solve_each. apply fold_left_ext. intros acc a Ha. destruct acc as [r|]; [|reflexivity]. rewrite H by auto. reflexivity. Qed.

Definition no_paths (f : frame_t) : frame_t := mkFrame (f_idx f) (f_cams f) (f_camobs f) (f_boards f) (f_obs f) [].
Definition bare (m : smap Z frame_t) : smap Z frame_t := map (fun e => (fst e, no_paths (snd e))) m.
Lemma bare_keys m : mkeys (bare m) = mkeys m.
Proof. unfold bare, mkeys. rewrite map_map. reflexivity. Qed.
Lemma bare_keys_eq m m' : bare m = bare m' -> mkeys m = mkeys m'.
Proof. intros E. rewrite <- (bare_keys m), <- (bare_keys m'), E. reflexivity. Qed.
(** Tables that differ in their boards only, and then only in boards that were not observed, and in the files of the images. *)
Definition same_seen (t t' : tables pt2) : Prop :=
  t_obs t = t_obs t' /\ t_cams t = t_cams t' /\ bare (t_frames t) = bare (t_frames t') /\ t_camobs t = t_camobs t' /\ observed_boards t = observed_boards t'.

Section Tables.
Variables t t' : tables pt2.
Hypothesis Q : same_seen t t'.
Lemma same_gather o ns oo : gather_boards t o ns oo = gather_boards t' o ns oo.
Proof.
  destruct Q as (Eo & _). revert oo. induction ns as [|n ns IH]; intros oo; cbn [gather_boards]; [auto|]. rewrite Eo.
  destruct (nth_error (mvals (t_obs t')) n) as [b|]; [|auto]. destruct (mfind (o_board b) (ob_boards o)); [|auto]. destruct (insertNewBoardObs o n b oo); auto.
Qed.
Lemma same_init3D i o cos : forall ot, init3DObjectObs t i o cos ot = init3DObjectObs t' i o cos ot.
Proof. induction cos as [|(k, co) cos IH]; intros ot; cbn [init3DObjectObs]; [auto|]. rewrite same_gather. destruct (gather_boards t' o (mvals (co_obs co)) (new_objobs i)); auto. Qed.
Lemma same_initAll objs : forall ot, initAll3DObjectObs t objs ot = initAll3DObjectObs t' objs ot.
Proof.
  assert (Ec : t_camobs t = t_camobs t') by apply Q. induction objs as [|(i, o) objs IH]; intros ot; cbn [initAll3DObjectObs]; [auto|]. rewrite Ec, same_init3D. destruct (init3DObjectObs t' i o (t_camobs t') ot); auto.
Qed.
Lemma same_mergeAll objs : mergeAllObjectObs t objs = mergeAllObjectObs t' objs.
Proof. unfold mergeAllObjectObs. apply fold_left_ext. intros acc e _. destruct acc; [apply same_initAll|reflexivity]. Qed.
Lemma same_views bp : board_views t bp = board_views t' bp.
Proof. unfold board_views, view_of. destruct Q as (Eo & _ & _ & Ec & _). rewrite Eo, Ec. reflexivity. Qed.
Lemma same_cam_frames ot op : cam_frames t ot op = cam_frames t' ot op.
Proof.
  unfold cam_frames. destruct Q as (_ & _ & Ef & _). match goal with |- map ?f _ = _ => assert (G : forall m, map f m = map f (bare m)) by (intros m; unfold bare; rewrite map_map; reflexivity) end.
  rewrite (G (t_frames t)), (G (t_frames t')), Ef. reflexivity.
Qed.
Lemma same_observed_cams : observed_cams t = observed_cams t'.
Proof. unfold observed_cams. destruct Q as (_ & Ec & _). rewrite Ec. reflexivity. Qed.
Lemma same_mergeGroups pick g0 prs s : mergeGroups pick g0 t prs s = mergeGroups pick g0 t' prs s.
Proof. unfold mergeGroups. destruct Q as (_ & _ & Ef & _). apply bare_keys_eq in Ef. rewrite Ef. reflexivity. Qed.
Lemma same_cameras_stage svd lr uq pick g0 ot op : cameras_stage svd lr uq pick g0 t ot op = cameras_stage svd lr uq pick g0 t' ot op.
Proof. unfold cameras_stage. rewrite same_cam_frames, same_observed_cams. reflexivity. Qed.
End Tables.

Section Boards.
Variables (S : Z -> Prop) (bpts bpts' : Z -> list vec3).
Hypothesis A : forall b, S b -> bpts b = bpts' b.

Lemma same_place st bp : S (fst bp) -> place_board bpts st bp = place_board bpts' st bp.
Proof. intros H. destruct st as (o, n), bp as (b, P). cbn [fst] in H. unfold place_board. rewrite (A b H). reflexivity. Qed.
Lemma same_place_all l st : (forall bp, In bp l -> S (fst bp)) -> fold_left (place_board bpts) l st = fold_left (place_board bpts') l st.
Proof. intros H. apply fold_left_ext. intros a bp Hb. apply same_place, H, Hb. Qed.
Lemma push_boards b l : forall st, mkeys (ob_boards (fst (fold_left (push_corner b) l st))) = mkeys (ob_boards (fst st)).
Proof. induction l as [|x l IH]; intros (o, n); cbn [fold_left]; [auto|]. rewrite IH. reflexivity. Qed.
Lemma place_boards_In l : forall st b, In b (mkeys (ob_boards (fst (fold_left (place_board bpts) l st)))) -> In b (mkeys (ob_boards (fst st))) \/ In b (map fst l).
Proof.
  induction l as [|(b', P) l IH]; intros (o, n) b H; cbn [fold_left] in H; [auto|]. apply IH in H as [H|H]; [|right; right; auto]. unfold place_board in H. rewrite push_boards in H. cbn [fst ob_boards] in H.
  apply mset_keys_in in H as [-> |H]; [right; left; reflexivity|auto].
Qed.
Lemma same_update o ps : (forall b, In b (mkeys (ob_boards o)) -> S b) -> updateObjectPts bpts o ps = updateObjectPts bpts' o ps.
Proof.
  intros H. unfold updateObjectPts. f_equal. apply fold_left_ext. intros pts b Hb. rewrite (A b (H b Hb)). reflexivity.
Qed.
Definition on_seen (objs : smap Z obj3d) : Prop := forall n o b, In (n, o) objs -> In b (mkeys (ob_boards o)) -> S b.
Lemma same_refine_objects rf objs : on_seen objs -> refine_objects bpts rf objs = refine_objects bpts' rf objs /\ on_seen (refine_objects bpts rf objs).
Proof.
  intros H. split.
  - unfold refine_objects. apply map_ext_in. intros (k, o) Ho. f_equal. apply same_update. intros b. apply (H k o b Ho).
  - intros n o b Ho Hb. unfold refine_objects in Ho. apply in_map_iff in Ho as ((k & o') & E & Ho). injection E as <- <-. exact (H k o' b Ho Hb).
Qed.
Lemma same_corner_blocks {B} (mk : Z -> vec3 -> pt2 -> B) o ids pts : (forall b, In b (mkeys (ob_boards o)) -> S b) -> corner_blocks bpts mk o ids pts = corner_blocks bpts' mk o ids pts.
Proof.
  intros H. unfold corner_blocks. apply gather_ext. intros (i, z) _. destruct (nth_error pts i); [|reflexivity]. destruct (zget (ob_o2b o) z) as [(b, k)|]; [|reflexivity].
  destruct (existsb (Z.eqb b) (mkeys (ob_boards o))) eqn:E; [|reflexivity]. apply existsb_exists in E as (b' & Hb & E). apply Z.eqb_eq in E. subst b'. rewrite (A b (H b Hb)). reflexivity.
Qed.
Lemma view_seen s n oo o : on_seen (ca_objs s) -> view_data s n = Some (oo, o) -> forall b, In b (mkeys (ob_boards o)) -> S b.
Proof.
  intros H E b Hb. unfold view_data in E. destruct (nth_error _ n) as [oo'|]; [|discriminate E]. destruct (mfind (oo_obj oo') (ca_objs s)) as [o'|] eqn:F; [|discriminate E]. injection E as <- <-. apply mfind_In in F. exact (H _ _ _ F Hb).
Qed.
Lemma same_refineGroups solve models s p : on_seen (ca_objs s) -> refineAllCameraGroupAndObjects solve bpts models s p = refineAllCameraGroupAndObjects solve bpts' models s p.
Proof.
  intros H. unfold refineAllCameraGroupAndObjects. apply solve_each_ext. intros q G _. unfold group_objects_problem. apply gather_ext. intros (k, n) _. destruct (view_data s n) as [(oo, o)|] eqn:E; [|reflexivity].
  apply same_corner_blocks. exact (view_seen s n oo o H E).
Qed.
Lemma same_refineAll solve models s p : on_seen (ca_objs s) ->
  refineAllCameraGroupAndObjectsAndIntrinsic solve bpts models s p = refineAllCameraGroupAndObjectsAndIntrinsic solve bpts' models s p.
Proof.
  intros H. unfold refineAllCameraGroupAndObjectsAndIntrinsic. apply solve_each_ext. intros q G _. unfold group_all_problem. apply gather_ext. intros (k, n) _. destruct (view_data s n) as [(oo, o)|] eqn:E; [|reflexivity].
  apply same_corner_blocks. exact (view_seen s n oo o H E).
Qed.
Definition obs_seen (t : tables pt2) : Prop := forall o, In o (mvals (t_obs t)) -> S (o_board o).
Lemma same_camera_problem t t' models c ns : same_seen t t' -> obs_seen t -> camera_problem bpts t models c ns = camera_problem bpts' t' models c ns.
Proof.
  intros (Eo & _) H. unfold camera_problem. rewrite <- Eo. apply gather_ext. intros n _. destruct (nth_error (mvals (t_obs t)) n) as [b|] eqn:E; [|reflexivity]. rewrite (A _ (H b (nth_error_In _ _ E))). reflexivity.
Qed.
Lemma same_refineObjects solve models t t' s p : same_seen t t' -> obs_seen t -> refineAllObject3D solve bpts t models s p = refineAllObject3D solve bpts' t' models s p.
Proof.
  intros (Eo & _) H. unfold refineAllObject3D. apply solve_each_ext. intros q o _. unfold object_problem. rewrite <- Eo. apply gather_ext. intros n _. destruct (nth_error _ n) as [oo|]; [|reflexivity].
  apply gather_ext. intros k _. destruct (nth_error (mvals (t_obs t)) k) as [b|] eqn:E; [|reflexivity]. rewrite (A _ (H b (nth_error_In _ _ E))). reflexivity.
Qed.
Lemma same_init_views model cols rows obs sh : (forall o, In o obs -> S (o_board o)) -> init_views model cols rows bpts obs sh = init_views model cols rows bpts' obs sh.
Proof.
  intros H. unfold init_views. apply gather_ext. intros n _. unfold init_view. destruct (nth_error obs n) as [b|] eqn:E; [|reflexivity]. rewrite (A _ (H b (nth_error_In _ _ E))). reflexivity.
Qed.
Lemma same_initAllCam models src t t' i0 : same_seen t t' -> obs_seen t -> initializeCalibrationAllCam bpts models src t i0 = initializeCalibrationAllCam bpts' models src t' i0.
Proof.
  intros (Eo & Ec & _) H. unfold initializeCalibrationAllCam. rewrite <- Ec. apply fold_left_ext. intros acc c _. destruct acc as [i|]; [|reflexivity]. f_equal. unfold init_camera. destruct src as [file|sh cv|]; [reflexivity| |reflexivity].
  rewrite <- Ec, <- Eo. destruct (mfind c (t_cams t)) as [r|]; [|reflexivity]. unfold initializeCalibration. rewrite same_init_views; [reflexivity|].
  intros o Ho. apply in_flat_map in Ho as (n & _ & Ho). destruct (nth_error (mvals (t_obs t)) n) as [o'|] eqn:E; [|destruct Ho]. destruct Ho as [<- |[]]. apply H. exact (nth_error_In _ _ E).
Qed.

(** Objects, before and after merging. *)
Lemma same_init3DObjects pick g tr : (forall c b, In c (connectedComponents g) -> In b c -> S b) ->
  init3DObjects bpts pick g tr = init3DObjects bpts' pick g tr /\ forall objs, init3DObjects bpts pick g tr = Some objs -> on_seen objs.
Proof.
  intros H. assert (I : forall i c, In c (connectedComponents g) -> init_object bpts pick g tr i c = init_object bpts' pick g tr i c /\
    forall o, init_object bpts pick g tr i c = Some o -> forall b, In b (mkeys (ob_boards o)) -> S b).
  { intros i c Hc. unfold init_object. destruct (component_poses step_inv pick g tr c) as [ps|] eqn:E; [|split; [reflexivity|intros o X; discriminate X]].
    assert (F := component_poses_fst _ _ _ _ _ _ E). assert (G : forall bp, In bp ps -> S (fst bp)) by (intros bp Hb; apply (H c); [exact Hc|rewrite <- F; apply in_map; exact Hb]).
    cbn [option_map]. split; [rewrite same_place_all by exact G; reflexivity|]. intros o X b Hb. injection X as <-. apply place_boards_In in Hb as [[]|Hb]. rewrite F in Hb. exact (H c b Hc Hb). }
  assert (IC : forall i c, In (i, c) (combine (seq 0 (length (connectedComponents g))) (connectedComponents g)) -> In c (connectedComponents g)) by (intros i c X; exact (in_combine_r _ _ _ _ X)).
  unfold init3DObjects. split.
  - do 2 f_equal. apply map_ext_in. intros (i, c) X. apply I, (IC i c X).
  - intros objs E n o b Ho Hb. destruct (collect _) as [l|] eqn:F; [|discriminate E]. injection E as <-. apply collect_Some in F. apply (in_map snd) in Ho. change (map snd (dense l)) with (mvals (dense l)) in Ho. rewrite dense_vals in Ho. cbn [snd] in Ho.
    apply (in_map Some) in Ho. rewrite <- F in Ho. apply in_map_iff in Ho as ((i & c) & X & Y). exact (proj2 (I i c (IC i c Y)) o X b Hb).
Qed.
Lemma moved_boards_seen T o l : moved_boards T o = Some l -> forall bp, In bp l -> In (fst bp) (mkeys (ob_boards o)).
Proof.
  unfold moved_boards. intros E bp Hb. apply collect_Some in E. apply (in_map Some) in Hb. rewrite <- E in Hb. apply in_map_iff in Hb as (b & X & Y). destruct (mfind b (ob_poses o)); [|discriminate X]. injection X as <-. exact Y.
Qed.
Lemma same_mergeObjects pick g tr objs : on_seen objs ->
  mergeObjects bpts pick g tr objs = mergeObjects bpts' pick g tr objs /\ forall new, mergeObjects bpts pick g tr objs = Some new -> on_seen new.
Proof.
  intros H. assert (I : forall i c, merge_component bpts pick g tr objs i c = merge_component bpts' pick g tr objs i c /\
    forall o, merge_component bpts pick g tr objs i c = Some o -> forall b, In b (mkeys (ob_boards o)) -> S b).
  { intros i c. unfold merge_component. destruct (component_poses step_inv pick g tr c) as [ps|]; [|split; [reflexivity|intros o X; discriminate X]].
    destruct (mfind (min_of c) objs) as [r|]; [|split; [reflexivity|intros o X; discriminate X]].
    destruct (collect _) as [ll|] eqn:E; [|split; [reflexivity|intros o X; discriminate X]]. cbn [option_map].
    assert (G : forall bp, In bp (concat ll) -> S (fst bp)).
    { intros bp Hb. apply in_concat in Hb as (l & Hl & Hb). apply collect_Some in E. apply (in_map Some) in Hl. rewrite <- E in Hl. apply in_map_iff in Hl as ((k & o) & X & Ho).
      destruct (find _ ps) as [p|]; [|injection X as <-; destruct Hb]. exact (H k o _ Ho (moved_boards_seen _ _ _ X bp Hb)). }
    split; [rewrite same_place_all by exact G; reflexivity|]. intros o X b Hb. injection X as <-. apply place_boards_In in Hb as [[]|Hb]. apply in_map_iff in Hb as (bp & <- & Hb). exact (G bp Hb). }
  unfold mergeObjects. split.
  - do 2 f_equal. apply map_ext_in. intros (i, c) X. apply I.
  - intros new E n o b Ho Hb. destruct (collect _) as [l|] eqn:F; [|discriminate E]. injection E as <-. apply collect_Some in F. apply (in_map snd) in Ho. change (map snd (dense l)) with (mvals (dense l)) in Ho. rewrite dense_vals in Ho. cbn [snd] in Ho.
    apply (in_map Some) in Ho. rewrite <- F in Ho. apply in_map_iff in Ho as ((i & c) & X & Y). exact (proj2 (I i c) o X b Hb).
Qed.

(** ** The runs *)
Record like (r r' : run) : Prop := {
  lk_t : same_seen (ru_t r) (ru_t r'); lk_p : ru_p r = ru_p r'; lk_gp : ru_gp r = ru_gp r'; lk_prs : ru_prs r = ru_prs r'; lk_s : ru_s r = ru_s r';
  lk_obs : obs_seen (ru_t r); lk_objs : on_seen (ca_objs (ru_s r)) }.
Lemma like_build t t' p gp prs s : same_seen t t' -> obs_seen t -> on_seen (ca_objs s) -> like (mkRun t p gp prs s) (mkRun t' p gp prs s).
Proof. intros; constructor; auto. Qed.
Lemma like_open r r' : like r r' -> exists t t' p gp prs s, r = mkRun t p gp prs s /\ r' = mkRun t' p gp prs s /\ same_seen t t' /\ obs_seen t /\ on_seen (ca_objs s).
Proof.
  intros [Lt Lp Lg Lr Ls Lo Lj]. destruct r as [t p gp prs s], r' as [t' p' gp' prs' s']. cbn [ru_t ru_p ru_gp ru_prs ru_s] in *. subst p' gp' prs' s'. exists t, t', p, gp, prs, s. auto.
Qed.

Variables (svd : (nat -> nat -> R) -> quat) (lr : mat3 -> vec3) (uq : bool) (pick : dstate -> nat) (g0 : graph).
Variables (solve : list block -> params -> params) (models : Z -> Z) (thresh : R) (it : Z).
Variables (env : nat -> nat -> rs_env par6 vec3) (pose0 : nat -> nat -> par6).
Variable calib2 : list pose -> list pose -> option pose.
Variable fixi : Z.

Lemma like_estimate c r r' : like r r' -> orel like (estimate_objects_step models thresh it env pose0 c r) (estimate_objects_step models thresh it env pose0 c r').
Proof.
  intros L. destruct (like_open _ _ L) as (t & t' & p & gp & prs & s & -> & -> & Lt & Lo & Lj). clear L. unfold estimate_objects_step. cbn [ru_p ru_s]. destruct (estimatePoseAllObjects _ _ _ _ _ _ _) as [ps|]; cbn [option_map orel]; [|exact I]. apply like_build; auto.
Qed.
Lemma like_group_poses r r' : like r r' -> orel like (group_poses_step svd lr uq r) (group_poses_step svd lr uq r').
Proof.
  intros L. destruct (like_open _ _ L) as (t & t' & p & gp & prs & s & -> & -> & Lt & Lo & Lj). clear L. unfold group_poses_step. cbn [ru_p ru_s ru_gp ru_t ru_prs]. destruct (put_group_poses _ _) as [q|]; cbn [option_map orel]; [|exact I]. apply like_build; auto.
Qed.
Lemma like_refine_calib t t' p gp prs s rf rg : same_seen t t' -> obs_seen t -> on_seen (ca_objs s) ->
  like (mkRun t p gp prs (refine_calib bpts rf rg s)) (mkRun t' p gp prs (refine_calib bpts' rf rg s)).
Proof.
  intros Q Ho Hj. destruct (same_refine_objects rf (ca_objs s) Hj) as (E & F). unfold refine_calib. rewrite <- E. apply like_build; auto.
Qed.
Lemma like_refine r r' : like r r' -> orel like (refine_step solve bpts models r) (refine_step solve bpts' models r').
Proof.
  intros L. destruct (like_open _ _ L) as (t & t' & p & gp & prs & s & -> & -> & Lt & Lo & Lj). clear L. unfold refine_step. cbn [ru_p ru_s ru_gp ru_t ru_prs]. rewrite <- same_refineGroups by exact Lj. destruct (refineAllCameraGroupAndObjects _ _ _ _ _) as [q|]; cbn [option_map orel]; [|exact I]. apply like_refine_calib; auto.
Qed.
Lemma like_refine_intrinsic r r' : like r r' -> orel like (refine_intrinsic_step solve bpts models r) (refine_intrinsic_step solve bpts' models r').
Proof.
  intros L. destruct (like_open _ _ L) as (t & t' & p & gp & prs & s & -> & -> & Lt & Lo & Lj). clear L. unfold refine_intrinsic_step. cbn [ru_p ru_s ru_gp ru_t ru_prs]. rewrite <- same_refineAll by exact Lj. destruct (refineAllCameraGroupAndObjectsAndIntrinsic _ _ _ _ _) as [q|]; cbn [option_map orel]; [|exact I]. apply like_refine_calib; auto.
Qed.
Lemma like_refine_objects r r' : like r r' -> orel like (refine_objects_step solve bpts models r) (refine_objects_step solve bpts' models r').
Proof.
  intros L. destruct (like_open _ _ L) as (t & t' & p & gp & prs & s & -> & -> & Lt & Lo & Lj). clear L. unfold refine_objects_step. cbn [ru_p ru_s ru_gp ru_t ru_prs]. rewrite <- (same_refineObjects solve models t t' s p Lt Lo). destruct (refineAllObject3D _ _ _ _ _ _) as [q|]; cbn [option_map orel]; [|exact I]. apply like_refine_calib; auto.
Qed.
Lemma like_new_groups r r' : like r r' -> orel like (new_groups svd lr uq pick g0 r) (new_groups svd lr uq pick g0 r').
Proof.
  intros L. destruct (like_open _ _ L) as (t & t' & p & gp & prs & s & -> & -> & Lt & Lo & Lj). clear L. unfold new_groups. cbn [ru_p ru_s ru_gp ru_t ru_prs]. rewrite <- (same_cameras_stage t t' Lt). replace (mkeys (t_frames t')) with (mkeys (t_frames t)) by apply bare_keys_eq, Lt.
  destruct (cameras_stage _ _ _ _ _ _ _ _) as [gs|]; cbn [bind orel]; [|exact I]. apply like_build; auto.
Qed.
Lemma like_merged r r' : like r r' -> orel like (merged_objects svd lr uq pick g0 bpts r) (merged_objects svd lr uq pick g0 bpts' r').
Proof.
  intros L. destruct (like_open _ _ L) as (t & t' & p & gp & prs & s & -> & -> & Lt & Lo & Lj). clear L. unfold merged_objects, merge_stage. cbn [ru_p ru_s ru_gp ru_t ru_prs]. destruct (initInterTransform _ _ _ _) as [tr|]; cbn [bind orel]; [|exact I].
  destruct (same_mergeObjects pick (covis_graph g0 (observed_objects (ca_oobs s) (ca_objs s)) (counts (computeObjectsPairPose (group_views (ca_oobs s) (ca_gobs s) (fun k o => as_matrix (pa_pose p (KGroup k o))))))) tr (ca_objs s) Lj) as (E & F).
  rewrite <- E. destruct (mergeObjects _ _ _ _ _) as [objs|] eqn:M; cbn [bind orel]; [|exact I]. rewrite <- (same_mergeAll t t' Lt). replace (mkeys (t_frames t')) with (mkeys (t_frames t)) by apply bare_keys_eq, Lt.
  destruct (mergeAllObjectObs t objs) as [ot|]; cbn [bind orel]; [|exact I]. apply like_build; auto; cbn [ca_objs]; exact (F objs eq_refl).
Qed.
Lemma like_pairs r r' : like r r' -> orel like (run_pairs calib2 r) (run_pairs calib2 r').
Proof.
  intros L. destruct (like_open _ _ L) as (t & t' & p & gp & prs & s & -> & -> & Lt & Lo & Lj). clear L. unfold run_pairs. cbn [ru_p ru_s ru_gp ru_t ru_prs]. destruct (findPoseNoOverlapAllCamGroup _ _ _ _) as [q|]; cbn [option_map orel]; [|exact I]. apply like_build; auto.
Qed.
Lemma like_mergeGroups r r' : like r r' -> orel like (run_mergeGroups lr pick g0 r) (run_mergeGroups lr pick g0 r').
Proof.
  intros L. destruct (like_open _ _ L) as (t & t' & p & gp & prs & s & -> & -> & Lt & Lo & Lj). clear L. unfold run_mergeGroups. cbn [ru_p ru_s ru_gp ru_t ru_prs]. rewrite <- (same_mergeGroups t t' Lt). destruct (mergeGroups pick g0 t prs s) as [q|] eqn:E; cbn [option_map orel]; [|exact I]. apply like_build; auto.
  unfold mergeGroups in E. destruct (mergeCameraGroup _ _ _ _) as [gs|]; [|discriminate E]. injection E as <-. exact Lj.
Qed.
Lemma like_new_objects r r' : like r r' -> (forall c b, In c (connectedComponents (covis_graph g0 (observed_boards (ru_t r)) (counts (computeBoardsPairPose (board_views (ru_t r) (fun n => as_matrix (pa_pose (ru_p r) (KBoardObs n)))))))) -> In b c -> S b) ->
  orel like (new_objects svd lr uq pick g0 bpts r) (new_objects svd lr uq pick g0 bpts' r').
Proof.
  intros L C. destruct (like_open _ _ L) as (t & t' & p & gp & prs & s & -> & -> & Lt & Lo & Lj). clear L. unfold new_objects, objects_stage. cbn [ru_p ru_s ru_gp ru_t ru_prs] in C |- *. rewrite <- (same_views t t' Lt). replace (observed_boards t') with (observed_boards t) by apply Lt.
  destruct (initInterTransform _ _ _ _) as [tr|]; cbn [bind orel]; [|exact I]. destruct (same_init3DObjects pick _ tr C) as (E & F). rewrite <- E. destruct (init3DObjects _ _ _ _) as [objs|] eqn:M; cbn [bind orel]; [|exact I].
  rewrite <- (same_initAll t t' Lt). destruct (initAll3DObjectObs t objs empty_otables) as [ot|]; cbn [bind orel]; [|exact I]. apply like_build; auto; cbn [ca_objs]; exact (F objs eq_refl).
Qed.
Lemma same_estimateBoards (e : nat -> rs_env par6 vec3) cam p0 t t' : same_seen t t' -> obs_seen t ->
  orel (fun x y => same_seen (fst x) (fst y) /\ obs_seen (fst x) /\ snd x = snd y /\ (relabelled t (fst x)))
    (estimatePoseAllBoards e cam bpts p0 thresh it t) (estimatePoseAllBoards e cam bpts' p0 thresh it t').
Proof.
  intros (Eo & Ec & Ef & Em & Eb) H. unfold estimatePoseAllBoards. rewrite <- Eo, <- Ec, <- Em.
  match goal with |- orel _ (match collect (mapi ?f 0 ?l) with _ => _ end) (match collect (mapi ?g 0 ?l) with _ => _ end) => replace (mapi g 0 l) with (mapi f 0 l) by (apply mapi_ext; intros n o Ho; rewrite (A _ (H o Ho)); reflexivity) end.
  destruct (collect _) as [rs|] eqn:E; cbn [orel]; [|exact I]. assert (E2 := E). apply collect_Some in E2.
  assert (Ln : length rs = length (mvals (t_obs t))) by (assert (X := f_equal (@length _) E2); rewrite mapi_length, map_length in X; auto).
  assert (K : length (mkeys (t_obs t)) = length (map fst rs)) by (rewrite map_length, Ln; unfold mkeys, mvals; rewrite !map_length; reflexivity).
  assert (V : mvals (combine (mkeys (t_obs t)) (map fst rs)) = map fst rs) by (apply combine_vals; exact K).
  assert (B : map (fun o => fst (obs_says o)) (map fst rs) = map (fun o => fst (obs_says o)) (mvals (t_obs t))).
  { apply ObjectsSave.nth_error_ext. intros i. rewrite !nth_error_map. assert (X := f_equal (fun l => nth_error l i) E2). cbn beta in X. rewrite mapi_nth, nth_error_map in X.
    destruct (nth_error (mvals (t_obs t)) i) as [o|], (nth_error rs i) as [(o', q)|]; cbn [option_map] in *; try discriminate X; [|reflexivity]. injection X as X. f_equal. unfold boardobs_estimatePose in X.
    clear E E2 Ln K V. repeat match type of X with match ?c with _ => _ end = _ => destruct c; [|discriminate X] end. injection X as <- _. reflexivity. }
  cbn [fst snd]. split; [|split; [|split; [reflexivity|]]].
  - do 2 (split; [reflexivity|]). split; [exact Ef|]. split; [reflexivity|]. exact Eb.
  - intros o Ho. cbn [t_obs] in Ho. rewrite V in Ho. apply (in_map (fun o => fst (obs_says o))) in Ho. rewrite B in Ho. apply in_map_iff in Ho as (o2 & X & Y). unfold obs_says in X. cbn [fst] in X. injection X as _ _ X. rewrite <- X. apply H. exact Y.
  - constructor; cbn [t_obs t_camobs t_frames t_boards t_cams]; auto. rewrite V. exact B.
Qed.
Lemma like_init src t t' p0 gp0 : same_seen t t' -> obs_seen t ->
  orel (fun r r' => like r r' /\ relabelled t (ru_t r)) (initIntrinsic solve bpts models thresh it env pose0 fixi src t p0 gp0) (initIntrinsic solve bpts' models thresh it env pose0 fixi src t' p0 gp0).
Proof.
  intros Q H. unfold initIntrinsic. rewrite <- (same_initAllCam models src t t' (pa_intr p0) Q H). destruct (initializeCalibrationAllCam bpts models src t (pa_intr p0)) as [i|]; cbn [orel]; [|exact I].
  assert (X := same_estimateBoards (env 0) (cam_of models (mkPar (pa_pose p0) i)) (pose0 0) t t' Q H). destruct (estimatePoseAllBoards _ _ bpts _ _ _ t) as [(t1, ps)|], (estimatePoseAllBoards _ _ bpts' _ _ _ t') as [(t1', ps')|]; cbn [orel] in X; try contradiction; [|exact I].
  cbn [fst snd] in X. destruct X as (X1 & X2 & <- & X3). set (p := put_board_obs ps _).
  assert (Y : forall q q', q = q' -> orel (fun r r' => like r r' /\ relabelled t (ru_t r)) (option_map (fun p => mkRun t1 p gp0 [] empty_calib) q) (option_map (fun p => mkRun t1' p gp0 [] empty_calib) q')).
  { intros q q' <-. destruct q as [q|]; cbn [option_map orel]; [|exact I]. split; [|exact X3]. apply like_build; auto. intros n o b []. }
  apply Y. destruct (Z.eqb fixi 0); [|reflexivity]. unfold refineIntrinsicAndPoseAllCam. replace (t_cams t1') with (t_cams t1) by apply X1. apply solve_each_ext. intros q c _.
  rewrite (same_camera_problem t1 t1' models c (obs_of_cam t1 c) X1 X2). f_equal. unfold obs_of_cam. replace (t_cams t1') with (t_cams t1) by apply X1. reflexivity.
Qed.
End Boards.
