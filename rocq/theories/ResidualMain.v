(** The refinement problems: what their residuals are, and how they relate to the reported
    error. *)
From Coq Require Import List ZArith QArith Lia Reals Lra Psatz Permutation Sorted.
From Verif Require Import SMap GraphModel GraphSpec DataModel DataSpec DataProofs DetectModel DetectSpec DetectProofs RansacModel RansacSpec RansacProofs
  GeomModel GeomSpec GeomProofs GeomMedian ChainModel ChainSpec ChainProofs ChainCam
  ObjectsModel ObjectsSpec ObjectsProofs ObjectsSave ObjectsBuild ObjectsMerge ObjectsObs
  GroupModel GroupSpec GroupProofs GroupMerge GroupObs StageModel StageSpec StageProofs StageMain StageCams StageMerge
  PipelineModel PipelineSpec PipelineProofs ObjectsMain EstimateAll CameraModel ResidualModel ResidualSpec ResidualProofs.
Import ListNotations.
Close Scope Q_scope.
Close Scope R_scope.
Open Scope nat_scope.

(** ** Residual blocks *)
(** the chain of poses of a block, the camera's intrinsics, the detection and the point *)
Definition block_pose (p : params) (b : block) : pose :=
  match b with
  | BIntr _ _ _ kp _ => matrix (pa_pose p kp)
  | BObj _ _ _ rb _ kp kb => pmul (matrix (pa_pose p kp)) (if rb then matrix (pa_pose p kb) else pid)
  | BGroup _ _ _ rc _ kc kp => pmul (if rc then matrix (pa_pose p kc) else pid) (matrix (pa_pose p kp))
  | BBoth _ _ _ rc rb _ kc kp kb =>
      pmul (if rc then matrix (pa_pose p kc) else pid) (pmul (matrix (pa_pose p kp)) (if rb then matrix (pa_pose p kb) else pid))
  | BAll _ _ rc rb _ kc kp kb _ =>
      pmul (if rc then matrix (pa_pose p kc) else pid) (pmul (matrix (pa_pose p kp)) (if rb then matrix (pa_pose p kb) else pid))
  end.
Definition block_intr (p : params) (b : block) : intr :=
  match b with
  | BIntr _ _ _ _ c => pa_intr p c
  | BObj _ _ i _ _ _ _ => i
  | BGroup _ _ i _ _ _ _ => i
  | BBoth _ _ i _ _ _ _ _ _ => i
  | BAll _ _ _ _ _ _ _ _ c => pa_intr p c
  end.
Definition block_model (b : block) : Z :=
  match b with
  | BIntr _ _ dt _ _ => dt
  | BObj _ _ _ _ dt _ _ => dt
  | BGroup _ _ _ _ dt _ _ => dt
  | BBoth _ _ _ _ _ dt _ _ _ => dt
  | BAll _ _ _ _ dt _ _ _ _ => dt
  end.
Definition block_uv (b : block) : pt2 :=
  match b with BIntr m _ _ _ _ => m | BObj m _ _ _ _ _ _ => m | BGroup m _ _ _ _ _ _ => m | BBoth m _ _ _ _ _ _ _ _ => m | BAll m _ _ _ _ _ _ _ _ => m end.
Definition block_pt (b : block) : vec3 :=
  match b with BIntr _ q _ _ _ => q | BObj _ q _ _ _ _ _ => q | BGroup _ q _ _ _ _ _ => q | BBoth _ q _ _ _ _ _ _ _ => q | BAll _ q _ _ _ _ _ _ _ => q end.

Lemma eval_ok p b : (forall k, In k (pose_keys b) -> plain (pa_pose p k)) ->
  eval p b = option_map (minus (block_uv b)) (image (block_model b) (block_intr p b) (block_pose p b) (block_pt b)).
Proof.
  intros H. destruct b as [[u v] q dt kp c|[u v] q i rb dt kp kb|[u v] q i rc dt kc kp|[u v] q i rc rb dt kc kp kb|[u v] q rc rb dt kc kp kb c];
    cbn [eval block_uv block_model block_intr block_pose block_pt pose_keys fst snd] in *.
  - unfold ReprojectionError. rewrite rotate_move_ok by (apply H; left; auto). apply image_error_ok.
  - unfold ReprojectionError_3DObjRef. rewrite (rotate_move_ok (pa_pose p kp)) by (apply H; left; auto).
    destruct rb; [rewrite (rotate_move_ok (pa_pose p kb)) by (apply H; right; left; auto); rewrite <- pact_mul|rewrite pmul_id_r]; apply image_error_ok.
  - unfold ReprojectionError_CameraGroupRef. rewrite (rotate_move_ok (pa_pose p kp)) by (apply H; right; left; auto).
    destruct rc; [rewrite (rotate_move_ok (pa_pose p kc)) by (apply H; left; auto); rewrite <- pact_mul|rewrite pmul_id_l]; apply image_error_ok.
  - unfold ReprojectionError_CameraGroupAndObjectRef. rewrite (rotate_move_ok (pa_pose p kp)) by (apply H; right; left; auto).
    destruct rb; [rewrite (rotate_move_ok (pa_pose p kb)) by (apply H; right; right; left; auto); rewrite <- (pact_mul (matrix (pa_pose p kp)))|rewrite pmul_id_r];
    (destruct rc; [rewrite (rotate_move_ok (pa_pose p kc)) by (apply H; left; auto); rewrite <- pact_mul|rewrite pmul_id_l]); apply image_error_ok.
  - unfold ReprojectionError_CameraGroupAndObjectRefAndIntrinsics. rewrite (rotate_move_ok (pa_pose p kp)) by (apply H; right; left; auto).
    destruct rb; [rewrite (rotate_move_ok (pa_pose p kb)) by (apply H; right; right; left; auto); rewrite <- (pact_mul (matrix (pa_pose p kp)))|rewrite pmul_id_r];
    (destruct rc; [rewrite (rotate_move_ok (pa_pose p kc)) by (apply H; left; auto); rewrite <- pact_mul|rewrite pmul_id_l]); apply image_error_ok.
Qed.

(** ** collect and gather *)
Lemma collect_app {A} (l1 l2 : list (option A)) : collect (l1 ++ l2) =
  match collect l1, collect l2 with Some a, Some b => Some (a ++ b) | _, _ => None end.
Proof.
  induction l1 as [|[x|] l1 IH]; cbn.
  - destruct (collect l2); auto.
  - rewrite IH. destruct (collect l1), (collect l2); auto.
  - auto.
Qed.
Lemma gather_nil {A B} (f : A -> option (list B)) : gather f [] = Some [].
Proof. reflexivity. Qed.
Lemma gather_cons {A B} (f : A -> option (list B)) a l : gather f (a :: l) =
  match f a, gather f l with Some x, Some y => Some (x ++ y) | _, _ => None end.
Proof. unfold gather. cbn [map collect]. destruct (f a); auto. destruct (collect (map f l)); auto. Qed.
Lemma gather_total {A B} (f : A -> option (list B)) l : (forall a, In a l -> exists x, f a = Some x) -> exists r, gather f l = Some r.
Proof.
  intros H. destruct (collect_total f l H) as (ys & E & _). unfold gather. rewrite E. cbn. eauto.
Qed.
Lemma gather_In {A B} (f : A -> option (list B)) l r x : gather f l = Some r -> (In x r <-> exists a y, In a l /\ f a = Some y /\ In x y).
Proof.
  revert r. induction l as [|a l IH]; intros r E.
  - injection E as <-. split; [intros []|intros (a & y & [] & _)].
  - rewrite gather_cons in E. destruct (f a) as [y|] eqn:Fa; [|discriminate]. destruct (gather f l) as [r'|]; [|discriminate].
    injection E as <-. rewrite in_app_iff, (IH r' eq_refl). split.
    + intros [H|(a' & y' & H1 & H2 & H3)]; [exists a, y|exists a', y']; split; auto; [left|right]; auto.
    + intros (a' & y' & [<-|H1] & H2 & H3); [left; congruence|right; eauto].
Qed.
(** residuals of a gathered problem, part by part *)
Lemma gather_eval {A} (f : A -> option (list block)) (g : A -> option (list pt2)) p l bs :
  gather f l = Some bs -> (forall a x, In a l -> f a = Some x -> collect (map (eval p) x) = g a) ->
  collect (map (eval p) bs) = gather g l.
Proof.
  revert bs. induction l as [|a l IH]; intros bs E H.
  - injection E as <-. reflexivity.
  - rewrite gather_cons in E. destruct (f a) as [x|] eqn:Fa; [|discriminate]. destruct (gather f l) as [y|]; [|discriminate]. injection E as <-.
    rewrite map_app, collect_app, gather_cons, (H a x (or_introl eq_refl) Fa), (IH y eq_refl) by (intros; eapply H; [right|]; eauto).
    destruct (g a), (gather g l); auto.
Qed.

(** ** Point loops *)

Lemma zget_nth {A} (l : list A) z x : zget l z = Some x <-> (0 <= z)%Z /\ nth_error l (Z.to_nat z) = Some x.
Proof.
  unfold zget. destruct (Z.ltb_spec z 0); split; try discriminate.
  - intros (? & _). lia.
  - intros E. split; [lia|auto].
  - intros (_ & E). auto.
Qed.

(** loops over pts_id_/pts_2d_ reading both at the same position *)
Lemma indexed_loop {B} (f : Z -> pt2 -> option B) : forall (ids : list Z) (pts pre : list pt2), length ids = length pts ->
  map (fun '(i, k) => match nth_error (pre ++ pts) i with Some m => f k m | None => None end) (combine (seq (length pre) (length ids)) ids) =
  map (fun km => f (fst km) (snd km)) (combine ids pts).
Proof.
  induction ids as [|k ids IH]; intros [|m pts] pre L; try discriminate; auto. cbn [length seq combine map fst snd].
  rewrite nth_error_app2 by auto. rewrite Nat.sub_diag. cbn [nth_error]. f_equal.
  specialize (IH pts (pre ++ [m])). rewrite app_length in IH. cbn [length] in IH. rewrite Nat.add_1_r in IH. rewrite <- app_assoc in IH. apply IH. cbn in L. lia.
Qed.
Lemma point_blocks_eq {A} (mk : vec3 -> pt2 -> A) pts3 ids pts : length ids = length pts ->
  point_blocks mk pts3 ids pts = collect (map (fun km => option_map (fun q => mk q (snd km)) (zget pts3 (fst km))) (combine ids pts)).
Proof.
  intros L. unfold point_blocks. f_equal. rewrite <- (indexed_loop (fun k m => option_map (fun q => mk q m) (zget pts3 k)) ids pts []) by auto.
  apply map_ext. intros (i, k). cbn [app]. destruct (zget pts3 k), (nth_error pts i); auto.
Qed.
Lemma corner_blocks_eq {A} bpts (mk : Z -> vec3 -> pt2 -> A) o ids pts : length ids = length pts ->
  corner_blocks bpts mk o ids pts = gather (fun km => match zget (ob_o2b o) (fst km) with
    | Some (b, k) => if existsb (Z.eqb b) (mkeys (ob_boards o)) then match zget (bpts b) k with Some q => Some [mk b q (snd km)] | None => None end else Some []
    | None => None end) (combine ids pts).
Proof.
  intros L. unfold corner_blocks, gather. f_equal. f_equal.
  rewrite <- (indexed_loop (fun z m => match zget (ob_o2b o) z with
    | Some (b, k) => if existsb (Z.eqb b) (mkeys (ob_boards o)) then match zget (bpts b) k with Some q => Some [mk b q m] | None => None end else Some []
    | None => None end) ids pts []) by auto.
  apply map_ext. intros (i, z). cbn [app]. destruct (nth_error pts i); auto.
Qed.

Lemma image_mul dt i A B q : image dt i (pmul A B) q = image dt i A (pact B q).
Proof. unfold image. rewrite pact_mul. auto. Qed.


Lemma residual_list p (F : Z -> option pt2) : forall (bs : list block) ids pts, length ids = length pts ->
  Forall2 (fun b km => eval p b = option_map (minus (snd km)) (F (fst km))) bs (combine ids pts) ->
  collect (map (eval p) bs) = option_map (errors_of pts) (collect (map F ids)).
Proof.
  intros bs ids. revert bs. induction ids as [|z ids IH]; intros bs [|m pts] L H; try discriminate; cbn [combine] in H; inversion H as [|b km bs' kms E H']; subst; auto.
  cbn [map collect fst snd] in *. rewrite E. destruct (F z) as [r|]; cbn [option_map]; auto.
  rewrite (IH bs' pts) by (cbn in L; auto; lia). destruct (collect (map F ids)); auto.
Qed.
Lemma collect_bind {A B C} (f : A -> option B) (g : B -> option C) l :
  match collect (map f l) with Some r => collect (map g r) | None => None end =
  collect (map (fun a => match f a with Some b => g b | None => None end) l).
Proof.
  induction l as [|a l IH]; cbn [map collect]; auto. destruct (f a) as [b|]; auto.
  destruct (collect (map f l)) as [r|]; cbn [option_map map collect].
  - rewrite <- IH. auto.
  - rewrite <- IH. destruct (g b); auto.
Qed.

Section P.
Variables (bpts : Z -> list vec3).
Lemma wb_corner bs o z : well_built bpts bs o -> (0 <= z < Z.of_nat (length (ob_pts o)))%Z ->
  exists b k q P, zget (ob_o2b o) z = Some (b, k) /\ existsb (Z.eqb b) (mkeys (ob_boards o)) = true /\ zget (bpts b) k = Some q /\
    mfind b (ob_poses o) = Some P /\ zget (ob_pts o) z = Some (pact P q).
Proof.
  intros W H. assert (L : length (ob_o2b o) = length (ob_pts o)).
  { rewrite (wb_o2b _ _ _ W), (wb_pts _ _ _ W). symmetry. apply corners_length. }
  destruct (nth_error (ob_o2b o) (Z.to_nat z)) as [(b, k)|] eqn:E.
  2:{ apply nth_error_None in E. lia. }
  assert (I := nth_error_In _ _ E). rewrite (wb_o2b _ _ _ W) in I. apply corners_In in I as (Ib & Ik).
  apply in_map_iff in Ib as ((b', P) & Eb & Ib). cbn in Eb. subst b'.
  destruct (nth_error (bpts b) (Z.to_nat k)) as [q|] eqn:Eq; [|apply nth_error_None in Eq; lia].
  exists b, k, q, P. split; [apply zget_nth; split; [lia|auto]|]. split.
  { apply existsb_exists. exists b. split; [|apply Z.eqb_refl]. apply (wb_boards _ _ _ W). apply (in_map fst) in Ib. auto. }
  split; [apply zget_nth; split; [lia|auto]|]. split; [apply (wb_poses _ _ _ W); auto|].
  apply zget_nth. split; [lia|]. rewrite (wb_pts _ _ _ W). 
  rewrite (corner_pts bpts bs (Z.to_nat z) b (Z.to_nat k) P); [rewrite Eq; auto|apply W|auto|].
  rewrite Z2Nat.id by lia. rewrite <- (wb_o2b _ _ _ W). auto.
Qed.

Lemma corner_residuals bs o p dt i C O ids pts (mk : Z -> vec3 -> pt2 -> block) : well_built bpts bs o ->
  length ids = length pts -> Forall (fun z => (0 <= z < Z.of_nat (length (ob_pts o)))%Z) ids ->
  (forall b P q m, mfind b (ob_poses o) = Some P -> eval p (mk b q m) = option_map (minus m) (image dt i (pmul C (pmul O P)) q)) ->
  exists l, corner_blocks bpts mk o ids pts = Some l /\
    collect (map (eval p) l) = option_map (errors_of pts)
      (match collect (map (zget (ob_pts o)) ids) with Some sc => collect (map (image dt i C) (map (pact O) sc)) | None => None end).
Proof.
  intros W L Rg H. rewrite corner_blocks_eq by auto.
  assert (G : exists l, gather (fun km : Z * pt2 => match zget (ob_o2b o) (fst km) with
    | Some (b, k) => if existsb (Z.eqb b) (mkeys (ob_boards o)) then match zget (bpts b) k with Some q => Some [mk b q (snd km)] | None => None end else Some []
    | None => None end) (combine ids pts) = Some l /\
    Forall2 (fun b km => eval p b = option_map (minus (snd km)) (match zget (ob_pts o) (fst km) with Some x => image dt i C (pact O x) | None => None end)) l (combine ids pts)).
  { clear L. revert pts. induction Rg as [|z ids Hz Rg IH]; intros pts; [exists []; split; [reflexivity|constructor]|].
    destruct pts as [|m pts]; [exists []; split; [reflexivity|constructor]|].
    destruct (IH pts) as (l & E & F). cbn [combine]. rewrite gather_cons, E. cbn [fst snd].
    destruct (wb_corner bs o z W Hz) as (b & k & q & P & -> & -> & -> & EP & EX).
    eexists. split; [reflexivity|]. cbn [app].
    constructor; auto.
 cbn [fst snd]. rewrite EX, (H b P q m EP).
    rewrite image_mul, pact_mul. auto. }
  destruct G as (l & E & F). exists l. split; [auto|]. rewrite (residual_list p (fun z => match zget (ob_pts o) z with Some x => image dt i C (pact O x) | None => None end) l ids pts L F).
  f_equal. rewrite <- (collect_bind (zget (ob_pts o)) (fun x => image dt i C (pact O x)) ids).
  destruct (collect (map (zget (ob_pts o)) ids)); auto. rewrite map_map. auto.
Qed.
Lemma point_residuals p dt i C O pts3 ids pts (mk : vec3 -> pt2 -> block) :
  length ids = length pts -> Forall (fun z => (0 <= z < Z.of_nat (length pts3))%Z) ids ->
  (forall q m, eval p (mk q m) = option_map (minus m) (image dt i (pmul C O) q)) ->
  exists l, point_blocks mk pts3 ids pts = Some l /\
    collect (map (eval p) l) = option_map (errors_of pts)
      (match collect (map (zget pts3) ids) with Some sc => collect (map (image dt i C) (map (pact O) sc)) | None => None end).
Proof.
  intros L Rg H. rewrite point_blocks_eq by auto.
  assert (G : exists l, collect (map (fun km => option_map (fun q => mk q (snd km)) (zget pts3 (fst km))) (combine ids pts)) = Some l /\
    Forall2 (fun b km => eval p b = option_map (minus (snd km)) (match zget pts3 (fst km) with Some x => image dt i C (pact O x) | None => None end)) l (combine ids pts)).
  { clear L. revert pts. induction Rg as [|z ids Hz Rg IH]; intros pts; [exists []; split; [reflexivity|constructor]|].
    destruct pts as [|m pts]; [exists []; split; [reflexivity|constructor]|].
    destruct (IH pts) as (l & E & F). cbn [combine map collect fst snd]. rewrite E.
    destruct (nth_error pts3 (Z.to_nat z)) as [q|] eqn:Eq; [|apply nth_error_None in Eq; lia].
    assert (Ez : zget pts3 z = Some q) by (apply zget_nth; split; [lia|auto]). rewrite Ez. cbn [option_map].
    eexists. split; [reflexivity|]. constructor; auto. cbn [fst snd]. rewrite Ez, H, image_mul. auto. }
  destruct G as (l & E & F). exists l. split; [auto|]. rewrite (residual_list p (fun z => match zget pts3 z with Some x => image dt i C (pact O x) | None => None end) l ids pts L F).
  f_equal. rewrite <- (collect_bind (zget pts3) (fun x => image dt i C (pact O x)) ids).
  destruct (collect (map (zget pts3) ids)); auto. rewrite map_map. auto.
Qed.

(** ** Group problems in a consistent calibration *)
Variables (t : tables pt2) (cams : Z -> Z) (p : params).
Variables (bss : list (list (Z * pose))) (ol : list obj3d) (css : list (list (Z * pose))) (gl : list cgroup) (s : calib pt2).
Hypothesis CO : calib_ok bpts t bss ol css gl s.
Hypothesis TR : forall o, In o (mvals (t_obs t)) -> trimmed bpts o.
Hypothesis FR : forall oo, In oo (ot_all (ca_oobs s)) -> In (oo_frame oo) (mkeys (t_frames t)).

Lemma group_frames_In gt g f : In f (group_frames gt g) <-> In f (ptable g (gt_gframes gt)).
Proof.
  unfold group_frames. assert (G : forall l m, In f (mkeys (fold_left (fun m f => mset f tt m) l m)) <-> In f l \/ In f (mkeys m)).
  { induction l as [|x l IH]; intros m; cbn [fold_left]; [cbn; tauto|]. rewrite IH, mset_keys_in. cbn [In]. intuition congruence. }
  rewrite G. cbn. tauto.
Qed.
Lemma group_frames_NoDup gt g : NoDup (group_frames gt g).
Proof.
  unfold group_frames. apply msorted_NoDup. 
  assert (G : forall l (m : smap Z unit), msorted m -> msorted (fold_left (fun m f => mset f tt m) l m)).
  { induction l as [|x l IH]; intros m Hm; cbn [fold_left]; auto. apply IH. apply mset_sorted. auto. }
  apply G. constructor.
Qed.

(** the views of group G: each object observation of a camera of G exactly once *)
Lemma views_In G k n : In G gl -> (In (k, n) (group_views_of s G) <->
  exists oo, nth_error (ot_all (ca_oobs s)) n = Some oo /\ k = (cg_id G, oo_frame oo) /\ In (oo_cam oo) (cg_cams G)).
Proof.
  intros HG. destruct CO as [E1 OK OT Ob Cov E2 GK GT NU CA KE]. apply In_nth_error in HG as (i & HG).
  assert (Ei := gk_ids _ _ GK i G HG). unfold group_views_of. rewrite in_flat_map. split.
  - intros (f & Hf & H). apply in_flat_map in H as (k' & Hk & H). apply (gto_frames _ _ _ _ GT) in Hk as (Ef & Hk).
    destruct (mfind k' (gt_obs (ca_gobs s))) as [go|] eqn:E; [|destruct H].
    destruct k' as (g, f'). cbn in Ef. subst f'. apply (gto_keys _ _ _ _ GT) in Hk as (j & G' & -> & HG' & _).
    destruct (gto_obs _ _ _ _ GT j f G' go HG' E) as (Eg & En & _).
    destruct (Z.eqb_spec (cg_id G) (go_group go)) as [Eq|]; [|destruct H].
    assert (j = i) by lia. subst j. assert (G' = G) by congruence. subst G'.
    apply in_map_iff in H as (n' & En' & H). injection En' as <- <-. rewrite En in H. apply where_In in H as (oo & Hoo & S).
    apply seen_by_iff in S as (F & C). exists oo. split; auto. split; [congruence|auto].
  - intros (oo & Hoo & -> & C). exists (oo_frame oo).
    assert (S : seen_by G (oo_frame oo) oo = true) by (apply seen_by_iff; auto).
    assert (K : In (cg_id G, oo_frame oo) (mkeys (gt_obs (ca_gobs s)))).
    { apply (gto_keys _ _ _ _ GT). exists i, G. split; [auto|]. split; [auto|]. apply nth_error_In in Hoo. split; [auto|]. eauto. }
    split; [apply group_frames_In; apply (gto_gframes _ _ _ _ GT); auto|].
    apply in_flat_map. exists (cg_id G, oo_frame oo). split; [apply (gto_frames _ _ _ _ GT); auto|].
    destruct (proj1 (mfind_Some_key _ _) K) as (go & Hgo). rewrite Hgo. rewrite Ei in Hgo.
    destruct (gto_obs _ _ _ _ GT i (oo_frame oo) G go HG Hgo) as (Eg & En & _). rewrite Eg, Ei, Z.eqb_refl.
    apply in_map. rewrite En. apply where_In. eauto.
Qed.
Lemma views_NoDup G : In G gl -> NoDup (group_views_of s G).
Proof.
  intros HG. destruct CO as [E1 OK OT Ob Cov E2 GK GT NU CA KE]. apply In_nth_error in HG as (i & HG).
  assert (Ei := gk_ids _ _ GK i G HG). unfold group_views_of.
  assert (D : forall {A B : Type} (f : A -> list B) l, NoDup l -> (forall a, In a l -> NoDup (f a)) ->
     (forall a b x, In a l -> In b l -> In x (f a) -> In x (f b) -> a = b) -> NoDup (flat_map f l)).
  { clear. intros A B f l N. induction N as [|a l Ha N IH]; intros H1 H2; cbn; [constructor|].
    apply NoDup_app_intro'; [apply H1; left; auto|apply IH; intros; eauto; [apply H1; right; auto|eapply H2; try (right; eassumption); eauto]|].
    intros x Hx Hy. apply in_flat_map in Hy as (b & Hb & Hy). assert (a = b) by (eapply H2; [left; auto|right; eauto|eauto|eauto]). subst. auto. }
  assert (Kf : forall f k n go, In k (ptable f (gt_frames (ca_gobs s))) -> mfind k (gt_obs (ca_gobs s)) = Some go ->
     In (k, n) (if (cg_id G =? go_group go)%Z then map (fun n => (k, n)) (go_nums go) else []) -> snd k = f).
  { intros f k n go Hk _ _. apply (gto_frames _ _ _ _ GT) in Hk. tauto. }
  apply D; [apply group_frames_NoDup| |].
  - intros f Hf. apply D; [apply (gto_frames_once _ _ _ _ GT)| |].
    + intros k Hk. destruct (mfind k (gt_obs (ca_gobs s))) as [go|] eqn:E; [|constructor].
      destruct (Z.eqb (cg_id G) (go_group go)); [|constructor].
      apply (gto_frames _ _ _ _ GT) in Hk as (Ef & Hk). destruct k as (g, f'). cbn in Ef. subst f'.
      apply (gto_keys _ _ _ _ GT) in Hk as (j & G' & -> & HG' & _). destruct (gto_obs _ _ _ _ GT j f G' go HG' E) as (_ & -> & _).
      apply FinFun.Injective_map_NoDup; [intros x y [=]; auto|apply where_NoDup].
    + intros k1 k2 (k, n) _ _ H1 H2. destruct (mfind k1 (gt_obs (ca_gobs s))) as [go|]; [|destruct H1]. destruct (Z.eqb (cg_id G) (go_group go)); [|destruct H1].
      destruct (mfind k2 (gt_obs (ca_gobs s))) as [go2|]; [|destruct H2]. destruct (Z.eqb (cg_id G) (go_group go2)); [|destruct H2].
      apply in_map_iff in H1 as (? & [= <- <-] & _). apply in_map_iff in H2 as (? & [= <- <-] & _). auto.
  - intros f1 f2 (k, n) _ _ H1 H2.
    assert (Q : forall f, In (k, n) (flat_map (fun k => match mfind k (gt_obs (ca_gobs s)) with
                                        | Some go => if Z.eqb (cg_id G) (go_group go) then map (fun n => (k, n)) (go_nums go) else []
                                        | None => []
                                        end) (ptable f (gt_frames (ca_gobs s)))) -> snd k = f).
    { intros f H. apply in_flat_map in H as (k' & Hk & H). destruct (mfind k' (gt_obs (ca_gobs s))) as [go|]; [|destruct H].
      destruct (Z.eqb (cg_id G) (go_group go)); [|destruct H]. apply in_map_iff in H as (? & [= <- <-] & _). apply (gto_frames _ _ _ _ GT) in Hk. tauto. }
    rewrite <- (Q f1 H1). apply Q. auto.
Qed.
End P.
