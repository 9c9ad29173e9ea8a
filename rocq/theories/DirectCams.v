(** Cameras that share several views with the reference camera: their pose is the relative
    pose found from those views. *)
From Coq Require Import List ZArith QArith Lia Reals Lra Permutation Sorted Relations.
From Verif Require Import SMap GraphModel GraphSpec GraphInv GraphComp GraphDijkstra GraphPath GraphDirect DataModel DataSpec DataProofs DetectModel DetectProofs
  GeomModel GeomSpec GeomProofs GeomQuat GeomMedian
  ChainModel ChainSpec ChainProofs ChainCam ObjectsModel ObjectsSpec ObjectsProofs ObjectsSave ObjectsBuild ObjectsMerge ObjectsObs
  GroupModel GroupSpec GroupProofs StageModel StageSpec StageProofs StageMain StageCams GroupMerge.
Import ListNotations.
Close Scope Q_scope.
Close Scope R_scope.
Open Scope nat_scope.

(** ** Covisibility *)
Lemma trunc_weight n : trunc (1 # Pos.of_nat n) = if Nat.leb n 1 then 1%Z else 0%Z.
Proof.
  unfold trunc. cbn [Qnum Qden]. destruct n as [|[|n]]; [reflexivity|reflexivity|]. cbn [Nat.leb]. apply Z.quot_small.
  assert (1 < Pos.of_nat (S (S n)))%positive by lia. lia.
Qed.
Lemma covis_direct g0 observed es pick step tr a b n : proper_pairs observed es -> good_heap pick -> a <> b -> In ((a, b), n) es ->
  (forall k m, In (k, m) es -> 2 <= m -> 2 <= n) ->
  path_pose step pick (covis_graph g0 observed es) tr a b = chain_transform step tr [a; b].
Proof.
  intros PP Hp N Hi Hm. unfold path_pose.
  assert (G : covis_graph g0 observed es = grun (covis_ops observed es)) by reflexivity. rewrite G.
  assert (W : forall x y w', In (AddE x y w') (since_clear (covis_ops observed es)) -> exists m, In ((x, y), m) es /\ w' = (1 # Pos.of_nat m)%Q).
  { intros x y w' H. rewrite covis_since in H. apply in_app_or in H as [H|H]; apply in_map_iff in H as (z & E & Hz); [discriminate E|].
    destruct z as [[c d] m]. injection E as <- <- <-. eauto. }
  rewrite (path_direct (covis_ops observed es) pick a b (1 # Pos.of_nat n) (covis_nofresh observed es PP) (covis_nonneg observed es) Hp N); [auto| | |].
  - left. rewrite covis_since. apply in_or_app. right. apply in_map_iff. exists ((a, b), n). auto.
  - intros x y w' H. apply W in H as (m & Hi' & ->). rewrite !trunc_weight. destruct (Nat.leb_spec n 1), (Nat.leb_spec m 1); try lia. specialize (Hm _ _ Hi' H0). lia.
  - rewrite (covis_names observed es PP), (covis_inserted observed es PP). auto.
Qed.

(** ** The number of relative poses *)
Lemma flat_map_length_ext {A B} (f f' : A -> list B) l : (forall x, In x l -> length (f x) = length (f' x)) -> length (flat_map f l) = length (flat_map f' l).
Proof. induction l as [|x l IH]; intros H; cbn; auto. rewrite !app_length, H by (left; auto). f_equal. apply IH. intros; apply H; right; auto. Qed.
Lemma matches_length a b l l' : Forall2 (fun x y : Z * Z * pose => fst x = fst y) l l' ->
  length (matches ckey same_obj crel a b l) = length (matches ckey same_obj crel a b l').
Proof.
  assert (Hv : forall k l l', Forall2 (fun x y : Z * Z * pose => fst x = fst y) l l' -> Forall2 (fun x y : Z * Z * pose => fst x = fst y) (having ckey k l) (having ckey k l')).
  { intros k l0 l0' H. induction H as [|x y l0 l0' E H IH]; [constructor|]. unfold having in *. cbn [filter]. assert (Q : ckey x = ckey y) by (unfold ckey; rewrite E; auto). rewrite Q.
    destruct (Z.eqb (ckey y) k); [constructor; auto|auto]. }
  intros H. assert (Ha := Hv a _ _ H). assert (Hb := Hv b _ _ H). clear H. unfold matches. revert Ha Hb. generalize (having ckey a l) (having ckey a l') (having ckey b l) (having ckey b l').
  intros la la' lb lb' Ha Hb. induction Ha as [|x y la la' E Ha IH]; cbn [flat_map]; auto. rewrite !app_length, IH. f_equal. rewrite !map_length.
  clear IH Ha. induction Hb as [|u v lb lb' E' Hb IH]; auto. cbn [filter].
  assert (Q : same_obj x u = same_obj y v) by (unfold same_obj, cobj; rewrite E, E'; auto). rewrite Q. destruct (same_obj y v); cbn; auto.
Qed.
Lemma cam_together_length {pt} (t : tables pt) (ot : otables pt) op op' a b :
  length (cam_together (cam_frames t ot op) a b) = length (cam_together (cam_frames t ot op') a b).
Proof.
  unfold cam_together, cam_frames. generalize (t_frames t) as fs. induction fs as [|e fs IH]; [auto|]. cbn [map flat_map]. rewrite !app_length, IH. f_equal.
  apply matches_length. cbn [snd]. induction (table_of (fst e) (ot_frames ot)) as [|n l IHl]; [constructor|]. cbn [flat_map].
  destruct (nth_error (ot_all ot) n); [constructor; auto|auto].
Qed.
Lemma two_members {A} (l : list A) p q : In p l -> In q l -> p <> q -> 2 <= length l.
Proof.
  intros Hp Hq N. destruct l as [|x [|y l]]; [destruct Hp| |cbn; lia]. destruct Hp as [<-|[]], Hq as [<-|[]]. congruence.
Qed.

Section S.
Context {pt : Type}.
Variables (nc nb : nat) (ins : list (insertion pt)) (t : tables pt).
Hypothesis AD : after_detection nc nb ins t.
Hypothesis Hp : paired t.
Variables (bpts : Z -> list vec3) (bss : list (list (Z * pose))) (ol : list obj3d).
Hypothesis OK : objects_ok bpts bss ol.
Variable ot : otables pt.
Hypothesis Eot : initAll3DObjectObs t (dense ol) empty_otables = Some ot.
Variables (svd : (nat -> nat -> R) -> quat) (lr : mat3 -> vec3) (uq : bool) (pick : dstate -> nat) (g0 : graph).
Hypothesis Hpick : good_heap pick.
Variable op : nat -> pose.
Notation pairs := (computeCamerasPairPose (cam_frames t ot op)).
Notation g := (covis_graph g0 (observed_cams t) (counts pairs)).

Lemma several_count a b : a <> b -> several_views (ot_all ot) a b -> 2 <= length (cam_together (cam_frames t ot op) a b).
Proof.
  intros N (f & o & f' & o' & D & (x & y & Hx & Hy & A1 & A2 & A3 & A4 & A5 & A6) & (x' & y' & Hx' & Hy' & B1 & B2 & B3 & B4 & B5 & B6)).
  apply In_nth_error in Hx as (m & Hm), Hy as (k & Hk), Hx' as (m' & Hm'), Hy' as (k' & Hk').
  assert (Nk : k <> k') by (intros <-; apply D; congruence). assert (Nm : m <> k) by (intros <-; congruence). assert (Nm' : m' <> k) by (intros <-; congruence).
  set (op' := fun i => if Nat.eqb i k then (mid, V3 1 0 0) else pid).
  rewrite (cam_together_length t ot op op').
  apply (two_members _ (pmul (op' k) (pinv (op' m))) (pmul (op' k') (pinv (op' m')))).
  - apply (cam_together_obs nc nb ins t AD Hp ol ot Eot). exists m, k, x, y. repeat (split; [congruence|]). auto.
  - apply (cam_together_obs nc nb ins t AD Hp ol ot Eot). exists m', k', x', y'. repeat (split; [congruence|]). auto.
  - unfold op'. rewrite Nat.eqb_refl. destruct (Nat.eqb_spec m k); [congruence|]. destruct (Nat.eqb_spec m' k); [congruence|]. destruct (Nat.eqb_spec k' k); [congruence|].
    intros Q. apply (f_equal (fun p => vx (snd p))) in Q. revert Q. cbn. lra.
Qed.
Lemma cameras_direct gl : cameras_stage svd lr uq pick g0 t ot op = Some (dense gl) -> forall css, groups_ok css gl ->
  forall tr, initInterTransform svd lr uq pairs = Some tr ->
  forall i G c P, nth_error gl i = Some G -> mfind c (cg_poses G) = Some P -> c <> cg_ref G -> several_views (ot_all ot) (cg_ref G) c ->
  chain_transform step_fwd tr [cg_ref G; c] = Some P.
Proof.
  intros Eg css0 GK0 tr E i G c P HG HP N SV.
  assert (GT := cams_table_good nc nb ins t AD Hp bpts bss ol OK ot Eot op). assert (PP := good_proper _ _ GT).
  destruct (observed_cams_ok nc nb ins t AD) as (So & O).
  destruct (transforms_total svd lr uq pairs (gt_sorted _ _ GT) (gt_nonempty _ _ GT)) as (tr' & E' & K & R). assert (tr' = tr) by congruence. subst tr'.
  assert (Keys : mkeys tr = mkeys (counts pairs)) by (rewrite counts_keys; auto).
  destruct (initCameraGroup_ok (observed_cams t) (counts pairs) tr PP So Keys (good_both _ _ GT) pick Hpick g0) as (gl' & css & EO & GK & MB & MR & MP).
  assert (gl' = gl).
  { unfold cameras_stage in Eg. rewrite E in Eg. rewrite EO in Eg. assert (Q : dense gl' = dense gl) by congruence. rewrite <- (dense_vals gl'), <- (dense_vals gl). rewrite Q. auto. }
  subst gl'. destruct (nth_error_length_ex gl css i G (eq_sym (gk_len css gl GK)) HG) as (cs & Hcs).
  assert (GR := gk_wb css gl GK i cs G Hcs HG). apply (gr_poses _ _ GR) in HP.
  assert (Hc : nth_error (connectedComponents g) i = Some (map fst cs)) by (rewrite <- MB, nth_error_map, Hcs; auto).
  specialize (MP i _ cs c P Hc Hcs HP). rewrite <- (MR i _ G Hc HG) in MP.
  assert (SC := several_count (cg_ref G) c (fun e => N (eq_sym e)) SV).
  rewrite (covis_direct g0 (observed_cams t) (counts pairs) pick step_fwd tr (cg_ref G) c (length (cam_together (cam_frames t ot op) (cg_ref G) c)) PP Hpick) in MP; auto.
  unfold counts. apply in_map_iff. exists ((cg_ref G, c), cam_together (cam_frames t ot op) (cg_ref G) c). split; [auto|]. apply mfind_In.
  rewrite cameras_table by (apply (cams_gated nc nb ins t AD Hp bpts bss ol OK ot Eot)). destruct (Z.eqb_spec (cg_ref G) c); [congruence|].
  destruct (cam_together (cam_frames t ot op) (cg_ref G) c); [cbn in SC; lia|]. reflexivity.
Qed.
End S.
