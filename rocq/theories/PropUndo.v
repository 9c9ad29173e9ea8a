(** C49: groups that share an object undo each other. *)
From Coq Require Import String List ZArith QArith Lia Reals Lra Psatz Permutation Sorted ClassicalEpsilon.
From Verif Require Import SMap GraphModel GraphSpec GraphDijkstra GraphPath DataModel DataSpec DataProofs DetectModel DetectSpec DetectProofs RansacModel RansacSpec RansacProofs
  GeomModel GeomSpec GeomProofs GeomMedian ChainModel ChainSpec ChainProofs ChainCam
  ObjectsModel ObjectsSpec ObjectsProofs ObjectsSave ObjectsBuild ObjectsMerge ObjectsObs GroupModel GroupSpec GroupProofs GroupMerge GroupObs GroupPose
  StageModel StageSpec StageProofs StageMain StageCams StageMerge PipelineModel PipelineSpec PipelineProofs ObjectsMain EstimateAll
  CameraModel ResidualModel ResidualSpec ResidualProofs ResidualMain ResidualGroup ResidualSolve ResidualAvg ResidualCost PropObjects PropGroup PropResidual.
Import ListNotations.
Close Scope Q_scope.
Close Scope R_scope.
(** Several groups that share an object of more than one board can undo each other's
    refinement, also with a solver that ends at the best possible value of every problem:
    camera 0 sees boards 0 and 1 in frames 0 and 2, with board 1 three units beside board
    0; camera 1 sees them in frame 1, four units apart.  The cameras share no frame and
    stay in two groups.  Group 0 is exact at the start and not touched; refining group 1
    moves board 1 of the shared object. *)
Definition shifted (x : R) : list pt2 := map (fun m => (fst m + x, snd m)%R) flat_corners.
Definition undo_ins : list (insertion pt2) :=
  [mkIns 0%Z 0%Z 0%Z flat_corners five_ids EmptyString; mkIns 0%Z 0%Z 1%Z (shifted 3) five_ids EmptyString;
   mkIns 1%Z 1%Z 0%Z flat_corners five_ids EmptyString; mkIns 1%Z 1%Z 1%Z (shifted 4) five_ids EmptyString;
   mkIns 0%Z 2%Z 0%Z flat_corners five_ids EmptyString; mkIns 0%Z 2%Z 1%Z (shifted 3) five_ids EmptyString].
Definition undo_t : tables pt2 := run_of 2 2 undo_ins.
Definition undo_p (x : R) : params :=
  mkPar (fun k => match k with
                  | KGroup _ _ => (V3 0 0 0, V3 0 0 1)%R
                  | KBoard 0%Z 1%Z => (V3 0 0 0, V3 x 0 0)%R
                  | _ => (V3 0 0 0, V3 0 0 0)%R
                  end) (fun _ => I9 1 1 0 0 0 0 0 0 0)%R.
Definition undo_rf (p : params) (o : obj3d) : smap Z pose :=
  map (fun '(b, P) => (b, if Z.eqb b (ob_ref o) then P else matrix (pa_pose p (KBoard (ob_id o) b)))) (ob_poses o).
Lemma undo_keeps p : keeps_boards (undo_rf p).
Proof.
  intros o. unfold undo_rf. split; [unfold mkeys; rewrite map_map; apply map_ext; intros []; reflexivity|].
  induction (ob_poses o) as [|(b, P) l IH]; [reflexivity|]. cbn [map mfind].
  destruct (kcmp (ob_ref o) b) eqn:E; [|exact IH|exact IH].
  apply kcmp_eq in E. subst b. rewrite Z.eqb_refl. reflexivity.
Qed.
Lemma undo_after : after_detection 2 2 undo_ins undo_t.
Proof. apply run_after. unfold undo_ins. repeat constructor; cbn; lia. Qed.
Lemma undo_trimmed : forall o, In o (mvals (t_obs undo_t)) -> trimmed grid o.
Proof.
  intros b H; vm_compute in H; repeat (destruct H as [<-|H]; [|]); try destruct H; 
  (split; [reflexivity|]; split; [repeat constructor; cbn; lia|]; cbn; split; auto; intros; lia).
Qed.
Definition undo_block (G f : Z) (m : pt2) (q : vec3) (b : Z) : block :=
  BBoth m q (I9 1 1 0 0 0 0 0 0 0)%R false (negb (Z.eqb 0 b)) 0%Z (KCam G G) (KGroup (G, f) 0%Z) (KBoard 0%Z b).
Definition undo_view (G f : Z) (x : R) : list block :=
  (map (fun '(m, q) => undo_block G f m q 0%Z) (combine flat_corners (grid 0)) ++
   map (fun '(m, q) => undo_block G f m q 1%Z) (combine (shifted x) (grid 1)))%list.
Definition undo_of svd lr : option (calib pt2) :=
  option_map (fun s0 => refine_calib grid (undo_rf (undo_p 3)) cg_poses s0) (start_of svd lr false undo_t).
Lemma undo_groups svd lr : option_map (@ca_groups pt2) (undo_of svd lr) = Some [single 0 0; single 1 1].
Proof. vm_compute. reflexivity. Qed.
Lemma undo_objs svd lr : option_map (fun s => map (fun '(k, o) => (k, ob_id o, ob_poses o)) (ca_objs s)) (undo_of svd lr) =
  Some [(0%Z, 0%Z, [(0%Z, pid); (1%Z, matrix (V3 0 0 0, V3 3 0 0)%R)])].
Proof. vm_compute. reflexivity. Qed.
Lemma undo_problem0 svd lr x : option_map (fun s => group_objects_problem grid (fun _ => 0%Z) (undo_p x) s (snd (single 0 0))) (undo_of svd lr) =
  Some (Some (undo_view 0 0 3 ++ undo_view 0 2 3)%list).
Proof. vm_compute. reflexivity. Qed.
Lemma undo_problem1 svd lr x : option_map (fun s => group_objects_problem grid (fun _ => 0%Z) (undo_p x) s (snd (single 1 1))) (undo_of svd lr) =
  Some (Some (undo_view 1 1 4)).
Proof. vm_compute. reflexivity. Qed.
Lemma undo_eval x G f m q b : (b = 0 \/ b = 1)%Z -> vz q = 0%R ->
  eval (undo_p x) (undo_block G f m q b) = Some (vx q + (if Z.eqb b 1 then x else 0) - fst m, vy q - snd m)%R.
Proof.
  intros Hb Hz. assert (PL : forall k, plain (pa_pose (undo_p x) k)).
  { intros k. left. assert (EF : fst (pa_pose (undo_p x) k) = V3 0 0 0%R).
    { destruct k as [n|n|[|[a|a|]|a] [|[b'|b'|]|b']|a b'|a b']; reflexivity. }
    rewrite EF. unfold vdot. cbn. ring. }
  rewrite (eval_ok (undo_p x)) by (intros k _; apply PL).
  unfold undo_block. cbn [block_uv block_model block_intr block_pose block_pt]. rewrite pmul_id_l.
  rewrite (exact_matrix (pa_pose (undo_p x) (KGroup (G, f) 0%Z)) eq_refl). unfold image. destruct q as [qx qy qz]. cbn [vz] in Hz. subst qz.
  assert (EQ : pact (pmul (mid, snd (pa_pose (undo_p x) (KGroup (G, f) 0%Z))) (if negb (0 =? b)%Z then matrix (pa_pose (undo_p x) (KBoard 0 b)) else pid)) (V3 qx qy 0)
     = V3 (qx + (if Z.eqb b 1 then x else 0)) qy 1%R).
  { destruct Hb as [-> | ->]; cbn [Z.eqb negb Pos.eqb].
    - rewrite pmul_id_r. apply vec3_eq; cbn; ring.
    - rewrite (exact_matrix (pa_pose (undo_p x) (KBoard 0 1)) eq_refl). apply vec3_eq; cbn; ring. }
  rewrite EQ. cbn [vx vy vz]. destruct (Req_EM_T 1 0); [lra|].
  cbn. unfold minus. apply some_pair; cbn [fst snd]; field.
Qed.
(** residuals of a view with the board at y, detected at x *)
Lemma undo_view_eval x y G f : collect (map (eval (undo_p y)) (undo_view G f x)) =
  Some (repeat (0, 0)%R 5 ++ repeat ((y - x)%R, 0%R) 5)%list.
Proof.
  unfold undo_view, shifted, flat_corners, grid. cbn [combine map app].
  repeat (rewrite undo_eval by (auto; reflexivity)). cbn [Z.eqb Pos.eqb vx vy fst snd collect option_map repeat app].
  f_equal. repeat (apply f_equal2; [apply f_equal2; ring|]). reflexivity.
Qed.
Lemma collect_app {A} (l l' : list (option A)) a a' : collect l = Some a -> collect l' = Some a' -> collect (l ++ l')%list = Some (a ++ a')%list.
Proof.
  revert a. induction l as [|[x|] l IH]; intros a E E'; [|cbn in *|discriminate E].
  - injection E as <-. auto.
  - destruct (collect l) as [r|] eqn:Er; [|discriminate E]. injection E as <-. rewrite (IH r eq_refl E'). reflexivity.
Qed.
Lemma undo_huber0 : huber (0 ^ 2 + 0 ^ 2)%R = 0%R. Proof. unfold huber. destruct (Rle_dec _ 1); [ring|lra]. Qed.
Lemma undo_huber1 x : (x ^ 2 = 1)%R -> huber (x ^ 2 + 0 ^ 2)%R = 1%R.
Proof. intros E. rewrite E. unfold huber. destruct (Rle_dec _ 1); [ring|lra]. Qed.
Lemma undo_cost1 y : ((y - 4) ^ 2 = 1)%R -> cost (undo_p y) (undo_view 1 1 4) = Some (5 / 2)%R.
Proof.
  intros E. unfold cost. rewrite undo_view_eval. cbn [option_map repeat app map fold_right fst snd]. rewrite undo_huber0, (undo_huber1 _ E). f_equal. field.
Qed.
Lemma undo_cost1' : cost (undo_p 4) (undo_view 1 1 4) = Some 0%R.
Proof.
  unfold cost. rewrite undo_view_eval. cbn [option_map repeat app map fold_right fst snd]. replace (4 - 4)%R with 0%R by ring. rewrite undo_huber0. f_equal. field.
Qed.
Lemma undo_cost0 : cost (undo_p 3) (undo_view 0 0 3 ++ undo_view 0 2 3)%list = Some 0%R.
Proof.
  unfold cost. rewrite map_app, (collect_app _ _ _ _ (undo_view_eval 3 3 0 0) (undo_view_eval 3 3 0 2)).
  cbn [option_map repeat app map fold_right fst snd]. replace (3 - 3)%R with 0%R by ring. rewrite undo_huber0. f_equal. field.
Qed.
Lemma undo_cost0' : cost (undo_p 4) (undo_view 0 0 3 ++ undo_view 0 2 3)%list = Some 5%R.
Proof.
  unfold cost. rewrite map_app, (collect_app _ _ _ _ (undo_view_eval 3 4 0 0) (undo_view_eval 3 4 0 2)).
  cbn [option_map repeat app map fold_right fst snd]. replace (4 - 3)%R with 1%R by ring. rewrite undo_huber0, undo_huber1 by ring. f_equal. field.
Qed.
Lemma undo_some {A B} (f : A -> B) x y : option_map f x = Some y -> exists a, x = Some a /\ f a = y.
Proof. destruct x as [a|]; [|discriminate]. intros E. exists a. split; [reflexivity|]. cbn in E. congruence. Qed.
Lemma undo_back svd lr s : undo_of svd lr = Some s -> exists s0, start_of svd lr false undo_t = Some s0 /\ refine_calib grid (undo_rf (undo_p 3)) cg_poses s0 = s.
Proof. exact (undo_some (fun s0 => refine_calib grid (undo_rf (undo_p 3)) cg_poses s0) (start_of svd lr false undo_t) s). Qed.
Lemma undo_same {A B} (f : A -> B) x a y : x = Some a -> option_map f x = Some y -> f a = y.
Proof. intros -> E. cbn in E. congruence. Qed.
Lemma undo_state svd lr : exists s, reached svd lr false pick_first empty_graph grid undo_t s /\
  ca_groups s = [single 0 0; single 1 1] /\
  map (fun '(k, o) => (k, ob_id o, ob_poses o)) (ca_objs s) = [(0%Z, 0%Z, [(0%Z, pid); (1%Z, matrix (V3 0 0 0, V3 3 0 0)%R)])] /\
  (forall x, group_objects_problem grid (fun _ => 0%Z) (undo_p x) s (snd (single 0 0)) = Some (undo_view 0 0 3 ++ undo_view 0 2 3)%list) /\
  (forall x, group_objects_problem grid (fun _ => 0%Z) (undo_p x) s (snd (single 1 1)) = Some (undo_view 1 1 4)).
Proof.
  destruct (undo_some _ _ _ (undo_groups svd lr)) as (s & E & EG). exists s.
  destruct (undo_back svd lr s E) as (s0 & E0 & ES).
  split; [rewrite <- ES; apply rd_refine; [apply undo_keeps|apply keep_cams|apply start_reached; exact E0]|].
  split; [exact EG|].
  split; [exact (undo_same _ _ _ _ E (undo_objs svd lr))|]. split; intros x; [exact (undo_same _ _ _ _ E (undo_problem0 svd lr x))|exact (undo_same _ _ _ _ E (undo_problem1 svd lr x))].
Qed.
Definition undo_solve (bs : list block) (p : params) : params :=
  if excluded_middle_informative (bs = undo_view 1 1 4 /\ p = undo_p 3) then undo_p 4 else p.
Lemma undo_solves : undo_solve (undo_view 1 1 4) (undo_p 3) = undo_p 4.
Proof. unfold undo_solve. destruct (excluded_middle_informative _) as [_|N]; [reflexivity|exfalso; apply N; auto]. Qed.
Lemma undo_ceres : ceres undo_solve.
Proof.
  unfold undo_solve. assert (EI : forall k, k <> KBoard 0 1 -> pa_pose (undo_p 4) k = pa_pose (undo_p 3) k).
  { intros [n|n|[|[a|a|]|a] [|[b'|b'|]|b']|a b'|a b'] N; try reflexivity. congruence. }
  constructor.
  - intros bs p k H. destruct (excluded_middle_informative _) as [(-> & ->)|_]; [|auto].
    destruct (excluded_middle_informative (k = KBoard 0 1)) as [->|N]; [|apply EI; auto].
    exfalso. assert (A : agree_but (KBoard 0 1) (undo_p 3) (undo_p 4)) by (split; [reflexivity|intros k' N; symmetry; apply EI; auto]).
    assert (EC : cost (undo_p 3) (undo_view 1 1 4) = cost (undo_p 4) (undo_view 1 1 4)).
    { unfold cost. f_equal. f_equal. apply map_ext_in. intros b Hb. apply (H b Hb _ _ A). }
    rewrite undo_cost1, undo_cost1' in EC by ring. injection EC as EC. lra.
  - intros bs p c H. destruct (excluded_middle_informative _) as [(-> & ->)|_]; auto.
  - intros bs p c E. destruct (excluded_middle_informative _) as [(-> & ->)|_]; [|exists c; split; [auto|lra]].
    exists 0%R. assert (N := cost_nonneg _ _ _ E). split; [|auto]. apply undo_cost1'.
  - intros bs p E. destruct (excluded_middle_informative _) as [(-> & ->)|_]; [|auto].
    exfalso. rewrite undo_cost1 in E by ring. injection E as E. lra.
Qed.

(** The full claim of C49 is false of the code with more than one group: a refinement, by a
    solver that brings every problem it is given to the least cost there is, raises the
    cost of a group that was 0, and the total of all groups. *)
Theorem C49_several_groups_can_get_worse_refuted : forall svd lr, exists solve uq bpts nc nb ins t s cams p p',
  ceres solve /\ after_detection nc nb ins t /\ (forall o, In o (mvals (t_obs t)) -> trimmed bpts o) /\
  reached svd lr uq pick_first empty_graph bpts t s /\ represents p (ca_objs s) (ca_groups s) /\
  refineAllCameraGroupAndObjects solve bpts cams s p = Some p' /\
  exists k0 G0 bs0 k1 G1 bs1, ca_groups s = [(k0, G0); (k1, G1)] /\
    (forall x, x = p \/ x = p' -> group_objects_problem bpts cams x s G0 = Some bs0 /\ group_objects_problem bpts cams x s G1 = Some bs1) /\
    cost (solve bs0 p) bs0 = Some 0%R /\ cost (solve bs1 (solve bs0 p)) bs1 = Some 0%R /\
    cost p bs0 = Some 0%R /\ cost p bs1 = Some (5 / 2)%R /\
    cost p' bs0 = Some 5%R /\ cost p' bs1 = Some 0%R.
Proof.
  intros svd lr.
  destruct (undo_state svd lr) as (s & Rd & EG & EO' & P0 & P1).
  exists undo_solve, false, grid, 2, 2, undo_ins, undo_t, s, (fun _ => 0%Z), (undo_p 3), (undo_p 4).
  assert (S0 : undo_solve (undo_view 0 0 3 ++ undo_view 0 2 3)%list (undo_p 3) = undo_p 3) by (apply (ce_exact _ undo_ceres), undo_cost0).
  split; [exact undo_ceres|]. split; [exact undo_after|]. split; [exact undo_trimmed|].
  split; [exact Rd|].
  split.
  { constructor.
    - intros k o' b Q Hin Ef. apply (in_map (fun '(k, o) => (k, ob_id o, ob_poses o))) in Hin. rewrite EO' in Hin. destruct Hin as [Hin|[]].
      assert (EI : ob_id o' = 0%Z) by congruence. assert (EP : ob_poses o' = [(0%Z, pid); (1%Z, matrix (V3 0 0 0, V3 3 0 0)%R)]) by congruence.
      clear Hin. rewrite EP in Ef. rewrite EI. cbn [mfind] in Ef.
      destruct (kcmp b 0%Z) eqn:K; [apply kcmp_eq in K; subst b; injection Ef as <-; rewrite exact_matrix; reflexivity| |];
        (destruct (kcmp b 1%Z) eqn:K1; [apply kcmp_eq in K1; subst b; injection Ef as <-; reflexivity|discriminate Ef|discriminate Ef]).
    - intros k G c Q Hin Ef. rewrite EG in Hin. rewrite exact_matrix by reflexivity. destruct Hin as [Hin|[Hin|[]]]; injection Hin as <- <-; cbn [cg_poses mfind] in Ef;
        (destruct (kcmp c _); [injection Ef as <-; reflexivity|discriminate Ef|discriminate Ef]). }
  split.
  { unfold refineAllCameraGroupAndObjects, solve_each. rewrite EG. cbn [mvals map snd fold_left single]. change (mkGrp 0 0 [0%Z] [(0%Z, 0%Z)] [(0%Z, pid)]) with (snd (single 0 0)).
    change (mkGrp 1 1 [1%Z] [(1%Z, 1%Z)] [(1%Z, pid)]) with (snd (single 1 1)).
    rewrite P0. cbn [option_map]. rewrite S0, P1. cbn [option_map]. rewrite undo_solves. reflexivity. }
  exists 0%Z, (snd (single 0 0)), (undo_view 0 0 3 ++ undo_view 0 2 3)%list, 1%Z, (snd (single 1 1)), (undo_view 1 1 4).
  split; [rewrite EG; reflexivity|]. split; [intros x [-> | ->]; split; auto|]. rewrite S0, undo_solves.
  split; [exact undo_cost0|]. split; [exact undo_cost1'|]. split; [exact undo_cost0|]. split; [apply undo_cost1; ring|]. split; [exact undo_cost0'|exact undo_cost1'].
Qed.
Print Assumptions C49_several_groups_can_get_worse_refuted.
