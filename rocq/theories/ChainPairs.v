(** The pair tables as lists of co-observations. *)
From Coq Require Import List ZArith QArith Lia Reals Permutation Sorted.
From Verif Require Import SMap GraphModel GraphSpec GraphComp DataModel DataSpec DataProofs DetectModel DetectProofs
  GeomModel GeomSpec GeomProofs
  ChainModel ChainSpec ChainProofs ChainCam ObjectsModel ObjectsSpec ObjectsProofs ObjectsSave ObjectsBuild ObjectsMerge ObjectsObs
  GroupModel GroupSpec GroupProofs GroupMerge StageModel StageSpec StageProofs StageMain StageCams StageMerge.
Import ListNotations.
Close Scope Q_scope.
Close Scope R_scope.
Open Scope nat_scope.

(** the pairs of numbers in one block, and in all blocks *)
Definition joint1 (nums : list nat) (sel : nat -> nat -> bool) : list (nat * nat) :=
  flat_map (fun n => map (pair n) (filter (sel n) nums)) nums.
Definition joint {V} (vs : list V) (nums : V -> list nat) (sel : nat -> nat -> bool) : list (V * (nat * nat)) :=
  flat_map (fun v => map (pair v) (joint1 (nums v) sel)) vs.
Lemma joint1_In nums sel n m : In (n, m) (joint1 nums sel) <-> In n nums /\ In m nums /\ sel n m = true.
Proof.
  unfold joint1. rewrite in_flat_map. split.
  - intros (x & Hx & H). apply in_map_iff in H as (y & E & H). injection E as -> ->. apply filter_In in H. tauto.
  - intros (Hn & Hm & H). exists n. split; auto. apply in_map. apply filter_In. auto.
Qed.
Lemma NoDup_blocks {A B} (f : A -> list B) l : NoDup l -> (forall x, NoDup (f x)) -> 
  (forall x y b, In b (f x) -> In b (f y) -> x = y) -> NoDup (flat_map f l).
Proof.
  intros N F D. induction N as [|x l H N IH]; cbn; [constructor|]. apply NoDup_app_intro'; auto.
  intros b Hb Hb'. apply in_flat_map in Hb' as (y & Hy & Hb'). rewrite (D _ _ _ Hb Hb') in H. auto.
Qed.
Lemma NoDup_pairs {A B} (a : A) (l : list B) : NoDup l -> NoDup (map (pair a) l).
Proof. induction 1 as [|x l H N IH]; cbn; constructor; auto. intros I. apply in_map_iff in I as (y & E & I). congruence. Qed.
Lemma joint1_NoDup nums sel : NoDup nums -> NoDup (joint1 nums sel).
Proof.
  intros N. apply NoDup_blocks; auto.
  - intros n. apply NoDup_pairs. apply NoDup_filter. auto.
  - intros n n' [x y] H H'. apply in_map_iff in H as (? & E & _), H' as (? & E' & _). congruence.
Qed.
Lemma joint_In {V} (vs : list V) nums sel v n m : In (v, (n, m)) (joint vs nums sel) <-> In v vs /\ In n (nums v) /\ In m (nums v) /\ sel n m = true.
Proof.
  unfold joint. rewrite in_flat_map. split.
  - intros (x & Hx & H). apply in_map_iff in H as (y & E & H). injection E as -> ->. apply joint1_In in H. tauto.
  - intros (Hv & H). exists v. split; auto. apply in_map. apply joint1_In. auto.
Qed.
Lemma joint_NoDup {V} (vs : list V) nums sel : NoDup vs -> (forall v, NoDup (nums v)) -> NoDup (joint vs nums sel).
Proof.
  intros N F. apply NoDup_blocks; auto.
  - intros v. apply NoDup_pairs. apply joint1_NoDup. auto.
  - intros v v' [x y] H H'. apply in_map_iff in H as (? & E & _), H' as (? & E' & _). congruence.
Qed.
Lemma having_map {A} (key : A -> Z) (g : nat -> A) a nums : having key a (map g nums) = map g (filter (fun n => Z.eqb (key (g n)) a) nums).
Proof. unfold having. induction nums as [|n l IH]; cbn; auto. destruct (Z.eqb (key (g n)) a); cbn; congruence. Qed.
Lemma filter_map_comm {A B} (p : B -> bool) (g : A -> B) l : filter p (map g l) = map g (filter (fun x => p (g x)) l).
Proof. induction l as [|n l IH]; cbn; auto. destruct (p (g n)); cbn; congruence. Qed.
Lemma filter_and {A} (p q : A -> bool) l : filter q (filter p l) = filter (fun x => p x && q x) l.
Proof. induction l as [|x l IH]; cbn; auto. destruct (p x); cbn; auto. destruct (q x); congruence. Qed.
Lemma matches_joint {A} (key : A -> Z) ok val a b (g : nat -> A) nums :
  matches key ok val a b (map g nums) =
  map (fun e => val (g (fst e)) (g (snd e))) (joint1 nums (fun n m => Z.eqb (key (g n)) a && (Z.eqb (key (g m)) b && ok (g n) (g m)))).
Proof.
  unfold matches, joint1. rewrite !having_map. rewrite (flat_map_concat_map _ nums), concat_map, map_map, <- flat_map_concat_map.
  generalize (fun n => Z.eqb (key (g n)) b && true) as dummy. intros _.
  assert (Q : forall l, flat_map (fun x => map (val x) (filter (ok x) (map g (filter (fun n => Z.eqb (key (g n)) b) nums)))) (map g (filter (fun n => Z.eqb (key (g n)) a) l)) =
    flat_map (fun x => map (fun e => val (g (fst e)) (g (snd e))) (map (pair x) (filter (fun m => Z.eqb (key (g x)) a && (Z.eqb (key (g m)) b && ok (g x) (g m))) nums))) l).
  { induction l as [|x l IH]; auto. cbn [filter flat_map]. destruct (Z.eqb (key (g x)) a) eqn:E.
    - cbn [map flat_map]. rewrite IH. f_equal. rewrite filter_map_comm, filter_and, !map_map. cbn [fst snd andb]. reflexivity.
    - rewrite IH. cbn [andb]. replace (filter (fun _ => false) nums) with (@nil nat); auto. clear. induction nums; auto. }
  apply Q.
Qed.
Lemma together_matches rel views a b : together rel views a b =
  flat_map (fun v => matches fst (fun _ _ => true) (fun x y => rel (snd x) (snd y)) a b v) views.
Proof.
  unfold together. apply flat_map_ext'. intros v _. unfold matches, poses_of, having.
  rewrite flat_map_concat_map, map_map, <- flat_map_concat_map. apply flat_map_ext'. intros x _.
  rewrite map_map. f_equal. symmetry. clear. induction v as [|y v IH]; cbn; auto. destruct (Z.eqb (fst y) b); cbn; congruence.
Qed.

Lemma as_vector_map {A} (f : A -> pose) l : as_vector (map f l) = match l with [] => None | _ => Some (map f l) end.
Proof. destruct l; auto. Qed.
Lemma joint_map {V} (vs : list V) nums sel (val : V -> nat -> nat -> pose) :
  flat_map (fun v => map (fun e => val v (fst e) (snd e)) (joint1 (nums v) sel)) vs =
  map (fun e => val (fst e) (fst (snd e)) (snd (snd e))) (joint vs nums sel).
Proof.
  unfold joint. induction vs as [|v vs IH]; cbn; auto. rewrite map_app, <- IH, map_map. auto.
Qed.
Lemma flat_some {A} (l : list A) d (ns : list nat) {B} (f : nat -> A -> B) : (forall n, In n ns -> n < length l) ->
  flat_map (fun n => match nth_error l n with Some x => [f n x] | None => [] end) ns = map (fun n => f n (nth n l d)) ns.
Proof.
  intros H. induction ns as [|n ns IH]; cbn; auto. rewrite IH by (intros; apply H; right; auto).
  destruct (nth_error l n) as [x|] eqn:E.
  - rewrite (nth_error_nth l n d E). auto.
  - apply nth_error_None in E. specialize (H n (or_introl eq_refl)). lia.
Qed.

Section Boards.
Context {pt : Type}.
Variables (nc nb : nat) (ins : list (insertion pt)) (t : tables pt).
Hypothesis AD : after_detection nc nb ins t.
Variable bp : nat -> pose.
Let d : bobs pt := mkObs 0 0 0 [] [] false.
Let obs := mvals (t_obs t).
Definition view_nums (k : Z * Z) : list nat := match mfind k (t_camobs t) with Some co => mvals (co_obs co) | None => [] end.

Lemma view_nums_In c f n : In n (view_nums (c, f)) <-> exists o, obs_at t n o /\ o_cam o = c /\ o_frame o = f.
Proof.
  assert (LU := ad_linked nc nb ins t AD). unfold view_nums. destruct (mfind (c, f) (t_camobs t)) as [co|] eqn:E.
  - rewrite (lu_list _ LU c f co n E). reflexivity.
  - split; [intros []|]. intros (o & H & E1 & E2). assert (K : In (c, f) (mkeys (t_camobs t))) by (apply (lu_keys _ LU); eauto).
    apply mfind_Some_key in K as (v & K). congruence.
Qed.
Lemma view_nums_NoDup k : NoDup (view_nums k).
Proof.
  assert (LU := ad_linked nc nb ins t AD). unfold view_nums. destruct (mfind k (t_camobs t)) as [co|] eqn:E; [|constructor].
  eapply lu_nodup; eauto.
Qed.
Lemma boards_pairs a b : exists L : list ((Z * Z) * (nat * nat)), NoDup L /\
  (forall c f n m, In ((c, f), (n, m)) L <-> exists x y, obs_at t n x /\ obs_at t m y /\ o_board x = a /\ o_board y = b /\
     o_cam x = c /\ o_cam y = c /\ o_frame x = f /\ o_frame y = f) /\
  mfind (a, b) (computeBoardsPairPose (board_views t bp)) =
    if Z.eqb a b then None else as_vector (map (fun e => pmul (pinv (bp (snd (snd e)))) (bp (fst (snd e)))) L).
Proof.
  assert (LU := ad_linked nc nb ins t AD).
  set (sel := fun n m => Z.eqb (o_board (nth n obs d)) a && (Z.eqb (o_board (nth m obs d)) b && true)).
  exists (joint (mkeys (t_camobs t)) view_nums sel). split; [|split].
  - apply joint_NoDup; [apply msorted_NoDup, LU|apply view_nums_NoDup].
  - intros c f n m. rewrite joint_In, !view_nums_In. unfold sel. split.
    + intros (_ & (x & Hx & Cx & Fx) & (y & Hy & Cy & Fy) & S). apply andb_prop in S as (S1 & S2). apply andb_prop in S2 as (S2 & _).
      unfold obs_at in *. fold obs in Hx, Hy. rewrite (nth_error_nth obs n d Hx) in S1. rewrite (nth_error_nth obs m d Hy) in S2.
      apply Z.eqb_eq in S1, S2. eauto 12.
    + intros (x & y & Hx & Hy & A & B & Cx & Cy & Fx & Fy). split; [apply (lu_keys _ LU); exists n, x; auto|].
      split; [eauto|]. split; [eauto|]. unfold obs_at in *. fold obs in Hx, Hy. rewrite (nth_error_nth obs n d Hx), (nth_error_nth obs m d Hy), A, B, !Z.eqb_refl. auto.
  - rewrite boards_table. destruct (Z.eqb a b); auto. f_equal. rewrite together_matches. unfold board_views.
    rewrite <- (joint_map (mkeys (t_camobs t)) view_nums sel (fun _ n m => pmul (pinv (bp m)) (bp n))).
    unfold mkeys. rewrite !flat_map_map. apply flat_map_ext'. intros [k co] Hin. cbn [fst snd].
    assert (Hk : mfind k (t_camobs t) = Some co) by (apply In_mfind; auto; apply LU).
    unfold view_nums. rewrite Hk. unfold view_of. fold obs.
    rewrite (flat_some obs d (mvals (co_obs co)) (fun n o => (o_board o, bp n))).
    + rewrite (matches_joint fst (fun _ _ => true) _ a b (fun n => (o_board (nth n obs d), bp n))). reflexivity.
    + intros n Hn. apply nth_error_Some. destruct k as [c f]. apply (lu_list _ LU c f co n Hk) in Hn as (o & Ho & _). fold obs in Ho. congruence.
Qed.
End Boards.

Section Cams.
Context {pt : Type}.
Variables (nc nb : nat) (ins : list (insertion pt)) (t : tables pt).
Hypothesis AD : after_detection nc nb ins t.
Hypothesis Hp : paired t.
Variables (bpts : Z -> list vec3) (bss : list (list (Z * pose))) (ol : list obj3d).
Hypothesis OK : objects_ok bpts bss ol.
Variable ot : otables pt.
Hypothesis Eot : initAll3DObjectObs t (dense ol) empty_otables = Some ot.
Variable op : nat -> pose.
Let all := ot_all ot.
Let d : objobs pt := mkOO 0 0 0 [] [] [] [].
Lemma cams_pairs a b : exists L : list (Z * (nat * nat)), NoDup L /\
  (forall f n m, In (f, (n, m)) L <-> exists x y, nth_error all n = Some x /\ nth_error all m = Some y /\ oo_cam x = a /\ oo_cam y = b /\
     oo_obj x = oo_obj y /\ oo_frame x = f /\ oo_frame y = f) /\
  mfind (a, b) (computeCamerasPairPose (cam_frames t ot op)) =
    if Z.eqb a b then None else as_vector (map (fun e => pmul (op (snd (snd e))) (pinv (op (fst (snd e))))) L).
Proof.
  set (g := fun n => ((oo_cam (nth n all d), oo_obj (nth n all d)), op n)).
  set (sel := fun n m => Z.eqb (ckey (g n)) a && (Z.eqb (ckey (g m)) b && same_obj (g n) (g m))).
  set (nums := fun f => where_ (fun oo => Z.eqb (oo_frame oo) f) all).
  exists (joint (mkeys (t_frames t)) nums sel). split; [|split].
  - apply joint_NoDup; [apply msorted_NoDup; eapply frames_sorted; eauto|intros; apply where_NoDup].
  - intros f n m. rewrite joint_In. unfold nums. rewrite !where_In. unfold sel, g, ckey, same_obj, cobj. cbn [fst snd]. split.
    + intros (_ & (x & Hx & Fx) & (y & Hy & Fy) & S). apply andb_prop in S as (S1 & S2). apply andb_prop in S2 as (S2 & S3).
      rewrite (nth_error_nth all n d Hx) in *. rewrite (nth_error_nth all m d Hy) in *.
      apply Z.eqb_eq in S1, S2, S3, Fx, Fy. exists x, y. auto 12.
    + intros (x & y & Hx & Hy & A & B & C & Fx & Fy). split.
      { rewrite <- Fx. eapply oo_frame_known; eauto. eapply nth_error_In; eauto. }
      split; [exists x; split; auto; apply Z.eqb_eq; auto|]. split; [exists y; split; auto; apply Z.eqb_eq; auto|].
      rewrite (nth_error_nth all n d Hx), (nth_error_nth all m d Hy), A, B, C, !Z.eqb_refl. auto.
  - rewrite cameras_table by (eapply cams_gated; eauto). destruct (Z.eqb a b); auto. f_equal. unfold cam_together, cam_frames.
    rewrite <- (joint_map (mkeys (t_frames t)) nums sel (fun _ n m => pmul (op m) (pinv (op n)))).
    unfold mkeys. rewrite !flat_map_map. apply flat_map_ext'. intros [f r] Hin. cbn [fst snd].
    assert (OG : otables_ok ot) by (eapply ot_good; eauto). rewrite (ot_ok_frames _ OG). fold all.
    change (fun oo : objobs pt => Z.eqb (oo_frame oo) f) with (fun oo : objobs pt => Z.eqb (oo_frame oo) f).
    rewrite (flat_some all d _ (fun n oo => ((oo_cam oo, oo_obj oo), op n))).
    + rewrite (matches_joint ckey same_obj crel a b g). reflexivity.
    + intros n Hn. apply where_In in Hn as (x & Hx & _). apply nth_error_Some. congruence.
Qed.
End Cams.

Section Objs.
Context {pt : Type}.
Variable ot : otables pt.
Let all := ot_all ot.
Let d : objobs pt := mkOO 0 0 0 [] [] [] [].
Variables (gl : list cgroup) (frames : list Z) (gt : gtables).
Hypothesis GT : gtables_ok all frames gl gt.
Hypothesis Fr : forall oo, In oo all -> In (oo_frame oo) frames.
Variable gp : Z * Z -> Z -> pose.
Definition gnums (k : Z * Z) : list nat := match mfind k (gt_obs gt) with Some go => go_nums go | None => [] end.
Lemma gnums_In gi f n : In n (gnums (gi, f)) <-> exists i G oo, gi = Z.of_nat i /\ nth_error gl i = Some G /\ nth_error all n = Some oo /\
  oo_frame oo = f /\ In (oo_cam oo) (cg_cams G).
Proof.
  unfold gnums. destruct (mfind (gi, f) (gt_obs gt)) as [go|] eqn:E.
  - assert (K : In (gi, f) (mkeys (gt_obs gt))) by (apply mfind_Some_key; eauto).
    apply (gto_keys _ _ _ _ GT) in K as (i & G & -> & HG & _).
    destruct (gto_obs _ _ _ _ GT i f G go HG E) as (_ & -> & _). rewrite where_In. split.
    + intros (x & Hx & S). apply seen_by_iff in S as (S1 & S2). exists i, G, x. auto.
    + intros (i' & G' & x & Ei & HG' & Hx & Fx & Cx). apply Nat2Z.inj in Ei. subst i'. assert (G' = G) by congruence. subst.
      exists x. split; auto. apply seen_by_iff. auto.
  - split; [intros []|]. intros (i & G & x & -> & HG & Hx & Fx & Cx).
    assert (K : In (Z.of_nat i, f) (mkeys (gt_obs gt))).
    { apply (gto_keys _ _ _ _ GT). exists i, G. split; [auto|]. split; [auto|]. apply nth_error_In in Hx. split; [subst; auto|].
      exists x. split; auto. apply seen_by_iff. auto. }
    apply mfind_Some_key in K as (v & K). congruence.
Qed.
Lemma gnums_NoDup k : NoDup (gnums k).
Proof.
  unfold gnums. destruct (mfind k (gt_obs gt)) as [go|] eqn:E; [|constructor]. destruct k as [gi f].
  assert (K : In (gi, f) (mkeys (gt_obs gt))) by (apply mfind_Some_key; eauto).
  apply (gto_keys _ _ _ _ GT) in K as (i & G & -> & HG & _).
  destruct (gto_obs _ _ _ _ GT i f G go HG E) as (_ & -> & _). apply where_NoDup.
Qed.
Lemma objs_pairs a b : exists L : list ((Z * Z) * (nat * nat)), NoDup L /\
  (forall gi f n m, In ((gi, f), (n, m)) L <-> exists i G x y, gi = Z.of_nat i /\ nth_error gl i = Some G /\
     nth_error all n = Some x /\ nth_error all m = Some y /\ oo_obj x = a /\ oo_obj y = b /\
     oo_frame x = f /\ oo_frame y = f /\ In (oo_cam x) (cg_cams G) /\ In (oo_cam y) (cg_cams G)) /\
  mfind (a, b) (computeObjectsPairPose (group_views ot gt gp)) =
    if Z.eqb a b then None else as_vector (map (fun e => pmul (pinv (gp (fst e) b)) (gp (fst e) a)) L).
Proof.
  set (sel := fun n m => Z.eqb (oo_obj (nth n all d)) a && (Z.eqb (oo_obj (nth m all d)) b && true)).
  exists (joint (mkeys (gt_obs gt)) gnums sel). split; [|split].
  - apply joint_NoDup; [apply msorted_NoDup, GT|apply gnums_NoDup].
  - intros gi f n m. rewrite joint_In, !gnums_In. unfold sel. split.
    + intros (_ & (i & G & x & -> & HG & Hx & Fx & Cx) & (i' & G' & y & Ei & HG' & Hy & Fy & Cy) & S). apply andb_prop in S as (S1 & S2). apply andb_prop in S2 as (S2 & _).
      apply Nat2Z.inj in Ei. subst i'. assert (G' = G) by congruence. subst.
      rewrite (nth_error_nth all n d Hx) in S1. rewrite (nth_error_nth all m d Hy) in S2. apply Z.eqb_eq in S1, S2. exists i, G, x, y. auto 12.
    + intros (i & G & x & y & -> & HG & Hx & Hy & A & B & Fx & Fy & Cx & Cy). split.
      { assert (I : In n (gnums (Z.of_nat i, f))) by (apply gnums_In; eauto 12). unfold gnums in I.
        destruct (mfind (Z.of_nat i, f) (gt_obs gt)) eqn:E; [|destruct I]. apply mfind_Some_key. eauto. }
      split; [eauto 12|]. split; [eauto 12|]. rewrite (nth_error_nth all n d Hx), (nth_error_nth all m d Hy), A, B, !Z.eqb_refl. auto.
  - rewrite objects_table by (apply (views_ogated ot gl frames gt GT)). destruct (Z.eqb a b); auto. f_equal. unfold obj_together, group_views.
    transitivity (map (fun e => orel (gp (fst e)) (oo_obj (nth (fst (snd e)) all d)) (oo_obj (nth (snd (snd e)) all d))) (joint (mkeys (gt_obs gt)) gnums sel)).
    + rewrite <- (joint_map (mkeys (gt_obs gt)) gnums sel (fun k n m => orel (gp k) (oo_obj (nth n all d)) (oo_obj (nth m all d)))).
      unfold mkeys. rewrite !flat_map_map. apply flat_map_ext'. intros [k go] Hin. cbn [fst snd].
      assert (Hk : mfind k (gt_obs gt) = Some go) by (apply In_mfind; auto; apply GT).
      unfold gnums at 1. rewrite Hk. fold all. rewrite (flat_some all d _ (fun _ oo => oo_obj oo)).
      * rewrite (matches_joint (fun o => o) (fun _ _ => true) (orel (gp k)) a b (fun n => oo_obj (nth n all d))). reflexivity.
      * intros n Hn. assert (I : In n (gnums k)) by (unfold gnums; rewrite Hk; auto). destruct k as [gi f].
        apply gnums_In in I as (_ & _ & x & _ & _ & Hx & _). apply nth_error_Some. congruence.
    + apply map_ext_in. intros [k [n m]] I. apply joint_In in I as (_ & _ & _ & S). unfold sel in S. apply andb_prop in S as (S1 & S2).
      apply andb_prop in S2 as (S2 & _). apply Z.eqb_eq in S1, S2. cbn [fst snd]. rewrite S1, S2. reflexivity.
Qed.
End Objs.
