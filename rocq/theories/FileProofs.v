(** Proofs about the result files. *)
From Coq Require Import List ZArith QArith Lia Reals Lra Permutation Sorted.
From Verif Require Import SMap GraphModel GraphSpec DataModel DataSpec DataProofs DetectModel DetectSpec DetectProofs RansacModel RansacSpec RansacProofs
  GeomModel GeomSpec GeomProofs ChainModel ChainSpec ChainProofs
  ObjectsModel ObjectsSpec ObjectsProofs ObjectsSave ObjectsBuild ObjectsMerge ObjectsObs
  GroupModel GroupSpec GroupProofs GroupMerge GroupObs StageModel StageSpec StageProofs StageMain StageCams StageMerge
  PipelineModel PipelineSpec PipelineProofs ObjectsMain EstimateAll CameraModel ResidualModel ResidualSpec ResidualProofs ResidualMain ResidualGroup ResidualSolve
  ResidualAvg FileModel FileSpec.
Import ListNotations.
Close Scope Q_scope.
Close Scope R_scope.
Open Scope nat_scope.

(** ** frames_ of the groups *)
Lemma gframes_init {pt} (ot : otables pt) : otables_ok ot -> forall frames (groups : smap Z cgroup) t0 gi f,
  In f (ptable gi (gt_gframes (initAllCameraGroupObs ot frames groups t0))) ->
  In f (ptable gi (gt_gframes t0)) \/ exists e, In e groups /\ cg_id (snd e) = gi /\ exists oo, In oo (ot_all ot) /\ seen_by (snd e) f oo = true.
Proof.
  intros OT frames groups. induction groups as [|(k, G) groups IH]; intros t0 gi f H; [left; auto|].
  cbn [initAllCameraGroupObs fold_left] in H. apply IH in H as [H|(e & He & R)]; [|right; exists e; split; [right; auto|auto]].
  assert (Q : In f (ptable gi (gt_gframes t0)) \/ (cg_id G = gi /\ exists oo, In oo (ot_all ot) /\ seen_by G f oo = true)).
  { clear IH. unfold initCameraGroupObs in H. revert t0 H. induction frames as [|f' frames IH]; intros t0 H; [left; auto|].
    cbn [fold_left] in H. apply IH in H as [H|H]; [|right; auto]. rewrite (step_eq ot OT) in H. cbv zeta in H.
    destruct (nonempty (ot_all ot) (G, f')) eqn:NE; cbn [gt_gframes] in H; [|left; auto].
    rewrite ptable_mset in H. destruct (key_dec gi (cg_id G)) as [->|N]; [|left; auto].
    apply in_app_or in H as [H|[<-|[]]]; [left; auto|right]. split; [auto|]. apply nonempty_iff. auto. }
  destruct Q as [Q|(Q1 & Q2)]; [left; auto|right]. exists (k, G). split; [left; auto|]. auto.
Qed.
Lemma sees_cams_in {pt} (t : tables pt) G G' f : cg_cams G = cg_cams G' -> sees_in t G f -> sees_in t G' f.
Proof. unfold sees_in. intros ->. auto. Qed.
Lemma seen_sees {pt} bpts (t : tables pt) bss ol css gl s G f : calib_ok bpts t bss ol css gl s ->
  ((exists oo, In oo (ot_all (ca_oobs s)) /\ seen_by G f oo = true) <-> sees_in t G f).
Proof.
  intros CO. split.
  - intros (oo & Hoo & S). apply seen_by_iff in S as (F & C). destruct (co_obs _ _ _ _ _ _ _ CO oo Hoo) as (i & o & _ & _ & Ga).
    destruct (ga_content _ _ _ Ga) as (bs & Fb & _ & Hp & _).
    assert (X : exists b, In b bs /\ o_pts b <> []).
    { assert (NE := ga_nonempty _ _ _ Ga). rewrite Hp in NE. clear -NE. induction bs as [|b bs IH]; [exfalso; auto|].
      cbn [flat_map] in NE. destruct (o_pts b) as [|x l] eqn:E; [|exists b; split; [left; auto|congruence]].
      destruct (IH NE) as (b' & H1 & H2). exists b'. split; [right; auto|auto]. }
    destruct X as (b & Hb & NE). 
    assert (N : exists n, In n (oo_bobs oo) /\ nth_error (mvals (t_obs t)) n = Some b).
    { clear -Fb Hb. induction Fb as [|n b' ns l H F IH]; [destruct Hb|]. destruct Hb as [->|Hb]; [exists n; split; [left; auto|auto]|].
      destruct (IH Hb) as (n' & H1 & H2). exists n'. split; [right; auto|auto]. }
    destruct N as (n & Hn & E). destruct (proj1 (ga_bobs _ _ _ Ga n) Hn) as (b' & E' & Ec & Ef & _). assert (b' = b) by congruence. subst b'.
    exists n, b. split; [auto|]. split; [auto|]. split; congruence.
  - intros (n & b & Hn & NE & C & F). destruct (co_cover _ _ _ _ _ _ _ CO n b Hn NE) as (_ & oo & Hoo & Hin).
    destruct (co_obs _ _ _ _ _ _ _ CO oo Hoo) as (i & o & _ & _ & Ga). destruct (proj1 (ga_bobs _ _ _ Ga n) Hin) as (b' & E' & Ec & Ef & _).
    unfold obs_at in Hn. assert (b' = b) by congruence. subst b'. exists oo. split; [auto|]. apply seen_by_iff. split; congruence.
Qed.

Section R.
Context {pt : Type}.
Variables (svd : (nat -> nat -> R) -> quat) (lr : mat3 -> vec3) (uq : bool) (pick : dstate -> nat) (g0 : graph).
Hypothesis Hh : good_heap pick.
Variables (bpts : Z -> list vec3) (nc nb : nat) (ins : list (insertion pt)) (t : tables pt).
Hypothesis AD : after_detection nc nb ins t.
Hypothesis Hp : paired t.
Lemma gframes_sound s : reached svd lr uq pick g0 bpts t s -> forall gi f, In f (ptable gi (gt_gframes (ca_gobs s))) ->
  exists e, In e (ca_groups s) /\ cg_id (snd e) = gi /\ sees_in t (snd e) f.
Proof.
  induction 1 as [bp rf op rf' rg s s' K K' KG E0 E1|gp rf rg s s' K KG Rd IH E|prs s s' Rd IH U E|rf rg s K KG Rd IH]; intros gi f H.
  - assert (Rd := rd_start svd lr uq pick g0 bpts t bp rf op rf' rg s s' K K' KG E0 E1).
    destruct (reached_ok svd lr uq pick g0 Hh bpts nc nb ins t AD Hp s' Rd) as (bss & ol & css & gl & CO).
    unfold calibrateCameraGroup in E1. destruct (cameras_stage _ _ _ _ _ _ _ _) as [gs|] eqn:Ec; [|discriminate E1]. injection E1 as E1.
    assert (EA : ca_oobs s' = ca_oobs s) by (rewrite <- E1; auto). assert (EG : ca_groups s' = refine_groups rg gs) by (rewrite <- E1; auto).
    assert (EB : ca_gobs s' = initAllCameraGroupObs (ca_oobs s) (mkeys (t_frames t)) gs (ca_gobs s)) by (rewrite <- E1; auto).
    assert (EE : ca_gobs s = empty_gtables).
    { unfold calibrate3DObjects in E0. destruct (objects_stage _ _ _ _ _ _ _ _); [|discriminate E0]. destruct (initAll3DObjectObs _ _ _); [|discriminate E0]. injection E0 as <-. auto. }
    rewrite EB, EE in H. apply gframes_init in H as [H|((k, G) & He & Ei & S)]; [destruct H| |rewrite <- EA; apply (co_tables _ _ _ _ _ _ _ CO)].
    rewrite <- EA in S. apply (seen_sees bpts t bss ol css gl s' G f CO) in S.
    exists (k, mkGrp (cg_id G) (cg_ref G) (cg_cams G) (cg_map G) (rg G)). split; [rewrite EG; apply in_map_iff; exists (k, G); auto|]. split; [auto|]. exact S.
  - assert (Rd' := rd_merge svd lr uq pick g0 bpts t gp rf rg s s' K KG Rd E).
    destruct (reached_ok svd lr uq pick g0 Hh bpts nc nb ins t AD Hp s' Rd') as (bss & ol & css & gl & CO).
    unfold merge3DObjects in E. destruct (merge_stage _ _ _ _ _ _ _ _ _ _) as [objs|]; [|discriminate E]. destruct (mergeAllObjectObs t objs) as [ot|]; [|discriminate E].
    injection E as E.
    assert (EA : ca_oobs s' = ot) by (rewrite <- E; auto). assert (EG : ca_groups s' = refine_groups rg (ca_groups s)) by (rewrite <- E; auto).
    assert (EB : ca_gobs s' = mergeAllCameraGroupObs ot (mkeys (t_frames t)) (ca_groups s) (ca_gobs s)) by (rewrite <- E; auto).
    assert (Q : forall k G, In (k, G) (ca_groups s) -> cg_id G = gi -> sees_in t G f -> exists e, In e (ca_groups s') /\ cg_id (snd e) = gi /\ sees_in t (snd e) f).
    { intros k G He Ei S. exists (k, mkGrp (cg_id G) (cg_ref G) (cg_cams G) (cg_map G) (rg G)). split; [rewrite EG; apply in_map_iff; exists (k, G); auto|]. split; [auto|]. exact S. }
    rewrite EB in H. unfold mergeAllCameraGroupObs in H. apply gframes_init in H as [H|((k, G) & He & Ei & S)]; [| |rewrite <- EA; apply (co_tables _ _ _ _ _ _ _ CO)].
    + cbn [gt_gframes] in H. destruct (IH gi f H) as ((k, G) & He & Ei & S). eauto.
    + rewrite <- EA in S. apply (seen_sees bpts t bss ol css gl s' G f CO) in S. eauto.
  - assert (Rd' := rd_groups svd lr uq pick g0 bpts t prs s s' Rd U E).
    destruct (reached_ok svd lr uq pick g0 Hh bpts nc nb ins t AD Hp s' Rd') as (bss & ol & css & gl & CO).
    unfold mergeGroups in E. destruct (mergeCameraGroup _ _ _ _) as [gs|]; [|discriminate E]. injection E as E.
    assert (EA : ca_oobs s' = ca_oobs s) by (rewrite <- E; auto). assert (EG : ca_groups s' = gs) by (rewrite <- E; auto).
    assert (EB : ca_gobs s' = mergeAllCameraGroupObs (ca_oobs s) (mkeys (t_frames t)) gs (mkGT (gt_obs (ca_gobs s)) (gt_frames (ca_gobs s)) [] [])) by (rewrite <- E; auto).
    rewrite EB in H. unfold mergeAllCameraGroupObs in H. apply gframes_init in H as [H|((k, G) & He & Ei & S)]; [destruct H| |rewrite <- EA; apply (co_tables _ _ _ _ _ _ _ CO)].
    rewrite <- EA in S. apply (seen_sees bpts t bss ol css gl s' G f CO) in S. exists (k, G). rewrite EG. auto.
  - cbn [refine_calib ca_gobs] in H. destruct (IH gi f H) as ((k, G) & He & Ei & S).
    exists (k, mkGrp (cg_id G) (cg_ref G) (cg_cams G) (cg_map G) (rg G)). split; [cbn [refine_calib ca_groups]; apply in_map_iff; exists (k, G); auto|]. split; [auto|]. exact S.
Qed.
(** the frames of a group are those in which one of its cameras sees a corner *)
Lemma gframes_exact s : reached svd lr uq pick g0 bpts t s -> forall gi G f, mfind gi (ca_groups s) = Some G ->
  (In f (group_frames (ca_gobs s) (cg_id G)) <-> sees_in t G f).
Proof.
  intros Rd gi G f HG. destruct (reached_ok svd lr uq pick g0 Hh bpts nc nb ins t AD Hp s Rd) as (bss & ol & css & gl & CO).
  rewrite (group_frames_In (fun _ => 0%Z)). rewrite (co_groups _ _ _ _ _ _ _ CO) in HG. apply mfind_In in HG. apply dense_In in HG as (i & -> & HG).
  assert (Ei := gk_ids _ _ (co_groups_ok _ _ _ _ _ _ _ CO) i G HG). split.
  - intros H. destruct (gframes_sound s Rd _ _ H) as ((k, G') & He & Ej & S). cbn [snd] in Ej, S.
    rewrite (co_groups _ _ _ _ _ _ _ CO) in He. apply dense_In in He as (j & -> & HG'). assert (Ek := gk_ids _ _ (co_groups_ok _ _ _ _ _ _ _ CO) j G' HG').
    assert (i = j) by lia. subst j. congruence.
  - intros S. apply (seen_sees bpts t bss ol css gl s G f CO) in S as (oo & Hoo & S). rewrite Ei.
    apply (gto_gframes _ _ _ _ (co_gobs _ _ _ _ _ _ _ CO)). apply (gto_keys _ _ _ _ (co_gobs _ _ _ _ _ _ _ CO)).
    exists i, G. split; [auto|]. split; [auto|]. split; [|eauto]. apply seen_by_iff in S as (F & _). rewrite <- F.
    apply (known_frames nc nb ins t AD (ca_oobs s) ol (co_obs _ _ _ _ _ _ _ CO)). auto.
Qed.
End R.

Lemma group_frames_lt gt g : StronglySorted Z.lt (group_frames gt g).
Proof.
  unfold group_frames.
  assert (G : forall l (m : smap Z unit), msorted m -> msorted (fold_left (fun m f => mset f tt m) l m)).
  { induction l as [|x l IH]; intros m Hm; cbn [fold_left]; auto. apply IH. apply mset_sorted. auto. }
  specialize (G (ptable g (gt_gframes gt)) [] ltac:(constructor)). unfold msorted in G.
  induction G as [|a l S IH F]; constructor; [auto|]. eapply Forall_impl; [|exact F]. intros b Hb. apply Z.compare_lt_iff. exact Hb.
Qed.
(** ** The views of a frame *)
Lemma flat_map_single {A B} (g : A -> list B) k l : NoDup l -> In k l -> (forall k', In k' l -> k' <> k -> g k' = []) -> flat_map g l = g k.
Proof.
  induction 1 as [|a l Ha N IH]; intros Hk H; [destruct Hk|]. cbn [flat_map]. destruct Hk as [->|Hk].
  - assert (Z : flat_map g l = []).
    { clear IH N. induction l as [|b l IH]; auto. cbn [flat_map]. rewrite (H b), IH; [auto|intros Hl; apply Ha; right; auto|intros k' [->|Hk'] Hn; apply H; auto|right; left; auto|intros ->; apply Ha; left; auto].
      - left; auto.
      - right; right; auto. }
    rewrite Z, app_nil_r. auto.
  - rewrite (H a), IH; auto; [intros; apply H; auto; right; auto|left; auto|intros ->; auto].
Qed.
Lemma where_nil {A} (q : A -> bool) l : (forall x, In x l -> q x = false) -> where_ q l = [].
Proof.
  intros H. destruct (where_ q l) as [|n r] eqn:E; auto. exfalso. assert (Hn : In n (where_ q l)) by (rewrite E; left; auto).
  apply where_In in Hn as (x & Hx & Q). apply nth_error_In in Hx. rewrite (H x Hx) in Q. discriminate Q.
Qed.
Lemma where_from_elements {A} (q : A -> bool) (l pre : list A) : map (nth_error (pre ++ l)) (map fst (filter (fun e => q (snd e)) (combine (seq (length pre) (length l)) l))) = map Some (filter q l).
Proof.
  revert pre. induction l as [|a l IH]; intros pre; cbn [length seq combine filter map]; auto.
  specialize (IH (pre ++ [a])). rewrite app_length, Nat.add_1_r, <- app_assoc in IH. cbn [app] in IH. cbn [snd]. destruct (q a); [|auto].
  cbn [map fst]. rewrite IH. f_equal. rewrite nth_error_app2, Nat.sub_diag by auto. auto.
Qed.
Lemma where_elements {A} (q : A -> bool) (l : list A) : map (nth_error l) (where_ q l) = map Some (filter q l).
Proof. apply (where_from_elements q l []). Qed.

(** ** Lists *)
Lemma gather_singles {A B} (f : A -> option (list B)) (P : A -> B -> Prop) l :
  (forall a r, In a l -> (f a = Some r <-> exists c, r = [c] /\ P a c)) -> forall cs, gather f l = Some cs <-> Forall2 P l cs.
Proof.
  unfold gather. induction l as [|a l IH]; intros H cs; cbn [map collect].
  - cbn [option_map concat]. split; [intros [= <-]; constructor|intros F; inversion F; auto].
  - specialize (IH (fun a r Ha => H a r (or_intror Ha))). assert (Ha := fun r => H a r (or_introl eq_refl)). clear H. split.
    + intros E. destruct (f a) as [r|] eqn:Ef; [|discriminate E]. destruct (proj1 (Ha r) eq_refl) as (c & -> & Pc).
      destruct (collect (map f l)) as [rs|] eqn:Er; [|discriminate E]. cbn [option_map concat app] in E. injection E as <-.
      constructor; [auto|]. apply IH. auto.
    + intros F. inversion F as [|? c ? cs' Pc F']; subst. rewrite (proj2 (Ha [c]) ltac:(eauto)). apply IH in F'.
      destruct (collect (map f l)) as [rs|]; [|discriminate F']. cbn [option_map] in F' |- *. injection F' as <-. auto.
Qed.
Lemma Forall2_through {A B C} (f : A -> option B) (Q : B -> C -> Prop) : forall W F cs, map f W = map Some F ->
  (Forall2 (fun n c => exists x, f n = Some x /\ Q x c) W cs <-> Forall2 Q F cs).
Proof.
  induction W as [|n W IH]; intros [|x F] cs E; try discriminate E; [split; intros H; inversion H; constructor|].
  cbn [map] in E. injection E as E1 E2. split; intros H; inversion H as [|? c ? cs' H1 H2]; subst; constructor.
  - destruct H1 as (y & Hy & Hq). congruence.
  - apply (IH F cs' E2). auto.
  - eauto.
  - apply (IH F cs' E2). auto.
Qed.
Lemma Forall2_map_l {A A' B} (g : A -> A') (P : A' -> B -> Prop) l cs : Forall2 P (map g l) cs <-> Forall2 (fun a c => P (g a) c) l cs.
Proof. split; [revert cs; induction l; intros cs H; inversion H; constructor; auto|induction 1; cbn; constructor; auto]. Qed.
Lemma Forall2_ext {A B} (P Q : A -> B -> Prop) l cs : (forall a c, In a l -> (P a c <-> Q a c)) -> (Forall2 P l cs <-> Forall2 Q l cs).
Proof.
  intros H. split; intros F; induction F as [|a c l cs Pa F IH]; constructor.
  - apply H; [left|]; auto.
  - apply IH. intros; apply H; right; auto.
  - apply H; [left|]; auto.
  - apply IH. intros; apply H; right; auto.
Qed.

Section V.
Variables (bpts : Z -> list vec3) (t : tables pt2) (cams : Z -> Z) (p : params).
Variables (bss : list (list (Z * pose))) (ol : list obj3d) (css : list (list (Z * pose))) (gl : list cgroup) (s : calib pt2).
Hypothesis CO : calib_ok bpts t bss ol css gl s.
Hypothesis TR : forall o, In o (mvals (t_obs t)) -> trimmed bpts o.
Hypothesis FR : forall oo, In oo (ot_all (ca_oobs s)) -> In (oo_frame oo) (mkeys (t_frames t)).
Notation all := (ot_all (ca_oobs s)).

Lemma frame_views_eq G f : In G gl -> frame_views s G f = map (pair (cg_id G, f)) (where_ (seen_by G f) all).
Proof.
  intros HG. destruct CO as [E1 OK OT Ob Cov E2 GK GT NU CA KE]. apply In_nth_error in HG as (i & HG). assert (Ei := gk_ids _ _ GK i G HG).
  unfold frame_views.
  assert (Other : forall k, In k (ptable f (gt_frames (ca_gobs s))) -> k <> (cg_id G, f) ->
    match mfind k (gt_obs (ca_gobs s)) with
    | Some go => if Z.eqb (cg_id G) (go_group go) then map (fun n => (k, n)) (go_nums go) else []
    | None => [] end = []).
  { intros (g, f') Hk Nk. apply (gto_frames _ _ _ _ GT) in Hk as (Ef & Hk). cbn in Ef. subst f'. destruct (mfind (g, f) (gt_obs (ca_gobs s))) as [go|] eqn:E; [|auto].
    apply (gto_keys _ _ _ _ GT) in Hk as (j & G' & -> & HG' & _). destruct (gto_obs _ _ _ _ GT j f G' go HG' E) as (Eg & _).
    destruct (Z.eqb_spec (cg_id G) (go_group go)) as [Eq|]; [|auto]. exfalso. apply Nk. congruence. }
  destruct (mfind (cg_id G, f) (gt_obs (ca_gobs s))) as [go|] eqn:E.
  - assert (K : In (cg_id G, f) (mkeys (gt_obs (ca_gobs s)))) by (apply mfind_Some_key; eauto).
    rewrite (flat_map_single _ (cg_id G, f)); [|apply (gto_frames_once _ _ _ _ GT)|apply (gto_frames _ _ _ _ GT); auto|auto].
    rewrite E. rewrite Ei in E. destruct (gto_obs _ _ _ _ GT i f G go HG E) as (Eg & En & _). rewrite Eg, Ei, Z.eqb_refl, En. auto.
  - rewrite where_nil.
    + cbn [map]. destruct (flat_map _ _) as [|x l] eqn:F; auto. exfalso. assert (Hx : In x (x :: l)) by (left; auto). rewrite <- F in Hx.
      apply in_flat_map in Hx as (k & Hk & Hx). destruct (key_dec k (cg_id G, f)) as [->|N]; [rewrite E in Hx; destruct Hx|]. rewrite (Other k Hk N) in Hx. destruct Hx.
    + intros oo Hoo. destruct (seen_by G f oo) eqn:S; auto. exfalso.
      assert (K : In (cg_id G, f) (mkeys (gt_obs (ca_gobs s)))).
      { rewrite Ei. apply (gto_keys _ _ _ _ GT). exists i, G. split; [auto|]. split; [auto|]. split; [|eauto]. apply seen_by_iff in S as (F & _). rewrite <- F. auto. }
      apply mfind_Some_key in K as (go & K). congruence.
Qed.

(** the entries of one view *)
Lemma view_errors_spec G n oo f r : In G gl -> nth_error all n = Some oo -> seen_by G f oo = true ->
  (view_errors cams p s G ((cg_id G, f), n) = Some r <-> exists ce, r = [ce] /\ proper_errors cams p s G oo ce).
Proof.
  intros HG Hn S. apply seen_by_iff in S as (F & C). subst f.
  assert (Hoo := nth_error_In _ _ Hn). destruct (co_obs _ _ _ _ _ _ _ CO oo Hoo) as (i & o & Ho & Eo & Ga).
  destruct (view_ok bpts t bss ol css gl s CO TR n oo Hn) as (o' & bs & VD & _ & Ho2 & _ & W & _ & _ & L & Rg).
  assert (HM : mfind (oo_obj oo) (ca_objs s) = Some o').
  { unfold view_data in VD. rewrite Hn in VD. destruct (mfind (oo_obj oo) (ca_objs s)) as [o2|]; [|discriminate VD]. injection VD as ->. auto. }
  unfold view_errors. cbn [fst snd]. rewrite VD.
  assert (POS : Forall (fun z => (0 <= z)%Z) (oo_ids oo)) by (eapply Forall_impl; [|exact Rg]; cbn; intros; lia).
  split.
  - intros E. destruct (reprojected cams p G (cg_id G, oo_frame oo) oo o') as [rp|] eqn:Er; [|discriminate E].
    apply (reprojected_spec cams p G oo o' rp POS) in Er as (Lr & Hr).
    rewrite distances_eq0 in E by congruence. cbn [option_map] in E. injection E as <-.
    eexists. split; [reflexivity|]. split; [auto|]. split; [auto|]. exists o', rp. split; [auto|]. split; [congruence|]. split; [auto|]. auto.
  - intros (ce & -> & E1 & E2 & o2 & rp & H1 & H2 & H3 & H4). assert (o2 = o') by congruence. subst o2.
    assert (Er : reprojected cams p G (cg_id G, oo_frame oo) oo o' = Some rp) by (apply (reprojected_spec cams p G oo o' rp POS); split; [congruence|auto]).
    rewrite Er, distances_eq0 by auto. cbn [option_map]. destruct ce as [c nbp es]. cbn in *. subst. rewrite L. auto.
Qed.

Lemma write_frame_spec G f fe : In G gl -> (write_frame cams p s G f = Some fe <->
  fe_frame fe = f /\ fe_list fe = map ce_cam (fe_cams fe) /\ Forall2 (proper_errors cams p s G) (filter (seen_by G f) all) (fe_cams fe)).
Proof.
  intros HG. unfold write_frame. rewrite frame_views_eq by auto.
  assert (K : forall cs, gather (view_errors cams p s G) (map (pair (cg_id G, f)) (where_ (seen_by G f) all)) = Some cs <->
    Forall2 (proper_errors cams p s G) (filter (seen_by G f) all) cs).
  { intros cs. rewrite (gather_singles _ (fun kn ce => exists oo, nth_error all (snd kn) = Some oo /\ proper_errors cams p s G oo ce)).
    - rewrite Forall2_map_l. cbn [snd]. apply Forall2_through. apply where_elements.
    - intros (k, n) r H. apply in_map_iff in H as (n' & E & H). injection E as <- <-. apply where_In in H as (oo & Hoo & S). cbn [snd].
      rewrite (view_errors_spec G n' oo f r HG Hoo S). split.
      + intros (ce & -> & P). exists ce. split; [auto|]. exists oo. auto.
      + intros (ce & -> & oo' & E' & P). exists ce. split; [auto|]. congruence. }
  split.
  - intros E. destruct (gather _ _) as [cs|] eqn:Eg; [|discriminate E]. cbn [option_map] in E. injection E as <-. cbn [fe_frame fe_list fe_cams].
    split; [auto|]. split; [auto|]. apply K. auto.
  - intros (E1 & E2 & F). apply K in F. rewrite F. cbn [option_map]. destruct fe as [a b c]. cbn in *. subst. auto.
Qed.

(** the groups written, given their frames *)
Fixpoint written (fl : list Z) (gfs : list (cgroup * list frame_errors)) : list group_errors :=
  match gfs with
  | [] => []
  | (G, fs) :: r => mkGE (cg_id G) fs (fl ++ map fe_frame fs) :: written (fl ++ map fe_frame fs) r
  end.
Lemma write_groups l : forall out fl,
  fold_left (write_group cams p s) l (Some (out, fl)) =
  option_map (fun fss => (out ++ written fl (combine (map snd l) fss), fl ++ concat (map (map fe_frame) fss)))
             (collect (map (fun e => collect (map (write_frame cams p s (snd e)) (group_frames (ca_gobs s) (cg_id (snd e))))) l)).
Proof.
  induction l as [|(k, G) l IH]; intros out fl; cbn [fold_left map collect].
  - cbn. rewrite !app_nil_r. auto.
  - cbn [write_group snd]. destruct (collect (map (write_frame cams p s G) (group_frames (ca_gobs s) (cg_id G)))) as [fs|]; cbn [option_map].
    + rewrite IH. destruct (collect _) as [fss|]; cbn [option_map combine written map concat]; [|auto]. rewrite <- !app_assoc. auto.
    + clear IH. induction l as [|e l IH]; cbn [fold_left write_group]; auto.
Qed.
Lemma written_nth gfs : forall fl i ge, nth_error (written fl gfs) i = Some ge <->
  exists G fs, nth_error gfs i = Some (G, fs) /\ ge = mkGE (cg_id G) fs (fl ++ concat (map (fun e => map fe_frame (snd e)) (firstn (S i) gfs))).
Proof.
  induction gfs as [|(G, fs) gfs IH]; intros fl i ge.
  - cbn [written]. split; [destruct i; intros H; discriminate H|intros (G & fs & H & _); destruct i; discriminate H].
  - destruct i as [|i].
    + cbn. rewrite app_nil_r. split; [intros [= <-]; eauto|intros (G' & fs' & [= <- <-] & ->); auto].
    + cbn [written nth_error]. rewrite IH. split; intros (G' & fs' & H & ->); exists G', fs'; (split; [auto|]);
        cbn [firstn map snd concat]; rewrite <- ?app_assoc; auto.
Qed.
Lemma written_length fl gfs : length (written fl gfs) = length gfs.
Proof. revert fl. induction gfs as [|(G, fs) gfs IH]; intros fl; cbn; auto. Qed.
Lemma written_frames gfs : forall fl, map ge_frames (written fl gfs) = map snd gfs.
Proof. induction gfs as [|(G, fs) gfs IH]; intros fl; cbn; [auto|rewrite IH; auto]. Qed.
End V.
