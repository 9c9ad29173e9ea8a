(** Pair tables of cameras and objects; noise-free chains. *)
From Coq Require Import List ZArith QArith Lia Reals Lra Permutation Relations.
From Verif Require Import SMap GraphModel GraphSpec GraphInv GraphComp GraphDijkstra GraphPath
  DetectModel DetectProofs GeomModel GeomSpec GeomProofs GeomQuat GeomMedian ChainModel ChainSpec ChainProofs.
Import ListNotations.
Close Scope Q_scope.
Close Scope R_scope.
Open Scope nat_scope.

Section PairLoop.
  Context {A : Type} (key : A -> Z) (ok : A -> A -> bool) (val : A -> A -> pose).
  Definition pair_loop (l : list A) : list ((Z * Z) * pose) :=
    flat_map (fun x => flat_map (fun y =>
      if Z.eqb (key x) (key y) then [] else if ok x y then [((key x, key y), val x y)] else []) l) l.
  Definition having (a : Z) (l : list A) : list A := filter (fun x => Z.eqb (key x) a) l.
  Definition matches (a b : Z) (l : list A) : list pose :=
    flat_map (fun x => map (val x) (filter (ok x) (having b l))) (having a l).
  Lemma pair_loop_entries a b l : entries (a, b) (pair_loop l) = if Z.eqb a b then [] else matches a b l.
  Proof.
    unfold pair_loop. rewrite entries_flat.
    rewrite (flat_map_ext' _ (fun x => if Z.eqb (key x) a then
       (if Z.eqb a b then [] else map (val x) (filter (ok x) (having b l))) else [])).
    - rewrite flat_map_filter. destruct (Z.eqb a b); [apply flat_map_nil|]. auto.
    - intros x _. rewrite entries_flat. destruct (Z.eqb_spec (key x) a) as [E|N].
      + destruct (Z.eqb_spec a b) as [E2|N2].
        * rewrite (flat_map_ext' _ (fun _ => [])); [apply flat_map_nil|]. intros y _.
          destruct (Z.eqb_spec (key x) (key y)) as [E3|N3]; auto. destruct (ok x y); auto. unfold entries; cbn [filter fst].
          rewrite keyb_false; auto. congruence.
        * rewrite (flat_map_ext' _ (fun y => if Z.eqb (key y) b then (if ok x y then [val x y] else []) else [])).
          { rewrite flat_map_filter. fold (having b l). rewrite flat_map_filter, flat_map_single. auto. }
          intros y _. destruct (Z.eqb_spec (key y) b) as [E3|N3].
          { destruct (Z.eqb_spec (key x) (key y)); [congruence|]. destruct (ok x y); auto.
            unfold entries; cbn [filter fst]. rewrite E, E3, keyb_refl. auto. }
          { destruct (Z.eqb_spec (key x) (key y)); auto. destruct (ok x y); auto.
            unfold entries; cbn [filter fst]. rewrite keyb_false; auto. congruence. }
      + rewrite (flat_map_ext' _ (fun _ => [])); [apply flat_map_nil|]. intros y _.
        destruct (Z.eqb (key x) (key y)); auto. destruct (ok x y); auto. unfold entries; cbn [filter fst]. rewrite keyb_false; auto. congruence.
  Qed.
  Lemma having_In a l x : In x (having a l) <-> In x l /\ key x = a.
  Proof. unfold having. rewrite filter_In, Z.eqb_eq. tauto. Qed.
  Lemma matches_In a b l p : In p (matches a b l) <->
    exists x y, In x l /\ In y l /\ key x = a /\ key y = b /\ ok x y = true /\ p = val x y.
  Proof.
    unfold matches. rewrite in_flat_map. split.
    - intros (x & Hx & H). apply in_map_iff in H as (y & <- & H). apply filter_In in H as (H & E).
      apply having_In in Hx, H. exists x, y. tauto.
    - intros (x & y & Hx & Hy & E1 & E2 & E3 & ->). exists x. split; [apply having_In; auto|].
      apply in_map. apply filter_In. split; auto. apply having_In; auto.
  Qed.
  (** the same pairs, the other way round, with inverse values *)
  Lemma matches_inverse (inv : pose -> pose) a b l :
    (forall x y, ok x y = ok y x) ->
    (forall x y, In x l -> In y l -> ok x y = true -> inv (val x y) = val y x) ->
    Permutation (map inv (matches a b l)) (matches b a l).
  Proof.
    intros S V. unfold matches.
    rewrite flat_map_concat_map, concat_map, map_map, <- flat_map_concat_map.
    assert (E : forall la lb, (forall x, In x la -> In x l) -> (forall x, In x lb -> In x l) ->
      Permutation (flat_map (fun x => map inv (map (val x) (filter (ok x) lb))) la)
                  (flat_map (fun y => map (val y) (filter (ok y) la)) lb)).
    { induction la as [|x la IH]; intros lb Ha Hb; cbn.
      - rewrite flat_map_nil. auto.
      - eapply perm_trans; [apply Permutation_app_head; apply IH; cbn in Ha; auto|].
        apply Permutation_sym.
        eapply perm_trans; [apply Permutation_flat with (g := fun y => (if ok x y then [val y x] else []) ++ map (val y) (filter (ok y) la))|].
        + intros y Hy. rewrite (S x y). destruct (ok y x); auto.
        + eapply perm_trans; [apply flat_map_app_f|]. apply Permutation_app_tail.
          rewrite flat_map_filter, flat_map_single, map_map.
          erewrite map_ext_in; [apply Permutation_refl|]. intros y Hy. cbn.
          apply filter_In in Hy as (Hy & E). symmetry. apply V; cbn in Ha; auto. }
    apply E; intros x Hx; apply having_In in Hx; tauto.
  Qed.
  Lemma matches_single a b l : a <> b -> length l <= 1 -> matches a b l = [].
  Proof.
    intros N L. destruct (matches a b l) as [|p m] eqn:E; auto. exfalso.
    assert (I : In p (matches a b l)) by (rewrite E; left; auto). apply matches_In in I.
    destruct I as (x & y & Hx & Hy & E1 & E2 & _). destruct l as [|z [|]]; cbn in L; try lia; cbn in Hx, Hy; [contradiction|].
    destruct Hx as [<-|[]], Hy as [<-|[]]. congruence.
  Qed.
End PairLoop.

(** ** Cameras *)
Definition ckey (e : Z * Z * pose) : Z := fst (fst e).
Definition cobj (e : Z * Z * pose) : Z := snd (fst e).
Definition same_obj (e f : Z * Z * pose) : bool := Z.eqb (cobj e) (cobj f).
Definition crel (e f : Z * Z * pose) : pose := rel_cam (snd e) (snd f).
Lemma camera_pairs_loop n fr : camera_pairs_of (n, fr) = if Nat.ltb 1 n then pair_loop ckey same_obj crel fr else [].
Proof.
  unfold camera_pairs_of, pair_loop. cbn [fst snd]. destruct (Nat.ltb 1 n); auto.
  apply flat_map_ext'. intros [[c1 o1] p1] _. apply flat_map_ext'. intros [[c2 o2] p2] _. reflexivity.
Qed.
(** as many object observations as board observations at most *)
Definition gated (frames : list (nat * list (Z * Z * pose))) : Prop := forall n fr, In (n, fr) frames -> length fr <= n.

(** relative poses of cameras a and b: one per frame, object and pair of views of that object *)
Definition cam_together (frames : list (nat * list (Z * Z * pose))) (a b : Z) : list pose :=
  flat_map (fun nf => matches ckey same_obj crel a b (snd nf)) frames.
Lemma cameras_table frames a b : gated frames ->
  mfind (a, b) (computeCamerasPairPose frames) =
  if Z.eqb a b then None else as_vector (cam_together frames a b).
Proof.
  intros G. unfold computeCamerasPairPose. rewrite (proj2 (build_pairs_spec _)), entries_flat.
  rewrite (flat_map_ext' _ (fun nf => if Z.eqb a b then [] else matches ckey same_obj crel a b (snd nf))).
  - destruct (Z.eqb a b); auto. rewrite flat_map_nil. auto.
  - intros [n fr] Hin. rewrite camera_pairs_loop. cbn [snd].
    destruct (Nat.ltb_spec 1 n); [apply pair_loop_entries|].
    destruct (Z.eqb_spec a b); auto. rewrite matches_single; auto. specialize (G _ _ Hin). lia.
Qed.
Lemma cam_together_In frames a b p : In p (cam_together frames a b) <->
  exists n fr o p1 p2, In (n, fr) frames /\ In (a, o, p1) fr /\ In (b, o, p2) fr /\ p = rel_cam p1 p2.
Proof.
  unfold cam_together. rewrite in_flat_map. split.
  - intros ([n fr] & Hin & H). apply matches_In in H as ([[c1 o1] p1] & [[c2 o2] p2] & H1 & H2 & E1 & E2 & E3 & ->).
    unfold same_obj, ckey, cobj in *. cbn in *. apply Z.eqb_eq in E3. subst. unfold crel. cbn. exists n, fr, o2, p1, p2. tauto.
  - intros (n & fr & o & p1 & p2 & Hin & H1 & H2 & ->). exists (n, fr). split; auto.
    apply matches_In. exists (a, o, p1), (b, o, p2). unfold same_obj, ckey, cobj. cbn. rewrite Z.eqb_refl. tauto.
Qed.
Lemma cam_together_inverse frames a b : (forall n fr c o p, In (n, fr) frames -> In (c, o, p) fr -> rigid p) ->
  Permutation (map pinv (cam_together frames a b)) (cam_together frames b a).
Proof.
  intros R. unfold cam_together. rewrite flat_map_concat_map, concat_map, map_map, <- flat_map_concat_map.
  apply Permutation_flat. intros [n fr] Hin. apply matches_inverse.
  - intros x y. unfold same_obj. apply Z.eqb_sym.
  - intros [[c1 o1] p1] [[c2 o2] p2] H1 H2 _. unfold crel. cbn. apply rel_cam_inv; eapply R; eauto.
Qed.

(** ** Objects *)
Definition orel (P : Z -> pose) (o1 o2 : Z) : pose := rel_board (P o1) (P o2).
Lemma object_pairs_loop n ids P : object_pairs_of (n, ids, P) =
  if Nat.ltb 1 n then pair_loop (fun o => o) (fun _ _ => true) (orel P) ids else [].
Proof. reflexivity. Qed.
Definition ogated (gobs : list (nat * list Z * (Z -> pose))) : Prop := forall n ids P, In (n, ids, P) gobs -> n = length ids.
(** one relative pose per group observation and pair of entries *)
Definition obj_together (gobs : list (nat * list Z * (Z -> pose))) (a b : Z) : list pose :=
  flat_map (fun '(_, ids, P) => matches (fun o => o) (fun _ _ => true) (orel P) a b ids) gobs.
Lemma objects_table gobs a b : ogated gobs ->
  mfind (a, b) (computeObjectsPairPose gobs) =
  if Z.eqb a b then None else as_vector (obj_together gobs a b).
Proof.
  intros G. unfold computeObjectsPairPose. rewrite (proj2 (build_pairs_spec _)), entries_flat.
  rewrite (flat_map_ext' _ (fun g => if Z.eqb a b then [] else
     (fun '(_, ids, P) => matches (fun o => o) (fun _ _ => true) (orel P) a b ids) g)).
  - destruct (Z.eqb a b); auto. rewrite flat_map_nil. auto.
  - intros [[n ids] P] Hin. rewrite object_pairs_loop. 
    destruct (Nat.ltb_spec 1 n); [apply pair_loop_entries|].
    destruct (Z.eqb_spec a b); auto. rewrite matches_single; auto. rewrite (G _ _ _ Hin) in *. lia.
Qed.
Lemma obj_together_In gobs a b p : In p (obj_together gobs a b) <->
  exists n ids P, In (n, ids, P) gobs /\ In a ids /\ In b ids /\ p = rel_board (P a) (P b).
Proof.
  unfold obj_together. rewrite in_flat_map. split.
  - intros ([[n ids] P] & Hin & H). apply matches_In in H as (x & y & H1 & H2 & -> & -> & _ & ->). exists n, ids, P. auto.
  - intros (n & ids & P & Hin & H1 & H2 & ->). exists (n, ids, P). split; auto. apply matches_In. exists a, b. auto 8.
Qed.
Lemma obj_together_inverse gobs a b : (forall n ids P o, In (n, ids, P) gobs -> In o ids -> rigid (P o)) ->
  Permutation (map pinv (obj_together gobs a b)) (obj_together gobs b a).
Proof.
  intros R. unfold obj_together. rewrite flat_map_concat_map, concat_map, map_map, <- flat_map_concat_map.
  apply Permutation_flat. intros [[n ids] P] Hin. apply matches_inverse; auto.
  intros x y H1 H2 _. unfold orel. apply rel_board_inv; eapply R; eauto.
Qed.

(** ** A pair table with the shape all three have *)
Record good_table (observed : list Z) (t : pair_table) : Prop := {
  gt_nodup : NoDup observed;
  gt_sorted : msorted t;
  gt_nonempty : forall k ps, In (k, ps) t -> ps <> [];
  gt_sym : forall a b ps, In ((a, b), ps) t -> exists ps', In ((b, a), ps') t;
  gt_irrefl : forall a ps, ~ In ((a, a), ps) t;
  gt_obs : forall a b ps, In ((a, b), ps) t -> In a observed
}.
Lemma good_proper observed t : good_table observed t -> proper_pairs observed (counts t).
Proof.
  intros G. constructor; [apply G| |]; unfold covisible; rewrite counts_keys; unfold mkeys.
  - intros a [H|H]; apply in_map_iff in H as ([k ps] & E & H); cbn in E; subst k; eapply gt_irrefl; eauto.
  - intros a b [H|H]; apply in_map_iff in H as ([k ps] & E & H); cbn in E; subst k; [|destruct (gt_sym _ _ G _ _ _ H) as (ps' & H')]; eapply gt_obs; eauto.
Qed.
Lemma good_both observed t : good_table observed t -> both_orders (counts t).
Proof.
  intros G a b. rewrite counts_keys. unfold mkeys. intros H. apply in_map_iff in H as ([k ps] & E & H). cbn in E. subst k.
  destruct (gt_sym _ _ G _ _ _ H) as (ps' & H'). apply (in_map fst) in H'. auto.
Qed.
Section Table.
  Variables (f : Z -> Z -> list pose) (t : pair_table).
  Hypothesis St : msorted t.
  Hypothesis Ft : forall a b, mfind (a, b) t = if Z.eqb a b then None else as_vector (f a b).
  Lemma table_In a b ps : In ((a, b), ps) t <-> a <> b /\ ps = f a b /\ ps <> [].
  Proof.
    split.
    - intros H. apply In_mfind in H; auto. rewrite Ft in H. destruct (Z.eqb_spec a b); [discriminate|].
      apply as_vector_Some in H as (<- & H). auto.
    - intros (N & -> & H). apply mfind_In. rewrite Ft. destruct (Z.eqb_spec a b); [contradiction|]. apply as_vector_Some. auto.
  Qed.
  Lemma table_good observed : NoDup observed -> (forall a b, f a b <> [] -> f b a <> []) ->
    (forall a b, f a b <> [] -> In a observed) -> good_table observed t.
  Proof.
    intros N S O. constructor; auto.
    - intros [a b] ps H. apply table_In in H. tauto.
    - intros a b ps H. apply table_In in H as (H1 & -> & H2). exists (f b a). apply table_In. auto.
    - intros a ps H. apply table_In in H. tauto.
    - intros a b ps H. apply table_In in H as (H1 & -> & H2). eauto.
  Qed.
End Table.

Lemma boards_good observed views : NoDup observed -> (forall v b p, In v views -> In (b, p) v -> In b observed) ->
  good_table observed (computeBoardsPairPose views).
Proof.
  intros N O. apply (table_good (together rel_board views)); auto.
  - apply build_pairs_spec.
  - apply boards_table.
  - apply together_nonempty_sym.
  - intros a b H. destruct (together rel_board views a b) as [|p l] eqn:E; [congruence|].
    assert (I : In p (together rel_board views a b)) by (rewrite E; left; auto). apply together_In in I.
    destruct I as (v & p1 & p2 & Hv & H1 & _). eapply O; eauto.
Qed.
Lemma cameras_good observed frames : gated frames -> NoDup observed ->
  (forall n fr c o p, In (n, fr) frames -> In (c, o, p) fr -> In c observed) ->
  good_table observed (computeCamerasPairPose frames).
Proof.
  intros G N O. apply (table_good (cam_together frames)); auto.
  - apply build_pairs_spec.
  - intros a b. apply cameras_table; auto.
  - intros a b H. destruct (cam_together frames a b) as [|p l] eqn:E; [congruence|].
    assert (I : In p (cam_together frames a b)) by (rewrite E; left; auto). apply cam_together_In in I.
    destruct I as (n & fr & o & p1 & p2 & Hi & H1 & H2 & _). intros E2.
    assert (I : In (rel_cam p2 p1) (cam_together frames b a)) by (apply cam_together_In; eauto 12). rewrite E2 in I. destruct I.
  - intros a b H. destruct (cam_together frames a b) as [|p l] eqn:E; [congruence|].
    assert (I : In p (cam_together frames a b)) by (rewrite E; left; auto). apply cam_together_In in I.
    destruct I as (n & fr & o & p1 & p2 & Hi & H1 & H2 & _). eapply O; eauto.
Qed.
Lemma objects_good observed gobs : ogated gobs -> NoDup observed ->
  (forall n ids P o, In (n, ids, P) gobs -> In o ids -> In o observed) ->
  good_table observed (computeObjectsPairPose gobs).
Proof.
  intros G N O. apply (table_good (obj_together gobs)); auto.
  - apply build_pairs_spec.
  - intros a b. apply objects_table; auto.
  - intros a b H. destruct (obj_together gobs a b) as [|p l] eqn:E; [congruence|].
    assert (I : In p (obj_together gobs a b)) by (rewrite E; left; auto). apply obj_together_In in I.
    destruct I as (n & ids & P & Hi & H1 & H2 & _). intros E2.
    assert (I : In (rel_board (P b) (P a)) (obj_together gobs b a)) by (apply obj_together_In; eauto 12). rewrite E2 in I. destruct I.
  - intros a b H. destruct (obj_together gobs a b) as [|p l] eqn:E; [congruence|].
    assert (I : In p (obj_together gobs a b)) by (rewrite E; left; auto). apply obj_together_In in I.
    destruct I as (n & ids & P & Hi & H1 & H2 & _). eapply O; eauto.
Qed.

(** ** Every member of a component gets a pose *)
Lemma component_poses_fst step pick g tr c ps : component_poses step pick g tr c = Some ps -> map fst ps = c.
Proof.
  unfold component_poses. generalize (min_of c) as r. intros r H. apply collect_Some in H.
  revert ps H. induction c as [|x c IH]; intros [|y ps] H; cbn [map] in H |- *; try discriminate H; auto.
  injection H as H1 H2. rewrite (IH _ H2). destruct (path_pose step pick g tr r x); [|discriminate H1]. injection H1 as <-. auto.
Qed.
Lemma component_total_of step pick g tr c : (forall m, In m c -> exists T, path_pose step pick g tr (min_of c) m = Some T) ->
  exists ps, component_poses step pick g tr c = Some ps.
Proof.
  unfold component_poses. generalize (min_of c) as r. intros r G.
  induction c as [|m c IH]; [exists []; auto|].
  destruct (G m (or_introl eq_refl)) as (T & E). destruct IH as (ps & E2); [intros; apply G; right; auto|].
  exists ((m, T) :: ps). apply collect_Some in E2. apply collect_Some. cbn [map]. rewrite E, E2. auto.
Qed.
Lemma component_poses_mem step pick g tr c ps m : component_poses step pick g tr c = Some ps -> In m c ->
  exists T, path_pose step pick g tr (min_of c) m = Some T.
Proof.
  unfold component_poses. generalize (min_of c) as r. intros r H. apply collect_Some in H.
  revert ps H. induction c as [|x c IH]; intros [|y ps] H Hm; cbn [map] in H; try discriminate H; [destruct Hm|].
  injection H as H1 H2. destruct Hm as [->|Hm]; [|eauto]. destruct (path_pose step pick g tr r m); [eauto|discriminate H1].
Qed.
Section Poses.
  Variables (observed : list Z) (es : smap (Z * Z) nat) (tr : smap (Z * Z) pose).
  Hypothesis PP : proper_pairs observed es.
  Hypothesis Keys : mkeys tr = mkeys es.
  Hypothesis Both : both_orders es.
  Variable pick : dstate -> nat.
  Hypothesis Hpick : good_heap pick.
  Variable g0 : graph.
  Notation g := (covis_graph g0 observed es).

  Lemma covis_g : g = grun (covis_ops observed es). Proof. reflexivity. Qed.
  Lemma tr_step a b : covisible es a b <-> exists c, mfind (a, b) tr = Some c.
  Proof. rewrite covisible_both by exact Both. rewrite <- Keys. apply mfind_Some_key. Qed.

  Lemma comp_facts c : In c (connectedComponents g) ->
    c <> [] /\ (forall x, In x c -> In x observed) /\ (forall x y, In x c -> In y c -> connected es x y).
  Proof.
    intros Hc. destruct (covis_components observed es PP) as (_ & B & C & D & _). cbv zeta in *. 
    rewrite covis_g in Hc. rewrite Forall_forall in D. destruct (D c Hc) as (D1 & _). 
    assert (I : forall x, In x c -> In x observed) by (intros x Hx; apply B; apply in_concat; eauto).
    split; [auto|]. split; [auto|]. intros x y Hx Hy. apply (C x y); eauto.
  Qed.
  Lemma comp_path step c m : In c (connectedComponents g) -> In m c ->
    exists l, route es (min_of c) m l /\ path_pose step pick g tr (min_of c) m = chain_transform step tr l.
  Proof.
    intros Hc Hm. destruct (comp_facts c Hc) as (N & I & L). destruct (min_of_spec c N) as (Hmin & _).
    destruct (covis_path observed es PP pick Hpick (min_of c) m) as (l & R & P); auto.
    exists l. split; auto.
  Qed.
  Lemma route_consecutive a b l : route es a b l -> consecutive (fun x y => exists c, mfind (x, y) tr = Some c) l.
  Proof.
    intros (_ & _ & H & _). induction l as [|x [|y l] IH]; cbn in *; auto.
    destruct H as (H1 & H2). split; [apply tr_step; auto|]. exact (IH H2).
  Qed.
  Lemma component_total step c : In c (connectedComponents g) ->
    exists ps, component_poses step pick g tr c = Some ps /\ map fst ps = c.
  Proof.
    intros Hc. 
    assert (G : forall m, In m c -> exists T, path_pose step pick g tr (min_of c) m = Some T).
    { intros m Hm. destruct (comp_path step c m Hc Hm) as (l & R & ->). apply chain_total. eapply route_consecutive; eauto. }
    unfold component_poses. generalize (min_of c) as r, G. clear -c. intros r G.
    induction c as [|m c IH]; [exists []; auto|].
    destruct (G m (or_introl eq_refl)) as (T & E). destruct IH as (ps & E2 & K); [intros; apply G; right; auto|].
    exists ((m, T) :: ps). split; [|cbn; congruence]. apply collect_Some in E2. apply collect_Some. cbn [map]. rewrite E, E2. auto.
  Qed.
  Lemma component_poses_In step c ps m T : component_poses step pick g tr c = Some ps -> In (m, T) ps ->
    In m c /\ path_pose step pick g tr (min_of c) m = Some T.
  Proof.
    unfold component_poses. generalize (min_of c) as r. intros r H Hin. apply collect_Some in H.
    revert ps H Hin. induction c as [|x c IH]; intros [|y ps] H Hin; cbn [map] in H; try discriminate; [destruct Hin|].
    injection H as H1 H2. destruct Hin as [->|Hin].
    - destruct (path_pose step pick g tr r x) eqn:E; [|discriminate]. cbn in H1. injection H1 as -> ->. split; [left|]; auto.
    - destruct (IH _ H2 Hin). split; [right|]; auto.
  Qed.
  Lemma route_refl a l : route es a a l -> l = [a].
  Proof.
    intros (H1 & H2 & _ & N). destruct l as [|x l]; [discriminate|]. cbn in H1. injection H1 as ->.
    cbn in H2. inversion N; subst. destruct (rev l) as [|y r] eqn:E.
    - apply (f_equal (@rev Z)) in E. rewrite rev_involutive in E. cbn in E. subst. auto.
    - cbn in H2. injection H2 as ->. exfalso. apply H1. apply in_rev. rewrite E. left; auto.
  Qed.
  (** the smallest member is the origin *)
  Lemma component_origin step c : In c (connectedComponents g) -> path_pose step pick g tr (min_of c) (min_of c) = Some pid.
  Proof.
    intros Hc. destruct (comp_facts c Hc) as (N & _). destruct (min_of_spec c N) as (Hm & _).
    destruct (comp_path step c (min_of c) Hc Hm) as (l & R & ->). apply route_refl in R. subst l. reflexivity.
  Qed.
  (** noise-free tables: true relative poses *)
  Lemma component_exact_inv (W : Z -> pose) c m : (forall a, rigid (W a)) ->
    (forall a b p, mfind (a, b) tr = Some p -> p = pmul (pinv (W b)) (W a)) ->
    In c (connectedComponents g) -> In m c ->
    path_pose step_inv pick g tr (min_of c) m = Some (pmul (pinv (W (min_of c))) (W m)).
  Proof.
    intros HW Ht Hc Hm. destruct (comp_path step_inv c m Hc Hm) as (l & R & ->).
    assert (R' := R). destruct R' as (R1 & R2 & _). apply chain_transform_inv; auto. eapply route_consecutive; eauto.
  Qed.
  (** forward steps: the product of the table entries in path order *)
  Lemma chain_fwd_product l T : chain_transform step_fwd tr l = Some T -> 
    exists ps, Forall2 (fun e p => mfind e tr = Some p) (edges_of l) ps /\ T = fold_left pmul ps pid.
  Proof.
    unfold chain_transform. generalize pid as t. generalize (edges_of l) as esl.
    induction esl as [|e esl IH]; intros t H; cbn in H.
    - injection H as <-. exists []. split; [constructor|auto].
    - destruct (mfind e tr) as [p|] eqn:E.
      + destruct (IH _ H) as (ps & F & ->). exists (p :: ps). split; [constructor; auto|]. auto.
      + exfalso. clear -H. induction esl; cbn in H; [discriminate|auto].
  Qed.
End Poses.
