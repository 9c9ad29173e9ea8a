(** C55: when the second merge of camera groups gets through. *)
From Coq Require Import List ZArith QArith Lia Reals Lra Permutation Sorted Relations.
From Verif Require Import SMap GraphModel GraphSpec GraphDijkstra GraphPath DataModel DataSpec DataProofs DetectModel DetectSpec
  GeomModel GeomSpec GeomProofs GeomMedian ChainModel ChainSpec ChainProofs ChainCam
  ObjectsModel ObjectsSpec ObjectsProofs ObjectsBuild ObjectsMerge ObjectsObs GroupModel GroupSpec GroupProofs GroupMerge GroupObs GroupPose
  StageModel StageSpec StageProofs StageMain StageCams StageMerge PipelineModel PipelineSpec PipelineProofs StalePairs ChainPairs GroupAll PropObjects PropChain PropGroup PropStale CompleteSpec.
Import ListNotations.
Close Scope Q_scope.
Close Scope R_scope.
Open Scope nat_scope.

Lemma representatives_le (sees : Z -> Prop) (lk : Z -> Z -> Prop) l l' : (forall x y, lk x y -> lk y x) -> (forall x y z, lk x y -> lk y z -> lk x z) ->
  representatives sees lk l -> representatives sees lk l' -> length l <= length l'.
Proof.
  intros Sy Tr [N S _ Ap] [_ _ Al _].
  assert (Ch : forall m, incl m l -> exists f, Forall2 (fun x y => In y l' /\ lk x y) m f).
  { induction m as [|x m IH]; intros I; [exists []; constructor|]. destruct IH as (f & F); [intros y H; apply I; right; auto|].
    destruct (Al x) as (y & A & B); [apply S, I; left; auto|]. exists (y :: f). constructor; auto. }
  destruct (Ch l (incl_refl l)) as (f & F). assert (L : length l = length f) by (clear - F; induction F; cbn; auto). rewrite L. apply NoDup_incl_length.
  - clear Ch L. assert (G : forall m f, incl m l -> NoDup m -> Forall2 (fun x y => In y l' /\ lk x y) m f -> NoDup f).
    { clear f F. intros m f I Nm F. revert I Nm. induction F as [|x y m f (A & B) F IH]; intros I Nm; [constructor|]. inversion Nm as [|? ? Nx Nm']; subst. constructor.
      - intros H. assert (Q : exists x', In x' m /\ lk x' y). { clear - F H. induction F as [|a b m f (A & B) F IH]; [destruct H|]. destruct H as [->|H]; [exists a; split; [left; auto|auto]|]. destruct (IH H) as (x' & P & Q). exists x'. split; [right; auto|auto]. }
        destruct Q as (x' & Hx' & K). assert (x = x'); [|subst; auto]. apply Ap; [apply I; left; auto|apply I; right; auto|eapply Tr; eauto].
      - apply IH; [intros z H; apply I; right; auto|auto]. }
    eapply G; eauto. apply incl_refl.
  - clear - F. induction F as [|x y m f (A & B) F IH]; intros z Hz; [destruct Hz|]. destruct Hz as [<-|Hz]; auto.
Qed.
Lemma representatives_length (sees : Z -> Prop) (lk : Z -> Z -> Prop) l l' : (forall x y, lk x y -> lk y x) -> (forall x y z, lk x y -> lk y z -> lk x z) ->
  representatives sees lk l -> representatives sees lk l' -> length l = length l'.
Proof. intros Sy Tr A B. apply Nat.le_antisymm; eapply representatives_le; eauto. Qed.

Lemma linked_sym prs : (forall a b, has_pair prs a b -> has_pair prs b a) -> forall a b, linked prs a b -> linked prs b a.
Proof. intros Sy a b H. induction H as [x y H|x|x y z _ IH1 _ IH2]; [apply rt_step; auto|apply rt_refl|eapply rt_trans; eauto]. Qed.

Section Twice.
Context {pt : Type}.
Variables (svd : (nat -> nat -> R) -> quat) (lr : mat3 -> vec3) (uq : bool) (pick : dstate -> nat) (g0 : graph).
Hypothesis Hh : good_heap pick.
Variables (bpts : Z -> list vec3) (nc nb : nat) (ins : list (insertion pt)) (t : tables pt).
Hypothesis AD : after_detection nc nb ins t.
Hypothesis Hp : paired t.
Notation edges prs := (map (fun '(k, (_, n)) => (k, n)) prs).

(** the number of groups after a merge *)
Lemma merged_count prs s s' : reached svd lr uq pick g0 bpts t s -> pairs_of_groups t prs s -> mergeGroups pick g0 t prs s = Some s' ->
  exists reps, representatives (fun k => exists G, mfind k (ca_groups s) = Some G /\ group_sees t G) (linked prs) reps /\ length (ca_groups s') = length reps.
Proof.
  intros Rd PG EM. destruct (reached_ok svd lr uq pick g0 Hh bpts nc nb ins t AD Hp s Rd) as (bss & ol & css & gl & CO).
  assert (PP := pairs_proper bpts t prs s bss ol css gl CO PG). assert (UP : pairs_usable prs s) by (apply proper_usable; auto).
  destruct (groups_keep_ok pick g0 Hh bpts nc nb ins t AD prs s s' bss ol css gl CO UP EM) as (css' & gl' & CO' & _ & _ & PV & L1 & _ & _ & _).
  assert (Sy : forall a b, has_pair prs a b -> has_pair prs b a) by (intros a b H; apply (PG a b H)).
  set (obs := observed_groups (ca_groups s) (ca_gobs s)) in *. set (V := vertices obs (edges prs)) in *.
  assert (IV : forall x, In x V <-> In x obs).
  { intros x. unfold V. rewrite vertices_In by apply PP. split; [|auto]. intros [H|(b & H)]; auto. eapply PP; eauto. }
  assert (OS := observed_sees bpts t s bss ol css gl CO). fold obs in OS.
  destruct (comps_partition V (edges prs) PV g0) as (ND & I & C). set (cs := connectedComponents (covis_graph g0 V (edges prs))) in *.
  assert (NE : forall c, In c cs -> c <> [] /\ forall x, In x c -> In x V) by (intros c Hc; destruct (comp_facts V (edges prs) PV g0 c Hc) as (A & B & _); auto).
  assert (MI : forall c, In c cs -> In (min_of c) c) by (intros c Hc; apply min_of_spec; apply NE; auto).
  exists (map min_of cs). split; [|rewrite (co_groups _ _ _ _ _ _ _ CO'), dense_length, map_length; auto]. constructor.
  - clear - ND MI. induction cs as [|c cs IH]; [constructor|]. cbn [map]. cbn [concat] in ND. constructor.
    + intros H. apply in_map_iff in H as (c' & E & Hc'). assert (A := MI c (or_introl eq_refl)). assert (B := MI c' (or_intror Hc')). rewrite E in B.
      clear IH MI E. revert A B. generalize (min_of c) as m. intros m A B. induction c as [|x c IHc]; [destruct A|]. cbn in ND. inversion ND as [|? ? Nx ND']; subst. destruct A as [A|A]; [|apply IHc; auto].
      rewrite <- A in B. apply Nx. apply in_or_app. right. apply in_concat. eauto.
    + apply IH; [|intros; apply MI; right; auto]. clear - ND. induction c as [|x c IHc]; [auto|]. cbn in ND. inversion ND; auto.
  - intros x H. apply in_map_iff in H as (c & <- & Hc). apply OS, IV. apply (NE c Hc). auto.
  - intros x Hx. apply OS, IV in Hx. assert (Hx' := proj2 (I x) Hx). apply in_concat in Hx' as (c & Hc & Xc). exists (min_of c). split; [apply in_map; auto|].
    apply connected_linked; auto. apply (C x (min_of c)); [auto|apply (NE c Hc); auto|]. exists c. auto.
  - intros x y Hx Hy L. apply in_map_iff in Hx as (c & <- & Hc). apply in_map_iff in Hy as (c' & <- & Hc'). f_equal.
    apply connected_linked in L; auto. apply C in L as (d & Hd & A & B); [|apply (NE c Hc); auto|apply (NE c' Hc'); auto].
    transitivity d; [apply (same_list cs c d (min_of c)); auto|apply (same_list cs d c' (min_of c')); auto].
Qed.

Lemma stale_total prs s : reached svd lr uq pick g0 bpts t s -> (forall k G, mfind k (ca_groups s) = Some G -> group_sees t G) -> pairs_usable prs s ->
  (forall a b, has_pair prs a b -> has_pair prs b a) ->
  ((exists s', mergeGroups pick g0 t prs s = Some s') <-> forall a b, has_pair prs a b -> exists c, linked prs a c /\ (c < Z.of_nat (length (ca_groups s)))%Z).
Proof.
  intros Rd Se UP Sy. destruct (reached_ok svd lr uq pick g0 Hh bpts nc nb ins t AD Hp s Rd) as (bss & ol & css & gl & CO).
  assert (GK := co_groups_ok _ _ _ _ _ _ _ CO). assert (Eg := co_groups _ _ _ _ _ _ _ CO).
  assert (OS := observed_sees bpts t s bss ol css gl CO). destruct UP as [U2 U3]. set (obs := observed_groups (ca_groups s) (ca_gobs s)) in *.
  destruct (observed_groups_ok css gl (ca_gobs s) GK) as (So & _). rewrite <- Eg in So. fold obs in So. assert (ND := sorted_lt_NoDup _ So).
  assert (Rng : forall x, In x obs -> (0 <= x < Z.of_nat (length (ca_groups s)))%Z).
  { intros x Hx. apply OS in Hx as (G & HG & _). rewrite Eg in *. apply mfind_In, dense_In in HG as (i & -> & HG). assert (i < length gl) by (apply nth_error_Some; congruence). rewrite dense_length. lia. }
  assert (Rng' : forall x, (0 <= x < Z.of_nat (length (ca_groups s)))%Z -> exists G, mfind x (ca_groups s) = Some G).
  { intros x Hx. rewrite Eg in *. rewrite dense_length in Hx. destruct (nth_error gl (Z.to_nat x)) as [G|] eqn:E; [|apply nth_error_None in E; lia].
    exists G. replace x with (Z.of_nat (Z.to_nat x)) by lia. apply dense_nth. auto. }
  assert (PV := proper_vertices obs (edges prs) ND U2). set (V := vertices obs (edges prs)) in *.
  assert (IV : forall x, In x V <-> In x obs \/ exists b, has_pair prs x b).
  { intros x. unfold V. rewrite vertices_In by auto. split; (intros [H|(b & H)]; [left; auto|right; exists b]). { destruct H as [H|H]; apply mfind_edges in H; auto. } { left. apply mfind_edges. auto. } }
  destruct (comps_partition V (edges prs) PV g0) as (NDc & I & C). set (cs := connectedComponents (covis_graph g0 V (edges prs))) in *.
  assert (CF : forall c, In c cs -> c <> [] /\ (forall x, In x c -> In x V) /\ forall x y, In x c -> In y c -> connected (edges prs) x y) by (intros c Hc; apply (comp_facts V (edges prs) PV g0 c Hc)).
  split.
  - intros (s' & E) a b Hab. unfold mergeGroups in E. fold obs in E.
    destruct (mergeCameraGroup pick (covis_graph g0 obs (edges prs)) (map (fun '(k, (P, _)) => (k, P)) prs) (ca_groups s)) as [gs|] eqn:EM; [|discriminate E]. clear E.
    rewrite (mergeCameraGroup_vertices pick g0 obs) in EM by auto. fold V in EM.
    assert (Ha : In a (concat cs)) by (apply I, IV; right; eauto). apply in_concat in Ha as (c & Hc & Ac).
    destruct (merged_known pick _ _ _ _ c EM Hc) as (r & Hr). destruct (CF c Hc) as (Ne & _ & Cn). exists (min_of c). split.
    + apply connected_linked; auto. apply Cn; auto. apply min_of_spec; auto.
    + rewrite Eg in Hr |- *. apply mfind_In, dense_In in Hr as (i & -> & Hi). assert (i < length gl) by (apply nth_error_Some; congruence). rewrite dense_length. lia.
  - intros Cl.
    assert (Kn : forall c, In c cs -> (min_of c < Z.of_nat (length (ca_groups s)))%Z).
    { intros c Hc. destruct (CF c Hc) as (Ne & Sub & Cn). destruct (min_of_spec c Ne) as (Hm & Mn). assert (HV := proj1 (IV _) (Sub _ Hm)). destruct HV as [HV|(b & HV)]; [apply Rng; auto|].
      destruct (Cl _ _ HV) as (x & Lx & Bx). assert (Xc : In x c).
      { assert (Xv : In x V). { apply IV. apply clos_rt_rtn1 in Lx. destruct Lx as [|y z H Lx]; [right; eauto|]. right. apply Sy in H. eauto. }
        apply connected_linked in Lx; auto. apply C in Lx as (d & Hd & A & B); [|apply Sub; auto|auto]. assert (c = d) by (apply (same_list cs c d (min_of c)); auto). subst. auto. }
      specialize (Mn x Xc). lia. }
    destruct (stale_mins obs (edges prs) ND U2 (length (ca_groups s)) So) with (g0 := g0) as (Mins & Mo).
    { intros a b H. apply (U3 a b H). }
    { rewrite (same_components obs (edges prs) ND U2 g0). exact Kn. }
    rewrite (same_components obs (edges prs) ND U2 g0) in Mins, Mo. fold V in Mins, Mo. fold cs in Mins, Mo.
    destruct (mergeCameraGroup_ok css gl GK V (edges prs) (map (fun '(k, (P, _)) => (k, P)) prs) PV) with (pick := pick) (g0 := g0) as (gl3 & css3 & E3 & _).
    { auto. }
    { intros c' Hc'. destruct (component_total V (edges prs) (map (fun '(k, (P, _)) => (k, P)) prs) PV) with (pick := pick) (g0 := g0) (step := step_fwd) (c := c') as (ps & Eps & _); auto; [|apply pairs_both; auto|eauto].
      unfold mkeys. rewrite !map_map. apply map_ext. intros [k [P n]]. auto. }
    { exact Mins. } { intros c Hc. rewrite <- Eg. apply Rng'. apply Rng. apply Mo. auto. }
    unfold mergeGroups. fold obs. rewrite (mergeCameraGroup_vertices pick g0 obs) by auto. fold V. rewrite Eg, E3. eauto.
Qed.
End Twice.
