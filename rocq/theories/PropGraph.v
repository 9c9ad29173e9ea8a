(** Property theorems C01-C04 (covisibility graph). *)
From Coq Require Import List Arith ZArith QArith Lia Relations.
From Verif Require Import GraphModel GraphSpec GraphInv GraphComp GraphDijkstra GraphPath.
Import ListNotations.
Close Scope Q_scope.
Open Scope nat_scope.

(** C01: the components partition the inserted indices into the classes of the
    "joined by a chain of edges" relation, in order of first insertion. *)
Theorem C01_components_partition (ops : list gop) :
  no_fresh_self_edge ops ->
  let cs := connectedComponents (grun ops) in
  NoDup (concat cs) /\
  (forall v, In v (concat cs) <-> In v (inserted ops)) /\
  (forall a b, In a (inserted ops) -> In b (inserted ops) ->
     ((exists c, In c cs /\ In a c /\ In b c) <-> linked ops a b)) /\
  Forall (fun c => c <> [] /\ subseq c (inserted ops)) cs /\
  subseq (map (hd 0%Z) cs) (inserted ops).
Proof. exact (components_main ops). Qed.
Print Assumptions C01_components_partition.

Definition ex_ops : list gop :=
  [AddV 7; AddV 3; AddE 5 3 1; AddV 7; Clear; AddV 4; AddE 9 4 (1#2); AddV 2; AddE 8 2 1;
   AddE 4 8 1; AddV 6; AddE 6 6 1].
Example C01_nonvacuous :
  no_fresh_self_edge ex_ops /\
  connectedComponents (grun ex_ops) = [[4; 9; 2; 8]; [6]]%Z.
Proof.
  split; [|vm_compute; reflexivity].
  intros pre v w post H. unfold ex_ops in H.
  do 12 (destruct pre as [|? pre];
         [first [discriminate H | inversion H; subst; vm_compute; tauto]|
          injection H as <- H]).
  destruct pre; discriminate.
Qed.

(** C02: the claim "every index names one vertex" is false exactly for a self edge
    on an index that is not in the graph yet. *)
Theorem C02_one_vertex_per_index_refuted :
  exists ops v, ~ NoDup (concat (connectedComponents (grun ops))) /\
                In v (inserted ops) /\
                connectedComponents (grun ops) = [[v; v]].
Proof.
  exists [AddE 5 5 1], 5%Z. split; [|split; vm_compute; auto].
  vm_compute. intros H. inversion H; subst. cbn in *; tauto.
Qed.
Print Assumptions C02_one_vertex_per_index_refuted.

Theorem C02_fresh_self_edge_always_duplicates (ops : list gop) (v : Z) (w : Q) :
  no_fresh_self_edge ops -> ~ In v (inserted ops) ->
  exists l1 l2 l3,
    concat (connectedComponents (grun (ops ++ [AddE v v w]))) = l1 ++ v :: l2 ++ v :: l3.
Proof. exact (fresh_self_edge_duplicates ops v w). Qed.
Print Assumptions C02_fresh_self_edge_always_duplicates.
Example C02_nonvacuous : no_fresh_self_edge [AddV 1] /\ ~ In 5%Z (inserted [AddV 1]).
Proof.
  split.
  - intros pre v w post H. destruct pre as [|? pre]; [discriminate|destruct pre; discriminate].
  - vm_compute. intros [H|[]]; discriminate.
Qed.

(** C03: a real, simple path is returned; for unconnected indices the walk never
    ends; absent indices give the empty list. *)
Theorem C03_path_is_real (ops : list gop) (pick : dstate -> nat) (a b : Z) :
  no_fresh_self_edge ops -> nonneg_weights ops -> good_heap pick ->
  In a (inserted ops) -> In b (inserted ops) -> linked ops a b ->
  exists l, simple_path ops a b l /\
    forall fuel, length (inserted ops) <= fuel ->
      shortestPathBetween pick fuel (grun ops) a b = Path l.
Proof.
  exact (fun H1 H2 H3 H4 H5 H6 =>
    match path_main ops pick H1 H2 H3 a b H4 H5 H6 with
    | ex_intro _ l (ex_intro _ q (conj P1 (conj P2 _))) => ex_intro _ l (conj P2 P1)
    end).
Qed.
Print Assumptions C03_path_is_real.

Theorem C03_absent_gives_empty (ops : list gop) (pick : dstate -> nat) (fuel : nat) (a b : Z) :
  no_fresh_self_edge ops ->
  ~ In a (inserted ops) \/ ~ In b (inserted ops) ->
  shortestPathBetween pick fuel (grun ops) a b = Path [].
Proof. exact (fun H => missing_path ops pick H fuel a b). Qed.
Print Assumptions C03_absent_gives_empty.

Theorem C03_unconnected_never_terminates (ops : list gop) (pick : dstate -> nat) (a b : Z) :
  no_fresh_self_edge ops -> nonneg_weights ops -> good_heap pick ->
  In a (inserted ops) -> In b (inserted ops) -> ~ linked ops a b ->
  forall fuel, shortestPathBetween pick fuel (grun ops) a b = WalkNotEnded.
Proof. exact (fun H1 H2 H3 => no_path_main ops pick H1 H2 H3 a b). Qed.
Print Assumptions C03_unconnected_never_terminates.

Example C03_nonvacuous :
  good_heap pick_first /\ no_fresh_self_edge ops_trunc /\
  (forall fuel, 3 <= fuel ->
     shortestPathBetween pick_first fuel (grun ops_trunc) 0 1 = Path [0; 1]%Z) /\
  linked ops_trunc 0 1.
Proof.
  split; [exact pick_first_good|]. split; [exact ops_trunc_nofresh|]. split.
  - exact (ops_trunc_path pick_first pick_first_good).
  - apply rt_step. exists (1#2)%Q. left. cbn; auto.
Qed.
Example C03_unconnected_nonvacuous :
  ~ linked [AddV 1; AddV 2] 1 2 /\
  shortestPathBetween pick_first 1000 (grun [AddV 1; AddV 2]) 1 2 = WalkNotEnded.
Proof.
  split; [|vm_compute; reflexivity].
  intros H. apply clos_rt_rt1n in H. inversion H; subst.
  match goal with E : edge _ _ _ |- _ => destruct E as [w [Hw|Hw]] end;
    cbn in Hw; destruct Hw as [Hw|[Hw|[]]]; discriminate.
Qed.

(** C04: the covisibility weight is not minimised, whatever the heap does; what is
    minimised is the sum of the weights truncated to integers, hence the weight
    itself when all weights are integers. *)
Theorem C04_min_weight_refuted :
  exists ops a b, no_fresh_self_edge ops /\ nonneg_weights ops /\
    forall pick, good_heap pick -> forall fuel, length (inserted ops) <= fuel ->
    exists l, shortestPathBetween pick fuel (grun ops) a b = Path l /\
    exists l' q', hd_error l' = Some a /\ hd_error (rev l') = Some b /\
      path_cost ops same_weight l' q' /\
      forall q, path_cost ops same_weight l q -> (q' < q)%Q.
Proof. exact not_min_weight. Qed.
Print Assumptions C04_min_weight_refuted.

Theorem C04_min_truncated_weight_partial (ops : list gop) (pick : dstate -> nat) (a b : Z) :
  no_fresh_self_edge ops -> nonneg_weights ops -> good_heap pick ->
  In a (inserted ops) -> In b (inserted ops) -> linked ops a b ->
  exists l q,
    (forall fuel, length (inserted ops) <= fuel ->
       shortestPathBetween pick fuel (grun ops) a b = Path l) /\
    simple_path ops a b l /\
    path_cost ops truncated l q /\
    (forall l' q', hd_error l' = Some a -> hd_error (rev l') = Some b ->
                   path_cost ops truncated l' q' -> (q <= q')%Q).
Proof. exact (fun H1 H2 H3 => path_main ops pick H1 H2 H3 a b). Qed.
Print Assumptions C04_min_truncated_weight_partial.

Theorem C04_min_weight_for_integer_weights_partial
        (ops : list gop) (pick : dstate -> nat) (a b : Z) :
  no_fresh_self_edge ops -> nonneg_weights ops -> good_heap pick ->
  (forall x y w, In (AddE x y w) ops -> (truncated w == w)%Q) ->
  In a (inserted ops) -> In b (inserted ops) -> linked ops a b ->
  exists l q,
    (forall fuel, length (inserted ops) <= fuel ->
       shortestPathBetween pick fuel (grun ops) a b = Path l) /\
    path_cost ops same_weight l q /\
    (forall l' q', hd_error l' = Some a -> hd_error (rev l') = Some b ->
                   path_cost ops same_weight l' q' -> (q <= q')%Q).
Proof. exact (path_integer_min ops pick a b). Qed.
Print Assumptions C04_min_weight_for_integer_weights_partial.
Example C04_nonvacuous :
  let ops := [AddE 0 1 5; AddE 0 2 1; AddE 2 1 (6#3)] in
  (forall x y w, In (AddE x y w) ops -> (truncated w == w)%Q) /\
  shortestPathBetween pick_first 3 (grun ops) 0 1 = Path [0; 2; 1]%Z.
Proof.
  split; [|vm_compute; reflexivity].
  intros x y w H. cbn in H.
  destruct H as [[= _ _ <-]|[[= _ _ <-]|[[= _ _ <-]|[]]]]; reflexivity.
Qed.
