(** Specification vocabulary for the graph properties, written in terms of the
    history of calls only. *)
From Coq Require Import List ZArith QArith Relations Lia.
From Verif Require Import GraphModel.
Import ListNotations.
Close Scope Q_scope.
Open Scope nat_scope.

(** The calls made after the last Clear. *)
Fixpoint since_clear_acc (acc ops : list gop) : list gop :=
  match ops with
  | [] => acc
  | Clear :: r => since_clear_acc [] r
  | o :: r => since_clear_acc (acc ++ [o]) r
  end.
Definition since_clear (ops : list gop) : list gop := since_clear_acc [] ops.

(** Indices a call mentions, in argument order. *)
Definition op_indices (o : gop) : list Z :=
  match o with AddV v => [v] | AddE a b _ => [a; b] | Clear => [] end.

(** Keep only first occurrences. *)
Fixpoint keep_first (seen l : list Z) : list Z :=
  match l with
  | [] => []
  | x :: r => if existsb (Z.eqb x) seen then keep_first seen r
              else x :: keep_first (x :: seen) r
  end.

(** The inserted indices in order of first insertion. *)
Definition inserted (ops : list gop) : list Z :=
  keep_first [] (flat_map op_indices (since_clear ops)).

(** An edge a-b was inserted (either orientation), with weight w. *)
Definition edge_w (ops : list gop) (a b : Z) (w : Q) : Prop :=
  In (AddE a b w) (since_clear ops) \/ In (AddE b a w) (since_clear ops).
Definition edge (ops : list gop) (a b : Z) : Prop := exists w, edge_w ops a b w.

(** a and b are joined by a (possibly empty) chain of edges. *)
Definition linked (ops : list gop) : Z -> Z -> Prop := clos_refl_trans Z (edge ops).

(** Every call that joins an index to itself does so for an index that is already
    in the graph (in particular: no self edge at all). *)
Definition no_fresh_self_edge (ops : list gop) : Prop :=
  forall pre v w post, ops = pre ++ AddE v v w :: post -> In v (inserted pre).

(** Weights are not negative. *)
Definition nonneg_weights (ops : list gop) : Prop :=
  forall a b w, In (AddE a b w) ops -> (0 <= w)%Q.

(** l is a subsequence of m. *)
Inductive subseq {A} : list A -> list A -> Prop :=
| ss_nil : subseq [] []
| ss_skip x l m : subseq l m -> subseq l (x :: m)
| ss_take x l m : subseq l m -> subseq (x :: l) (x :: m).

(** l is a path a ... b of inserted edges without repeated index. *)
Fixpoint chain (R : Z -> Z -> Prop) (l : list Z) : Prop :=
  match l with
  | [] => True
  | x :: r => match r with [] => True | y :: _ => R x y /\ chain R r end
  end.
Definition simple_path (ops : list gop) (a b : Z) (l : list Z) : Prop :=
  hd_error l = Some a /\ hd_error (rev l) = Some b /\ chain (edge ops) l /\ NoDup l.

(** Costs of a path: one edge (of the possible parallel ones) per step. *)
Inductive path_cost (ops : list gop) (c : Q -> Q) : list Z -> Q -> Prop :=
| pc_one a : path_cost ops c [a] 0
| pc_step a b w l q :
    edge_w ops a b w -> path_cost ops c (b :: l) q ->
    path_cost ops c (a :: b :: l) (c w + q)%Q.

(** The heap used by Dijkstra is only required to return some queued vertex of
    minimal tentative distance. *)
Definition good_heap (pick : dstate -> nat) : Prop :=
  forall st, dqueue st <> [] ->
    In (pick st) (dqueue st) /\
    forall v, In v (dqueue st) -> dle (ddist st (pick st)) (ddist st v) = true.
