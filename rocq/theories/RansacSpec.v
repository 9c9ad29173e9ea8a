(** Specification for C15, C16: sample consensus. *)
From Coq Require Import List ZArith Reals Sorted Permutation.
From Verif Require Import SMap DataModel DetectModel DetectSpec RansacModel.
Import ListNotations.
Open Scope R_scope.

Section Spec.
Context {pose pt3 : Type}.
Variable env : rs_env pose pt3.

(** correspondence k is explained by the pose: its image point is closer than thresh to
    the projection of its scene point *)
Definition explained K D (scene : list pt3) (img : list pt2) thresh (p : pose) (k : nat) : Prop :=
  exists s m, nth_error scene k = Some s /\ nth_error img k = Some m /\
              dist2 m (rs_project env K D p s) < thresh.

(** l lists, increasingly, exactly the correspondences the pose explains *)
Definition consensus K D scene img thresh p (l : list nat) : Prop :=
  StronglySorted lt l /\ forall k, In k l <-> explained K D scene img thresh p k.

(** q is a candidate computed from four different correspondences *)
Definition minimal_solution K D (scene : list pt3) (img : list pt2) (before q : pose) : Prop :=
  exists idx s4 i4, length idx = 4%nat /\ NoDup idx /\
    Forall2 (fun i s => nth_error scene i = Some s) idx s4 /\
    Forall2 (fun i m => nth_error img i = Some m) idx i4 /\
    q = rs_p3p env K D s4 i4 before.

(** the candidates tried, in order *)
Fixpoint trials_from K D scene img (before : pose) (qs : list pose) : Prop :=
  match qs with
  | [] => True
  | q :: r => minimal_solution K D scene img before q /\ trials_from K D scene img q r
  end.

(** every shuffle is a permutation *)
Definition fair_shuffles : Prop := forall k l, Permutation (rs_shuffle env k l) l.

(** the sub-list of l at the positions idx *)
Definition sublist_at {A} (l : list A) (idx : list nat) (r : list A) : Prop :=
  Forall2 (fun i x => nth_error l i = Some x) idx r.
End Spec.
