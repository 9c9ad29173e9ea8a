(** Specification vocabulary for pairwise poses and chains of poses. *)
From Coq Require Import List ZArith Reals Permutation Relations.
From Verif Require Import SMap GeomModel GeomSpec ChainModel.
Import ListNotations.
Open Scope nat_scope.

(** relative poses b <- a over all views in which different boards a and b are seen
    together; [rel p1 p2] is the relative pose for poses p1 of a and p2 of b *)
Definition poses_of (a : Z) (seen : list (Z * pose)) : list pose :=
  map snd (filter (fun e => Z.eqb (fst e) a) seen).
Definition together (rel : pose -> pose -> pose) (views : list (list (Z * pose))) (a b : Z) : list pose :=
  flat_map (fun v => flat_map (fun p1 => map (rel p1) (poses_of b v)) (poses_of a v)) views.

(** seen together (there is an entry for one of the orders), and chains of such *)
Definition covisible (es : smap (Z * Z) nat) (a b : Z) : Prop := In (a, b) (mkeys es) \/ In (b, a) (mkeys es).
Definition connected (es : smap (Z * Z) nat) : Z -> Z -> Prop := clos_refl_trans Z (covisible es).

(** the table has both orders of each pair *)
Definition both_orders (es : smap (Z * Z) nat) : Prop := forall a b, In (a, b) (mkeys es) -> In (b, a) (mkeys es).
(** the table is about different observed indices *)
Record proper_pairs (observed : list Z) (es : smap (Z * Z) nat) : Prop := {
  pp_nodup : NoDup observed;
  pp_irrefl : forall a, ~ covisible es a a;
  pp_observed : forall a b, covisible es a b -> In a observed
}.

(** l is a sequence a ... b of consecutive covisible indices without repetition *)
Fixpoint consecutive (R : Z -> Z -> Prop) (l : list Z) : Prop :=
  match l with
  | a :: r => match r with b :: _ => R a b /\ consecutive R r | [] => True end
  | [] => True
  end.
Definition route (es : smap (Z * Z) nat) (a b : Z) (l : list Z) : Prop :=
  hd_error l = Some a /\ hd_error (rev l) = Some b /\ consecutive (covisible es) l /\ NoDup l.

(** noise-free board views: each view is a rigid world-to-camera pose, every board seen
    in it has its true world pose W *)
Definition exact_views (W : Z -> pose) (views : list (list (Z * pose))) : Prop :=
  forall v, In v views -> exists X, rigid X /\ forall b p, In (b, p) v -> p = pmul X (W b).
(** noise-free frames: object o is at pose Y o in the world, camera c is C c (world to camera) *)
Definition exact_frames (C : Z -> pose) (frames : list (nat * list (Z * Z * pose))) : Prop :=
  forall n fr, In (n, fr) frames -> exists Y, forall c o p, In (c, o, p) fr -> rigid (Y o) /\ p = pmul (C c) (Y o).
(** noise-free object poses in group observations: object o at W o, group at X *)
Definition exact_gobs (W : Z -> pose) (gobs : list (nat * list Z * (Z -> pose))) : Prop :=
  forall n ids P, In (n, ids, P) gobs -> exists X, rigid X /\ forall o, In o ids -> P o = pmul X (W o).
