(** Sets of cameras without a common view: what C64 speaks about (with RigSpec). *)
From Coq Require Import List ZArith Reals Sorted Relations.
From Verif Require Import DataModel DetectModel GeomModel GeomSpec HandEyeModel HandEyeSpec RigSpec.
Import ListNotations.
Open Scope R_scope.

(** In any k frames in which unconnected cameras see boards, the objects turn about more than
    one axis: no displacement but the identity looks the same from them in all these frames. *)
Definition turns_enough (k : nat) (w : rig) (ins : list (insertion pt2)) : Prop :=
  forall fs, NoDup fs -> length fs = k -> (forall f, In f fs -> apart_in ins f) ->
  forall D, rigid D ->
  (forall f g, In f fs -> In g fs -> pmul (pmul (pinv (rg_frame w f)) D) (rg_frame w f) = pmul (pmul (pinv (rg_frame w g)) D) (rg_frame w g)) -> D = pid.
(** the square of the relative rotation of two cameras that are not connected is by less than
    15 degrees (see C34) *)
Definition alike_enough (w : rig) (ins : list (insertion pt2)) : Prop :=
  forall c d, saw ins c -> saw ins d -> ~ same_view ins c d ->
  let X := pmul (rg_cam w c) (pinv (rg_cam w d)) in
  let x := 1 / 2 * (trace (mm (fst X) (fst X)) - / 2 ^ 52 - 1) in -1 <= x <= 1 /\ acos x * 180 / PI < 15.
(** The configured hand-eye calibration can do it: the plain method needs four frames, the
    bootstrapped one six and cameras of similar orientation. *)
Definition enough_motion (approach : Z) (w : rig) (ins : list (insertion pt2)) : Prop :=
  if Z.eqb approach 0 then turns_enough 6 w ins /\ alike_enough w ins else turns_enough 4 w ins.
Definition frames_needed (approach : Z) : nat := if Z.eqb approach 0 then 6 else 4.
