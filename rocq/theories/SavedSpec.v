(** Specification for C54: what is left of a detection. *)
From Coq Require Import List ZArith Sorted.
From Verif Require Import DataModel DataSpec RansacSpec.
Import ListNotations.

(** what is said about a board is what detection i said, less some of its corners: those
    that are left have their point and number, in the order of the detection *)
Definition part_of {pt} (i : insertion pt) (s : @said pt) : Prop :=
  fst s = (i_cam i, i_frame i, i_board i) /\
  exists keep, StronglySorted lt keep /\ sublist_at (i_pts i) keep (fst (snd s)) /\ sublist_at (i_ids i) keep (snd (snd s)).
(** corner k of board b at m is among what is said about an image *)
Definition says_corner {pt} (l : list (@said pt)) (c f b k : Z) (m : pt) : Prop :=
  exists s j, In s l /\ fst s = (c, f, b) /\ nth_error (fst (snd s)) j = Some m /\ nth_error (snd (snd s)) j = Some k.
