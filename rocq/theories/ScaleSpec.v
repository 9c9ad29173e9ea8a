(** Specification for C67: the unit of length. *)
From Coq Require Import List ZArith Reals.
From Verif Require Import DetectModel GeomModel CameraModel RigSpec.
Close Scope nat_scope.
Open Scope R_scope.

(** all lengths multiplied by s: a pose, the corners of the boards, a rig *)
Definition longer (s : R) (P : pose) : pose := (fst P, vscale s (snd P)).
Definition larger_boards (s : R) (bpts : Z -> list vec3) (b : Z) : list vec3 := map (vscale s) (bpts b).
Definition larger_rig (s : R) (w : rig) : rig :=
  mkRig (rg_model w) (rg_intr w) (fun c => longer s (rg_cam w c)) (fun f => longer s (rg_frame w f)) (fun b => longer s (rg_board w b)).
