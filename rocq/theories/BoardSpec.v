(** Specification for C05-C07. *)
From Coq Require Import List ZArith Reals.
From Verif Require Import BoardModel.
Import ListNotations.

(** the squares and square size the configuration gives to index b *)
Definition configured_size (g : bconfig) (b : Z) : option (Z * Z * R) :=
  match g_nx_per g with
  | [] => Some (g_nx g, g_ny g, g_square g)
  | _ => match znth (g_nx_per g) b, znth (g_ny_per g) b, znth (g_square_per g) b with
         | Some nx, Some ny, Some s => Some (nx, ny, s)
         | _, _, _ => None
         end
  end.

