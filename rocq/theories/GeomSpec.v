(** Specification for the geometry. *)
From Coq Require Import List Reals Sorted Permutation.
From Verif Require Import GeomModel.
Import ListNotations.
Open Scope R_scope.

(** proper rotations *)
Definition rotation (A : mat3) : Prop := mm A (mtr A) = mid /\ det A = 1.
(** rigid poses *)
Definition rigid (P : pose) : Prop := rotation (fst P).
(** cv::Rodrigues is a right inverse of the exponential on rotations *)
Definition log_ok (log_rot : mat3 -> vec3) : Prop := forall A, rotation A -> exp_rot (log_rot A) = A.

Definition distance (p q : vec3) : R := vnorm (vsub p q).
Definition unit_quat (q : quat) : Prop := qx q * qx q + qy q * qy q + qz q * qz q + qw q * qw q = 1.

(** [sorted_version v s]: s is v in non-decreasing order *)
Definition sorted_version (v s : list R) : Prop := Permutation v s /\ StronglySorted Rle s.

(** m is the middle order statistic: the element at position k of 2k+1, the mean of
    those at k-1 and k of 2k *)
Definition is_median (v : list R) (m : R) : Prop :=
  exists s, sorted_version v s /\
    ((exists l x r, s = l ++ x :: r /\ length l = length r /\ m = x) \/
     (exists l x y r, s = l ++ x :: y :: r /\ length l = length r /\ m = (x + y) / 2)).

(** quadratic form, trace of the 4x4 averaging matrix *)
Definition idx4 : list nat := [0; 1; 2; 3]%nat.
Definition sum4 (f : nat -> R) : R := f 0%nat + f 1%nat + f 2%nat + f 3%nat.
(** u is a unit eigenvector of M for its largest eigenvalue *)
Definition dominant (M : nat -> nat -> R) (u : quat) : Prop :=
  unit_quat u /\ exists lam, 
    (forall i, (i < 4)%nat -> sum4 (fun j => M i j * qget u j) = lam * qget u i) /\
    (forall v, unit_quat v -> sum4 (fun i => sum4 (fun j => qget v i * M i j * qget v j)) <= lam).
(** cv::SVD returns a dominant eigenvector of a symmetric positive semi-definite matrix *)
Definition svd_ok (svd : (nat -> nat -> R) -> quat) : Prop :=
  forall M, (exists u, dominant M u) -> dominant M (svd M).
