(** What a reader of a pose may rely on. *)
From Coq Require Import List ZArith Reals.
From Flocq Require Import Core.
From Verif Require Import DetectModel GeomModel GeomSpec AccessModel.
Import ListNotations.
Close Scope R_scope.
Open Scope nat_scope.

(** the call sets the pose named k *)
Definition sets {K} (k : K) (c : call K) : Prop := (exists r t, c = SetVec k r t) \/ (exists P, c = SetMat k P).
(** the call is about the pose named k *)
Definition about {K} (k : K) (c : call K) : Prop := sets k c \/ c = GetVec k \/ c = GetMat k \/ c = GetRot k \/ c = GetTrans k.
(** [c] is the last call of the history that sets k *)
Definition last_set {K} (h : list (call K)) (k : K) (c : call K) : Prop :=
  sets k c /\ exists before later, h = before ++ c :: later /\ forall d, In d later -> ~ sets k d.
Definition never_set {K} (h : list (call K)) (k : K) : Prop := forall d, In d h -> ~ sets k d.
(** what is told of the pose named k is the rotation vector r and the translation t *)
Definition tells {K} (ask : call K -> answer) (k : K) (r t : vec3) : Prop :=
  ask (GetVec k) = AVec r t /\ ask (GetMat k) = AMat (RVecT2Proj r t) /\ ask (GetRot k) = AOne r /\ ask (GetTrans k) = AOne t.
(** every question about the pose has an answer, and they tell r and t *)
Definition tells_if {K} (ask : call K -> option answer) (k : K) (r t : vec3) : Prop :=
  exists f, (forall c, about k c -> ~ sets k c -> ask c = Some (f c)) /\ tells f k r t.
(** cv::Rodrigues gives angles of at most half a turn *)
Definition log_short (lr : mat3 -> vec3) : Prop := forall A, rotation A -> (vnorm (lr A) <= PI)%R.
(** a number that a float can hold *)
Definition is_float (x : R) : Prop := generic_format radix2 (FLT_exp (-149) 24) x.
