(** * Specification: common beginnings, repetitions *)
From Coq Require Import List ZArith.
Import ListNotations.
Open Scope Z_scope.

(** [x] and [y] have their first [k] elements in common, and no more. *)
Definition common_beginning (x y : list Z) (k : nat) : Prop :=
  (k <= length x)%nat /\ (k <= length y)%nat /\ firstn k x = firstn k y /\
  (forall a b, nth_error x k = Some a -> nth_error y k = Some b -> a <> b).
(** Element number [k] of [t] is the same as the next one. *)
Definition repeated_at (t : list Z) (k : nat) : Prop := exists c, nth_error t k = Some c /\ nth_error t (S k) = Some c.
(** [k] is the number of the first such element, or the length of [t] if there is none. *)
Definition first_repeated (t : list Z) (k : nat) : Prop :=
  (forall i, (i < k)%nat -> ~ repeated_at t i) /\ (repeated_at t k \/ k = length t).
(** [u] is [t] with every run of one element reduced to one. *)
Inductive without_repetitions : list Z -> list Z -> Prop :=
| wr_nil : without_repetitions [] []
| wr_one c : without_repetitions [c] [c]
| wr_same c t u : without_repetitions (c :: t) u -> without_repetitions (c :: c :: t) u
| wr_next c d t u : c <> d -> without_repetitions (d :: t) u -> without_repetitions (c :: d :: t) (c :: u).
