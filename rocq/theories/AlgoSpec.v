(** * Specification: searching and comparing lists *)
From Coq Require Import List ZArith.
Import ListNotations.
Open Scope Z_scope.

(** Lexicographic order; a proper prefix comes first. *)
Fixpoint lex_less (a b : list Z) : Prop :=
  match a, b with
  | [], [] => False
  | [], _ :: _ => True
  | _ :: _, [] => False
  | x :: a', y :: b' => x < y \/ (x = y /\ lex_less a' b')
  end.

(** [p] occurs in [t] from number [k] on. *)
Definition occurs_at (t p : list Z) (k : nat) : Prop :=
  exists x y, t = x ++ p ++ y /\ length x = k.
(** [k] is the number of the first occurrence. *)
Definition first_occurrence (t p : list Z) (k : nat) : Prop :=
  occurs_at t p k /\ forall k', (k' < k)%nat -> ~ occurs_at t p k'.
(** [k] is the number of the first element with the property, or the length of [t] if there
    is none. *)
Definition first_with (pred : Z -> bool) (t : list Z) (k : nat) : Prop :=
  (forall i x, nth_error t i = Some x -> (i < k)%nat -> pred x = false) /\
  ((exists x, nth_error t k = Some x /\ pred x = true) \/ k = length t).
