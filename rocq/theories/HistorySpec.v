(** * Specification: histories of operations on the iterators of a text

    Independent of the model.  A client program holds any number of codepoint iterators and
    grapheme iterators, numbered by [nat], and uses them in any order.  What it is to see:
    a codepoint iterator is an index into the codepoints, a grapheme iterator an index into
    the graphemes. *)
From Coq Require Import List ZArith.
Import ListNotations.
Open Scope Z_scope.

Inductive command :=
| Begin (r : nat)                (* r = s.codepoint_begin() *)
| End (r : nat)                  (* r = s.codepoint_end() *)
| At (r : nat) (p : Z)           (* r = an iterator made from the native position p *)
| Copy (r q : nat)               (* q = r *)
| Inc (r : nat)                  (* ++r *)
| PostInc (r q : nat)            (* q = r++ *)
| Dec (r : nat)                  (* --r *)
| PostDec (r q : nat)            (* q = r-- *)
| Read (r : nat)                 (* the codepoint at r *)
| Equal (r q : nat)              (* r == q *)
| GBegin (g : nat)               (* g = s.grapheme_begin() *)
| GEnd (g : nat)                 (* g = s.grapheme_end() *)
| GCopy (g h : nat)              (* h = g *)
| GInc (g : nat)                 (* ++g *)
| GPostInc (g h : nat)           (* h = g++ *)
| GEqual (g h : nat)             (* g == h *)
| GEqualAt (g r : nat)           (* g == r *)
| GFirst (g r : nat)             (* r = g's grapheme: codepoint_begin() *)
| GLast (g r : nat)              (* r = g's grapheme: codepoint_end() *)
| GRead (g : nat).               (* the loop over the codepoints of g's grapheme *)
Inductive observation :=
| Saw (c : Z)
| Was (b : bool)
| SawGrapheme (l : list Z).

(** The registers. *)
Definition set {A} (f : nat -> A) (r : nat) (v : A) : nat -> A := fun q => if Nat.eqb q r then v else f q.

Section Text.
(** The codepoints, the graphemes, and where each codepoint starts. *)
Context (cs : list Z) (gs : list (list Z)) (pos : nat -> Z).
(** The index of the first codepoint of grapheme [k]. *)
Definition first_of (k : nat) : nat := length (concat (firstn k gs)).
(** [step command (cursors, graphemes) observations (cursors', graphemes')] *)
Inductive step : command -> (nat -> nat) * (nat -> nat) -> list observation -> (nat -> nat) * (nat -> nat) -> Prop :=
| does_begin r C G : step (Begin r) (C, G) [] (set C r 0%nat, G)
| does_end r C G : step (End r) (C, G) [] (set C r (length cs), G)
| does_at r p k C G : (k < length cs)%nat -> pos k <= p < pos (S k) -> step (At r p) (C, G) [] (set C r k, G)
| does_copy r q C G : step (Copy r q) (C, G) [] (set C q (C r), G)
| does_inc r C G : (C r < length cs)%nat -> step (Inc r) (C, G) [] (set C r (S (C r)), G)
| does_postinc r q C G : (C r < length cs)%nat -> step (PostInc r q) (C, G) [] (set (set C r (S (C r))) q (C r), G)
| does_dec r k C G : C r = S k -> step (Dec r) (C, G) [] (set C r k, G)
| does_postdec r q k C G : C r = S k -> step (PostDec r q) (C, G) [] (set (set C r k) q (S k), G)
| does_read r c C G : nth_error cs (C r) = Some c -> step (Read r) (C, G) [Saw c] (C, G)
| does_equal r q C G : step (Equal r q) (C, G) [Was (Nat.eqb (C r) (C q))] (C, G)
| does_gbegin g C G : step (GBegin g) (C, G) [] (C, set G g 0%nat)
| does_gend g C G : step (GEnd g) (C, G) [] (C, set G g (length gs))
| does_gcopy g h C G : step (GCopy g h) (C, G) [] (C, set G h (G g))
| does_ginc g C G : (G g < length gs)%nat -> step (GInc g) (C, G) [] (C, set G g (S (G g)))
| does_gpostinc g h C G : (G g < length gs)%nat -> step (GPostInc g h) (C, G) [] (C, set (set G g (S (G g))) h (G g))
| does_gequal g h C G : step (GEqual g h) (C, G) [Was (Nat.eqb (G g) (G h))] (C, G)
| does_gequal_at g r b C G :
    (b = true <-> (first_of (G g) <= C r < first_of (S (G g)))%nat \/ (G g = length gs /\ C r = length cs)) ->
    step (GEqualAt g r) (C, G) [Was b] (C, G)
| does_gfirst g r C G : step (GFirst g r) (C, G) [] (set C r (first_of (G g)), G)
| does_glast g r C G : step (GLast g r) (C, G) [] (set C r (first_of (S (G g))), G)
| does_gread g l C G : nth_error gs (G g) = Some l -> step (GRead g) (C, G) [SawGrapheme l] (C, G).
Inductive history : (nat -> nat) * (nat -> nat) -> list command -> list observation -> (nat -> nat) * (nat -> nat) -> Prop :=
| history_ends st : history st [] [] st
| history_goes_on st st' st'' x xs o os : step x st o st' -> history st' xs os st'' -> history st (x :: xs) (o ++ os) st''.
End Text.
