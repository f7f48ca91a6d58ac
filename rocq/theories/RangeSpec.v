(** * Specification: what the octets at a position of a buffer amount to

    Independent of the model. *)
From Coq Require Import List ZArith.
From Verif Require Import Utf8Spec.
Import ListNotations.
Open Scope Z_scope.

(** One past the octets announced by the octet at [r]. *)
Definition extent (mem : list Z) (r : Z) : Z := r + announced_len (octet mem r).

(** The octets at [r] .. [extent mem r - 1], whatever they are. *)
Definition octets_at (mem : list Z) (r : Z) : list Z :=
  firstn (Z.to_nat (announced_len (octet mem r))) (skipn (Z.to_nat r) mem).

(** The number they make up: the payload of the first octet, then the low 6 bits of each
    of the others, whether or not they are continuation octets. *)
Definition value_at (mem : list Z) (r : Z) : Z := sequence_value (octets_at mem r).

(** [rs] are the positions at which a forward walk from [p] finds codepoints: it goes from
    an octet that is not a continuation octet to the end of the octets it announces, then
    back to the closest octet that is not a continuation octet, and stops when the
    announced octets end after [e]. *)
Inductive forward_walk (mem : list Z) (e : Z) : Z -> list Z -> Prop :=
| forward_stop p r : closest_lead mem p r -> e < extent mem r -> forward_walk mem e p []
| forward_next p r rs : closest_lead mem p r -> extent mem r <= e ->
    forward_walk mem e (extent mem r) rs -> forward_walk mem e p (r :: rs).

(** [rs] are all the positions of octets of [s] that are not continuation octets, last first. *)
Definition leads_backwards (s rs : list Z) : Prop :=
  (forall p, In p rs <-> 0 <= p < Z.of_nat (length s) /\ ~ continuation_octet (octet s p)) /\
  forall i j, (i < j < length rs)%nat -> nth j rs 0 < nth i rs 0.

(** The graphemes [gs] of the codepoints found at [rs], less what a grapheme iterator loses:
    the last codepoint of a grapheme when the next codepoint starts among its octets. *)
Fixpoint without_swallowed (mem : list Z) (rs : list Z) (gs : list (list Z)) : list (list Z) :=
  match gs with
  | [] => []
  | g :: gs' =>
      let next := skipn (length g) rs in
      match next with
      | [] => g
      | r :: _ => if r <? extent mem (last (firstn (length g) rs) 0) then removelast g else g
      end :: without_swallowed mem next gs'
  end.
