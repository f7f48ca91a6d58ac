(** * Model: the reverse iterators of a string

    basic_encodedstring.hpp:72-77: [reverse_iterator] and [const_reverse_iterator] are std::reverse_iterator over the codepoint
    iterators.  A std::reverse_iterator is modelled by the position of its base(). *)
From Verif Require Import Prelude Utf8Model TextModel.

(** std::reverse_iterator (libstdc++ 13, bits/stl_iterator.h:264-268, 296-342, 446-464) over iterators with operations [ops].
    Its operator* is [Iterator tmp = current; return *--tmp;] and returns a [reference].  If the iterator's own operator* returns
    a value that reference is bound to a temporary, which is gone when the caller reads it ([to_temporary]; g++ returns a null
    reference); [op_deref] here is the read of the codepoint that is referred to. *)
Definition reversed (to_temporary : bool) (ops : cp_ops) : cp_ops :=
  {| op_deref := fun r =>
       let* tmp := op_dec ops r in
       let* '(c, _) := op_deref ops tmp in
       if to_temporary then UB OobRead else Ok (c, r);
     op_inc := fun r => op_dec ops r;
     op_postinc := fun r => let* q := op_dec ops r in Ok (r, q);
     op_dec := fun r => op_inc ops r;
     op_eq := fun r s => op_eq ops r s |}.
(** utf8.hpp:25-34: over utf8_iterator and utf8_const_iterator, whose [reference] is [const codepoint&] (utf8_iterator.hpp:28-36)
    and whose operator* returns a [const codepoint] (:191-193) or a [proxyobject] (:340-342), by value. *)
Definition utf8_reversed (mem : list Z) : cp_ops := reversed true (utf8_ops mem).
(** utf32ne.hpp:26-30: native iterators, operator* returns a reference to the element. *)
Definition utf32_reversed (mem : list Z) : cp_ops := reversed false (utf32_ops mem).

(** Client code: for (r = rbegin; r != rend; ++r) { it = r.base(); --it; use *it; } *)
Fixpoint iterate_bases (fuel : nat) (rops ops : cp_ops) (r rend : Z) : res (list Z) :=
  match fuel with
  | O => OutOfFuel
  | S f =>
      let* ne := op_neq rops r rend in
      if ne : bool then
        let* it := op_dec ops r in
        let* '(c, _) := op_deref ops it in
        let* r := op_inc rops r in
        let* rest := iterate_bases f rops ops r rend in
        Ok (c :: rest)
      else Ok []
  end.
(** Client code: [*r = c] for a reverse_iterator of a utf32ne_string: the store through the reference. *)
Definition utf32_reverse_write (mem : list Z) (r c : Z) : res (list Z) :=
  let* tmp := op_dec (utf32_ops mem) r in
  wr mem tmp c.
