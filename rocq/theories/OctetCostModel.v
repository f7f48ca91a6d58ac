(** * Model: counting the octets read

    The operations of utf8_iterator.hpp and utf8_bounds.hpp again, with a count of the octets they read (each
    dereference of a native iterator counts one), then grapheme iteration and the forms over iterator
    operations with such a count (the functions of CostModel.v, where each operation counts one).  [erase]
    forgets the count; OctetCostProofs.v proves that what is left is the model of Utf8Model.v and TextModel.v. *)
From Verif Require Import Prelude DataTables PropsModel Utf8Model TextModel CostModel.

(** utf8_iterator.hpp:53-56: the loop reads an octet in each test. *)
Fixpoint rewind_loop_o (fuel : nat) (mem : list Z) (p : Z) (ret : bool) : counted (bool * Z) :=
  match fuel with
  | O => OutOfFuel
  | S f =>
      do b <- one (rd mem p);
      if is_codepoint_continuation b then
        do p' <- free (padd mem p (-1));
        rewind_loop_o f mem p' true
      else cret (ret, p)
  end.
(** utf8_iterator.hpp:49-58; the octet passed to it is read by the caller. *)
Definition rewind_to_start_of_codepoint_o (mem : list Z) (p : Z) : counted (bool * Z) :=
  rewind_loop_o (S (Z.to_nat p)) mem p false.
(** utf8_iterator.hpp:63-67, with the octet read for the unused parameter. *)
Definition forward_one_codepoint_o (mem : list Z) (p : Z) : counted Z :=
  do _ <- one (rd mem p);
  do '(_, p) <- rewind_to_start_of_codepoint_o mem p;
  do b <- one (rd mem p);
  do size <- free (codepoint_size b);
  free (padd mem p size).
(** utf8_iterator.hpp:72-78 *)
Definition rewind_one_codepoint_o (mem : list Z) (p : Z) : counted Z :=
  do _ <- one (rd mem p);
  do '(_, p) <- rewind_to_start_of_codepoint_o mem p;
  do p <- free (padd mem p (-1));
  do '(_, p) <- rewind_to_start_of_codepoint_o mem p;
  cret p.
(** utf8_iterator.hpp:96-98 *)
Fixpoint decode_loop_o (n : nat) (mem : list Z) (copy value : Z) : counted Z :=
  match n with
  | O => cret value
  | S n' =>
      do copy <- free (padd mem copy 1);
      do b <- one (rd mem copy);
      do v <- free (shl6 value);
      decode_loop_o n' mem copy (Z.lor v (Z.land (char_int b) 63))
  end.
(** utf8_iterator.hpp:83-101 *)
Definition current_codepoint_o (mem : list Z) (p : Z) : counted (Z * Z) :=
  do first_octet <- one (rd mem p);
  if is_7bit_character first_octet then cret (char_int first_octet, p)
  else
    do '(moved, p) <- rewind_to_start_of_codepoint_o mem p;
    do first_octet <- (if moved : bool then one (rd mem p) else cret first_octet);
    do size <- free (codepoint_size first_octet);
    if 7 - size <? 0 then free (UB BadShift)
    else
      let mask := to_u8 (Z.lnot (Z.shiftl 255 (7 - size))) in
      let value := Z.land (char_int first_octet) mask in
      do v <- decode_loop_o (Z.to_nat (size - 1)) mem p value;
      cret (v, p).
(** utf8_iterator.hpp:166-181, 263-278: the loop (173-179) reads nothing. *)
Definition it_eq_o (mem : list Z) (lhs rhs : Z) : counted bool :=
  do _ <- one (rd mem lhs);
  do '(_, copy) <- rewind_to_start_of_codepoint_o mem lhs;
  do c <- one (rd mem copy);
  do size <- free (codepoint_size c);
  free (eq_loop (Z.to_nat size) mem copy rhs).

(** utf8_bounds.hpp:40-49 *)
Fixpoint check_loop_o (n : nat) (mem : list Z) (begin end_ walkback : Z) : counted bool :=
  match n with
  | O => cret true
  | S n' =>
      if end_ =? begin then cret true
      else
        do octet <- one (rd mem end_);
        do size <- free (codepoint_size octet);
        if is_codepoint_start octet && (size >? walkback) then cret false
        else
          do end_' <- free (padd mem end_ (-1));
          check_loop_o n' mem begin end_' (walkback + 1)
  end.
(** utf8_bounds.hpp:32-51 *)
Definition bounds_check_o (mem : list Z) (begin end_ : Z) : counted bool :=
  do b <- one (rd mem begin);
  if is_codepoint_continuation b then cret false
  else check_loop_o 6 mem begin end_ 0.

(** What a codepoint iterator offers, with the work of each operation (TextModel.v [cp_ops], [op_neq], [op_step]). *)
Record cops := {
  co_deref : Z -> counted (Z * Z);
  co_step : Z -> counted Z;
  co_dec : Z -> counted Z;
  co_eq : Z -> Z -> counted bool
}.
Definition co_neq (ops : cops) (p q : Z) : counted bool := do b <- co_eq ops p q; cret (negb b).
(** utf8.hpp:32-34: the UTF-8 iterator. *)
Definition utf8_cops (mem : list Z) : cops :=
  {| co_deref := current_codepoint_o mem; co_step := forward_one_codepoint_o mem;
     co_dec := rewind_one_codepoint_o mem; co_eq := it_eq_o mem |}.

(** examples/normalization_form_d.cpp:27-32: for (it = from; it != end; it++) use *it; *)
Fixpoint iterate_codepoints_for_o (fuel : nat) (ops : cops) (it end_ : Z) : counted (list Z) :=
  match fuel with
  | O => OutOfFuel
  | S f =>
      do ne <- co_neq ops it end_;
      if ne : bool then
        do '(c, it) <- co_deref ops it;
        do it <- co_step ops it;
        do rest <- iterate_codepoints_for_o f ops it end_;
        cret (c :: rest)
      else cret []
  end.
(** Client code: while (it != begin) { --it; use *it; }, as in t/003_utf8_encoded_iterator.t.cpp:86-94. *)
Fixpoint iterate_backwards_o (fuel : nat) (ops : cops) (it begin : Z) : counted (list Z) :=
  match fuel with
  | O => OutOfFuel
  | S f =>
      do ne <- co_neq ops it begin;
      if ne : bool then
        do it <- co_dec ops it;
        do '(c, it) <- co_deref ops it;
        do rest <- iterate_backwards_o f ops it begin;
        cret (c :: rest)
      else cret []
  end.

(** basic_grapheme_iterator.hpp:142-154 *)
Fixpoint find_end_loop_o (fuel : nat) (ops : cops) (end_ a eog : Z) : counted Z :=
  match fuel with
  | O => OutOfFuel
  | S f =>
      do e <- (co_eq ops eog end_);
      if e : bool then cret eog
      else
        do '(b, eog) <- (co_deref ops eog);
        do brk <- free (is_grapheme_boundary a b);
        if brk : bool then cret eog
        else
          do eog <- (co_step ops eog);
          find_end_loop_o f ops end_ b eog
  end.
(** basic_grapheme_iterator.hpp:131-155 *)
Definition find_end_of_grapheme_o (fuel : nat) (ops : cops) (end_ eog : Z) : counted Z :=
  do e <- (co_eq ops eog end_);
  if e : bool then cret eog
  else
    do '(a, eog) <- (co_deref ops eog);
    do eog <- (co_step ops eog);
    find_end_loop_o fuel ops end_ a eog.
(** basic_grapheme_iterator.hpp:169-180 *)
Fixpoint find_start_loop_o (fuel : nat) (ops : cops) (begin a where_ : Z) : counted Z :=
  match fuel with
  | O => OutOfFuel
  | S f =>
      do e <- (co_eq ops where_ begin);
      if e : bool then cret where_
      else
        do '(b, where_) <- (co_deref ops where_);
        do brk <- free (is_grapheme_boundary a b);
        if brk : bool then cret where_
        else
          do where_ <- (co_dec ops where_);
          find_start_loop_o f ops begin b where_
  end.
(** basic_grapheme_iterator.hpp:157-181 *)
Definition find_start_of_grapheme_o (fuel : nat) (ops : cops) (begin where_ : Z) : counted Z :=
  do e <- (co_eq ops where_ begin);
  if e : bool then cret where_
  else
    do copy <- (co_dec ops where_);
    do '(a, _) <- (co_deref ops copy);
    find_start_loop_o fuel ops begin a where_.
(** basic_grapheme_iterator.hpp:187-191, basic_encodedstring.hpp:152-156 *)
Definition grapheme_begin_o (fuel : nat) (ops : cops) (b e : Z) : counted gi :=
  do eog <- find_end_of_grapheme_o fuel ops e b;
  cret {| g_begin := b; g_end := e; g_where := b; g_eog := eog |}.
(** basic_grapheme_iterator.hpp:197-203, basic_encodedstring.hpp:157-162 *)
Definition grapheme_end_o (fuel : nat) (ops : cops) (b e : Z) : counted gi :=
  do where_ <- find_start_of_grapheme_o fuel ops b e;
  do eog <- find_end_of_grapheme_o fuel ops e e;
  cret {| g_begin := b; g_end := e; g_where := where_; g_eog := eog |}.
(** basic_grapheme_iterator.hpp:234-244 (the statement [it++;]) *)
Definition gi_step_o (fuel : nat) (ops : cops) (g : gi) : counted gi :=
  do eog <- find_end_of_grapheme_o fuel ops (g_end g) (g_eog g);
  cret {| g_begin := g_begin g; g_end := g_end g; g_where := g_eog g; g_eog := eog |}.
(** basic_grapheme_iterator.hpp:254-260 *)
Fixpoint gi_eq_cp_loop_o (fuel : nat) (ops : cops) (eog copy other : Z) : counted bool :=
  match fuel with
  | O => OutOfFuel
  | S f =>
      do stop <- (co_eq ops copy eog);
      if stop : bool then cret false
      else
        do e <- (co_eq ops copy other);
        if e : bool then cret true
        else
          do copy <- (co_step ops copy);
          gi_eq_cp_loop_o f ops eog copy other
  end.
(** basic_grapheme_iterator.hpp:250-262 *)
Definition gi_eq_cp_o (fuel : nat) (ops : cops) (g : gi) (other : Z) : counted bool :=
  do e <- (co_eq ops (g_where g) other);
  if e : bool then cret true
  else gi_eq_cp_loop_o fuel ops (g_eog g) (g_where g) other.
(** basic_grapheme_iterator.hpp:272-278 *)
Fixpoint gi_eq_loop_o (fuel : nat) (ops : cops) (eog copy : Z) (other : gi) : counted bool :=
  match fuel with
  | O => OutOfFuel
  | S f =>
      do stop <- (co_eq ops copy eog);
      if stop : bool then cret false
      else
        do e <- gi_eq_cp_o fuel ops other copy;
        if e : bool then cret true
        else
          do copy <- (co_step ops copy);
          gi_eq_loop_o f ops eog copy other
  end.
(** basic_grapheme_iterator.hpp:267-280 *)
Definition gi_eq_o (fuel : nat) (ops : cops) (g other : gi) : counted bool :=
  do c1 <- (co_eq ops (g_where g) (g_end g));
  do c <- (if c1 : bool then gi_eq_cp_o fuel ops other (g_end g) else cret false);
  if c : bool then cret true
  else gi_eq_loop_o fuel ops (g_eog g) (g_where g) other.
(** basic_grapheme_iterator.hpp:285-287 *)
Definition gi_neq_o (fuel : nat) (ops : cops) (g other : gi) : counted bool :=
  do b <- gi_eq_o fuel ops g other; cret (negb b).

(** The loop of filter.hpp:45-54 is [filter_loop_c] of CostModel.v, which counts what its parameters count. *)

(** normalization_form_d.hpp:27-31 (and kd 27-33, c 28-33, kc 28-34) *)
Definition decompose_grapheme_o (fuel : nat) (ops : cops)
  (dec : Z -> list Z -> res (Z * list Z)) (g : Z * Z) : counted (Z * list Z) :=
  filter_loop_c fuel (co_neq ops) (co_deref ops) (co_step ops)
    (fun c out => free (dec c out)) (fst g) (snd g) [] 0.
(** normalization_form_d.hpp:23-44, normalization_form_kd.hpp:23-45. *)
Definition form_decomposed_o (sort : list Z -> list Z)
  (append_out : list Z -> list Z -> res (list Z)) (fuel : nat) (ops : cops)
  (dec : Z -> list Z -> res (Z * list Z))
  (g : Z * Z) (output : list Z) : counted (Z * list Z) :=
  do '(count, decomposed) <- decompose_grapheme_o fuel ops dec g;
  do output <- free (append_out output (sort decomposed));
  cret (count, output).
(** normalization_form_c.hpp:24-52, normalization_form_kc.hpp:24-53. *)
Definition form_composed_o (sort : list Z -> list Z)
  (append_out : list Z -> list Z -> res (list Z)) (fuel : nat) (ops : cops)
  (dec : Z -> list Z -> res (Z * list Z))
  (g : Z * Z) (output : list Z) : counted (Z * list Z) :=
  do '(count, decomposed) <- decompose_grapheme_o fuel ops dec g;
  do '(decomposed, oi, compositions) <- free (canonical_composition (sort decomposed) 0);
  do output <- free (append_out output (firstn (Z.to_nat oi) decomposed));
  cret (count - compositions, output).
(** normalization_form_d.hpp:23-44, normalization_form_kd.hpp:23-45, normalization_form_c.hpp:24-52,
    normalization_form_kc.hpp:24-53: the instances. *)
Definition normalization_form_d_o sort append_out fuel ops := form_decomposed_o sort append_out fuel ops canonical_decomposition.
Definition normalization_form_kd_o sort append_out fuel ops := form_decomposed_o sort append_out fuel ops compatibility_and_canonical_decomposition.
Definition normalization_form_c_o sort append_out fuel ops := form_composed_o sort append_out fuel ops canonical_decomposition.
Definition normalization_form_kc_o sort append_out fuel ops := form_composed_o sort append_out fuel ops compatibility_and_canonical_decomposition.

(** filter(s.grapheme_begin(), s.grapheme_end(), output, operation) (examples/normalization_form_d.cpp:23-24,
    examples/grapheme_iteration.cpp:24-33 is the same loop). *)
Definition normalize_o (fuel : nat) (ops : cops)
  (form : Z * Z -> list Z -> counted (Z * list Z)) (b e : Z)
  (output : list Z) : counted (Z * list Z) :=
  do from <- grapheme_begin_o fuel ops b e;
  do to <- grapheme_end_o fuel ops b e;
  filter_loop_c fuel (gi_neq_o fuel ops) (fun g => cret (gi_deref g, g)) (gi_step_o fuel ops) form from to output 0.
