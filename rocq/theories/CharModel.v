(** * Model: utf8_util.hpp, utf8_iterator.hpp and utf8_bounds.hpp on platforms with signed or unsigned [char]

    Whether plain [char] is signed is up to the platform (signed: x86-64; unsigned: Linux on ARM and POWER).  Utf8Model.v has the
    signed one; this is the same code with the platform as a parameter.  An octet is stored as 0..255. *)
From Verif Require Import Prelude PropsModel Utf8Model TextModel.

Section Platform.
Context (char_is_signed : bool).

(** The value of a [char], and of the [int] it is promoted to. *)
Definition char_value (b : Z) : Z := if char_is_signed then (if b <? 128 then b else b - 256) else b.
(** The conversion of an [int] (or [unsigned char]) to [char]: its low eight bits, as gcc does for either kind. *)
Definition to_char (v : Z) : Z := to_u8 v.

(** utf8_util.hpp:17-23 *)
Definition is_7bit_character_on (octet : Z) : bool := if Z.land (char_value octet) 128 =? 0 then true else false.
(** utf8_util.hpp:28-34 *)
Definition is_codepoint_continuation_on (octet : Z) : bool := if Z.land (char_value octet) 192 =? 128 then true else false.
(** utf8_util.hpp:39-45 *)
Definition is_codepoint_start_on (octet : Z) : bool := if Z.land (char_value octet) 192 =? 192 then true else false.
(** utf8_util.hpp:50-55; the result of [<<] wraps around (gcc). *)
Definition codepoint_size_on (first_octet : Z) : res Z :=
  let* z := builtin_clz (Z.lnot (to_i32 (Z.shiftl (char_value first_octet) 24))) in
  Ok (Z.max z 1).

(** utf8_iterator.hpp:49-58 *)
Fixpoint rewind_loop_on (fuel : nat) (mem : list Z) (p : Z) (ret : bool) : res (bool * Z) :=
  match fuel with
  | O => OutOfFuel
  | S f =>
      let* b := rd mem p in
      if is_codepoint_continuation_on b then
        let* p' := padd mem p (-1) in
        rewind_loop_on f mem p' true
      else Ok (ret, p)
  end.
Definition rewind_to_start_of_codepoint_on (mem : list Z) (p : Z) : res (bool * Z) := rewind_loop_on (S (Z.to_nat p)) mem p false.
(** utf8_iterator.hpp:63-67 *)
Definition forward_one_codepoint_on (mem : list Z) (p : Z) : res Z :=
  let* '(_, p) := rewind_to_start_of_codepoint_on mem p in
  let* b := rd mem p in
  let* size := codepoint_size_on b in
  padd mem p size.
(** utf8_iterator.hpp:72-78 *)
Definition rewind_one_codepoint_on (mem : list Z) (p : Z) : res Z :=
  let* '(_, p) := rewind_to_start_of_codepoint_on mem p in
  let* p := padd mem p (-1) in
  let* '(_, p) := rewind_to_start_of_codepoint_on mem p in
  Ok p.
(** utf8_iterator.hpp:96-98 *)
Fixpoint decode_loop_on (n : nat) (mem : list Z) (copy value : Z) : res Z :=
  match n with
  | O => Ok value
  | S n' =>
      let* copy := padd mem copy 1 in
      let* b := rd mem copy in
      let* v := shl6 value in
      decode_loop_on n' mem copy (Z.lor v (Z.land (char_value b) 63))
  end.
(** utf8_iterator.hpp:83-101 *)
Definition current_codepoint_on (mem : list Z) (p : Z) : res (Z * Z) :=
  let* first_octet := rd mem p in
  if is_7bit_character_on first_octet then Ok (char_value first_octet, p)
  else
    let* '(moved, p) := rewind_to_start_of_codepoint_on mem p in
    let* first_octet := (if moved : bool then rd mem p else Ok first_octet) in
    let* size := codepoint_size_on first_octet in
    if 7 - size <? 0 then UB BadShift
    else
      let mask := to_u8 (Z.lnot (Z.shiftl 255 (7 - size))) in
      let value := Z.land (char_value first_octet) mask in
      let* v := decode_loop_on (Z.to_nat (size - 1)) mem p value in
      Ok (v, p).
(** utf8_iterator.hpp:139-143, 236-240 *)
Definition it_postinc_on (mem : list Z) (p : Z) : res (Z * Z) :=
  let copy := p in
  let* p := forward_one_codepoint_on mem p in
  Ok (copy, p).
(** utf8_iterator.hpp:155-159, 252-256 *)
Definition it_postdec_on (mem : list Z) (p : Z) : res (Z * Z) :=
  let copy := p in
  let* p := rewind_one_codepoint_on mem p in
  Ok (copy, p).
(** utf8_iterator.hpp:166-181, 263-278 *)
Definition it_eq_on (mem : list Z) (lhs rhs : Z) : res bool :=
  let* '(_, copy) := rewind_to_start_of_codepoint_on mem lhs in
  let* c := rd mem copy in
  let* size := codepoint_size_on c in
  eq_loop (Z.to_nat size) mem copy rhs.
(** utf8.hpp:32-34; the operators as in Utf8Model.v *)
Definition utf8_ops_on (mem : list Z) : cp_ops :=
  {| op_deref := current_codepoint_on mem; op_inc := forward_one_codepoint_on mem; op_postinc := it_postinc_on mem;
     op_dec := rewind_one_codepoint_on mem; op_eq := it_eq_on mem |}.

(** utf8_iterator.hpp:303-307 *)
Definition proxy_read_on (mem : list Z) (p : Z) : res Z := let* '(v, _) := current_codepoint_on mem p in Ok v.
(** utf8_iterator.hpp:325-330 *)
Fixpoint assign_loop_on (n : nat) (mem : list Z) (p value : Z) : res (list Z * Z) :=
  match n with
  | O => Ok (mem, p)
  | S n' =>
      let octet := Z.lor 128 (Z.land (Z.shiftr value (Z.of_nat n' * 6)) 63) in
      let* p := padd mem p 1 in
      let* mem := wr mem p (to_char octet) in
      assign_loop_on n' mem p value
  end.
(** utf8_iterator.hpp:316-333 *)
Definition proxy_assign_on (mem : list Z) (p value : Z) : res (list Z * Z) :=
  let* size := encoded_size value in
  if size <=? 1 then
    let* mem := wr mem p (to_char (Z.land value 255)) in
    Ok (mem, p)
  else
    let first := to_u8 (Z.shiftl 255 (8 - size)) in
    let first := to_u8 (Z.lor first (Z.land (Z.shiftr value ((size - 1) * 6)) 255)) in
    let* mem := wr mem p (to_char first) in
    assign_loop_on (Z.to_nat (size - 1)) mem p value.
(** utf8_iterator.hpp:340-342 and the assignment *)
Definition it_assign_on (mem : list Z) (p c : Z) : res (list Z * Z) :=
  let* _ := proxy_read_on mem p in
  proxy_assign_on mem p c.

(** utf8_bounds.hpp:32-51 *)
Fixpoint check_loop_on (n : nat) (mem : list Z) (begin end_ walkback : Z) : res bool :=
  match n with
  | O => Ok true
  | S n' =>
      if end_ =? begin then Ok true
      else
        let* octet := rd mem end_ in
        let* size := codepoint_size_on octet in
        if is_codepoint_start_on octet && (size >? walkback) then Ok false
        else
          let* end_' := padd mem end_ (-1) in
          check_loop_on n' mem begin end_' (walkback + 1)
  end.
Definition bounds_check_on (mem : list Z) (begin end_ : Z) : res bool :=
  let* b := rd mem begin in
  if is_codepoint_continuation_on b then Ok false
  else check_loop_on 6 mem begin end_ 0.
(** utf8_bounds.hpp:57-79 *)
Fixpoint enforce_front_on (fuel : nat) (mem : list Z) (begin : Z) (ret : bool) : res (list Z * Z * bool) :=
  match fuel with
  | O => OutOfFuel
  | S f =>
      let* b := rd mem begin in
      if is_codepoint_continuation_on b then
        let* mem := wr mem begin 63 in
        let* begin := padd mem begin 1 in
        enforce_front_on f mem begin false
      else Ok (mem, begin, ret)
  end.
Fixpoint enforce_back_on (n : nat) (mem : list Z) (begin end_ walkback : Z) (ret : bool) : res (list Z * bool) :=
  match n with
  | O => Ok (mem, ret)
  | S n' =>
      if end_ =? begin then Ok (mem, ret)
      else
        let* octet := rd mem end_ in
        let* size := codepoint_size_on octet in
        let* '(mem, ret) :=
          (if is_codepoint_start_on octet && (size >? walkback)
           then let* mem := wr mem end_ 63 in Ok (mem, false)
           else Ok (mem, ret)) in
        let* end_' := padd mem end_ (-1) in
        enforce_back_on n' mem begin end_' (walkback + 1) ret
  end.
Definition bounds_enforce_on (mem : list Z) (begin end_ : Z) : res (list Z * bool) :=
  let* '(mem, begin, ret) := enforce_front_on (S (length mem)) mem begin true in
  enforce_back_on 6 mem begin end_ 0 ret.

(** utf8.hpp:47-61 *)
Definition utf8_encode_one_on (c : Z) : res (list Z) :=
  let buf := [0; 0; 0; 0; 0; 0] in
  let o_begin := 0 in
  let* '(buf, o_i) := it_assign_on buf o_begin c in
  let* o_i := forward_one_codepoint_on buf o_i in
  copy_range buf o_begin o_i.
Fixpoint utf8_append_from_utf32ne_on (output : list Z) (cps : list Z) : res (list Z) :=
  match cps with
  | [] => Ok output
  | c :: t =>
      let* l := utf8_encode_one_on c in
      utf8_append_from_utf32ne_on (output ++ l) t
  end.
(** basic_encodedstring.hpp:172-189, utf8.hpp:39-43 *)
Definition utf8_append_on (output mem : list Z) (first last : Z) : res (list Z) :=
  let* '(_, p) := rewind_to_start_of_codepoint_on mem first in
  let* '(_, q) := rewind_to_start_of_codepoint_on mem last in
  let* l := copy_range mem p q in
  Ok (output ++ l).
(** basic_encodedstring.hpp:191-199: each codepoint is converted to [char]. *)
Fixpoint utf8_append_codepoints_as_chars_on (fuel : nat) (mem : list Z) (first last : Z) (output : list Z) : res (list Z) :=
  match fuel with
  | O => OutOfFuel
  | S f =>
      let* ne := op_neq (utf8_ops_on mem) first last in
      if ne : bool then
        let* '(c, first) := current_codepoint_on mem first in
        let* first := forward_one_codepoint_on mem first in
        utf8_append_codepoints_as_chars_on f mem first last (output ++ [to_char c])
      else Ok output
  end.
(** Writing codepoints one after the other: [*it = c; ++it]. *)
Fixpoint write_codepoints_on (mem : list Z) (it : Z) (cps : list Z) : res (list Z * Z) :=
  match cps with
  | [] => Ok (mem, it)
  | c :: t =>
      let* '(mem, it) := it_assign_on mem it c in
      let* it := forward_one_codepoint_on mem it in
      write_codepoints_on mem it t
  end.
End Platform.
