(** * Model of utf8_util.hpp, utf8_iterator.hpp and utf8_bounds.hpp

    Octets are stored as 0..255.  [mem] is the allocated buffer, an iterator is
    its [raw_iterator_], an index into [mem]. *)
From Verif Require Import Prelude.
From Coq Require Import SpecFloat.

(** ** utf8_util.hpp *)

(** A [char] (signed on x86-64) promoted to [int]; every function of
    utf8_util.hpp takes [const char] and applies [int] operators to it. *)
Definition char_int (b : Z) : Z := if b <? 128 then b else b - 256.

(** __builtin_clz: argument converted to unsigned int, undefined for 0
    (utf8_util.hpp:54,61). *)
Definition builtin_clz (v : Z) : res Z :=
  let u := to_u32 v in
  if u =? 0 then UB ClzZero else Ok (31 - Z.log2 u).

(** utf8_util.hpp:17-23 *)
Definition is_7bit_character (octet : Z) : bool :=
  if Z.land (char_int octet) 128 =? 0 then true else false.

(** utf8_util.hpp:28-34 *)
Definition is_codepoint_continuation (octet : Z) : bool :=
  if Z.land (char_int octet) 192 =? 128 then true else false.

(** utf8_util.hpp:39-45 *)
Definition is_codepoint_start (octet : Z) : bool :=
  if Z.land (char_int octet) 192 =? 192 then true else false.

(** utf8_util.hpp:50-55.  The left shift of a negative int is taken with gcc's
    documented semantics (multiplication by 2^24, always representable here). *)
Definition codepoint_size (first_octet : Z) : res Z :=
  let* z := builtin_clz (Z.lnot (Z.shiftl (char_int first_octet) 24)) in
  Ok (Z.max z 1).

(** IEEE binary32 pieces used by utf8_util.hpp:61. *)
Definition float_of_int (v : Z) : spec_float := binary_normalize 24 128 v 0 false.
Definition float_div : spec_float -> spec_float -> spec_float := SFdiv 24 128.
(** utf8_util.hpp:61: std::ceil followed by conversion to int. *)
Definition int_of_ceil (f : spec_float) : res Z :=
  match f with
  | S754_zero _ => Ok 0
  | S754_finite s m e =>
      let v := if s then Z.neg m else Z.pos m in
      Ok (if 0 <=? e then Z.shiftl v e else - ((- v) / 2 ^ (- e)))
  | _ => UB IntOverflow
  end.

(** utf8_util.hpp:60-62 *)
Definition encoded_size (value : Z) : res Z :=
  let* z := builtin_clz value in
  int_of_ceil (float_div (float_of_int (32 - z - 1)) (float_of_int 6)).

(** ** utf8_iterator.hpp: utf8_iterator_base *)

(** The loop of utf8_iterator.hpp:53-56.  [fuel] only makes the recursion
    structural, [rewind_to_start_of_codepoint] supplies enough of it for the
    loop to reach the start of the buffer (lemma [rewind_never_out_of_fuel]). *)
Fixpoint rewind_loop (fuel : nat) (mem : list Z) (p : Z) (ret : bool) : res (bool * Z) :=
  match fuel with
  | O => OutOfFuel
  | S f =>
      let* b := rd mem p in
      if is_codepoint_continuation b then
        let* p' := padd mem p (-1) in
        rewind_loop f mem p' true
      else Ok (ret, p)
  end.

(** utf8_iterator.hpp:49-58; the parameter [current_octet] is unused by the code
    (but the caller evaluates it, i.e. dereferences the iterator).  Returns the
    boolean result and the new raw_iterator_. *)
Definition rewind_to_start_of_codepoint (mem : list Z) (p : Z) : res (bool * Z) :=
  rewind_loop (S (Z.to_nat p)) mem p false.

(** utf8_iterator.hpp:63-67 *)
Definition forward_one_codepoint (mem : list Z) (p : Z) : res Z :=
  let* '(_, p) := rewind_to_start_of_codepoint mem p in
  let* b := rd mem p in
  let* size := codepoint_size b in
  padd mem p size.

(** utf8_iterator.hpp:72-78; the second loop (75-77) is the same loop as in
    rewind_to_start_of_codepoint. *)
Definition rewind_one_codepoint (mem : list Z) (p : Z) : res Z :=
  let* '(_, p) := rewind_to_start_of_codepoint mem p in
  let* p := padd mem p (-1) in
  let* '(_, p) := rewind_to_start_of_codepoint mem p in
  Ok p.

(** [value << 6] on int (utf8_iterator.hpp:97): defined in C++14 when the value
    is non-negative and the result fits in unsigned int. *)
Definition shl6 (value : Z) : res Z :=
  if (0 <=? value) && (value * 64 <? 4294967296) then Ok (to_i32 (value * 64))
  else UB BadShift.

(** utf8_iterator.hpp:96-98: the loop [while (--size)], [n] = remaining octets. *)
Fixpoint decode_loop (n : nat) (mem : list Z) (copy value : Z) : res Z :=
  match n with
  | O => Ok value
  | S n' =>
      let* copy := padd mem copy 1 in
      let* b := rd mem copy in
      let* v := shl6 value in
      decode_loop n' mem copy (Z.lor v (Z.land (char_int b) 63))
  end.

(** utf8_iterator.hpp:83-101.  Returns the codepoint and the raw_iterator_, which
    the code moves back to the start of the codepoint as a side effect. *)
Definition current_codepoint (mem : list Z) (p : Z) : res (Z * Z) :=
  let* first_octet := rd mem p in
  if is_7bit_character first_octet then Ok (char_int first_octet, p)
  else
    let* '(moved, p) := rewind_to_start_of_codepoint mem p in
    let* first_octet := (if moved : bool then rd mem p else Ok first_octet) in
    let* size := codepoint_size first_octet in
    if 7 - size <? 0 then UB BadShift (* 0xFF << negative, line 94 *)
    else
      let mask := to_u8 (Z.lnot (Z.shiftl 255 (7 - size))) in
      let value := Z.land (char_int first_octet) mask in
      let* v := decode_loop (Z.to_nat (size - 1)) mem p value in
      Ok (v, p).

(** ** utf8_iterator.hpp: operators of utf8_const_iterator and utf8_iterator.
    The two classes have textually identical operators (lines 134-193 and 231-282),
    modelled once. *)

(** Prefix ++ (134-137, 231-234). *)
Definition it_preinc (mem : list Z) (p : Z) : res Z := forward_one_codepoint mem p.
(** Postfix ++ (139-143, 236-240): returns (copy, new iterator). *)
Definition it_postinc (mem : list Z) (p : Z) : res (Z * Z) :=
  let copy := p in
  let* p := it_preinc mem p in
  Ok (copy, p).
(** Prefix -- (150-153, 247-250). *)
Definition it_predec (mem : list Z) (p : Z) : res Z := rewind_one_codepoint mem p.
(** Postfix -- (155-159, 252-256). *)
Definition it_postdec (mem : list Z) (p : Z) : res (Z * Z) :=
  let copy := p in
  let* p := it_predec mem p in
  Ok (copy, p).

(** Loop of operator== (173-179, 270-276). *)
Fixpoint eq_loop (size : nat) (mem : list Z) (copy rhs : Z) : res bool :=
  match size with
  | O => Ok false
  | S size' =>
      if copy =? rhs then Ok true
      else
        let* copy := padd mem copy 1 in
        eq_loop size' mem copy rhs
  end.

(** operator== (166-181, 263-278). *)
Definition it_eq (mem : list Z) (lhs rhs : Z) : res bool :=
  let* '(_, copy) := rewind_to_start_of_codepoint mem lhs in
  let* c := rd mem copy in
  let* size := codepoint_size c in
  eq_loop (Z.to_nat size) mem copy rhs.

(** operator!= (183-185, 280-282). *)
Definition it_neq (mem : list Z) (lhs rhs : Z) : res bool :=
  let* b := it_eq mem lhs rhs in Ok (negb b).

(** operator* of the const iterator (191-193): value and moved iterator. *)
Definition it_deref (mem : list Z) (p : Z) : res (Z * Z) := current_codepoint mem p.

(** ** utf8_iterator.hpp: proxyobject *)

(** proxyobject constructor (303-307): decodes on a copy of the iterator. *)
Definition proxy_read (mem : list Z) (p : Z) : res Z :=
  let* '(v, _) := current_codepoint mem p in Ok v.

(** Continuation loop of proxyobject::operator= (325-330); [n] is [size - 1]
    after the pre-decrement of the while condition. *)
Fixpoint assign_loop (n : nat) (mem : list Z) (p value : Z) : res (list Z * Z) :=
  match n with
  | O => Ok (mem, p)
  | S n' =>
      let octet := Z.lor 128 (Z.land (Z.shiftr value (Z.of_nat n' * 6)) 63) in
      let* p := padd mem p 1 in
      let* mem := wr mem p (to_u8 octet) in
      assign_loop n' mem p value
  end.

(** proxyobject::operator= (316-333): new buffer and new raw_iterator_ of the
    referenced iterator. *)
Definition proxy_assign (mem : list Z) (p value : Z) : res (list Z * Z) :=
  let* size := encoded_size value in
  if size <=? 1 then
    let* mem := wr mem p (Z.land value 255) in
    Ok (mem, p)
  else
    let first := to_u8 (Z.shiftl 255 (8 - size)) in
    let first := to_u8 (Z.lor first (Z.land (Z.shiftr value ((size - 1) * 6)) 255)) in
    let* mem := wr mem p first in
    assign_loop (Z.to_nat (size - 1)) mem p value.

(** The client statement [*it = c]: operator* (340-342) builds the proxy, which
    decodes, then the proxy is assigned. *)
Definition it_assign (mem : list Z) (p c : Z) : res (list Z * Z) :=
  let* _ := proxy_read mem p in
  proxy_assign mem p c.

(** ** utf8_bounds.hpp *)

(** Loop of check (utf8_bounds.hpp:40-49); [n] = max_walkback - walkback. *)
Fixpoint check_loop (n : nat) (mem : list Z) (begin end_ walkback : Z) : res bool :=
  match n with
  | O => Ok true
  | S n' =>
      if end_ =? begin then Ok true
      else
        let* octet := rd mem end_ in
        let* size := codepoint_size octet in
        if is_codepoint_start octet && (size >? walkback) then Ok false
        else
          let* end_' := padd mem end_ (-1) in
          check_loop n' mem begin end_' (walkback + 1)
  end.

(** utf8_bounds.hpp:32-51 *)
Definition bounds_check (mem : list Z) (begin end_ : Z) : res bool :=
  let* b := rd mem begin in
  if is_codepoint_continuation b then Ok false
  else check_loop 6 mem begin end_ 0.

(** First loop of enforce (59-63): new buffer, new begin, ret. *)
Fixpoint enforce_front (fuel : nat) (mem : list Z) (begin : Z) (ret : bool)
  : res (list Z * Z * bool) :=
  match fuel with
  | O => OutOfFuel
  | S f =>
      let* b := rd mem begin in
      if is_codepoint_continuation b then
        let* mem := wr mem begin 63 in
        let* begin := padd mem begin 1 in
        enforce_front f mem begin false
      else Ok (mem, begin, ret)
  end.

(** Second loop of enforce (68-77). *)
Fixpoint enforce_back (n : nat) (mem : list Z) (begin end_ walkback : Z) (ret : bool)
  : res (list Z * bool) :=
  match n with
  | O => Ok (mem, ret)
  | S n' =>
      if end_ =? begin then Ok (mem, ret)
      else
        let* octet := rd mem end_ in
        let* size := codepoint_size octet in
        let* '(mem, ret) :=
          (if is_codepoint_start octet && (size >? walkback)
           then let* mem := wr mem end_ 63 in Ok (mem, false)
           else Ok (mem, ret)) in
        let* end_' := padd mem end_ (-1) in
        enforce_back n' mem begin end_' (walkback + 1) ret
  end.

(** utf8_bounds.hpp:57-79: new buffer and result.  The fuel of the first loop is
    one more than the buffer size, it cannot run out. *)
Definition bounds_enforce (mem : list Z) (begin end_ : Z) : res (list Z * bool) :=
  let* '(mem, begin, ret) := enforce_front (S (length mem)) mem begin true in
  enforce_back 6 mem begin end_ 0 ret.
