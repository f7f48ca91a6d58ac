(** * std::string's own comparison and search (libstdc++ 13)

    A client reaches them through the member [native_string] (include/u5e/basic_encodedstring.hpp:89).
    A string is the list of its octets 0..255; its memory is [string_buffer], the octets and a terminator. *)
From Verif Require Import Prelude Utf8Model TextModel Utf8Spec.

(** __builtin_memcmp, which std::char_traits<char>::compare calls (bits/char_traits.h:374-390; also the loop there for constant
    evaluation, 380-387): only the sign of the result is fixed; the model has -1, 0, 1. *)
Fixpoint memcmp (n : nat) (a : list Z) (p : Z) (b : list Z) (q : Z) : res Z :=
  match n with
  | O => Ok 0
  | S n' =>
      let* x := rd a p in
      let* y := rd b q in
      if x <? y then Ok (-1) else if y <? x then Ok 1 else memcmp n' a (p + 1) b (q + 1)
  end.
(** std::char_traits<char>::compare, bits/char_traits.h:374-390.  Both ranges have to be readable as a whole. *)
Definition traits_compare (a : list Z) (p : Z) (b : list Z) (q n : Z) : res Z :=
  if n =? 0 then Ok 0
  else if (0 <=? p) && (p + n <=? zlen a) && (0 <=? q) && (q + n <=? zlen b) && (0 <=? n)
  then memcmp (Z.to_nat n) a p b q else UB OobRead.
(** std::char_traits<char>::find, bits/char_traits.h:403-412, by __builtin_memchr: [None] is the null pointer. *)
Fixpoint memchr (n : nat) (a : list Z) (p v : Z) : res (option Z) :=
  match n with
  | O => Ok None
  | S n' => let* x := rd a p in if x =? v then Ok (Some p) else memchr n' a (p + 1) v
  end.
Definition traits_find (a : list Z) (p n v : Z) : res (option Z) := if n =? 0 then Ok None else memchr (Z.to_nat n) a p v.

(** std::basic_string::_S_compare, bits/basic_string.h:488-498.  Sizes are at most max_size(), so the difference does not wrap. *)
Definition s_compare (n1 n2 : Z) : Z :=
  let d := n1 - n2 in if int_max <? d then int_max else if d <? int_min then int_min else d.
(** std::basic_string::compare, bits/basic_string.h:3183-3193 *)
Definition string_compare (s t : list Z) : res Z :=
  let size := zlen s in
  let osize := zlen t in
  let len := Z.min size osize in
  let* r := traits_compare (string_buffer s) 0 (string_buffer t) 0 len in
  Ok (if r =? 0 then s_compare size osize else r).
(** operator== of two strings, bits/basic_string.h:3710-3716; operator!= is its negation. *)
Definition string_equal (s t : list Z) : res bool :=
  if zlen s =? zlen t then let* r := traits_compare (string_buffer s) 0 (string_buffer t) 0 (zlen s) in Ok (r =? 0) else Ok false.
(** operator<, bits/basic_string.h:3829-3832 *)
Definition string_less (s t : list Z) : res bool := let* r := string_compare s t in Ok (r <? 0).

(** std::basic_string::find, bits/basic_string.tcc:619-650; [None] is npos.  The loop, lines 636-648, then the function. *)
Fixpoint string_find_loop (fuel : nat) (data : list Z) (first last : Z) (s : list Z) (n elem0 : Z) : res (option Z) :=
  match fuel with
  | O => OutOfFuel
  | S f =>
      let len := last - first in
      if n <=? len then
        let* found := traits_find data first (len - n + 1) elem0 in
        match found with
        | None => Ok None
        | Some first =>
            let* r := traits_compare data first s 0 n in
            if r =? 0 then Ok (Some first) else string_find_loop f data (first + 1) last s n elem0
        end
      else Ok None
  end.
Definition string_find (fuel : nat) (s t : list Z) (pos : Z) : res (option Z) :=
  let size := zlen s in
  let n := zlen t in
  if n =? 0 then Ok (if pos <=? size then Some pos else None)
  else if size <=? pos then Ok None
  else
    let* elem0 := rd (string_buffer t) 0 in
    string_find_loop fuel (string_buffer s) pos size (string_buffer t) n elem0.
(** std::basic_string::rfind, bits/basic_string.tcc:675-692, from position [pos]; the loop, lines 684-689, then the function. *)
Fixpoint string_rfind_loop (fuel : nat) (data : list Z) (pos : Z) (s : list Z) (n : Z) : res (option Z) :=
  match fuel with
  | O => OutOfFuel
  | S f =>
      let* r := traits_compare data pos s 0 n in
      if r =? 0 then Ok (Some pos)
      else if 0 <? pos then string_rfind_loop f data (pos - 1) s n else Ok None
  end.
Definition string_rfind (fuel : nat) (s t : list Z) (pos : Z) : res (option Z) :=
  let size := zlen s in
  let n := zlen t in
  if n <=? size then string_rfind_loop fuel (string_buffer s) (Z.min (size - n) pos) (string_buffer t) n else Ok None.
