(** * Client programs that use strings in any order

    Client code, not code of the repository: executes the commands of StringHistorySpec.v with
    the operations of the library (basic_encodedstring.hpp:120-225, filter.hpp:41-55,
    normalization_form_*.hpp, utf8_bounds.hpp:31-46, utf8_iterator.hpp:310-345). *)
From Verif Require Import Prelude Utf8Model TextModel HistorySpec StringHistorySpec.

(** The strings: octets or ints. *)
Definition store : Type := nat -> list Z.
Definition string_ops (utf8 : nat -> bool) (S : store) (r : nat) : cp_ops :=
  if utf8 r then utf8_ops (S r ++ [0]) else utf32_ops (S r ++ [0]).
Definition append_utf32ne (utf8 : nat -> bool) (r : nat) : list Z -> list Z -> res (list Z) :=
  if utf8 r then utf8_append_from_utf32ne else utf32_append_from_utf32ne.
Definition form_function (f : form_name) :=
  match f with
  | FormD => normalization_form_d
  | FormKD => normalization_form_kd
  | FormC => normalization_form_c
  | FormKC => normalization_form_kc
  end.
(** ++ applied [i] times *)
Fixpoint forward (ops : cp_ops) (i : nat) (p : Z) : res Z :=
  match i with O => Ok p | S i => let* p := op_inc ops p in forward ops i p end.
Definition execute_string (sort : list Z -> list Z) (fuel : nat) (utf8 : nat -> bool)
  (x : string_command) (S : store) : res (list sight * store) :=
  match x with
  | Clear r => Ok ([], set S r [])
  | Append r l => let* s := append_utf32ne utf8 r (S r) l in Ok ([], set S r s)
  | AppendBetween r q p p' =>
      let* s := if utf8 r then utf8_append (S r) (S q ++ [0]) p p'
                else utf32_append (S r) (S q ++ [0]) p p' in
      Ok ([], set S r s)
  | AppendGraphemes r q a k =>
      let* g := nth_grapheme fuel (string_ops utf8 S q) 0 (zlen (S q)) a in
      let* h := nth_grapheme fuel (string_ops utf8 S q) 0 (zlen (S q)) k in
      let* s := if utf8 r then utf8_append_graphemes fuel (S r) (S q ++ [0]) g h
                else utf32_append_graphemes (S r) (S q ++ [0]) g h in
      Ok ([], set S r s)
  | AppendUtf32 r q => let* s := append_utf32ne utf8 r (S r) (S q) in Ok ([], set S r s)
  | CopyCodepoints r q =>
      let* l := iterate_codepoints_for fuel (string_ops utf8 S q) 0 (zlen (S q)) in
      Ok ([], set S r (S r ++ l))
  | Normalize f r q =>
      let ops := string_ops utf8 S q in
      let* '(_, s) := normalize fuel ops (form_function f sort (append_utf32ne utf8 r) fuel ops) 0 (zlen (S q)) (S r) in
      Ok ([], set S r s)
  | Assign r i c =>
      let* p := forward (string_ops utf8 S r) i 0 in
      let* mem := if utf8 r then let* '(mem, _) := it_assign (S r ++ [0]) p c in Ok mem
                  else wr (S r ++ [0]) p c in
      Ok ([], set S r (firstn (length (S r)) mem))
  | Show r => let* l := iterate_codepoints_for fuel (string_ops utf8 S r) 0 (zlen (S r)) in Ok ([Text l], S)
  | ShowGraphemes r => let* gs := graphemes fuel (string_ops utf8 S r) 0 (zlen (S r)) in Ok ([Graphemes gs], S)
  | Check r => let* b := bounds_check (S r ++ [0]) 0 (zlen (S r)) in Ok ([Checked b], S)
  end.
Fixpoint run_strings (sort : list Z -> list Z) (fuel : nat) (utf8 : nat -> bool)
  (xs : list string_command) (S : store) : res (list sight * store) :=
  match xs with
  | [] => Ok ([], S)
  | x :: xs =>
      let* '(o, S) := execute_string sort fuel utf8 x S in
      let* '(os, S) := run_strings sort fuel utf8 xs S in
      Ok (o ++ os, S)
  end.
