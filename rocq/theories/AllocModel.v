(** * Model: the same code when a string may run out of memory

    std::basic_string::append throws (bad_alloc or length_error) when it cannot grow, and then has
    no effect (the strong guarantee; C++14 [string::append] as implemented by libstdc++: the new
    block is obtained before anything is written).  Nothing else on the path of filter and the
    normalization forms allocates: iterators and graphemes are made of raw iterators, the tables
    are static, std::sort and canonical_composition work in place, and an empty utf32ne_string owns
    no block.  Whether an append can grow is decided by an oracle: [mem k] for the [k]-th append
    (counting from the beginning of the client's call), any function.  An exception propagates: the
    local string is destroyed, the output - a reference to the client's object - stays as it is.

    A state of a string is the pair (appends tried so far, contents). *)
From Verif Require Import Prelude DataTables PropsModel Utf8Model TextModel.

(** The ways a call that modifies an object can end (no line of the repo: C++14 [except.throw]). *)
Inductive outcome (A Out : Type) : Type :=
| Returned (a : A) (out : Out)
| Thrown (out : Out).
Arguments Returned {A Out} a out.
Arguments Thrown {A Out} out.

(** std::basic_string::append of the characters [l] (called at basic_encodedstring.hpp:180-183, utf8.hpp:58,
    utf32ne.hpp:42). *)
Definition string_append (mem : nat -> bool) (s : nat * list Z) (l : list Z) : outcome unit (nat * list Z) :=
  let '(k, contents) := s in
  if mem k then Returned tt (S k, contents ++ l) else Thrown (S k, contents).

(** filter.hpp:45-54, with an operation that may throw. *)
Fixpoint filter_loop_exc {It Elem Out} (fuel : nat)
  (neq : It -> It -> res bool) (deref : It -> res (Elem * It)) (inc : It -> res It)
  (operation : Elem -> Out -> res (outcome Z Out))
  (from to : It) (output : Out) (counter : Z) : res (outcome Z Out) :=
  match fuel with
  | O => OutOfFuel
  | S f =>
      let* ne := neq from to in
      if ne : bool then
        let* '(x, from) := deref from in
        let* o := operation x output in
        match o with
        | Thrown output => Ok (Thrown output)
        | Returned n output =>
            let* counter := int_add counter n in
            let* from := inc from in
            filter_loop_exc f neq deref inc operation from to output counter
        end
      else Ok (Returned counter output)
  end.

(** filter.hpp:45-54 *)
Definition filter_exc {It Elem Out} (fuel : nat)
  (neq : It -> It -> res bool) (deref : It -> res (Elem * It)) (inc : It -> res It)
  (operation : Elem -> Out -> res (outcome Z Out)) (from to : It) (output : Out)
  : res (outcome Z Out) :=
  filter_loop_exc fuel neq deref inc operation from to output 0.

(** codepoint_decomposition.hpp:35-62: one append of the mapping (or of the codepoint). *)
Definition codepoint_decomposition_exc (mem : nat -> bool) (resolver : Z -> res (option (list Z)))
  (input : Z) (output : nat * list Z) : res (outcome Z (nat * list Z)) :=
  let* mapping := resolver input in
  let* '(count, from_database) :=
    match mapping with
    | None => Ok (1, [input])
    | Some row => let* l := zero_scan row in Ok (zlen l, l)
    end in
  match string_append mem output from_database with
  | Returned _ output => Ok (Returned count output)
  | Thrown output => Ok (Thrown output)
  end.

(** canonical_decomposition.hpp:31-37 *)
Definition canonical_decomposition_exc mem :=
  codepoint_decomposition_exc mem canonical_decomposition_mapping_resolve.
(** compatibility_and_canonical_decomposition.hpp:30-37 *)
Definition compat_decomposition_exc mem :=
  codepoint_decomposition_exc mem compatibility_and_canonical_decomposition_mapping_resolve.

(** utf8.hpp:47-61: one append per codepoint. *)
Fixpoint utf8_append_from_utf32ne_exc (mem : nat -> bool) (output : nat * list Z) (cps : list Z)
  : res (outcome unit (nat * list Z)) :=
  match cps with
  | [] => Ok (Returned tt output)
  | c :: t =>
      let* l := utf8_encode_one c in
      match string_append mem output l with
      | Returned _ output => utf8_append_from_utf32ne_exc mem output t
      | Thrown output => Ok (Thrown output)
      end
  end.

(** utf32ne.hpp:38-44: one append of the whole range. *)
Definition utf32_append_from_utf32ne_exc (mem : nat -> bool) (output : nat * list Z) (cps : list Z)
  : res (outcome unit (nat * list Z)) :=
  Ok (string_append mem output cps).

(** normalization_form_d.hpp:27-31 (and kd 27-33, c 28-33, kc 28-34): decompose the grapheme into
    a local string, which starts empty. *)
Definition decompose_grapheme_exc (fuel : nat) (ops : cp_ops)
  (dec : Z -> nat * list Z -> res (outcome Z (nat * list Z))) (g : Z * Z) (tried : nat)
  : res (outcome Z (nat * list Z)) :=
  filter_exc fuel (op_neq ops) (op_deref ops) (op_step ops) dec (fst g) (snd g) (tried, []).

(** normalization_form_d.hpp:23-44, normalization_form_kd.hpp:23-45. *)
Definition form_decomposed_exc (sort : list Z -> list Z)
  (append_out : nat * list Z -> list Z -> res (outcome unit (nat * list Z))) (fuel : nat) (ops : cp_ops)
  (dec : Z -> nat * list Z -> res (outcome Z (nat * list Z)))
  (g : Z * Z) (output : nat * list Z) : res (outcome Z (nat * list Z)) :=
  let '(tried, contents) := output in
  let* o := decompose_grapheme_exc fuel ops dec g tried in
  match o with
  | Thrown (tried, _) => Ok (Thrown (tried, contents))
  | Returned count (tried, decomposed) =>
      let decomposed := sort decomposed in
      let* o := append_out (tried, contents) decomposed in
      match o with
      | Thrown output => Ok (Thrown output)
      | Returned _ output => Ok (Returned count output)
      end
  end.

(** normalization_form_c.hpp:24-52, normalization_form_kc.hpp:24-53. *)
Definition form_composed_exc (sort : list Z -> list Z)
  (append_out : nat * list Z -> list Z -> res (outcome unit (nat * list Z))) (fuel : nat) (ops : cp_ops)
  (dec : Z -> nat * list Z -> res (outcome Z (nat * list Z)))
  (g : Z * Z) (output : nat * list Z) : res (outcome Z (nat * list Z)) :=
  let '(tried, contents) := output in
  let* o := decompose_grapheme_exc fuel ops dec g tried in
  match o with
  | Thrown (tried, _) => Ok (Thrown (tried, contents))
  | Returned count (tried, decomposed) =>
      let decomposed := sort decomposed in
      let* '(decomposed, oi, compositions) := canonical_composition decomposed 0 in
      let* o := append_out (tried, contents) (firstn (Z.to_nat oi) decomposed) in
      match o with
      | Thrown output => Ok (Thrown output)
      | Returned _ output => Ok (Returned (count - compositions) output)
      end
  end.

(** normalization_form_d.hpp:23-44, normalization_form_kd.hpp:23-45, normalization_form_c.hpp:24-52,
    normalization_form_kc.hpp:24-53: the instances. *)
Definition normalization_form_d_exc mem sort append_out fuel ops :=
  form_decomposed_exc sort append_out fuel ops (canonical_decomposition_exc mem).
Definition normalization_form_kd_exc mem sort append_out fuel ops :=
  form_decomposed_exc sort append_out fuel ops (compat_decomposition_exc mem).
Definition normalization_form_c_exc mem sort append_out fuel ops :=
  form_composed_exc sort append_out fuel ops (canonical_decomposition_exc mem).
Definition normalization_form_kc_exc mem sort append_out fuel ops :=
  form_composed_exc sort append_out fuel ops (compat_decomposition_exc mem).

(** The documented client call (examples/normalization_form_d.cpp:23-24 etc.). *)
Definition normalize_exc (fuel : nat) (ops : cp_ops)
  (form : Z * Z -> nat * list Z -> res (outcome Z (nat * list Z))) (b e : Z)
  (output : nat * list Z) : res (outcome Z (nat * list Z)) :=
  let* from := grapheme_begin fuel ops b e in
  let* to := grapheme_end fuel ops b e in
  filter_exc fuel (gi_neq fuel ops) (fun g => Ok (gi_deref g, g)) (gi_step fuel ops) form from to output.
