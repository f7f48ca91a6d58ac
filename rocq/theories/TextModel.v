(** * Model of the generic text layer: codepoint iterators, graphemes, filter,
      encoded strings, composition and the normalization forms *)
From Coq Require Import Permutation Sorted.
From Verif Require Import Prelude DataTables PropsModel Utf8Model.

(** ** Codepoint iterators

    basic_grapheme_iterator, filter and basic_encodedstring are templates over
    the codepoint const_iterator of the encoding; its operations are gathered in
    a record.  Iterators are raw positions.  [op_deref] also returns the position
    after the dereference, because utf8_const_iterator::operator* may move it. *)
Record cp_ops := {
  op_deref : Z -> res (Z * Z);
  op_inc : Z -> res Z;              (* prefix ++ *)
  op_postinc : Z -> res (Z * Z);    (* postfix ++: returned copy, new position *)
  op_dec : Z -> res Z;
  op_eq : Z -> Z -> res bool
}.

(** utf8.hpp:32-34: utf8_const_iterator over the native const_iterator. *)
Definition utf8_ops (mem : list Z) : cp_ops :=
  {| op_deref := it_deref mem; op_inc := it_preinc mem; op_postinc := it_postinc mem;
     op_dec := it_predec mem; op_eq := it_eq mem |}.

(** utf32ne.hpp:26-30: the native iterator itself, over ints. *)
Definition utf32_ops (mem : list Z) : cp_ops :=
  {| op_deref := fun p => let* v := rd mem p in Ok (v, p);
     op_inc := fun p => padd mem p 1;
     op_postinc := fun p => let* q := padd mem p 1 in Ok (p, q);
     op_dec := fun p => padd mem p (-1);
     op_eq := fun p q => Ok (p =? q) |}.

(** operator!= (utf8_iterator.hpp, native iterators): the negation of ==. *)
Definition op_neq (ops : cp_ops) (p q : Z) : res bool :=
  let* b := op_eq ops p q in Ok (negb b).

(** The statement [it++;] (filter.hpp:51, examples/normalization_form_d.cpp:28). *)
Definition op_step (ops : cp_ops) (p : Z) : res Z :=
  let* '(_, p) := op_postinc ops p in Ok p.

(** ** basic_grapheme_iterator.hpp *)

(** == of prop_value_type (props/grapheme_cluster_break.hpp:20-39). *)
Definition gcb_eqb (a b : gcb) : bool :=
  match a, b with
  | G_OTHER, G_OTHER | G_PREPEND, G_PREPEND | G_CR, G_CR | G_LF, G_LF
  | G_CONTROL, G_CONTROL | G_EXTEND, G_EXTEND
  | G_REGIONAL_INDICATOR, G_REGIONAL_INDICATOR | G_SPACINGMARK, G_SPACINGMARK
  | G_L, G_L | G_V, G_V | G_T, G_T | G_LV, G_LV | G_LVT, G_LVT
  | G_E_BASE, G_E_BASE | G_E_MODIFIER, G_E_MODIFIER | G_ZWJ, G_ZWJ
  | G_GLUE_AFTER_ZWJ, G_GLUE_AFTER_ZWJ | G_E_BASE_GAZ, G_E_BASE_GAZ => true
  | _, _ => false
  end.

(** The if-chain of is_grapheme_boundary, basic_grapheme_iterator.hpp:57-123. *)
Definition boundary_chain (va vb : gcb) : bool :=
  let is := gcb_eqb in
  if is va G_CR && is vb G_LF then false                                   (* GB3 *)
  else if is va G_CR || is va G_LF || is va G_CONTROL then true            (* GB4 *)
  else if is vb G_CR || is vb G_LF || is vb G_CONTROL then true            (* GB5 *)
  else if is va G_L && (is vb G_L || is vb G_V || is vb G_LV || is vb G_LVT)
       then false                                                          (* GB6 *)
  else if (is va G_LV || is va G_V) && (is vb G_V || is vb G_T) then false (* GB7 *)
  else if (is va G_LVT || is va G_T) && is vb G_T then false               (* GB8 *)
  else if is vb G_EXTEND || is vb G_ZWJ then false                         (* GB9 *)
  else if is vb G_SPACINGMARK then false                                   (* GB9a *)
  else if is va G_PREPEND then false                                       (* GB9b *)
  else if ((is va G_E_BASE || is va G_E_BASE_GAZ) && is vb G_E_MODIFIER)
          || (is va G_EXTEND && is vb G_E_MODIFIER) then false             (* GB10 *)
  else if is va G_ZWJ && (is vb G_GLUE_AFTER_ZWJ || is vb G_E_BASE_GAZ)
       then false                                                          (* GB11 *)
  else if is va G_REGIONAL_INDICATOR && is vb G_REGIONAL_INDICATOR
       then false                                                          (* GB12, GB13 *)
  else true.                                                               (* GB999 *)

(** basic_grapheme_iterator.hpp:53-124 *)
Definition is_grapheme_boundary (a b : Z) : res bool :=
  let* va := grapheme_cluster_break_resolve a in
  let* vb := grapheme_cluster_break_resolve b in
  Ok (boundary_chain va vb).

(** Data members, basic_grapheme_iterator.hpp:35-44. *)
Record gi := { g_begin : Z; g_end : Z; g_where : Z; g_eog : Z }.

(** Loop of find_end_of_grapheme (142-154): result is end_of_grapheme_. *)
Fixpoint find_end_loop (fuel : nat) (ops : cp_ops) (end_ a eog : Z) : res Z :=
  match fuel with
  | O => OutOfFuel
  | S f =>
      let* e := op_eq ops eog end_ in
      if e : bool then Ok eog
      else
        let* '(b, eog) := op_deref ops eog in
        let* brk := is_grapheme_boundary a b in
        if brk : bool then Ok eog
        else
          let* eog := op_step ops eog in
          find_end_loop f ops end_ b eog
  end.

(** find_end_of_grapheme (131-155): new end_of_grapheme_. *)
Definition find_end_of_grapheme (fuel : nat) (ops : cp_ops) (end_ eog : Z) : res Z :=
  let* e := op_eq ops eog end_ in
  if e : bool then Ok eog
  else
    let* '(a, eog) := op_deref ops eog in
    let* eog := op_step ops eog in
    find_end_loop fuel ops end_ a eog.

(** Loop of find_start_of_grapheme (169-180): result is where_. *)
Fixpoint find_start_loop (fuel : nat) (ops : cp_ops) (begin a where_ : Z) : res Z :=
  match fuel with
  | O => OutOfFuel
  | S f =>
      let* e := op_eq ops where_ begin in
      if e : bool then Ok where_
      else
        let* '(b, where_) := op_deref ops where_ in
        let* brk := is_grapheme_boundary a b in
        if brk : bool then Ok where_
        else
          let* where_ := op_dec ops where_ in
          find_start_loop f ops begin b where_
  end.

(** find_start_of_grapheme (157-181): new where_. *)
Definition find_start_of_grapheme (fuel : nat) (ops : cp_ops) (begin where_ : Z) : res Z :=
  let* e := op_eq ops where_ begin in
  if e : bool then Ok where_
  else
    let* copy := op_dec ops where_ in
    let* '(a, _) := op_deref ops copy in
    find_start_loop fuel ops begin a where_.

(** Constructor (187-191). *)
Definition gi_make2 (fuel : nat) (ops : cp_ops) (b e : Z) : res gi :=
  let* eog := find_end_of_grapheme fuel ops e b in
  Ok {| g_begin := b; g_end := e; g_where := b; g_eog := eog |}.

(** Constructor (197-203). *)
Definition gi_make3 (fuel : nat) (ops : cp_ops) (b e w : Z) : res gi :=
  let* where_ := find_start_of_grapheme fuel ops b w in
  let* eog := find_end_of_grapheme fuel ops e w in
  Ok {| g_begin := b; g_end := e; g_where := where_; g_eog := eog |}.

(** operator* (226-228): the pair of codepoint iterators held by basic_grapheme
    (basic_grapheme.hpp:45-60). *)
Definition gi_deref (g : gi) : Z * Z := (g_where g, g_eog g).

(** Prefix ++ (234-238). *)
Definition gi_inc (fuel : nat) (ops : cp_ops) (g : gi) : res gi :=
  let w := g_eog g in
  let* eog := find_end_of_grapheme fuel ops (g_end g) (g_eog g) in
  Ok {| g_begin := g_begin g; g_end := g_end g; g_where := w; g_eog := eog |}.

(** operator++(int) (240-244): returned copy, new iterator. *)
Definition gi_postinc (fuel : nat) (ops : cp_ops) (g : gi) : res (gi * gi) :=
  let copy := g in
  let* g := gi_inc fuel ops g in
  Ok (copy, g).
(** The statement [it++;] (filter.hpp:51, examples/grapheme_iteration.cpp:32). *)
Definition gi_step (fuel : nat) (ops : cp_ops) (g : gi) : res gi :=
  let* '(_, g) := gi_postinc fuel ops g in Ok g.

(** Loop of operator==(const_codepoint_iterator) (254-260). *)
Fixpoint gi_eq_cp_loop (fuel : nat) (ops : cp_ops) (eog copy other : Z) : res bool :=
  match fuel with
  | O => OutOfFuel
  | S f =>
      let* stop := op_eq ops copy eog in
      if stop : bool then Ok false
      else
        let* e := op_eq ops copy other in
        if e : bool then Ok true
        else
          let* copy := op_step ops copy in
          gi_eq_cp_loop f ops eog copy other
  end.

(** operator==(const_codepoint_iterator) (250-262). *)
Definition gi_eq_cp (fuel : nat) (ops : cp_ops) (g : gi) (other : Z) : res bool :=
  let* e := op_eq ops (g_where g) other in
  if e : bool then Ok true
  else gi_eq_cp_loop fuel ops (g_eog g) (g_where g) other.

(** Loop of operator==(basic_grapheme_iterator) (272-278). *)
Fixpoint gi_eq_loop (fuel : nat) (ops : cp_ops) (eog copy : Z) (other : gi) : res bool :=
  match fuel with
  | O => OutOfFuel
  | S f =>
      let* stop := op_eq ops copy eog in
      if stop : bool then Ok false
      else
        let* e := gi_eq_cp fuel ops other copy in
        if e : bool then Ok true
        else
          let* copy := op_step ops copy in
          gi_eq_loop f ops eog copy other
  end.

(** operator==(basic_grapheme_iterator) (267-280); && short-circuits. *)
Definition gi_eq (fuel : nat) (ops : cp_ops) (g other : gi) : res bool :=
  let* c1 := op_eq ops (g_where g) (g_end g) in
  let* c := (if c1 : bool then gi_eq_cp fuel ops other (g_end g) else Ok false) in
  if c : bool then Ok true
  else gi_eq_loop fuel ops (g_eog g) (g_where g) other.

(** operator!= (285-287). *)
Definition gi_neq (fuel : nat) (ops : cp_ops) (g other : gi) : res bool :=
  let* b := gi_eq fuel ops g other in Ok (negb b).

(** basic_encodedstring.hpp:152-156 and 157-162. *)
Definition grapheme_begin (fuel : nat) (ops : cp_ops) (b e : Z) : res gi :=
  gi_make2 fuel ops b e.
Definition grapheme_end (fuel : nat) (ops : cp_ops) (b e : Z) : res gi :=
  gi_make3 fuel ops b e e.

(** ** filter.hpp:45-54

    Generic in the input iterator ([neq], [deref], [inc]), the element and the
    output object, which the operation may modify. *)
Fixpoint filter_loop {It Elem Out} (fuel : nat)
  (neq : It -> It -> res bool) (deref : It -> res (Elem * It)) (inc : It -> res It)
  (operation : Elem -> Out -> res (Z * Out))
  (from to : It) (output : Out) (counter : Z) : res (Z * Out) :=
  match fuel with
  | O => OutOfFuel
  | S f =>
      let* ne := neq from to in
      if ne : bool then
        let* '(x, from) := deref from in
        let* '(n, output) := operation x output in
        let* counter := int_add counter n in
        let* from := inc from in
        filter_loop f neq deref inc operation from to output counter
      else Ok (counter, output)
  end.

(** filter.hpp:45-54 *)
Definition filter {It Elem Out} (fuel : nat)
  (neq : It -> It -> res bool) (deref : It -> res (Elem * It)) (inc : It -> res It)
  (operation : Elem -> Out -> res (Z * Out)) (from to : It) (output : Out)
  : res (Z * Out) :=
  filter_loop fuel neq deref inc operation from to output 0.

(** filter (filter.hpp:45-54) over a codepoint range, as in normalization_form_d.hpp:28-31. *)
Definition filter_codepoints {Out} (fuel : nat) (ops : cp_ops)
  (operation : Z -> Out -> res (Z * Out)) (from to : Z) (output : Out) : res (Z * Out) :=
  filter fuel (op_neq ops) (op_deref ops) (op_step ops) operation from to output.

(** filter (filter.hpp:45-54) over a grapheme range; an element is a basic_grapheme, i.e. the pair
    of its codepoint iterators. *)
Definition filter_graphemes {Out} (fuel : nat) (ops : cp_ops)
  (operation : Z * Z -> Out -> res (Z * Out)) (from to : gi) (output : Out)
  : res (Z * Out) :=
  filter fuel (gi_neq fuel ops) (fun g => Ok (gi_deref g, g)) (gi_step fuel ops)
         operation from to output.

(** ** codepoint_decomposition.hpp *)

(** codepoint_decomposition.hpp:51-54: count the ints before the zero.  Running
    off the row is an out-of-bounds read.  Rows have at most 18 ints, so [count]
    cannot overflow. *)
Fixpoint zero_scan (row : list Z) : res (list Z) :=
  match row with
  | [] => UB OobRead
  | x :: t => if x =? 0 then Ok [] else let* l := zero_scan t in Ok (x :: l)
  end.

(** codepoint_decomposition.hpp:35-62, for an output utf32ne_string (a list of
    ints; append is list append, basic_encodedstring.hpp:172-183 with the
    utf32ne native_const_iterator, utf32ne.hpp:34-36). *)
Definition codepoint_decomposition (resolver : Z -> res (option (list Z)))
  (input : Z) (output : list Z) : res (Z * list Z) :=
  let* mapping := resolver input in
  match mapping with
  | None => Ok (1, output ++ [input])
  | Some row => let* l := zero_scan row in Ok (zlen l, output ++ l)
  end.

(** canonical_decomposition.hpp:31-37 *)
Definition canonical_decomposition : Z -> list Z -> res (Z * list Z) :=
  codepoint_decomposition canonical_decomposition_mapping_resolve.

(** compatibility_and_canonical_decomposition.hpp:30-37 *)
Definition compatibility_and_canonical_decomposition : Z -> list Z -> res (Z * list Z) :=
  codepoint_decomposition compatibility_and_canonical_decomposition_mapping_resolve.

(** ** canonical_composition.hpp:35-70

    [data] is the storage, [in_], [oi] the iterators, [end_] its end.  Result:
    the storage, oi, and *count.  *count stays below the length of the string,
    which the caller has already counted in an int, so it is not overflow-checked. *)
Fixpoint composition_loop (fuel : nat) (data : list Z) (in_ oi end_ count : Z)
  : res (list Z * Z * Z) :=
  match fuel with
  | O => OutOfFuel
  | S f =>
      if in_ =? end_ then Ok (data, oi, count)
      else
        let* a := rd data in_ in
        let* in1 := padd data in_ 1 in
        if in1 =? end_ then
          let* data := wr data oi a in
          let* oi := padd data oi 1 in
          composition_loop f data in1 oi end_ count
        else
          let* b := rd data in1 in
          let* r := canonical_composition_mapping_resolve a b in
          match r with
          | Some c =>
              let* data := wr data in1 c in
              composition_loop f data in1 oi end_ (count + 1)
          | None =>
              let* data := wr data oi a in
              let* oi := padd data oi 1 in
              composition_loop f data in1 oi end_ count
          end
  end.

Definition canonical_composition (data : list Z) (count : Z) : res (list Z * Z * Z) :=
  composition_loop (S (length data)) data 0 0 (zlen data) count.

(** ** utf8.hpp and utf32ne.hpp: append_from_utf32ne *)

(** utf8.hpp:47-61, one iteration: the 6-octet buffer, [*o_i = c; ++o_i;] and the
    appended range. *)
Definition utf8_encode_one (c : Z) : res (list Z) :=
  let buf := [0; 0; 0; 0; 0; 0] in
  let o_begin := 0 in
  let* '(buf, o_i) := it_assign buf o_begin c in
  let* o_i := it_preinc buf o_i in
  copy_range buf o_begin o_i.

(** utf8.hpp:47-61: the whole loop over [first,last). *)
Fixpoint utf8_append_from_utf32ne (output : list Z) (cps : list Z) : res (list Z) :=
  match cps with
  | [] => Ok output
  | c :: t =>
      let* l := utf8_encode_one c in
      utf8_append_from_utf32ne (output ++ l) t
  end.

(** utf32ne.hpp:38-44 *)
Definition utf32_append_from_utf32ne (output : list Z) (cps : list Z) : res (list Z) :=
  Ok (output ++ cps).

(** ** basic_encodedstring.hpp: append *)

(** utf8.hpp:39-43 *)
Definition utf8_native_const_iterator (mem : list Z) (it : Z) : res Z :=
  let* '(_, p) := rewind_to_start_of_codepoint mem it in Ok p.

(** basic_encodedstring.hpp:172-189 for utf8: append [first,last) taken from the
    buffer [mem] to the native string [output]. *)
Definition utf8_append (output mem : list Z) (first last : Z) : res (list Z) :=
  let* p := utf8_native_const_iterator mem first in
  let* q := utf8_native_const_iterator mem last in
  let* l := copy_range mem p q in
  Ok (output ++ l).

(** basic_encodedstring.hpp:172-189 for utf32ne. *)
Definition utf32_append (output mem : list Z) (first last : Z) : res (list Z) :=
  let* l := copy_range mem first last in
  Ok (output ++ l).

(** basic_encodedstring.hpp:191-199 for utf8: native_string.append receives
    *codepoint* iterators, so std::string::append(InputIt,InputIt) walks codepoints
    and converts each to char.  libstdc++ first counts with the same comparisons
    and increments; only the copying pass is modelled. *)
Fixpoint utf8_append_codepoints_as_chars (fuel : nat) (ops : cp_ops) (first last : Z)
  (output : list Z) : res (list Z) :=
  match fuel with
  | O => OutOfFuel
  | S f =>
      let* ne := op_neq ops first last in
      if ne : bool then
        let* '(c, first) := op_deref ops first in
        let* first := op_inc ops first in
        utf8_append_codepoints_as_chars f ops first last (output ++ [to_u8 c])
      else Ok output
  end.
Definition utf8_append_graphemes (fuel : nat) (output mem : list Z) (first last : gi)
  : res (list Z) :=
  utf8_append_codepoints_as_chars fuel (utf8_ops mem)
    (fst (gi_deref first)) (fst (gi_deref last)) output.

(** basic_encodedstring.hpp:191-199 for utf32ne: codepoint iterators are native. *)
Definition utf32_append_graphemes (output mem : list Z) (first last : gi) : res (list Z) :=
  let* l := copy_range mem (fst (gi_deref first)) (fst (gi_deref last)) in
  Ok (output ++ l).

(** ** normalization_form_{d,kd,c,kc}.hpp

    [sort] is the effect of std::sort(..., canonical_combining_order) on the
    contents; [append_out] is append_from_utf32ne of the output encoding.  Output
    strings are lists (octets or ints). *)
(** What the C++ standard requires of std::sort(first, last, comp) (C++14 [alg.sort],
    [alg.sorting]/5) with comp = canonical_combining_order (lines 34-35 of d, 35-36 of kd
    and c, 36-37 of kc): some rearrangement of the contents in which, for any two positions in order,
    comp(later, earlier) is false.  Which one is not specified, so every theorem quantifies
    over all such [sort].  (The requirement that comp be a strict weak order is C36;
    libstdc++'s implementation is StdSortModel.v.) *)
Definition std_sort_ok (sort : list Z -> list Z) : Prop :=
  forall l, Permutation l (sort l) /\
    StronglySorted (fun a b => canonical_combining_order b a = Ok false) (sort l).

(** Lines 27-31 (d), 27-33 (kd), 28-33 (c), 28-34 (kc): decompose the grapheme. *)
Definition decompose_grapheme (fuel : nat) (ops : cp_ops)
  (dec : Z -> list Z -> res (Z * list Z)) (g : Z * Z)
  : res (Z * list Z) :=
  filter_codepoints fuel ops dec (fst g) (snd g) [].

(** normalization_form_d.hpp:23-44, normalization_form_kd.hpp:23-45. *)
Definition form_decomposed (sort : list Z -> list Z)
  (append_out : list Z -> list Z -> res (list Z)) (fuel : nat) (ops : cp_ops)
  (dec : Z -> list Z -> res (Z * list Z))
  (g : Z * Z) (output : list Z) : res (Z * list Z) :=
  let* '(count, decomposed) := decompose_grapheme fuel ops dec g in
  let decomposed := sort decomposed in
  let* output := append_out output decomposed in
  Ok (count, output).

(** normalization_form_c.hpp:24-52, normalization_form_kc.hpp:24-53. *)
Definition form_composed (sort : list Z -> list Z)
  (append_out : list Z -> list Z -> res (list Z)) (fuel : nat) (ops : cp_ops)
  (dec : Z -> list Z -> res (Z * list Z))
  (g : Z * Z) (output : list Z) : res (Z * list Z) :=
  let* '(count, decomposed) := decompose_grapheme fuel ops dec g in
  let decomposed := sort decomposed in
  let* '(decomposed, oi, compositions) := canonical_composition decomposed 0 in
  let* output := append_out output (firstn (Z.to_nat oi) decomposed) in
  Ok (count - compositions, output).

(** normalization_form_d.hpp:23-44, normalization_form_kd.hpp:23-45, normalization_form_c.hpp:24-52,
    normalization_form_kc.hpp:24-53: the instances. *)
Definition normalization_form_d sort append_out fuel ops :=
  form_decomposed sort append_out fuel ops canonical_decomposition.
Definition normalization_form_kd sort append_out fuel ops :=
  form_decomposed sort append_out fuel ops compatibility_and_canonical_decomposition.
Definition normalization_form_c sort append_out fuel ops :=
  form_composed sort append_out fuel ops canonical_decomposition.
Definition normalization_form_kc sort append_out fuel ops :=
  form_composed sort append_out fuel ops compatibility_and_canonical_decomposition.

(** The documented client call (examples/normalization_form_d.cpp:23-24 etc.):
    filter(input.grapheme_begin(), input.grapheme_end(), output, form). *)
Definition normalize (fuel : nat) (ops : cp_ops)
  (form : Z * Z -> list Z -> res (Z * list Z)) (b e : Z)
  (output : list Z) : res (Z * list Z) :=
  let* from := grapheme_begin fuel ops b e in
  let* to := grapheme_end fuel ops b e in
  filter_graphemes fuel ops form from to output.

(** ** Client loops shown in the examples *)

(** examples/simple_iteration.cpp:24-32: while (it != end) { use *it++; } *)
Fixpoint iterate_codepoints (fuel : nat) (ops : cp_ops) (it end_ : Z) : res (list Z) :=
  match fuel with
  | O => OutOfFuel
  | S f =>
      let* ne := op_neq ops it end_ in
      if ne : bool then
        let* '(copy, it) := op_postinc ops it in
        let* '(c, _) := op_deref ops copy in
        let* rest := iterate_codepoints f ops it end_ in
        Ok (c :: rest)
      else Ok []
  end.

(** for (it = from; it != end; it++) use *it;  (examples/normalization_form_d.cpp:27-32).
    Differs from the previous loop in that *it is evaluated on [it] itself. *)
Fixpoint iterate_codepoints_for (fuel : nat) (ops : cp_ops) (it end_ : Z) : res (list Z) :=
  match fuel with
  | O => OutOfFuel
  | S f =>
      let* ne := op_neq ops it end_ in
      if ne : bool then
        let* '(c, it) := op_deref ops it in
        let* it := op_step ops it in
        let* rest := iterate_codepoints_for f ops it end_ in
        Ok (c :: rest)
      else Ok []
  end.

(** Client code: while (it != begin) { --it; use *it; }, decrementing as in
    t/003_utf8_encoded_iterator.t.cpp:86-94. *)
Fixpoint iterate_backwards (fuel : nat) (ops : cp_ops) (it begin : Z) : res (list Z) :=
  match fuel with
  | O => OutOfFuel
  | S f =>
      let* ne := op_neq ops it begin in
      if ne : bool then
        let* it := op_dec ops it in
        let* '(c, it) := op_deref ops it in
        let* rest := iterate_backwards f ops it begin in
        Ok (c :: rest)
      else Ok []
  end.

(** examples/grapheme_iteration.cpp:31-45: the graphemes, each as the list of
    its codepoints. *)
Fixpoint iterate_graphemes (fuel0 fuel : nat) (ops : cp_ops) (g end_ : gi) : res (list (list Z)) :=
  match fuel with
  | O => OutOfFuel
  | S f =>
      let* ne := gi_neq fuel0 ops g end_ in
      if ne : bool then
        let '(b, e) := gi_deref g in
        let* cps := iterate_codepoints_for fuel0 ops b e in
        let* g := gi_step fuel0 ops g in
        let* rest := iterate_graphemes fuel0 f ops g end_ in
        Ok (cps :: rest)
      else Ok []
  end.
Definition graphemes (fuel : nat) (ops : cp_ops) (b e : Z) : res (list (list Z)) :=
  let* from := grapheme_begin fuel ops b e in
  let* to := grapheme_end fuel ops b e in
  iterate_graphemes fuel fuel ops from to.

(** Client code: [it = s.grapheme_begin()] (basic_encodedstring.hpp:152-155), then [k] times
    [++it] (basic_grapheme_iterator.hpp:234-238). *)
Fixpoint advance (fuel : nat) (ops : cp_ops) (k : nat) (g : gi) : res gi :=
  match k with
  | O => Ok g
  | S k' => let* g' := gi_inc fuel ops g in advance fuel ops k' g'
  end.
Definition nth_grapheme (fuel : nat) (ops : cp_ops) (b e : Z) (k : nat) : res gi :=
  let* g := grapheme_begin fuel ops b e in advance fuel ops k g.

(** std::copy of codepoints into a mutable utf8 iterator
    (t/003_utf8_encoded_iterator.t.cpp, output_iterator): for each codepoint
    [*it = c; ++it].  Result: buffer and iterator. *)
Fixpoint write_codepoints (mem : list Z) (it : Z) (cps : list Z) : res (list Z * Z) :=
  match cps with
  | [] => Ok (mem, it)
  | c :: t =>
      let* '(mem, it) := it_assign mem it c in
      let* it := it_preinc mem it in
      write_codepoints mem it t
  end.

(** Client code with the mutable utf8 iterator:
    for (it = s.codepoint_begin(); it != s.codepoint_end(); ++it) *it = f( *it);
    Both dereferences build a proxyobject (utf8_iterator.hpp:303-307), so the first one does
    not move [it].  Result: the buffer. *)
Fixpoint replace_codepoints (fuel : nat) (f : Z -> Z) (mem : list Z) (it end_ : Z) : res (list Z) :=
  match fuel with
  | O => OutOfFuel
  | S fu =>
      let* e := it_eq mem it end_ in
      if e : bool then Ok mem
      else
        let* c := proxy_read mem it in
        let* '(mem, it) := it_assign mem it (f c) in
        let* it := it_preinc mem it in
        replace_codepoints fu f mem it end_
  end.
(** std::transform(s.codepoint_begin(), s.codepoint_end(), s.codepoint_begin(), f)
    (libstdc++ 13, bits/stl_algo.h:4297-4311): two iterators into the same buffer.
    Result: the buffer and the returned iterator. *)
Fixpoint transform_codepoints (fuel : nat) (f : Z -> Z) (mem : list Z) (first last result : Z) : res (list Z * Z) :=
  match fuel with
  | O => OutOfFuel
  | S fu =>
      let* e := it_eq mem first last in
      if e : bool then Ok (mem, result)
      else
        let* c := proxy_read mem first in
        let* '(mem, result) := it_assign mem result (f c) in
        let* first := it_preinc mem first in
        let* result := it_preinc mem result in
        transform_codepoints fu f mem first last result
  end.
