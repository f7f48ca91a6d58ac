(** * Model of client programs that normalize a text that arrives in pieces

    Clients of the library in the style of examples/normalization_form_c.cpp:17-29 (not code of
    /repo themselves): every call they make is the model of a library function. *)
From Verif Require Import Prelude PropsModel Utf8Model TextModel Utf8Spec.

(** [carry.append(chunk)]; the graphemes of [carry] but the last are normalized with
      auto first = carry.grapheme_begin(), end = carry.grapheme_end(), last = first;
      for (auto i = first; i != end; ++i) last = i;
      total += filter(first, last, output, form);
    and [carry] becomes the last grapheme.
    (basic_encodedstring.hpp:152-161, basic_grapheme_iterator.hpp:215-238, filter.hpp:29-38.) *)
Definition feed (F : (list Z -> list Z) -> (list Z -> list Z -> res (list Z)) -> nat -> cp_ops -> Z * Z -> list Z -> res (Z * list Z))
  (sort : list Z -> list Z) (append : list Z -> list Z -> res (list Z)) (fuel : nat)
  (carry chunk output : list Z) (total : Z) : res (list Z * list Z * Z) :=
  let text := carry ++ chunk in
  let ops := utf32_ops (string_buffer text) in
  let* gs := graphemes fuel ops 0 (zlen text) in
  let* first := nth_grapheme fuel ops 0 (zlen text) 0 in
  let* last' := nth_grapheme fuel ops 0 (zlen text) (length gs - 1) in
  let* '(n, output) := filter_graphemes fuel ops (F sort append fuel ops) first last' output in
  Ok (last gs [], output, total + n).

(** At the end of the input: [filter(carry.grapheme_begin(), carry.grapheme_end(), output, form)]
    (examples/normalization_form_c.cpp:23-24). *)
Fixpoint stream_codepoints F (sort : list Z -> list Z) (append : list Z -> list Z -> res (list Z)) (fuel : nat)
  (chunks : list (list Z)) (carry output : list Z) (total : Z) : res (Z * list Z) :=
  match chunks with
  | [] =>
      let ops := utf32_ops (string_buffer carry) in
      let* '(n, output) := normalize fuel ops (F sort append fuel ops) 0 (zlen carry) output in
      Ok (total + n, output)
  | chunk :: rest =>
      let* '(carry, output, total) := feed F sort append fuel carry chunk output total in
      stream_codepoints F sort append fuel rest carry output total
  end.

(** The pieces are octets, cut anywhere: [pending.append(chunk)], and only when
    [utf8_bounds::check] says that [marker + pending] does not end inside of a codepoint
    (utf8_bounds.hpp:35-52) its codepoints are read in a loop (utf8_iterator.hpp) and fed. *)
Fixpoint stream_octets F (sort : list Z -> list Z) (append : list Z -> list Z -> res (list Z)) (fuel : nat) (marker : list Z)
  (chunks : list (list Z)) (pending carry output : list Z) (total : Z) : res (Z * list Z) :=
  match chunks with
  | [] => stream_codepoints F sort append fuel [] carry output total
  | chunk :: rest =>
      let pending := pending ++ chunk in
      let* complete := bounds_check (string_buffer (marker ++ pending)) 0 (zlen (marker ++ pending)) in
      if complete : bool then
        let* codepoints := iterate_codepoints fuel (utf8_ops (string_buffer pending)) 0 (zlen pending) in
        let* '(carry, output, total) := feed F sort append fuel carry codepoints output total in
        stream_octets F sort append fuel marker rest [] carry output total
      else stream_octets F sort append fuel marker rest pending carry output total
  end.
