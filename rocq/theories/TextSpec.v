(** * Specification: texts in memory

    [view_in_memory ops b e cs c pos]: [ops] are the codepoint iterator operations on a
    memory in which [b, e) holds the text [cs], in UTF-8 or in UTF-32, and is followed
    by the codepoint [c]; [pos i] is where codepoint number [i] starts.  UTF-8 may be in
    the specified form ([utf8_text]) or any sequence of complete octet sequences with
    these values (overlong forms).
    [string_in_memory ops b e cs pos]: a std::string (std::basic_string<utf32_char>)
    whose contents is the text [cs] and that ends with its NUL. *)
From Verif Require Import Prelude TextModel Utf8Spec GraphemeSpec.

Inductive view_in_memory : cp_ops -> Z -> Z -> list Z -> Z -> (nat -> Z) -> Prop :=
| utf8_view before cs c after : Forall codepoint31 cs -> codepoint31 c ->
    view_in_memory (utf8_ops (before ++ utf8_text cs ++ utf8_encode c ++ after))
      (zlen before) (zlen before + zlen (utf8_text cs)) cs c
      (fun i => zlen before + zlen (utf8_text (firstn i cs)))
| utf8_sequences_view before os o after : Forall octet_sequence os -> octet_sequence o ->
    view_in_memory (utf8_ops (before ++ concat os ++ o ++ after))
      (zlen before) (zlen before + zlen (concat os)) (map sequence_value os) (sequence_value o)
      (fun i => zlen before + zlen (concat (firstn i os)))
| utf32_view before cs c after :
    view_in_memory (utf32_ops (before ++ cs ++ c :: after))
      (zlen before) (zlen before + zlen cs) cs c (fun i => zlen before + Z.of_nat i).

Inductive string_in_memory : cp_ops -> Z -> Z -> list Z -> (nat -> Z) -> Prop :=
| utf8_string cs : Forall codepoint31 cs ->
    string_in_memory (utf8_ops (string_buffer (utf8_text cs))) 0 (zlen (utf8_text cs)) cs
      (fun i => zlen (utf8_text (firstn i cs)))
| utf8_sequences_string os : Forall octet_sequence os ->
    string_in_memory (utf8_ops (string_buffer (concat os))) 0 (zlen (concat os)) (map sequence_value os)
      (fun i => zlen (concat (firstn i os)))
| utf32_string cs :
    string_in_memory (utf32_ops (string_buffer cs)) 0 (zlen cs) cs Z.of_nat.

(** A text delimited in memory so that its grapheme iterators end where it ends: a
    string, or a view in front of a grapheme boundary. *)
Inductive delimited_text (ops : cp_ops) (b e : Z) (cs : list Z) : Prop :=
| delimited_string pos : string_in_memory ops b e cs pos -> delimited_text ops b e cs
| delimited_view c pos : view_in_memory ops b e cs c pos -> cs = [] \/ pairwise_boundary cs c ->
    delimited_text ops b e cs.

(** The elements of [l] are passed to [f] in turn, each with the output so far; the counts
    [f] returns are added up in type int. *)
Fixpoint one_by_one {A Out : Type} (f : A -> Out -> res (Z * Out)) (l : list A) (output : Out) (count : Z) : res (Z * Out) :=
  match l with
  | [] => Ok (count, output)
  | x :: l => let* '(n, output) := f x output in let* count := int_add count n in one_by_one f l output count
  end.
