(** * Model of the table generators: src/u5e/props/*.pl and grapheme_cluster_break_data.sh

    A text is a list of characters, a file a list of lines without their newline
    ([chomp]).  The output file is given here as the rows a C++ compiler reads from it
    (decimal literals and enumerators); its text is in GenHeaderModel.v. *)
From Coq Require Import Ascii String.
From Verif Require Import Prelude DataTables.

(** The strings of the scripts; literals; the string comparison of hash keys. *)
Definition text := list ascii.
Definition lit (s : string) : text := list_ascii_of_string s.
Fixpoint text_eqb (a b : text) : bool :=
  match a, b with
  | [], [] => true
  | x :: a', y :: b' => Ascii.eqb x y && text_eqb a' b'
  | _, _ => false
  end.

(** ** Perl *)

(** Value of a digit, 16 when the character is none. *)
Definition digit_value (c : ascii) : Z :=
  let n := Z.of_nat (nat_of_ascii c) in
  if (48 <=? n) && (n <=? 57) then n - 48
  else if (65 <=? n) && (n <=? 70) then n - 55
  else if (97 <=? n) && (n <=? 102) then n - 87
  else 16.
(** hex() and numeric strings (canonical_combining_class_data.pl:24,31,
    canonical_composition_mapping_data.pl:73-93).  Reads digits below [base] up to the first other character, as hex() and the
    conversion of a string to a number do. *)
Fixpoint number_from (base acc : Z) (s : text) : Z :=
  match s with
  | [] => acc
  | c :: s' => if digit_value c <? base then number_from base (acc * base + digit_value c) s' else acc
  end.
Definition hex (s : text) : Z := number_from 16 0 s.
Definition decimal (s : text) : Z := number_from 10 0 s.

(** [a-fA-F0-9], [A-F0-9], \s, \S and . of the regular expressions. *)
Definition is_hex (c : ascii) : bool := digit_value c <? 16.
Definition is_upper_hex (c : ascii) : bool :=
  is_hex c && (Z.of_nat (nat_of_ascii c) <=? 70).
Definition is_space (c : ascii) : bool :=
  let n := Z.of_nat (nat_of_ascii c) in ((9 <=? n) && (n <=? 13)) || (n =? 32).

(** Truth of a string: "" and "0" are false, as is undef, modelled by "". *)
Definition truthy (s : text) : bool := negb (text_eqb s []) && negb (text_eqb s ["0"%char]).

(** split with a pattern of one character (canonical_combining_class_data.pl:14,
    canonical_composition_mapping_data.pl:17,53,90), split /\s+/ ([runs],
    canonical_decomposition_mapping_data.pl:21); both drop trailing empty fields. *)
Fixpoint fields (runs : bool) (sep : ascii -> bool) (after_sep : bool) (s : text) : list text :=
  match s with
  | [] => [[]]
  | c :: s' =>
      if sep c then
        if runs && after_sep then fields runs sep true s' else [] :: fields runs sep true s'
      else match fields runs sep false s' with
           | w :: ws => (c :: w) :: ws
           | [] => [[c]]
           end
  end.
Fixpoint drop_trailing_empty (l : list text) : list text :=
  match l with
  | [] => []
  | w :: ws => match w, drop_trailing_empty ws with [], [] => [] | _, ws' => w :: ws' end
  end.
Definition split_char (c : ascii) (s : text) : list text :=
  drop_trailing_empty (fields false (Ascii.eqb c) false s).
Definition split_spaces (s : text) : list text := drop_trailing_empty (fields true is_space false s).
Definition field (n : nat) (l : list text) : text := nth n l [].

(** Hashes (%d, %ccc, %excl): lookup, assignment, delete, exists and keys
    (canonical_decomposition_mapping_data.pl:21,32,36, canonical_composition_mapping_data.pl:57-62).  [keys] may return the keys in any order: the generators take the order as
    a parameter [ord], one permutation for each call. *)
Definition hash (V : Type) := list (text * V).
Fixpoint hget {V} (h : hash V) (k : text) : option V :=
  match h with
  | [] => None
  | (k', v) :: h' => if text_eqb k k' then Some v else hget h' k
  end.
Fixpoint hset {V} (h : hash V) (k : text) (v : V) : hash V :=
  match h with
  | [] => [(k, v)]
  | (k', v') :: h' => if text_eqb k k' then (k', v) :: h' else (k', v') :: hset h' k v
  end.
Definition hdelete {V} (h : hash V) (k : text) : hash V :=
  filter (fun p => negb (text_eqb k (fst p))) h.
Definition hexists {V} (h : hash V) (k : text) : bool :=
  match hget h k with Some _ => true | None => false end.
Definition hkeys {V} (h : hash V) : list text := map fst h.

(** sort (canonical_combining_class_data.pl:24, canonical_composition_mapping_data.pl:71-82)
    with a comparison block that says whether the first comes strictly first
    (Perl's merge sort is stable, so it gives what insertion gives). *)
Fixpoint insert {A} (lt : A -> A -> bool) (x : A) (l : list A) : list A :=
  match l with
  | [] => [x]
  | y :: l' => if lt y x then y :: insert lt x l' else x :: y :: l'
  end.
Definition sort_by {A} (lt : A -> A -> bool) (l : list A) : list A := fold_right (insert lt) [] l.

(** ** canonical_combining_class_data.pl *)

(** Lines 11-18 *)
Definition class_line (d : hash text) (line : text) : hash text :=
  let f := split_char ";" line in
  let codepoint := field 0 f in
  let class := field 3 f in
  if truthy class then hset d codepoint class else d.
(** Lines 10-34 *)
Definition generate_class (ord : nat -> list text -> list text) (ucd : list text) : list (list Z) :=
  let d := fold_left class_line ucd [] in
  let sorted_keys := sort_by (fun a b => hex a <? hex b) (ord O (hkeys d)) in
  map (fun k => [hex k; match hget d k with Some v => decimal v | None => 0 end]) sorted_keys.

(** ** canonical_decomposition_mapping_data.pl and
    compatibility_and_canonical_decomposition_mapping_data.pl (differing in line 21 of
    the second only: [compat]) *)

(** s/^<compat> // (line 21 of the second) *)
Fixpoint strip_prefix (p s : text) : option text :=
  match p, s with
  | [], _ => Some s
  | x :: p', y :: s' => if Ascii.eqb x y then strip_prefix p' s' else None
  | _ :: _, [] => None
  end.
Definition remove_compat (s : text) : text :=
  match strip_prefix (lit "<compat> ") s with Some r => r | None => s end.
(** /^\</ (lines 20 and 23) *)
Definition tagged (s : text) : bool :=
  match s with c :: _ => Ascii.eqb c "<" | [] => false end.
(** Lines 14-22 of the first, 14-25 of the second *)
Definition mapping_line (compat : bool) (d : hash (list text)) (line : text) : hash (list text) :=
  let f := split_char ";" line in
  let codepoint := field 0 f in
  let decomposition := field 5 f in
  if truthy decomposition then
    let decomposition := if compat then remove_compat decomposition else decomposition in
    if tagged decomposition then d
    else hset d codepoint (split_spaces decomposition)
  else d.
(** Lines 33-44 (36-47): the body of the foreach loop, with $continue *)
Definition expand_key (st : bool * hash (list text)) (k : text) : bool * hash (list text) :=
  let '(continue, d) := st in
  let old := match hget d k with Some l => l | None => [] end in
  (continue || existsb (hexists d) old,
   hset d k (flat_map (fun x => match hget d x with Some l => l | None => [x] end) old)).
(** Lines 31-45 (34-48): one round of the while loop *)
Definition expand_pass (order : list text -> list text) (d : hash (list text)) : bool * hash (list text) :=
  fold_left expand_key (order (hkeys d)) (false, d).
(** Lines 29-46 (32-49) *)
Fixpoint expand_loop (fuel : nat) (ord : nat -> list text -> list text) (n : nat) (d : hash (list text))
  : res (hash (list text)) :=
  match fuel with
  | O => OutOfFuel
  | S fuel' =>
      let '(continue, d') := expand_pass (ord n) d in
      if continue then expand_loop fuel' ord (S n) d' else Ok d'
  end.
(** Lines 13-62 (13-65) *)
Definition generate_mapping (compat : bool) (fuel : nat) (ord : nat -> list text -> list text)
  (ucd : list text) : res (list (list Z)) :=
  let d := fold_left (mapping_line compat) ucd [] in
  let* d' := expand_loop fuel ord 1 d in
  let sorted_keys := sort_by (fun a b => hex a <? hex b) (ord O (hkeys d')) in
  Ok (map (fun k => hex k :: map hex (match hget d' k with Some l => l | None => [] end) ++ [0]) sorted_keys).

(** ** canonical_composition_mapping_data.pl *)

(** The longest prefix X* of a regular expression matches, and the rest (lines 28, 73-79). *)
Fixpoint take_while (p : ascii -> bool) (s : text) : text :=
  match s with c :: s' => if p c then c :: take_while p s' else [] | [] => [] end.
Fixpoint drop_while (p : ascii -> bool) (s : text) : text :=
  match s with c :: s' => if p c then drop_while p s' else s | [] => [] end.
(** /^[a-fA-F0-9]+ [a-fA-F0-9]+/ (line 28) *)
Definition two_numbers (s : text) : bool :=
  match s with c :: _ => is_hex c | [] => false end &&
  match drop_while is_hex s with
  | sp :: c :: _ => Ascii.eqb sp " " && is_hex c
  | _ => false
  end.
(** Lines 14-36: the hashes %ccc and %d.  The warning of lines 33-34 is not modelled. *)
Definition composition_line (st : hash text * hash text) (line : text) : hash text * hash text :=
  let '(ccc, d) := st in
  let f := split_char ";" line in
  let codepoint := field 0 f in
  let class := field 3 f in
  let decomposition := field 5 f in
  let ccc' := hset ccc codepoint (if truthy class then class else ["0"%char]) in
  (ccc',
   if negb (truthy decomposition) then d
   else if tagged decomposition then d
   else if negb (two_numbers decomposition) then d
   else if negb (decimal class =? 0) then d
   else hset d decomposition codepoint).
(** s/#.*// and s/\s.+// (lines 44-45) *)
Fixpoint remove_comment (s : text) : text :=
  match s with c :: s' => if Ascii.eqb c "#" then [] else c :: remove_comment s' | [] => [] end.
Fixpoint remove_after_space (s : text) : text :=
  match s with
  | [] => []
  | c :: s' => if is_space c && match s' with [] => false | _ => true end then [] else c :: remove_after_space s'
  end.
(** Lines 42-48 *)
Definition exclusion_line (excl : hash unit) (line : text) : hash unit :=
  let line := remove_after_space (remove_comment line) in
  if truthy line then hset excl line tt else excl.
(** Lines 53-64, for one decomposition *)
Definition exclude_key (ccc : hash text) (excl : hash unit) (d : hash text) (decomposition : text) : hash text :=
  let first := field 0 (split_char " " decomposition) in
  if negb (match hget ccc first with Some c => decimal c | None => 0 end =? 0) then hdelete d decomposition
  else match hget d decomposition with
       | Some composition => if hexists excl composition then hdelete d decomposition else d
       | None => d
       end.
(** /^([a-fA-F0-9]+)/ and /\s([a-fA-F0-9]+)/ (lines 73-79) *)
Definition first_number (s : text) : Z := hex (take_while is_hex s).
Fixpoint second_number (s : text) : Z :=
  match s with
  | c :: s' =>
      if is_space c && match s' with x :: _ => is_hex x | [] => false end then hex (take_while is_hex s')
      else second_number s'
  | [] => 0
  end.
Definition pair_before (a b : text) : bool :=
  (first_number a <? first_number b) ||
  ((first_number a =? first_number b) && (second_number a <? second_number b)).
(** Lines 12-96 *)
Definition generate_composition (ord : nat -> list text -> list text) (ucd exclusions : list text)
  : list (list Z) :=
  let '(ccc, d) := fold_left composition_line ucd ([], []) in
  let excl := fold_left exclusion_line exclusions [] in
  let d' := fold_left (exclude_key ccc excl) (ord O (hkeys d)) d in
  let sorted_keys := sort_by pair_before (ord 1%nat (hkeys d')) in
  map (fun k => let f := split_char " " k in
       [hex (field 0 f); hex (field 1 f); match hget d' k with Some c => hex c | None => 0 end]) sorted_keys.

(** ** grapheme_cluster_break_data.sh *)

(** X+ of a regular expression (lines 4, 5): what it can match at the start of [s] with what is
    left, the longest match first (the order in which a backtracking matcher tries). *)
Fixpoint plus (p : ascii -> bool) (s : text) : list (text * text) :=
  match s with
  | c :: s' => if p c then map (fun m => (c :: fst m, snd m)) (plus p s') ++ [([c], s')] else []
  | [] => []
  end.
(** One character of the class (lines 4, 5: \s, ;, .). *)
Definition one (p : ascii -> bool) (s : text) : list text :=
  match s with c :: s' => if p c then [s'] else [] | [] => [] end.
Definition any : ascii -> bool := fun _ => true.
(** grep '^[A-F0-9]' (line 3) *)
Definition starts_with_number (line : text) : bool :=
  match line with c :: _ => is_upper_hex c | [] => false end.
(** perl -pe 's/^([0-9A-F]+)\s/$1..$1/' (line 4) *)
Definition double_number (line : text) : text :=
  match flat_map (fun m => map (fun r => fst m ++ lit ".." ++ fst m ++ r) (one is_space (snd m)))
                 (plus is_upper_hex line) with
  | l :: _ => l
  | [] => line
  end.
(** The regular expression of line 5, giving $1, $2 and $3. *)
Definition range_match (line : text) : option (text * text * text) :=
  hd_error (
    flat_map (fun m1 =>
    flat_map (fun r => flat_map (fun r =>
    flat_map (fun m2 =>
    flat_map (fun m3 =>
    flat_map (fun r => flat_map (fun r =>
    flat_map (fun m4 =>
      map (fun _ => (fst m1, fst m2, fst m4)) (plus any (snd m4)))
    (plus (fun c => negb (is_space c)) r)) (one is_space r)) (one (Ascii.eqb ";") (snd m3)))
    (plus is_space (snd m2))) (plus is_upper_hex r)) (one any r)) (one any (snd m1)))
    (plus is_upper_hex line)).
(** uc (line 5) *)
Definition upper (c : ascii) : ascii :=
  let n := nat_of_ascii c in
  if (Nat.leb 97 n && Nat.leb n 122)%bool then ascii_of_nat (n - 32) else c.
(** The enumerators of include/u5e/props/grapheme_cluster_break.hpp:20-39 by name, as the
    C++ compiler resolves them. *)
Definition enumerators : list (text * gcb) :=
  [ (lit "OTHER", G_OTHER); (lit "PREPEND", G_PREPEND); (lit "CR", G_CR); (lit "LF", G_LF);
    (lit "CONTROL", G_CONTROL); (lit "EXTEND", G_EXTEND);
    (lit "REGIONAL_INDICATOR", G_REGIONAL_INDICATOR); (lit "SPACINGMARK", G_SPACINGMARK);
    (lit "L", G_L); (lit "V", G_V); (lit "T", G_T); (lit "LV", G_LV); (lit "LVT", G_LVT);
    (lit "E_BASE", G_E_BASE); (lit "E_MODIFIER", G_E_MODIFIER); (lit "ZWJ", G_ZWJ);
    (lit "GLUE_AFTER_ZWJ", G_GLUE_AFTER_ZWJ); (lit "E_BASE_GAZ", G_E_BASE_GAZ) ].
(** A line after line 5 of the script, as the C++ compiler reads it: [None] when it does
    not compile (the substitution did not apply, or there is no such enumerator). *)
Definition range_row (line : text) : option (Z * Z * gcb) :=
  match range_match (double_number line) with
  | Some (s, e, name) =>
      match hget enumerators (map upper name) with
      | Some v => Some (hex s, hex e, v)
      | None => None
      end
  | None => None
  end.
(** Lines 2-6.  sort -k2 -n compares the first numbers; that it compares whole lines when
    they are equal is not modelled (simplification: the earlier line comes first). *)
Definition generate_break (file : list text) : option (list (Z * Z * gcb)) :=
  let rows := map range_row (filter starts_with_number file) in
  if forallb (fun r => match r with Some _ => true | None => false end) rows
  then Some (sort_by (fun a b => fst (fst a) <? fst (fst b))
               (flat_map (fun r => match r with Some x => [x] | None => [] end) rows))
  else None.
