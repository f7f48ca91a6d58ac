(** * Model of the table generators, continued: the text of the header files

    GenModel.v gives the rows, here are the characters the scripts print. *)
From Coq Require Import Ascii String.
From Verif Require Import Prelude DataTables GenModel.

(** An integer as Perl prints it. *)
Fixpoint print_digits (fuel : nat) (n : Z) (after : text) : text :=
  match fuel with
  | O => after
  | S f =>
      let d := ascii_of_nat (Z.to_nat (48 + n mod 10)) in
      if n <? 10 then d :: after else print_digits f (n / 10) (d :: after)
  end.
Definition print_number (n : Z) : text := print_digits (S (Z.to_nat (Z.log2 n))) n [].
(** join *)
Fixpoint join_text (sep : text) (l : list text) : text :=
  match l with
  | [] => []
  | [w] => w
  | w :: ws => w ++ sep ++ join_text sep ws
  end.
Definition comma_newline : text := [","; "010"]%char.

(** canonical_combining_class_data.pl:10-34.  Line 31 prints the class as it stands in the file. *)
Definition class_header (ord : nat -> list text -> list text) (ucd : list text) : text :=
  let d := fold_left class_line ucd [] in
  let sorted_keys := sort_by (fun a b => hex a <? hex b) (ord O (hkeys d)) in
  join_text comma_newline
    (map (fun k => lit "{ " ++ print_number (hex k) ++ lit ", " ++ match hget d k with Some v => v | None => [] end ++ lit " }") sorted_keys).

(** canonical_decomposition_mapping_data.pl:13-62 (compatibility_...: 13-65) *)
Definition mapping_header (compat : bool) (fuel : nat) (ord : nat -> list text -> list text) (ucd : list text) : res text :=
  let d := fold_left (mapping_line compat) ucd [] in
  let* d' := expand_loop fuel ord 1 d in
  let sorted_keys := sort_by (fun a b => hex a <? hex b) (ord O (hkeys d')) in
  Ok (join_text comma_newline
    (map (fun k => lit "{ " ++ print_number (hex k) ++ lit ", " ++
            join_text (lit ", ") (map (fun x => print_number (hex x)) (match hget d' k with Some l => l | None => [] end)) ++
            lit ", 0 }") sorted_keys)).

(** canonical_composition_mapping_data.pl:12-96 *)
Definition composition_header (ord : nat -> list text -> list text) (ucd exclusions : list text) : text :=
  let '(ccc, d) := fold_left composition_line ucd ([], []) in
  let excl := fold_left exclusion_line exclusions [] in
  let d' := fold_left (exclude_key ccc excl) (ord O (hkeys d)) d in
  let sorted_keys := sort_by pair_before (ord 1%nat (hkeys d')) in
  join_text comma_newline
    (map (fun k => let f := split_char " " k in
            lit "{ " ++ join_text (lit ", ") (map (fun x => print_number (hex x))
              [field 0 f; field 1 f; match hget d' k with Some c => c | None => [] end]) ++ lit " }") sorted_keys).

(** grapheme_cluster_break_data.sh:5; the whole line is replaced, or left as it is. *)
Definition range_line (line : text) : text :=
  match range_match line with
  | Some (s, e, name) =>
      lit "{ " ++ join_text (lit ", ") [print_number (hex s); print_number (hex e);
        lit "grapheme_cluster_break::prop_value_type::" ++ map upper name] ++ lit " },"
  | None => line
  end.
(** sort -k2 -n (line 6): the number at the start of the second field. *)
Definition is_blank (c : ascii) : bool := Ascii.eqb c " " || Ascii.eqb c "009".
Definition sort_number (line : text) : Z :=
  decimal (drop_while is_blank (drop_while (fun c => negb (is_blank c)) (drop_while is_blank line))).
(** Lines 2-6.  (That sort compares whole lines when the numbers are equal is not modelled, as
    in GenModel.v.) *)
Definition break_header (file : list text) : text :=
  flat_map (fun line => line ++ ["010"%char])
    (sort_by (fun a b => sort_number a <? sort_number b)
       (map (fun line => range_line (double_number line)) (filter starts_with_number file))).
