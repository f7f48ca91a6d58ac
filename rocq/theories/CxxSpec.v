(** * Specification: how a C++ compiler reads the generated headers

    Independent of the model.  The headers are included between the braces of
    "std::initializer_list<std::initializer_list<int>> data = { ... }" and of
    "range_data ranges[] = { ... }": rows in braces, separated by commas, one comma may follow the
    last row.  Only what is needed of C++: white space, braces, commas, decimal and octal
    literals, qualified names. *)
From Coq Require Import List ZArith Ascii String Bool.
From Verif Require Import DataTables.
Import ListNotations.
Open Scope Z_scope.

(** ** Tokens *)
Inductive token := Open | Close | Comma | Word (w : list ascii).
Definition white (c : ascii) : bool := existsb (Ascii.eqb c) [" "; "009"; "010"; "011"; "012"; "013"]%char.
Definition word_so_far (w : list ascii) : list token := match w with [] => [] | _ => [Word w] end.
Fixpoint tokens (w : list ascii) (s : list ascii) : list token :=
  match s with
  | [] => word_so_far w
  | c :: s =>
      if white c then word_so_far w ++ tokens [] s
      else if Ascii.eqb c "{" then word_so_far w ++ Open :: tokens [] s
      else if Ascii.eqb c "}" then word_so_far w ++ Close :: tokens [] s
      else if Ascii.eqb c "," then word_so_far w ++ Comma :: tokens [] s
      else tokens (w ++ [c]) s
  end.

(** ** Rows of words *)
Inductive place := BeforeRow | BeforeValue (row : list (list ascii)) | AfterValue (row : list (list ascii)) | AfterRow.
Fixpoint rows_of (p : place) (ts : list token) : option (list (list (list ascii))) :=
  match p, ts with
  | BeforeRow, [] | AfterRow, [] => Some []
  | BeforeRow, Open :: ts => rows_of (BeforeValue []) ts
  | BeforeValue row, Word w :: ts => rows_of (AfterValue (row ++ [w])) ts
  | AfterValue row, Comma :: ts => rows_of (BeforeValue row) ts
  | AfterValue row, Close :: ts => option_map (cons row) (rows_of AfterRow ts)
  | AfterRow, Comma :: ts => rows_of BeforeRow ts
  | _, _ => None
  end.
Definition initializer (header : list ascii) : option (list (list (list ascii))) := rows_of BeforeRow (tokens [] header).

(** ** Values: a literal that begins with 0 is octal, any other decimal; it must fit an int
    (narrowing is an error in braces). *)
Definition digit_of (c : ascii) : option Z :=
  let n := Z.of_nat (nat_of_ascii c) in if (48 <=? n) && (n <=? 57) then Some (n - 48) else None.
Fixpoint literal_from (base acc : Z) (s : list ascii) : option Z :=
  match s with
  | [] => Some acc
  | c :: s => match digit_of c with Some d => if d <? base then literal_from base (acc * base + d) s else None | None => None end
  end.
Definition int_literal (w : list ascii) : option Z :=
  match w with
  | [] => None
  | c :: _ => match literal_from (if Ascii.eqb c "0" then 8 else 10) 0 w with
              | Some n => if n <? 2 ^ 31 then Some n else None
              | None => None
              end
  end.
Fixpoint all_some {A} (l : list (option A)) : option (list A) :=
  match l with
  | [] => Some []
  | Some a :: l => option_map (cons a) (all_some l)
  | None :: _ => None
  end.
(** The table of ints in a header. *)
Definition int_table (header : list ascii) : option (list (list Z)) :=
  match initializer header with Some rows => all_some (map (fun r => all_some (map int_literal r)) rows) | None => None end.

(** The enumerators of grapheme_cluster_break::prop_value_type
    (include/u5e/props/grapheme_cluster_break.hpp:20-39). *)
Definition enumerator_names : list (string * gcb) :=
  [ ("OTHER", G_OTHER); ("PREPEND", G_PREPEND); ("CR", G_CR); ("LF", G_LF); ("CONTROL", G_CONTROL); ("EXTEND", G_EXTEND);
    ("REGIONAL_INDICATOR", G_REGIONAL_INDICATOR); ("SPACINGMARK", G_SPACINGMARK); ("L", G_L); ("V", G_V); ("T", G_T);
    ("LV", G_LV); ("LVT", G_LVT); ("E_BASE", G_E_BASE); ("E_MODIFIER", G_E_MODIFIER); ("ZWJ", G_ZWJ);
    ("GLUE_AFTER_ZWJ", G_GLUE_AFTER_ZWJ); ("E_BASE_GAZ", G_E_BASE_GAZ) ]%string.
Definition qualified (name : string) : list ascii := list_ascii_of_string ("grapheme_cluster_break::prop_value_type::" ++ name).
Definition enumerator (w : list ascii) : option gcb :=
  option_map snd (find (fun p => if list_eq_dec ascii_dec (qualified (fst p)) w then true else false) enumerator_names).
Definition range_of (row : list (list ascii)) : option (Z * Z * gcb) :=
  match row with
  | [a; b; v] => match int_literal a, int_literal b, enumerator v with Some a, Some b, Some v => Some (a, b, v) | _, _, _ => None end
  | _ => None
  end.
(** The table of ranges in a header. *)
Definition range_table (header : list ascii) : option (list (Z * Z * gcb)) :=
  match initializer header with Some rows => all_some (map range_of rows) | None => None end.
