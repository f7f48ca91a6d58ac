(** * Specification of the files of the Unicode Character Database the generators read

    Independent of the model.  [line_of] and the like give the text of a line from what
    the line says; names, categories and comments are arbitrary. *)
From Coq Require Import List ZArith Ascii String Permutation.
From Verif Require Import DataTables UcdTables.
Import ListNotations.
Open Scope Z_scope.

(** ** Numbers in the files *)
Definition digit (d : Z) : ascii :=
  ascii_of_nat (Z.to_nat (if d <? 10 then 48 + d else 55 + d)).
Fixpoint numeral (base : Z) (fuel : nat) (n : Z) : list ascii :=
  match fuel with
  | O => []
  | S f => (if n <? base then [] else numeral base f (n / base)) ++ [digit (n mod base)]
  end.
(** Upper case hexadecimal with at least four digits; decimal.  (A number below 2^f has
    at most f digits.) *)
Definition hex4 (n : Z) : list ascii :=
  let d := numeral 16 (S (Z.to_nat (Z.log2 n))) n in repeat "0"%char (4 - List.length d) ++ d.
Definition dec (n : Z) : list ascii := numeral 10 (S (Z.to_nat (Z.log2 n))) n.

Fixpoint join (sep : list ascii) (l : list (list ascii)) : list ascii :=
  match l with
  | [] => []
  | [w] => w
  | w :: ws => w ++ sep ++ join sep ws
  end.

(** ** UnicodeData.txt *)

(** What a line says about a codepoint; [e_mapping] is the formatting tag, if any, and the
    codepoints of the Decomposition_Mapping field. *)
Record entry := Entry {
  e_code : Z;
  e_name : list ascii;
  e_category : list ascii;
  e_class : Z;
  e_bidi : list ascii;
  e_mapping : option (option (list ascii) * list Z);
  e_rest : list (list ascii)
}.
Definition mapping_text (m : option (option (list ascii) * list Z)) : list ascii :=
  match m with
  | None => []
  | Some (None, l) => join [" "%char] (map hex4 l)
  | Some (Some tag, l) => ["<"%char] ++ tag ++ [">"%char; " "%char] ++ join [" "%char] (map hex4 l)
  end.
Definition line_of (e : entry) : list ascii :=
  join [";"%char] (hex4 (e_code e) :: e_name e :: e_category e :: dec (e_class e) :: e_bidi e ::
                   mapping_text (e_mapping e) :: e_rest e).
(** The fields are fields, numbers are not negative, a mapping maps to something. *)
Definition entry_ok (e : entry) : Prop :=
  0 <= e_code e /\ 0 <= e_class e /\
  (forall f, In f (e_name e :: e_category e :: e_bidi e :: e_rest e) -> ~ In ";"%char f) /\
  (forall tag l, e_mapping e = Some (tag, l) -> l <> [] /\ (forall c, In c l -> 0 <= c) /\
     forall t, tag = Some t -> ~ In ";"%char t /\ ~ In ">"%char t).
(** Each codepoint has one line. *)
Definition file_ok (file : list entry) : Prop :=
  (forall e, In e file -> entry_ok e) /\ NoDup (map e_code file).

(** What a file says. *)
Definition file_class (file : list entry) (c k : Z) : Prop :=
  (exists e, In e file /\ e_code e = c /\ e_class e = k) \/
  ((forall e, In e file -> e_code e <> c) /\ k = 0).
Definition file_canonical (file : list entry) (c : Z) (l : list Z) : Prop :=
  exists e, In e file /\ e_code e = c /\ e_mapping e = Some (None, l).
Definition compat_tag : list ascii := list_ascii_of_string "compat".
Definition file_compat (file : list entry) (c : Z) (l : list Z) : Prop :=
  exists e, In e file /\ e_code e = c /\
    (e_mapping e = Some (None, l) \/ e_mapping e = Some (Some compat_tag, l)).

(** A codepoint that leads back to itself through the mappings. *)
Inductive reaches (M : Z -> list Z -> Prop) : Z -> Z -> Prop :=
| reaches_one c l x : M c l -> In x l -> reaches M c x
| reaches_more c l x y : M c l -> In x l -> reaches M x y -> reaches M c y.

(** ** CompositionExclusions.txt *)
Inductive exclusion :=
| Excluded (c : Z) (spaces : nat) (comment : list ascii) (* "0958    # comment" *)
| ExcludedBare (c : Z)                                  (* "0958" *)
| Comment (comment : list ascii)                        (* "# comment" *)
| Blank.
Definition exclusion_text (x : exclusion) : list ascii :=
  match x with
  | Excluded c n t => hex4 c ++ repeat " "%char n ++ ["#"%char] ++ t
  | ExcludedBare c => hex4 c
  | Comment t => "#"%char :: t
  | Blank => []
  end.
Definition exclusion_ok (x : exclusion) : Prop :=
  match x with
  | Excluded c _ _ => 0 <= c
  | ExcludedBare c => 0 <= c
  | _ => True
  end.
(** The lines without those where exactly one space separates codepoint and comment. *)
Definition single_space (x : exclusion) : bool := match x with Excluded _ 1 _ => true | _ => false end.
Definition not_single_space (file : list exclusion) : list exclusion :=
  filter (fun x => negb (single_space x)) file.
Definition listed_exclusion (file : list exclusion) (c : Z) : Prop :=
  (exists n t, In (Excluded c n t) file) \/ In (ExcludedBare c) file.

(** Canonical mappings have one or two codepoints, and no two composable codepoints map
    to the same pair. *)
Definition pairs_ok (file : list entry) : Prop :=
  (forall c l, file_canonical file c l -> (List.length l <= 2)%nat) /\
  (forall a b c c', file_canonical file c [a; b] -> file_class file c 0 ->
     file_canonical file c' [a; b] -> file_class file c' 0 -> c = c').
(** Primary composites according to the files (compare [primary_composite] of
    UnicodeSpec.v). *)
Definition file_primary (file : list entry) (excl : list exclusion) (a b c : Z) : Prop :=
  file_canonical file c [a; b] /\ file_class file c 0 /\ file_class file a 0 /\ ~ listed_exclusion excl c.

(** ** GraphemeBreakProperty.txt *)
Definition break_names : list (gcb * string) :=
  [ (G_PREPEND, "Prepend"); (G_CR, "CR"); (G_LF, "LF"); (G_CONTROL, "Control");
    (G_EXTEND, "Extend"); (G_REGIONAL_INDICATOR, "Regional_Indicator");
    (G_SPACINGMARK, "SpacingMark"); (G_L, "L"); (G_V, "V"); (G_T, "T"); (G_LV, "LV");
    (G_LVT, "LVT"); (G_E_BASE, "E_Base"); (G_E_MODIFIER, "E_Modifier"); (G_ZWJ, "ZWJ");
    (G_GLUE_AFTER_ZWJ, "Glue_After_Zwj"); (G_E_BASE_GAZ, "E_Base_GAZ") ]%string.
Inductive break_line :=
| BreakRange (lo hi : Z) (spaces : nat) (v : gcb) (comment : list ascii)
| BreakOne (c : Z) (spaces : nat) (v : gcb) (comment : list ascii)
| BreakOther (line : list ascii).
(** [break_line_says x line]: "0600..0605    ; Prepend # comment",
    "000D          ; CR # comment", or a line that does not start with a number. *)
Inductive break_line_says : break_line -> list ascii -> Prop :=
| says_range lo hi n v name t : In (v, name) break_names ->
    break_line_says (BreakRange lo hi n v t)
      (hex4 lo ++ [".";"."]%char ++ hex4 hi ++ repeat " "%char n ++ [";";" "]%char ++
       list_ascii_of_string name ++ [" ";"#"]%char ++ t)
| says_one c n v name t : In (v, name) break_names ->
    break_line_says (BreakOne c n v t)
      (hex4 c ++ repeat " "%char n ++ [";";" "]%char ++ list_ascii_of_string name ++ [" ";"#"]%char ++ t)
| says_other line : (forall d, 0 <= d < 16 -> hd_error line <> Some (digit d)) ->
    break_line_says (BreakOther line) line.
Definition break_line_ok (x : break_line) : Prop :=
  match x with
  | BreakRange lo hi n _ _ => 0 <= lo <= hi /\ (1 <= n)%nat
  | BreakOne c n _ _ => 0 <= c /\ (2 <= n)%nat
  | BreakOther _ => True
  end.
(** The same lines without a comment: "0600..0605    ; Prepend", "000D          ; CR". *)
Inductive bare_line_says : break_line -> list ascii -> Prop :=
| bare_range lo hi n v name : In (v, name) break_names ->
    bare_line_says (BreakRange lo hi n v [])
      (hex4 lo ++ [".";"."]%char ++ hex4 hi ++ repeat " "%char n ++ [";";" "]%char ++ list_ascii_of_string name)
| bare_one c n v name : In (v, name) break_names ->
    bare_line_says (BreakOne c n v [])
      (hex4 c ++ repeat " "%char n ++ [";";" "]%char ++ list_ascii_of_string name).
(** What the lines say. *)
Definition break_range (x : break_line) : list (Z * Z * gcb) :=
  match x with
  | BreakRange lo hi _ v _ => [(lo, hi, v)]
  | BreakOne c _ v _ => [(c, c, v)]
  | BreakOther _ => []
  end.
Definition file_break (ranges : list (Z * Z * gcb)) (c : Z) (v : gcb) : Prop :=
  (exists lo hi, In (lo, hi, v) ranges /\ lo <= c <= hi) \/
  ((forall lo hi v', In (lo, hi, v') ranges -> ~ lo <= c <= hi) /\ v = G_OTHER).
(** No codepoint is in the ranges of two lines. *)
Fixpoint disjoint (ranges : list (Z * Z * gcb)) : Prop :=
  match ranges with
  | [] => True
  | (lo, hi, v) :: rs => (forall lo' hi' v', In (lo', hi', v') rs -> hi < lo' \/ hi' < lo) /\ disjoint rs
  end.

(** ** The order in which keys %d returns the keys of a hash, call by call *)
Definition some_order (ord : nat -> list (list ascii) -> list (list ascii)) : Prop :=
  forall n l, Permutation l (ord n l).

(** ** Files with the contents of Unicode 9.0 (UcdTables.v) *)
Definition tag_text (t : dtag) : option (list ascii) :=
  option_map list_ascii_of_string
    match t with
    | Canonical => None
    | Tag_noBreak => Some "noBreak" | Tag_compat => Some "compat" | Tag_super => Some "super"
    | Tag_fraction => Some "fraction" | Tag_sub => Some "sub" | Tag_font => Some "font"
    | Tag_circle => Some "circle" | Tag_wide => Some "wide" | Tag_vertical => Some "vertical"
    | Tag_square => Some "square" | Tag_isolated => Some "isolated" | Tag_final => Some "final"
    | Tag_initial => Some "initial" | Tag_medial => Some "medial" | Tag_small => Some "small"
    | Tag_narrow => Some "narrow"
    end%string.
(** A UnicodeData.txt whose lines give the classes and decomposition mappings of
    Unicode 9.0; everything else may be anything. *)
Definition is_unicode_9 (file : list entry) : Prop :=
  file_ok file /\
  (forall c k, In (c, k) ucd_ccc <-> k <> 0 /\ exists e, In e file /\ e_code e = c /\ e_class e = k) /\
  (forall c tag l, In (c, tag, l) ucd_decomposition <->
     exists e, In e file /\ e_code e = c /\ e_mapping e = Some (tag_text tag, l)).
Definition is_exclusions_9 (file : list exclusion) : Prop :=
  (forall x, In x file -> exclusion_ok x /\ single_space x = false) /\
  (forall c, listed_exclusion file c <-> In c ucd_composition_exclusions).
(** A GraphemeBreakProperty.txt with the lines of Unicode 9.0 in any order. *)
Definition is_breaks_9 (xs : list break_line) (lines : list (list ascii)) : Prop :=
  Forall2 break_line_says xs lines /\ Forall break_line_ok xs /\
  Permutation (flat_map break_range xs) ucd_grapheme_break.
