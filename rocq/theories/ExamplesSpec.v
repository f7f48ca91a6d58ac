(** * Specification: what the example programs are to print

    Independent of the model. *)
From Coq Require Import List ZArith.
From Verif Require Import Utf8Spec.
Import ListNotations.
Open Scope Z_scope.

(** The value of the digits 0-9, a-f. *)
Inductive digit : Z -> Z -> Prop :=
| decimal_digit d : 0 <= d <= 9 -> digit (48 + d) d
| letter_digit d : 10 <= d <= 15 -> digit (87 + d) d.
Inductive numeral : list Z -> Z -> Prop :=
| numeral_nil : numeral [] 0
| numeral_digit l v x d : numeral l v -> digit x d -> numeral (l ++ [x]) (16 * v + d).
(** At least six digits, no more zeros in front than that takes. *)
Definition six_digit_numeral (l : list Z) (v : Z) : Prop :=
  numeral l v /\ (length l = 6%nat \/ ((6 < length l)%nat /\ nth 0 l 0 <> 48)).

(** " U+" and the number, for each codepoint, and [after] after each. *)
Inductive printed (after : list Z) : list Z -> list Z -> Prop :=
| printed_nil : printed after [] []
| printed_next c cs digits text : six_digit_numeral digits c -> printed after cs text ->
    printed after (c :: cs) ([32; 85; 43] ++ digits ++ after ++ text).
(** "[", the codepoints, " ]", for each grapheme. *)
Inductive printed_graphemes : list (list Z) -> list Z -> Prop :=
| printed_none : printed_graphemes [] []
| printed_grapheme g gs text text' : printed [] g text -> printed_graphemes gs text' ->
    printed_graphemes (g :: gs) ([91] ++ text ++ [32; 93] ++ text').
(** One line for each. *)
Inductive lines {A : Type} (line : A -> list Z -> Prop) : list A -> list Z -> Prop :=
| no_line : lines line [] []
| one_line x xs text text' : line x text -> lines line xs text' -> lines line (x :: xs) (text ++ [10] ++ text').

(** The C string with octets [s] lies at the start of [mem]. *)
Definition c_string (mem s : list Z) : Prop := ~ In 0 s /\ exists rest, mem = s ++ 0 :: rest.
(** The text of codepoints other than U+0000. *)
Definition c_text (mem cs : list Z) : Prop :=
  Forall (fun c => 1 <= c < 2 ^ 31) cs /\ exists rest, mem = utf8_text cs ++ 0 :: rest.
