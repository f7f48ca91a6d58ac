(** * Specification: histories of operations on strings

    Independent of the model.  A client program holds any number of strings, numbered by
    [nat]; number [r] is a utf8_string if [utf8 r], otherwise a utf32ne_string.  What the
    strings are to contain, as texts (lists of codepoints), and what the program is to see. *)
From Coq Require Import List ZArith.
From Verif Require Import Prelude Utf8Spec UnicodeSpec GraphemeSpec HistorySpec.
Import ListNotations.
Open Scope Z_scope.

Inductive form_name := FormD | FormKD | FormC | FormKC.
Inductive string_command :=
| Clear (r : nat)                          (* r.native_string.clear() *)
| Append (r : nat) (l : list Z)            (* r.append_from_utf32ne(l.codepoint_cbegin(), l.codepoint_cend()), [l] a utf32ne_string *)
| AppendBetween (r q : nat) (p p' : Z)     (* r.append(first, last), iterators of q made from the native positions p and p' *)
| AppendGraphemes (r q a k : nat)          (* r.append(first, last), the grapheme iterators number a and k of q *)
| AppendUtf32 (r q : nat)                  (* r.append_from_utf32ne(q.codepoint_cbegin(), q.codepoint_cend()) *)
| CopyCodepoints (r q : nat)               (* r.native_string.push_back for the codepoints of q *)
| Normalize (f : form_name) (r q : nat)    (* filter(q.grapheme_begin(), q.grapheme_end(), r, normalization_form_...) *)
| Assign (r i : nat) (c : Z)               (* the iterator of codepoint number i of r, and through it: = c *)
| Show (r : nat)                           (* the loop over the codepoints of r *)
| ShowGraphemes (r : nat)                  (* the loop over the graphemes of r *)
| Check (r : nat).                         (* utf8_bounds::check *)
Inductive sight :=
| Text (l : list Z)
| Graphemes (gs : list (list Z))
| Checked (b : bool).

(** The codepoints the UTF-8 encoder handles (C19), among those of Unicode. *)
Definition encodable (c : Z) : Prop := 1 <= c <= 0x7FF \/ 0x2000 <= c <= 0xFFFF \/ 0x80000 <= c <= 0x10FFFF.
Definition replaced (l : list Z) (i : nat) (c : Z) : list Z := firstn i l ++ c :: skipn (S i) l.

Section Strings.
Context (utf8 : nat -> bool).
(** What each normalization form makes of a text. *)
Context (form : form_name -> list Z -> list Z -> Prop).
Definition writable (r : nat) (c : Z) : Prop := if utf8 r then encodable c else unicode_codepoint c.
(** Native position [p] belongs to codepoint number [i] of [cs] (or the end). *)
Definition belongs (q : nat) (cs : list Z) (i : nat) (p : Z) : Prop :=
  if utf8 q then zlen (utf8_text (firstn i cs)) <= p /\
    ((i < length cs)%nat /\ p < zlen (utf8_text (firstn (S i) cs)) \/ i = length cs /\ p = zlen (utf8_text cs))
  else p = Z.of_nat i /\ (i <= length cs)%nat.
Inductive string_step : string_command -> (nat -> list Z) -> list sight -> (nat -> list Z) -> Prop :=
| does_clear r T : string_step (Clear r) T [] (set T r [])
| does_append r l T : Forall (writable r) l -> string_step (Append r l) T [] (set T r (T r ++ l))
| does_between r q p p' i j T : utf8 r = utf8 q -> (i <= j)%nat -> belongs q (T q) i p -> belongs q (T q) j p' ->
    string_step (AppendBetween r q p p') T [] (set T r (T r ++ firstn (j - i) (skipn i (T q))))
| does_graphemes r q a k gs T : utf8 r = utf8 q -> segments pairwise_boundary (T q) gs -> (a <= k <= length gs)%nat ->
    (utf8 r = true -> Forall (fun c => c < 128) (concat (firstn (k - a) (skipn a gs)))) ->
    string_step (AppendGraphemes r q a k) T [] (set T r (T r ++ concat (firstn (k - a) (skipn a gs))))
| does_utf32 r q T : utf8 q = false -> Forall (writable r) (T q) -> string_step (AppendUtf32 r q) T [] (set T r (T r ++ T q))
| does_copy_codepoints r q T : utf8 r = false -> r <> q -> string_step (CopyCodepoints r q) T [] (set T r (T r ++ T q))
| does_normalize f r q d T : r <> q -> form f (T q) d -> Forall (writable r) d -> string_step (Normalize f r q) T [] (set T r (T r ++ d))
| does_assign r i c old T : nth_error (T r) i = Some old -> writable r c ->
    (utf8 r = true -> zlen (utf8_encode c) = zlen (utf8_encode old)) -> string_step (Assign r i c) T [] (set T r (replaced (T r) i c))
| does_show r T : string_step (Show r) T [Text (T r)] T
| does_show_graphemes r gs T : segments pairwise_boundary (T r) gs -> string_step (ShowGraphemes r) T [Graphemes gs] T
| does_check r T : utf8 r = true -> string_step (Check r) T [Checked true] T.
Inductive string_history : (nat -> list Z) -> list string_command -> list sight -> (nat -> list Z) -> Prop :=
| string_history_ends T : string_history T [] [] T
| string_history_goes_on T T' T'' x xs o os : string_step x T o T' -> string_history T' xs os T'' -> string_history T (x :: xs) (o ++ os) T''.
End Strings.
