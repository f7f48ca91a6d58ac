(** * Client programs that use iterators in any order

    Client code, not code of the repository: executes the commands of HistorySpec.v with the
    operations of the iterators (utf8_iterator.hpp:96-310, basic_grapheme_iterator.hpp:187-287,
    basic_grapheme.hpp:45-60, basic_encodedstring.hpp:130-162). *)
From Verif Require Import Prelude Utf8Model TextModel HistorySpec.

(** Postfix -- (utf8_iterator.hpp:252-256; utf32ne.hpp:26-30: of the native iterator). *)
Definition utf8_postdec (mem : list Z) (p : Z) : res (Z * Z) := it_postdec mem p.
Definition utf32_postdec (mem : list Z) (p : Z) : res (Z * Z) := let* q := padd mem p (-1) in Ok (p, q).

Definition registers : Type := (nat -> Z) * (nat -> gi).
Definition execute (fuel : nat) (ops : cp_ops) (postdec : Z -> res (Z * Z)) (b e : Z)
  (x : command) (st : registers) : res (list observation * registers) :=
  let '(C, G) := st in
  match x with
  | Begin r => Ok ([], (set C r b, G))
  | End r => Ok ([], (set C r e, G))
  | At r p => Ok ([], (set C r p, G))
  | Copy r q => Ok ([], (set C q (C r), G))
  | Inc r => let* p := op_inc ops (C r) in Ok ([], (set C r p, G))
  | PostInc r q => let* '(old, p) := op_postinc ops (C r) in Ok ([], (set (set C r p) q old, G))
  | Dec r => let* p := op_dec ops (C r) in Ok ([], (set C r p, G))
  | PostDec r q => let* '(old, p) := postdec (C r) in Ok ([], (set (set C r p) q old, G))
  | Read r => let* '(c, p) := op_deref ops (C r) in Ok ([Saw c], (set C r p, G))
  | Equal r q => let* v := op_eq ops (C r) (C q) in Ok ([Was v], (C, G))
  | GBegin g => let* i := grapheme_begin fuel ops b e in Ok ([], (C, set G g i))
  | GEnd g => let* i := grapheme_end fuel ops b e in Ok ([], (C, set G g i))
  | GCopy g h => Ok ([], (C, set G h (G g)))
  | GInc g => let* i := gi_inc fuel ops (G g) in Ok ([], (C, set G g i))
  | GPostInc g h => let* '(old, i) := gi_postinc fuel ops (G g) in Ok ([], (C, set (set G g i) h old))
  | GEqual g h => let* v := gi_eq fuel ops (G g) (G h) in Ok ([Was v], (C, G))
  | GEqualAt g r => let* v := gi_eq_cp fuel ops (G g) (C r) in Ok ([Was v], (C, G))
  | GFirst g r => Ok ([], (set C r (fst (gi_deref (G g))), G))
  | GLast g r => Ok ([], (set C r (snd (gi_deref (G g))), G))
  | GRead g =>
      let* l := iterate_codepoints_for fuel ops (fst (gi_deref (G g))) (snd (gi_deref (G g))) in
      Ok ([SawGrapheme l], (C, G))
  end.
Fixpoint run (fuel : nat) (ops : cp_ops) (postdec : Z -> res (Z * Z)) (b e : Z)
  (xs : list command) (st : registers) : res (list observation * registers) :=
  match xs with
  | [] => Ok ([], st)
  | x :: xs =>
      let* '(o, st) := execute fuel ops postdec b e x st in
      let* '(os, st) := run fuel ops postdec b e xs st in
      Ok (o ++ os, st)
  end.
(** A program starts with all iterators at the beginning of the text. *)
Definition program (fuel : nat) (ops : cp_ops) (postdec : Z -> res (Z * Z)) (b e : Z)
  (xs : list command) : res (list observation) :=
  let* g := grapheme_begin fuel ops b e in
  let* '(os, _) := run fuel ops postdec b e xs (fun _ => b, fun _ => g) in
  Ok os.
