(** * Model: counting the work of grapheme iteration and normalization

    The functions of TextModel.v again, with a count of the operations on codepoint iterators of
    the text ( ==, !=, *, ++, -- ): each counts one.  [erase] forgets the count; CostProofs.v proves that
    each function here erases to the one of TextModel.v, so only the counting is new.  Not counted:
    what does not touch the text (the table lookups, one per codepoint or pair looked at; std::sort,
    which the standard bounds by O(N log N) comparisons; composition, whose loop is bounded by the length
    of its string; appends). *)
From Verif Require Import Prelude DataTables PropsModel Utf8Model TextModel.

(** Outcome and number of iterator operations (no line of the repo). *)
Definition counted (A : Type) : Type := res (A * nat).
Definition cret {A} (a : A) : counted A := Ok (a, 0%nat).
Definition cbind {A B} (m : counted A) (f : A -> counted B) : counted B :=
  match m with
  | Ok (a, k) => match f a with Ok (b, l) => Ok (b, (k + l)%nat) | UB u => UB u | OutOfFuel => OutOfFuel end
  | UB u => UB u
  | OutOfFuel => OutOfFuel
  end.
(** One operation on a codepoint iterator; something that is none. *)
Definition one {A} (m : res A) : counted A := match m with Ok a => Ok (a, 1%nat) | UB u => UB u | OutOfFuel => OutOfFuel end.
Definition free {A} (m : res A) : counted A := match m with Ok a => Ok (a, 0%nat) | UB u => UB u | OutOfFuel => OutOfFuel end.
Definition erase {A} (m : counted A) : res A := match m with Ok (a, _) => Ok a | UB u => UB u | OutOfFuel => OutOfFuel end.
Notation "'do' x <- e ; k" := (cbind e (fun x => k)) (at level 200, x name, e at level 100, k at level 200, right associativity).
Notation "'do' ' p <- e ; k" := (cbind e (fun p => k)) (at level 200, p pattern, e at level 100, k at level 200, right associativity).

(** basic_grapheme_iterator.hpp:142-154 *)
Fixpoint find_end_loop_c (fuel : nat) (ops : cp_ops) (end_ a eog : Z) : counted Z :=
  match fuel with
  | O => OutOfFuel
  | S f =>
      do e <- one (op_eq ops eog end_);
      if e : bool then cret eog
      else
        do '(b, eog) <- one (op_deref ops eog);
        do brk <- free (is_grapheme_boundary a b);
        if brk : bool then cret eog
        else
          do eog <- one (op_step ops eog);
          find_end_loop_c f ops end_ b eog
  end.
(** basic_grapheme_iterator.hpp:131-155 *)
Definition find_end_of_grapheme_c (fuel : nat) (ops : cp_ops) (end_ eog : Z) : counted Z :=
  do e <- one (op_eq ops eog end_);
  if e : bool then cret eog
  else
    do '(a, eog) <- one (op_deref ops eog);
    do eog <- one (op_step ops eog);
    find_end_loop_c fuel ops end_ a eog.
(** basic_grapheme_iterator.hpp:169-180 *)
Fixpoint find_start_loop_c (fuel : nat) (ops : cp_ops) (begin a where_ : Z) : counted Z :=
  match fuel with
  | O => OutOfFuel
  | S f =>
      do e <- one (op_eq ops where_ begin);
      if e : bool then cret where_
      else
        do '(b, where_) <- one (op_deref ops where_);
        do brk <- free (is_grapheme_boundary a b);
        if brk : bool then cret where_
        else
          do where_ <- one (op_dec ops where_);
          find_start_loop_c f ops begin b where_
  end.
(** basic_grapheme_iterator.hpp:157-181 *)
Definition find_start_of_grapheme_c (fuel : nat) (ops : cp_ops) (begin where_ : Z) : counted Z :=
  do e <- one (op_eq ops where_ begin);
  if e : bool then cret where_
  else
    do copy <- one (op_dec ops where_);
    do '(a, _) <- one (op_deref ops copy);
    find_start_loop_c fuel ops begin a where_.
(** basic_grapheme_iterator.hpp:187-191, basic_encodedstring.hpp:152-156 *)
Definition grapheme_begin_c (fuel : nat) (ops : cp_ops) (b e : Z) : counted gi :=
  do eog <- find_end_of_grapheme_c fuel ops e b;
  cret {| g_begin := b; g_end := e; g_where := b; g_eog := eog |}.
(** basic_grapheme_iterator.hpp:197-203, basic_encodedstring.hpp:157-162 *)
Definition grapheme_end_c (fuel : nat) (ops : cp_ops) (b e : Z) : counted gi :=
  do where_ <- find_start_of_grapheme_c fuel ops b e;
  do eog <- find_end_of_grapheme_c fuel ops e e;
  cret {| g_begin := b; g_end := e; g_where := where_; g_eog := eog |}.
(** basic_grapheme_iterator.hpp:234-244 (the statement [it++;]) *)
Definition gi_step_c (fuel : nat) (ops : cp_ops) (g : gi) : counted gi :=
  do eog <- find_end_of_grapheme_c fuel ops (g_end g) (g_eog g);
  cret {| g_begin := g_begin g; g_end := g_end g; g_where := g_eog g; g_eog := eog |}.
(** basic_grapheme_iterator.hpp:254-260 *)
Fixpoint gi_eq_cp_loop_c (fuel : nat) (ops : cp_ops) (eog copy other : Z) : counted bool :=
  match fuel with
  | O => OutOfFuel
  | S f =>
      do stop <- one (op_eq ops copy eog);
      if stop : bool then cret false
      else
        do e <- one (op_eq ops copy other);
        if e : bool then cret true
        else
          do copy <- one (op_step ops copy);
          gi_eq_cp_loop_c f ops eog copy other
  end.
(** basic_grapheme_iterator.hpp:250-262 *)
Definition gi_eq_cp_c (fuel : nat) (ops : cp_ops) (g : gi) (other : Z) : counted bool :=
  do e <- one (op_eq ops (g_where g) other);
  if e : bool then cret true
  else gi_eq_cp_loop_c fuel ops (g_eog g) (g_where g) other.
(** basic_grapheme_iterator.hpp:272-278 *)
Fixpoint gi_eq_loop_c (fuel : nat) (ops : cp_ops) (eog copy : Z) (other : gi) : counted bool :=
  match fuel with
  | O => OutOfFuel
  | S f =>
      do stop <- one (op_eq ops copy eog);
      if stop : bool then cret false
      else
        do e <- gi_eq_cp_c fuel ops other copy;
        if e : bool then cret true
        else
          do copy <- one (op_step ops copy);
          gi_eq_loop_c f ops eog copy other
  end.
(** basic_grapheme_iterator.hpp:267-280 *)
Definition gi_eq_c (fuel : nat) (ops : cp_ops) (g other : gi) : counted bool :=
  do c1 <- one (op_eq ops (g_where g) (g_end g));
  do c <- (if c1 : bool then gi_eq_cp_c fuel ops other (g_end g) else cret false);
  if c : bool then cret true
  else gi_eq_loop_c fuel ops (g_eog g) (g_where g) other.
(** basic_grapheme_iterator.hpp:285-287 *)
Definition gi_neq_c (fuel : nat) (ops : cp_ops) (g other : gi) : counted bool :=
  do b <- gi_eq_c fuel ops g other; cret (negb b).

(** filter.hpp:45-54 *)
Fixpoint filter_loop_c {It Elem Out} (fuel : nat)
  (neq : It -> It -> counted bool) (deref : It -> counted (Elem * It)) (inc : It -> counted It)
  (operation : Elem -> Out -> counted (Z * Out))
  (from to : It) (output : Out) (counter : Z) : counted (Z * Out) :=
  match fuel with
  | O => OutOfFuel
  | S f =>
      do ne <- neq from to;
      if ne : bool then
        do '(x, from) <- deref from;
        do '(n, output) <- operation x output;
        do counter <- free (int_add counter n);
        do from <- inc from;
        filter_loop_c f neq deref inc operation from to output counter
      else cret (counter, output)
  end.

(** normalization_form_d.hpp:27-31 (and kd 27-33, c 28-33, kc 28-34) *)
Definition decompose_grapheme_c (fuel : nat) (ops : cp_ops)
  (dec : Z -> list Z -> res (Z * list Z)) (g : Z * Z) : counted (Z * list Z) :=
  filter_loop_c fuel (fun p q => one (op_neq ops p q)) (fun p => one (op_deref ops p)) (fun p => one (op_step ops p))
    (fun c out => free (dec c out)) (fst g) (snd g) [] 0.
(** normalization_form_d.hpp:23-44, normalization_form_kd.hpp:23-45. *)
Definition form_decomposed_c (sort : list Z -> list Z)
  (append_out : list Z -> list Z -> res (list Z)) (fuel : nat) (ops : cp_ops)
  (dec : Z -> list Z -> res (Z * list Z))
  (g : Z * Z) (output : list Z) : counted (Z * list Z) :=
  do '(count, decomposed) <- decompose_grapheme_c fuel ops dec g;
  do output <- free (append_out output (sort decomposed));
  cret (count, output).
(** normalization_form_c.hpp:24-52, normalization_form_kc.hpp:24-53. *)
Definition form_composed_c (sort : list Z -> list Z)
  (append_out : list Z -> list Z -> res (list Z)) (fuel : nat) (ops : cp_ops)
  (dec : Z -> list Z -> res (Z * list Z))
  (g : Z * Z) (output : list Z) : counted (Z * list Z) :=
  do '(count, decomposed) <- decompose_grapheme_c fuel ops dec g;
  do '(decomposed, oi, compositions) <- free (canonical_composition (sort decomposed) 0);
  do output <- free (append_out output (firstn (Z.to_nat oi) decomposed));
  cret (count - compositions, output).
(** normalization_form_d.hpp:23-44, normalization_form_kd.hpp:23-45, normalization_form_c.hpp:24-52,
    normalization_form_kc.hpp:24-53: the instances. *)
Definition normalization_form_d_c sort append_out fuel ops := form_decomposed_c sort append_out fuel ops canonical_decomposition.
Definition normalization_form_kd_c sort append_out fuel ops := form_decomposed_c sort append_out fuel ops compatibility_and_canonical_decomposition.
Definition normalization_form_c_c sort append_out fuel ops := form_composed_c sort append_out fuel ops canonical_decomposition.
Definition normalization_form_kc_c sort append_out fuel ops := form_composed_c sort append_out fuel ops compatibility_and_canonical_decomposition.

(** filter(s.grapheme_begin(), s.grapheme_end(), output, operation) (examples/normalization_form_d.cpp:23-24,
    examples/grapheme_iteration.cpp:24-33 is the same loop). *)
Definition normalize_c (fuel : nat) (ops : cp_ops)
  (form : Z * Z -> list Z -> counted (Z * list Z)) (b e : Z)
  (output : list Z) : counted (Z * list Z) :=
  do from <- grapheme_begin_c fuel ops b e;
  do to <- grapheme_end_c fuel ops b e;
  filter_loop_c fuel (gi_neq_c fuel ops) (fun g => cret (gi_deref g, g)) (gi_step_c fuel ops) form from to output 0.
