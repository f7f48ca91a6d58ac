(** * Specification: filter, canonical ordering, composition, normalization forms,
      canonical equivalence (The Unicode Standard 9.0, section 3.11; UAX #15)

    Independent of the model. *)
From Coq Require Import List ZArith Permutation Sorted Relations.
From Verif Require Import DataTables UcdTables UnicodeSpec.
Import ListNotations.
Open Scope Z_scope.

(** ** Ordering by Canonical_Combining_Class *)
Definition ccc_le (a b : Z) : Prop := forall i j, has_ccc a i -> has_ccc b j -> i <= j.

(** [s] is the sublist of [l] of the codepoints of class [k]. *)
Inductive with_class (k : Z) : list Z -> list Z -> Prop :=
| wc_nil : with_class k [] []
| wc_take c l s : has_ccc c k -> with_class k l s -> with_class k (c :: l) (c :: s)
| wc_skip c l s : ~ has_ccc c k -> with_class k l s -> with_class k (c :: l) s.
(** [l'] has the codepoints of each class in the same order as [l]. *)
Definition order_kept (l l' : list Z) : Prop :=
  forall k s, with_class k l s -> with_class k l' s.
(** A stable sort (what std::sort need not be; [std_sort_ok], what it must be, is in TextModel.v). *)
Definition stable (sort : list Z -> list Z) : Prop := forall l, order_kept l (sort l).

(** ** Canonical ordering (D108, D109) *)
(** Exchanging a reorderable pair. *)
Inductive exchange : list Z -> list Z -> Prop :=
| exch x a b y i j : has_ccc a i -> has_ccc b j -> 0 < j < i ->
    exchange (x ++ a :: b :: y) (x ++ b :: a :: y).
Definition canonically_ordered (l : list Z) : Prop := forall l', ~ exchange l l'.
(** Canonical Ordering Algorithm: exchange reorderable pairs until there is none. *)
Definition canonical_order (l l' : list Z) : Prop :=
  clos_refl_trans _ exchange l l' /\ canonically_ordered l'.

(** Normalization Form D (D118). *)
Definition nfd (cs d : list Z) : Prop :=
  exists full, expands_all canonical_mapping cs full /\ canonical_order full d.

(** Canonical equivalence: the equivalence generated by replacing a codepoint by its
    canonical mapping and exchanging reorderable pairs. *)
Inductive equiv_step : list Z -> list Z -> Prop :=
| eq_map x c m y : canonical_mapping c m -> equiv_step (x ++ c :: y) (x ++ m ++ y)
| eq_exchange l l' : exchange l l' -> equiv_step l l'.
Definition canonically_equivalent : list Z -> list Z -> Prop := clos_refl_sym_trans _ equiv_step.
(** The same with the mappings [M] in place of the canonical ones. *)
Inductive step_by (M : Z -> list Z -> Prop) : list Z -> list Z -> Prop :=
| by_map x c m y : M c m -> step_by M (x ++ c :: y) (x ++ m ++ y)
| by_exchange l l' : exchange l l' -> step_by M l l'.
Definition equivalent_by (M : Z -> list Z -> Prop) : list Z -> list Z -> Prop := clos_refl_sym_trans _ (step_by M).

(** ** Composition *)
(** Greedy composition of neighbours with the listed primary composites. *)
Inductive greedy : list Z -> list Z -> Prop :=
| greedy_nil : greedy [] []
| greedy_last a : greedy [a] [a]
| greedy_compose a b c t out : primary_composite a b c -> greedy (c :: t) out -> greedy (a :: b :: t) out
| greedy_keep a b t out : (forall c, ~ primary_composite a b c) -> greedy (b :: t) out ->
    greedy (a :: b :: t) (a :: out).

(** Primary composites of the standard (D114): the listed ones and Hangul syllables. *)
Definition composes (a b c : Z) : Prop := primary_composite a b c \/ hangul_mapping c [a; b].
(** [c] is blocked from the last starter by the codepoints [mid] between them (D115). *)
Definition blocked (mid : list Z) (c : Z) : Prop :=
  exists b i j, In b mid /\ has_ccc b i /\ has_ccc c j /\ (i = 0 \/ i >= j).
(** Canonical Composition Algorithm (D117): [compose_from l mid rest out], [l] the last
    starter, [mid] the codepoints after it that have been looked at and kept, [rest]
    what is still to be looked at. *)
Inductive compose_from : Z -> list Z -> list Z -> list Z -> Prop :=
| cf_end l mid : compose_from l mid [] (l :: mid)
| cf_join l mid c rest out d : ~ blocked mid c -> composes l c d ->
    compose_from d mid rest out -> compose_from l mid (c :: rest) out
| cf_keep l mid c rest out : (blocked mid c \/ forall d, ~ composes l c d) -> ~ has_ccc c 0 ->
    compose_from l (mid ++ [c]) rest out -> compose_from l mid (c :: rest) out
| cf_starter l mid c rest out : (blocked mid c \/ forall d, ~ composes l c d) -> has_ccc c 0 ->
    compose_from c [] rest out -> compose_from l mid (c :: rest) (l :: mid ++ out).
Inductive compose_text : list Z -> list Z -> Prop :=
| ct_nil : compose_text [] []
| ct_mark c rest out : ~ has_ccc c 0 -> compose_text rest out -> compose_text (c :: rest) (c :: out)
| ct_starter c rest out : has_ccc c 0 -> compose_from c [] rest out -> compose_text (c :: rest) out.
(** Normalization Form C (D120). *)
Definition nfc (cs out : list Z) : Prop := exists d, nfd cs d /\ compose_text d out.
(** No codepoint composes with an earlier one it is not blocked from. *)
Definition fully_composed (u : list Z) : Prop :=
  forall x l mid c y d, u = x ++ l :: mid ++ c :: y -> ~ blocked mid c -> ~ composes l c d.
(** No starter after a nonstarter. *)
Definition marks_last (l : list Z) : Prop :=
  forall x a y b z, l = x ++ a :: y ++ b :: z -> ~ has_ccc a 0 -> ~ has_ccc b 0.

(** Normalization Forms KD and KC (D119, D121). *)
Definition nfkd (cs d : list Z) : Prop :=
  exists full, expands_all compatibility_mapping cs full /\ canonical_order full d.
Definition nfkc (cs out : list Z) : Prop := exists d, nfkd cs d /\ compose_text d out.

(** ** Decomposition of one grapheme as the forms D and KD make it *)
(** [d] is a rearrangement, in non-decreasing class order, of the full decomposition of
    [g] by the mappings [listed], and nothing in it is mapped. *)
Definition decomposed_grapheme (listed : Z -> list Z -> Prop) (g d : list Z) : Prop :=
  (exists f, expands_all listed g f /\ Permutation f d) /\
  StronglySorted ccc_le d /\
  (forall x m, In x d -> ~ listed x m).
(** [u] is the greedy composition of [d], and decomposes to [d] again. *)
Definition composed_grapheme (listed : Z -> list Z -> Prop) (d u : list Z) : Prop :=
  greedy d u /\ expands_all listed u d.
(** The number of codepoints of the full decomposition fits into an int. *)
Definition count_fits (listed : Z -> list Z -> Prop) (cs : list Z) : Prop :=
  exists f, expands_all listed cs f /\ Z.of_nat (length f) <= 2 ^ 31 - 1.
(** No grapheme's full decomposition has a starter after a nonstarter. *)
Definition graphemes_marks_last (listed : Z -> list Z -> Prop) (gs : list (list Z)) : Prop :=
  forall g f, In g gs -> expands_all listed g f -> marks_last f.
(** The sort keeps the order of equal classes in every grapheme of this text (which
    std::sort need not do, but every stable sort does). *)
Definition ties_kept (sort : list Z -> list Z) (listed : Z -> list Z -> Prop) (gs : list (list Z)) : Prop :=
  forall g f, In g gs -> expands_all listed g f -> order_kept f (sort f).
