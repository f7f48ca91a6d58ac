(** * Specification: grapheme cluster boundaries (UAX #29, Unicode 9.0)

    Independent of the model; uses only the class assignment [has_gcb]. *)
From Coq Require Import List ZArith.
From Verif Require Import DataTables UnicodeSpec.
Import ListNotations.
Open Scope Z_scope.

(** A list of rules (condition, break?) applied with first-match precedence. *)
Fixpoint first_match (rules : list (Prop * bool)) (v : bool) : Prop :=
  match rules with
  | [] => False
  | (P, w) :: t => (P /\ v = w) \/ (~ P /\ first_match t v)
  end.

(** The rules read pairwise: [a] is the class before the position, [b] after it. *)
Definition pairwise_rules (a b : gcb) : list (Prop * bool) :=
  [ (a = G_CR /\ b = G_LF, false);                                        (* GB3 *)
    (In a [G_CONTROL; G_CR; G_LF], true);                                 (* GB4 *)
    (In b [G_CONTROL; G_CR; G_LF], true);                                 (* GB5 *)
    (a = G_L /\ In b [G_L; G_V; G_LV; G_LVT], false);                     (* GB6 *)
    (In a [G_LV; G_V] /\ In b [G_V; G_T], false);                         (* GB7 *)
    (In a [G_LVT; G_T] /\ b = G_T, false);                                (* GB8 *)
    (In b [G_EXTEND; G_ZWJ], false);                                      (* GB9 *)
    (b = G_SPACINGMARK, false);                                           (* GB9a *)
    (a = G_PREPEND, false);                                               (* GB9b *)
    (In a [G_E_BASE; G_E_BASE_GAZ; G_EXTEND] /\ b = G_E_MODIFIER, false); (* GB10 *)
    (a = G_ZWJ /\ In b [G_GLUE_AFTER_ZWJ; G_E_BASE_GAZ], false);          (* GB11 *)
    (a = G_REGIONAL_INDICATOR /\ b = G_REGIONAL_INDICATOR, false);        (* GB12, GB13 *)
    (True, true) ].                                                       (* GB999 *)

(** The rules of UAX #29 proper: [before] is everything before the position (GB1 is
    left out: [before] is not empty). *)
Definition ends_in (before : list gcb) (classes : list gcb) : Prop :=
  exists l a, before = l ++ [a] /\ In a classes.
Definition uax29_rules (before : list gcb) (b : gcb) : list (Prop * bool) :=
  [ (ends_in before [G_CR] /\ b = G_LF, false);
    (ends_in before [G_CONTROL; G_CR; G_LF], true);
    (In b [G_CONTROL; G_CR; G_LF], true);
    (ends_in before [G_L] /\ In b [G_L; G_V; G_LV; G_LVT], false);
    (ends_in before [G_LV; G_V] /\ In b [G_V; G_T], false);
    (ends_in before [G_LVT; G_T] /\ b = G_T, false);
    (In b [G_EXTEND; G_ZWJ], false);
    (b = G_SPACINGMARK, false);
    (ends_in before [G_PREPEND], false);
    (* GB10: (E_Base | EBG) Extend*  x  E_Modifier *)
    ((exists l base ext, before = l ++ base :: ext /\ In base [G_E_BASE; G_E_BASE_GAZ] /\
        (forall x, In x ext -> x = G_EXTEND)) /\ b = G_E_MODIFIER, false);
    (ends_in before [G_ZWJ] /\ In b [G_GLUE_AFTER_ZWJ; G_E_BASE_GAZ], false);
    (* GB12, GB13: (sot | [^RI]) (RI RI)* RI  x  RI *)
    ((exists l k, before = l ++ repeat G_REGIONAL_INDICATOR (2 * k + 1) /\
        ~ ends_in l [G_REGIONAL_INDICATOR]) /\ b = G_REGIONAL_INDICATOR, false);
    (True, true) ].

(** A boundary after the non-empty text [before] and in front of codepoint [b]. *)
Definition pairwise_boundary (before : list Z) (b : Z) : Prop :=
  exists l a va vb, before = l ++ [a] /\ has_gcb a va /\ has_gcb b vb /\
    first_match (pairwise_rules va vb) true.
Definition uax29_boundary (before : list Z) (b : Z) : Prop :=
  exists vs vb, Forall2 has_gcb before vs /\ has_gcb b vb /\
    first_match (uax29_rules vs vb) true.

(** [gs] cuts [cs] exactly at the boundaries. *)
Definition segments (boundary : list Z -> Z -> Prop) (cs : list Z) (gs : list (list Z)) : Prop :=
  concat gs = cs /\ ~ In [] gs /\
  (forall before l b r after, gs = before ++ (l ++ b :: r) :: after -> l <> [] ->
     ~ boundary (concat before ++ l) b) /\
  (forall before b r after, gs = before ++ (b :: r) :: after -> before <> [] ->
     boundary (concat before) b).

(** No three Regional_Indicators in a row. *)
Definition no_ri_triple (cs : list Z) : Prop :=
  forall l a b c r, cs = l ++ a :: b :: c :: r ->
    ~ (has_gcb a G_REGIONAL_INDICATOR /\ has_gcb b G_REGIONAL_INDICATOR /\ has_gcb c G_REGIONAL_INDICATOR).
(** An E_Modifier that follows an Extend follows (E_Base | E_Base_GAZ) Extend*. *)
Definition modifiers_based (cs : list Z) : Prop :=
  forall l x m r, cs = l ++ x :: m :: r -> has_gcb x G_EXTEND -> has_gcb m G_E_MODIFIER ->
    exists l' base ext, l = l' ++ base :: ext /\
      (has_gcb base G_E_BASE \/ has_gcb base G_E_BASE_GAZ) /\ (forall y, In y ext -> has_gcb y G_EXTEND).
