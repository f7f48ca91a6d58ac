(** * Specification: Unicode 9.0 character properties, decomposition, composition

    Stated over the transcription of the Unicode Character Database (UcdTables.v)
    and independent of the model (only the names of the Grapheme_Cluster_Break
    values are shared). *)
From Coq Require Import List ZArith Bool.
From Verif Require Import DataTables UcdTables.
Import ListNotations.
Open Scope Z_scope.

(** Canonical_Combining_Class: UnicodeData.txt field 3, 0 when not listed. *)
Definition has_ccc (c k : Z) : Prop :=
  In (c, k) ucd_ccc \/ ((forall k', ~ In (c, k') ucd_ccc) /\ k = 0).

(** Grapheme_Cluster_Break: GraphemeBreakProperty.txt, Other when not listed. *)
Definition has_gcb (c : Z) (v : gcb) : Prop :=
  (exists lo hi, In (lo, hi, v) ucd_grapheme_break /\ lo <= c <= hi) \/
  ((forall lo hi v', In (lo, hi, v') ucd_grapheme_break -> ~ lo <= c <= hi) /\ v = G_OTHER).

(** ** Decomposition mappings *)

(** The canonical mappings listed in UnicodeData.txt. *)
Definition listed_canonical (c : Z) (l : list Z) : Prop := In (c, Canonical, l) ucd_decomposition.
(** The canonical mappings together with those tagged <compat>. *)
Definition listed_compat (c : Z) (l : list Z) : Prop :=
  In (c, Canonical, l) ucd_decomposition \/ In (c, Tag_compat, l) ucd_decomposition.
(** All listed mappings, whatever their tag. *)
Definition listed_any (c : Z) (l : list Z) : Prop := exists tag, In (c, tag, l) ucd_decomposition.

(** Hangul syllables (The Unicode Standard 9.0, section 3.12). *)
Definition SBase := 0xAC00.
Definition LBase := 0x1100.
Definition VBase := 0x1161.
Definition TBase := 0x11A7.
Definition hangul_syllable (c : Z) : Prop := SBase <= c < SBase + 11172.
Definition hangul_mapping (c : Z) (l : list Z) : Prop :=
  hangul_syllable c /\
  let s := c - SBase in
  l = if s mod 28 =? 0
      then [LBase + s / 588; VBase + (s mod 588) / 28]
      else [SBase + (s / 28) * 28; TBase + s mod 28].

(** The Decomposition_Mapping property of the standard (definitions D65, D68 use these). *)
Definition canonical_mapping (c : Z) (l : list Z) : Prop := listed_canonical c l \/ hangul_mapping c l.
Definition compatibility_mapping (c : Z) (l : list Z) : Prop := listed_any c l \/ hangul_mapping c l.

(** Full decomposition: apply a mapping recursively until nothing is mapped. *)
Inductive expands (M : Z -> list Z -> Prop) : Z -> list Z -> Prop :=
| expands_none c : (forall l, ~ M c l) -> expands M c [c]
| expands_map c l d : M c l -> expands_all M l d -> expands M c d
with expands_all (M : Z -> list Z -> Prop) : list Z -> list Z -> Prop :=
| expands_nil : expands_all M [] []
| expands_cons c cs d ds : expands M c d -> expands_all M cs ds -> expands_all M (c :: cs) (d ++ ds).

(** Primary composites listed in UnicodeData.txt (D114 without Hangul): a canonical
    mapping to a pair, between starters, and not excluded from composition. *)
Definition primary_composite (a b c : Z) : Prop :=
  listed_canonical c [a; b] /\ has_ccc c 0 /\ has_ccc a 0 /\ ~ In c ucd_composition_exclusions.
