(** * Property C122: a text is normalized, and cut into graphemes, line by line

    [lines_of s cs ls] (LinesSpec.v): [ls] are the lines of the text [cs], with the codepoint [s] between one and
    the next; [form_alone F sort l u] (Properties_Keep.v): the form of [l], alone in a string, is [u];
    [segments pairwise_boundary] (GraphemeSpec.v): the division of a text into graphemes.
    A program that reads its input line by line and one that normalizes it as a whole agree. *)
From Coq Require Import Permutation Sorted Relations.
From Verif Require Import Prelude DataTables UcdTables PropsModel Utf8Model TextModel StdSortModel Utf8Spec UnicodeSpec GraphemeSpec TextSpec NormSpec
  PropsProofs LawfulProofs DecompTables DecompProofs GraphemeProofs Uax29Proofs GraphemeText OrderProofs ComposeProofs NormData NormProofs HangulProofs NfcProofs NormText
  TextsProofs KeepGraphemes LinesSpec LinesProofs
  Properties_Iteration Properties_Graphemes Properties_Normalize Properties_Sort Properties_Texts Properties_Forms Properties_Keep.
Require Import ZifyBool ZifyNat.

(** What may end a line: the line feed, or a codepoint of class Control (U+0085, U+2028, U+2029, NUL, a tab, ...). *)
Definition line_separator (s : Z) : Prop := s = 0xA \/ has_gcb s G_CONTROL.
(** The sort leaves a carriage return in front of a line feed (they have the same combining class). *)
Definition keeps_crlf (sort : list Z -> list Z) : Prop := sort [0xD; 0xA] = [0xD; 0xA].

Definition only_cr (r : Z * Z * gcb) : bool :=
  let '(lo, hi, v) := r in match v with G_CR => (lo =? 0xD) && (hi =? 0xD) | G_LF => (lo =? 0xA) && (hi =? 0xA) | _ => true end.
Lemma only_cr_rows : forallb only_cr ucd_grapheme_break = true.
Proof. vm_compute. reflexivity. Qed.
Lemma cr_lf_unique c : (gcb_of c = G_CR -> c = 0xD) /\ (gcb_of c = G_LF -> c = 0xA).
Proof.
  split; intros E; apply gcb_spec in E; destruct E as [(lo & hi & I & B)|[_ X]]; try discriminate;
    pose proof only_cr_rows as Q; rewrite forallb_forall in Q; specialize (Q _ I); cbn in Q; lia.
Qed.
Lemma separator_end s : line_separator s -> line_end s.
Proof. intros [->|H]; [right; vm_compute; reflexivity|left; apply gcb_spec; exact H]. Qed.
Lemma crlf_kept sort s : (s = 0xA -> keeps_crlf sort) -> forall r, gcb_of r = G_CR -> gcb_of s = G_LF -> sort [r; s] = [r; s].
Proof.
  intros K r Er Es. apply cr_lf_unique in Er. apply cr_lf_unique in Es. subst. apply (K eq_refl).
Qed.
Lemma part_fits listed full s ls l : (forall cs f, expands_all listed cs f <-> f = flat_map full cs) ->
  count_fits listed (joined s ls) -> In l ls -> count_fits listed l.
Proof.
  intros LF. induction ls as [|x r IH]; [intros _ []|]. destruct r as [|m r].
  - intros CF [->|[]]. exact CF.
  - rewrite joined_cons. intros CF I. destruct (count_parts listed full _ _ LF CF) as (A & B). destruct I as [->|I]; [exact A|].
    apply IH; [|exact I]. exact (proj2 (count_parts listed full [s] _ LF B)).
Qed.

(** ** Every text has lines, and only one division into lines. *)
Theorem C122_every_text_has_lines : forall s cs, exists ls, lines_of s cs ls /\ forall ls', lines_of s cs ls' -> ls' = ls.
Proof. intros s cs. destruct (lines_exist s cs) as (ls & L). exists ls. split; [exact L|]. intros ls' L'. exact (lines_unique s cs _ _ L' L). Qed.
Print Assumptions C122_every_text_has_lines.

(** ** Normalization: the lines of the output are the forms of the lines of the input. *)
Theorem C122_normalized_line_by_line : forall F listed sort s ops b e cs ls fuel out,
  form_of F listed -> std_sort_ok sort -> line_separator s -> (s = 0xA -> keeps_crlf sort) ->
  delimited_text ops b e cs -> (length cs < fuel)%nat -> count_fits listed cs -> lines_of s cs ls ->
  exists u us, normalize fuel ops (F sort utf32_append_from_utf32ne fuel ops) b e out = Ok (zlen u, out ++ u) /\
    lines_of s u us /\ Forall2 (form_alone F sort) ls us.
Proof.
  intros F listed sort s ops b e cs ls fuel out FO SO SE K D Hf CF (NE & E & FR).
  destruct (form_data_of F listed FO) as (k & full & FD). pose proof (separator_end s SE) as L. pose proof (crlf_kept sort s K) as K'.
  set (N := fun l => flat_map (norm_grapheme k full sort) (seg l)).
  exists (joined s (map N ls)), (map N ls). split; [|split].
  - rewrite (run_any32 F listed k full sort ops b e cs fuel out FD SO D Hf CF). subst cs.
    rewrite (norm_lines F listed k full sort FD SO s ls L K'). reflexivity.
  - split; [destruct ls; [contradiction|discriminate]|]. split; [reflexivity|]. intros u I J. apply in_map_iff in I. destruct I as (l & <- & I).
    apply (norm_keeps_out F listed k full sort FD SO s l (line_end_control s L)) in J. exact (FR l I J).
  - assert (Q : forall l, In l ls -> form_alone F sort l (N l)).
    { intros l I. unfold form_alone.
      apply (run_any32 F listed k full sort _ _ _ l (S (length l)) [] FD SO); [eapply delimited_string; constructor|lia|].
      apply (part_fits listed full s ls); [exact (data_listed F listed k full FD)|subst cs; exact CF|exact I]. }
    clear - Q. induction ls as [|l r IH]; [constructor|]. cbn [map]. constructor; [apply Q; left; reflexivity|apply IH; intros x I; apply Q; right; exact I].
Qed.
Print Assumptions C122_normalized_line_by_line.
(** So as many lines come out as go in. *)
Corollary C122_as_many_lines : forall F listed sort s ops b e cs ls fuel n u us,
  form_of F listed -> std_sort_ok sort -> line_separator s -> (s = 0xA -> keeps_crlf sort) ->
  delimited_text ops b e cs -> (length cs < fuel)%nat -> count_fits listed cs -> lines_of s cs ls ->
  normalize fuel ops (F sort utf32_append_from_utf32ne fuel ops) b e [] = Ok (n, u) -> lines_of s u us -> length us = length ls.
Proof.
  intros F listed sort s ops b e cs ls fuel n u us FO SO SE K D Hf CF L R U.
  destruct (C122_normalized_line_by_line F listed sort s ops b e cs ls fuel [] FO SO SE K D Hf CF L) as (v & vs & R' & V & A).
  rewrite R in R'. cbn [app] in R'. injection R' as _ <-. rewrite (lines_unique s u _ _ U V). clear - A.
  induction A as [|x y l m _ _ IH]; [reflexivity|]. cbn [length]. rewrite IH. reflexivity.
Qed.
Print Assumptions C122_as_many_lines.
(** libstdc++'s sort leaves CR LF, so with it there is no condition. *)
Theorem C122_gnu_sort : std_sort_ok gnu_sort /\ keeps_crlf gnu_sort.
Proof. split; [exact C58_an_allowed_sort|vm_compute; reflexivity]. Qed.
Print Assumptions C122_gnu_sort.
(** An allowed sort may exchange two codepoints of one class: then a CR at the end of a line goes to the start of the next. *)
Definition pair_swapping_sort (l : list Z) : list Z :=
  match l with [a; b] => if ccc a =? ccc b then [b; a] else isort l | _ => isort l end.
Theorem C122_condition_needed : std_sort_ok pair_swapping_sort /\
  let s := utf32_ops [0x61; 0xD; 0xA; 0x62; 0] in
  normalize 5 s (normalization_form_c pair_swapping_sort utf32_append_from_utf32ne 5 s) 0 4 [] = Ok (4, [0x61; 0xA; 0xD; 0x62]) /\
  lines_of 0xA [0x61; 0xD; 0xA; 0x62] [[0x61; 0xD]; [0x62]] /\ form_alone normalization_form_c pair_swapping_sort [0x61; 0xD] [0x61; 0xD].
Proof.
  split.
  - apply std_sort_classes. intros l. unfold pair_swapping_sort.
    destruct l as [|a [|b [|c l]]]; try (split; [apply isort_perm|apply isort_sorted]).
    destruct (Z.eqb_spec (ccc a) (ccc b)) as [E|E]; [|split; [apply isort_perm|apply isort_sorted]].
    split; [apply perm_swap|]. repeat constructor; apply ccc_le_iff; lia.
  - cbv zeta. split; [vm_compute; reflexivity|]. split; [|vm_compute; reflexivity].
    split; [discriminate|]. split; [reflexivity|]. intros l [<-|[<-|[]]] I; cbn in I; intuition discriminate.
Qed.
Print Assumptions C122_condition_needed.

(** ** Graphemes: none crosses the end of a line, but that CR LF is one grapheme. *)
Theorem C122_no_grapheme_crosses : forall s cs gs g, line_separator s -> segments pairwise_boundary cs gs ->
  In g gs -> In s g -> g = [s] \/ (s = 0xA /\ g = [0xD; 0xA]).
Proof.
  intros s cs gs g SE S I J. apply seg_eq in S. subst gs. pose proof (separator_end s SE) as L.
  apply in_split in J. destruct J as (l & r & ->).
  assert (r = []). { destruct r as [|c r]; [reflexivity|]. pose proof (seg_inside cs _ l s c r I eq_refl) as B. rewrite (brk_after s c L) in B. discriminate. }
  subst r. destruct l as [|d l0]; [left; reflexivity|]. assert (NE : d :: l0 <> []) by discriminate. destruct (exists_last NE) as (l & a & W0). rewrite W0 in *.
  rewrite <- app_assoc in I |- *. cbn [app] in I |- *.
  destruct (brk_before a s L (seg_inside cs _ l a s [] I eq_refl)) as (Ea & Es).
  apply cr_lf_unique in Es. destruct l as [|x l1]; [right; split; [exact Es|]; apply cr_lf_unique in Ea; subst; reflexivity|].
  exfalso. assert (NX : x :: l1 <> []) by discriminate. destruct (exists_last NX) as (l & z & W). rewrite W, <- app_assoc in I. cbn [app] in I.
  pose proof (seg_inside cs _ l z a [s] I eq_refl) as B. unfold brk in B. rewrite Ea in B. destruct (gcb_of z); discriminate.
Qed.
Print Assumptions C122_no_grapheme_crosses.
(** The graphemes of the lines, with the grapheme [s] between those of one line and those of the next. *)
Fixpoint with_ends (s : Z) (gss : list (list (list Z))) : list (list Z) :=
  match gss with [] => [] | [gs] => gs | gs :: rest => gs ++ [s] :: with_ends s rest end.
Theorem C122_graphemes_line_by_line : forall s ops b e cs pos ls gss fuel,
  line_separator s -> string_in_memory ops b e cs pos -> (length cs < fuel)%nat -> lines_of s cs ls ->
  (s = 0xA -> forall l r, In l ls -> l <> r ++ [0xD]) -> Forall2 (segments pairwise_boundary) ls gss ->
  graphemes fuel ops b e = Ok (with_ends s gss).
Proof.
  intros s ops b e cs pos ls gss fuel SE M Hf (_ & -> & _) NC A.
  destruct (C39_graphemes_partition_the_text _ _ _ _ _ fuel M Hf) as (gs & G & S). rewrite G. f_equal. apply seg_eq in S. subst gs. clear G M Hf.
  pose proof (separator_end s SE) as L. revert gss A. induction ls as [|l r IH]; intros gss A; inversion A as [|? g ? gs Sl Ar]; subst; [reflexivity|].
  apply seg_eq in Sl. subst g. destruct r as [|m r]; [inversion Ar; subst; reflexivity|].
  rewrite joined_cons, (after_parts l s _ L), (IH (fun E x w I => NC E x w (or_intror I)) gs Ar).
  rewrite (seg_line l s L), <- app_assoc; [inversion Ar; subst; reflexivity|].
  destruct l as [|a l0]; [auto|]. right. destruct (brk (last (a :: l0) 0) s) eqn:B; [reflexivity|]. exfalso.
  destruct (brk_before _ s L B) as (Ea & Es). apply cr_lf_unique in Es. apply cr_lf_unique in Ea.
  assert (NE : a :: l0 <> []) by discriminate. destruct (exists_last NE) as (w & z & W). rewrite W, last_last in Ea. subst z.
  exact (NC Es (a :: l0) w (or_introl eq_refl) W).
Qed.
Print Assumptions C122_graphemes_line_by_line.

(** e with acute in two codepoints, CR LF, Hangul jamo, a line separator U+2028, z with caron. *)
Example C122_example :
  let cs := [0x65; 0x301; 0xD; 0xA; 0x1100; 0x2028; 0x7A; 0x30C] in
  lines_of 0xA cs [[0x65; 0x301; 0xD]; [0x1100; 0x2028; 0x7A; 0x30C]] /\
  lines_of 0x2028 cs [[0x65; 0x301; 0xD; 0xA; 0x1100]; [0x7A; 0x30C]] /\
  line_separator 0xA /\ line_separator 0x2028 /\ keeps_crlf gnu_sort /\
  normalize 9 (utf32_ops (string_buffer cs)) (normalization_form_c gnu_sort utf32_append_from_utf32ne 9 (utf32_ops (string_buffer cs))) 0 8 []
  = Ok (6, [0xE9; 0xD; 0xA; 0x1100; 0x2028; 0x17E]) /\
  form_alone normalization_form_c gnu_sort [0x7A; 0x30C] [0x17E] /\
  graphemes 9 (utf32_ops (string_buffer cs)) 0 8 = Ok [[0x65; 0x301]; [0xD; 0xA]; [0x1100]; [0x2028]; [0x7A; 0x30C]].
Proof.
  cbv zeta. repeat split; try discriminate; try (vm_compute; reflexivity).
  - intros l [<-|[<-|[]]] I; cbn in I; intuition discriminate.
  - intros l [<-|[<-|[]]] I; cbn in I; intuition discriminate.
  - left. reflexivity.
  - right. apply gcb_spec. vm_compute. reflexivity.
Qed.
