(** * Property C124: searching a text irrespective of how it is spelled

    A program normalizes a text and a word into form D (or C) and looks for the second output in the first, accepting
    an occurrence only if it begins and ends between graphemes.  What it finds are exactly the runs of graphemes of the
    text as it was that are canonically equivalent to the word, in the same places.
    [nfd_condition] (Properties_Normalize.v): C49; [modifiers_placed] (Properties_Keep.v): C111; [ties_kept] (NormSpec.v):
    C53, C59; [canonically_equivalent] (NormSpec.v): the Unicode Standard's. *)
From Coq Require Import Permutation Sorted Relations.
From Verif Require Import Prelude DataTables UcdTables PropsModel Utf8Model TextModel StdSortModel Utf8Spec UnicodeSpec GraphemeSpec TextSpec NormSpec
  PropsProofs LawfulProofs DecompTables DecompProofs GraphemeProofs Uax29Proofs GraphemeText OrderProofs ComposeProofs NormData NormProofs HangulProofs NfcProofs NormText
  TextsProofs EquivProofs LocalMarks FormsProofs NormForms SubRange RangeTree KeepGraphemes EquivGraphemes
  Properties_Graphemes Properties_Normalize Properties_Sort Properties_Texts Properties_Forms Properties_Equivalence Properties_Keep.
Require Import ZifyBool ZifyNat.

(** The place between [x] and what follows is the start, the end, or a grapheme boundary. *)
Definition between_graphemes (x y : list Z) : Prop := x = [] \/ y = [] \/ exists c t, y = c :: t /\ pairwise_boundary x c.
(** [v] occurs in [u] after [i] whole graphemes, and ends between graphemes. *)
Definition occurs_after (i : nat) (v u : list Z) : Prop := exists x y xs,
  u = x ++ v ++ y /\ segments pairwise_boundary x xs /\ length xs = i /\ between_graphemes x (v ++ y) /\ between_graphemes (x ++ v) y.
(** The graphemes of a text, from number [i] on, begin with some that are together canonically equivalent to [w]. *)
Definition equivalent_run (i : nat) (w : list Z) (gs : list (list Z)) : Prop := exists before run after,
  gs = before ++ run ++ after /\ length before = i /\ canonically_equivalent (concat run) w.
(** The same for another equivalence. *)
Definition run_with (R : list Z -> list Z -> Prop) (i : nat) (w : list Z) (gs : list (list Z)) : Prop := exists before run after,
  gs = before ++ run ++ after /\ length before = i /\ R (concat run) w.

Lemma run_cut cs l r : seg cs = l ++ r -> between_graphemes (concat l) (concat r).
Proof.
  intros E. pose proof (seg_nonempty cs) as NE. rewrite E in NE. apply Forall_app in NE. destruct NE as (NL & NR).
  destruct l as [|l0 l']; [left; reflexivity|]. destruct r as [|h r]; [right; left; reflexivity|]. right. right.
  inversion NR as [|? ? Nh _]; subst. destruct h as [|c t]; [contradiction|]. exists c, (t ++ concat r). split; [reflexivity|].
  assert (Nl : l0 :: l' <> []) by discriminate. destruct (exists_last Nl) as (l1 & g & E1). rewrite E1 in *.
  apply Forall_app in NL. destruct NL as (_ & Ng). inversion Ng as [|? ? NG _]; subst. destruct (exists_last NG) as (g1 & a & E2).
  rewrite concat_app. cbn [concat]. rewrite app_nil_r, E2, app_assoc. apply boundary_after; [destruct (concat l1 ++ g1); discriminate|]. rewrite last_last.
  apply (seg_between cs l1 g (c :: t) r g1 a c t); [rewrite E, <- app_assoc; reflexivity|exact E2|reflexivity].
Qed.
Lemma map_split {A B} (f : A -> B) l : forall x y, map f l = x ++ y -> exists a b, l = a ++ b /\ map f a = x /\ map f b = y.
Proof.
  induction l as [|h l IH]; intros x y E; [destruct x; [|discriminate]; cbn in E; subst y; exists [], []; auto|].
  destruct x as [|x0 x]; [cbn in E; subst y; exists [], (h :: l); auto|]. cbn in E. injection E as <- E.
  destruct (IH x y E) as (a & b & -> & <- & <-). exists (h :: a), b. auto.
Qed.

(** [equivalent_by listed_canonical] (NormSpec.v): one can be made from the other by canonical mappings, back and forth, and exchanges of
    marks; Hangul syllables, which the library does not decompose, must be spelled the same. *)
Theorem C124_search_with_hangul : forall F sort ops b e cs gs ops' b' e' w ws fuel n u n' v,
  F = normalization_form_d \/ F = normalization_form_c -> std_sort_ok sort ->
  delimited_text ops b e cs -> delimited_text ops' b' e' w -> (length cs < fuel)%nat -> (length w < fuel)%nat ->
  count_fits listed_canonical cs -> count_fits listed_canonical w ->
  segments pairwise_boundary cs gs -> segments pairwise_boundary w ws ->
  ties_kept sort listed_canonical gs -> ties_kept sort listed_canonical ws ->
  graphemes_marks_last listed_canonical gs -> graphemes_marks_last listed_canonical ws -> modifiers_placed cs ->
  normalize fuel ops (F sort utf32_append_from_utf32ne fuel ops) b e [] = Ok (n, u) ->
  normalize fuel ops' (F sort utf32_append_from_utf32ne fuel ops') b' e' [] = Ok (n', v) ->
  forall i, occurs_after i v u <-> run_with (equivalent_by listed_canonical) i w gs.
Proof.
  intros F sort ops b e cs gs ops' b' e' w ws fuel n u n' v FO SO D D' Hf Hf' CF CF' Sg Sw K K' Mg Mw MP R R' i.
  pose proof Sg as Sg0. pose proof Sw as Sw0. apply seg_eq in Sg0, Sw0. subst gs ws. destruct (canonical_forms F FO) as (k & FD).
  assert (KP : forall l g, ties_kept sort listed_canonical l -> In g l -> norm_grapheme k full_canonical sort g = piece k g).
  { intros l g T I. apply (kept_piece F); [assumption|assumption|]. apply (T g); [exact I|]. apply canonical_listed. reflexivity. }
  assert (NP : forall l, ties_kept sort listed_canonical l -> flat_map (norm_grapheme k full_canonical sort) l = concat (map (piece k) l)).
  { intros l T. rewrite flat_map_concat_map. f_equal. apply map_ext_in. intros g I. exact (KP l g T I). }
  assert (U : u = concat (map (piece k) (seg cs))).
  { rewrite (run_any32 F _ k _ sort ops b e cs fuel [] FD SO D Hf CF) in R. cbn [app] in R. injection R as _ <-. apply NP. exact K. }
  assert (SU : seg u = map (piece k) (seg cs)) by (rewrite U; apply (kept k cs (placed_md cs MP))).
  (* a run of the graphemes has the output [v] exactly if it is equivalent to the word *)
  assert (Q : forall l m r, seg cs = l ++ m ++ r -> (concat (map (piece k) m) = v <-> equivalent_by listed_canonical (concat m) w)).
  { intros l m r E. pose proof (seg_run cs l m r E) as SM.
    assert (I : incl m (seg cs)) by (rewrite E; intros g G; apply in_or_app; right; apply in_or_app; left; exact G).
    assert (Km : ties_kept sort listed_canonical m) by (intros g f G X; exact (K g f (I g G) X)).
    assert (CS : cs = concat l ++ concat m ++ concat r) by (rewrite <- (seg_concat cs), E, !concat_app; reflexivity).
    assert (Cm : count_fits listed_canonical (concat m)).
    { rewrite CS in CF. pose proof (count_parts listed_canonical full_canonical) as CP.
      destruct (CP _ _ canonical_listed CF) as (_ & C2). exact (proj1 (CP _ _ canonical_listed C2)). }
    assert (Lm : (length (concat m) < fuel)%nat) by (rewrite CS, !app_length in Hf; lia).
    pose proof (delimited_string _ _ _ _ _ (utf32_string (concat m))) as Dm.
    assert (FO' : form_of F listed_canonical) by (destruct FO as [-> | ->]; constructor).
    destruct (C97_same_form_iff_equivalent F listed_canonical sort _ _ _ (concat m) m ops' b' e' w (seg w) fuel FO' SO Dm D' Lm Hf' Cm CF')
      as (a & p & a' & p' & E1 & E2 & EQ); try assumption.
    - pose proof (seg_segments (concat m)) as X. rewrite SM in X. exact X.
    - intros g f G X. exact (Mg g f (I g G) X).
    - rewrite R' in E2. injection E2 as _ <-.
      rewrite (run_any32 F _ k _ sort _ _ _ (concat m) fuel [] FD SO Dm Lm Cm), SM, (NP m Km) in E1. cbn [app] in E1. injection E1 as _ <-. exact EQ. }
  split.
  - intros (x & y & xs & EU & Sx & Lx & B1 & B2). apply seg_eq in Sx. subst xs.
    assert (ES : seg u = seg x ++ seg v ++ seg y).
    { rewrite EU. rewrite (seg_parts x (v ++ y) B1). f_equal. rewrite app_assoc in EU.
      (* the second cut, seen from [v] alone *)
      destruct v as [|v0 v1]; [reflexivity|]. apply seg_parts. destruct B2 as [B2|[B2|(c & t & -> & B2)]].
      - destruct x; discriminate.
      - auto.
      - right. right. exists c, t. split; [reflexivity|]. apply boundary_after; [discriminate|].
        apply boundary_after in B2; [|destruct x; discriminate].
        assert (NV : v0 :: v1 <> []) by discriminate. destruct (exists_last NV) as (z & a & EZ). rewrite EZ in *. rewrite app_assoc, last_last in B2. rewrite last_last. exact B2. }
    rewrite SU in ES. destruct (map_split _ _ _ _ ES) as (l & mr & E1 & El & Emr). destruct (map_split _ _ _ _ Emr) as (m & r & -> & Em & Er).
    exists l, m, r. split; [exact E1|]. split; [rewrite <- Lx, <- El, map_length; reflexivity|].
    apply (Q l m r E1). rewrite Em. apply seg_concat.
  - intros (l & m & r & E & L & EQ). apply (Q l m r E) in EQ.
    assert (SS : seg u = map (piece k) l ++ map (piece k) m ++ map (piece k) r) by (rewrite SU, E, !map_app; reflexivity).
    exists (concat (map (piece k) l)), (concat (map (piece k) r)), (map (piece k) l). split; [|split; [|split; [|split]]].
    + rewrite <- EQ, <- !concat_app, <- SS. symmetry. apply seg_concat.
    + pose proof (seg_segments (concat (map (piece k) l))) as X. rewrite (seg_run u [] _ _ SS) in X. exact X.
    + rewrite map_length. exact L.
    + rewrite <- EQ, <- concat_app. apply (run_cut u). exact SS.
    + rewrite <- EQ, <- concat_app. apply (run_cut u). rewrite <- app_assoc. exact SS.
Qed.
Print Assumptions C124_search_with_hangul.
(** Without Hangul syllables this is canonical equivalence. *)
Theorem C124_search_finds_equivalent_runs : forall F sort ops b e cs gs ops' b' e' w ws fuel n u n' v,
  F = normalization_form_d \/ F = normalization_form_c -> std_sort_ok sort ->
  delimited_text ops b e cs -> delimited_text ops' b' e' w -> (length cs < fuel)%nat -> (length w < fuel)%nat ->
  count_fits listed_canonical cs -> count_fits listed_canonical w ->
  segments pairwise_boundary cs gs -> segments pairwise_boundary w ws ->
  ties_kept sort listed_canonical gs -> ties_kept sort listed_canonical ws ->
  nfd_condition cs gs -> nfd_condition w ws -> modifiers_placed cs ->
  normalize fuel ops (F sort utf32_append_from_utf32ne fuel ops) b e [] = Ok (n, u) ->
  normalize fuel ops' (F sort utf32_append_from_utf32ne fuel ops') b' e' [] = Ok (n', v) ->
  forall i, occurs_after i v u <-> equivalent_run i w gs.
Proof.
  intros F sort ops b e cs gs ops' b' e' w ws fuel n u n' v FO SO D D' Hf Hf' CF CF' Sg Sw K K' (Hg & Mg) (Hw & Mw) MP R R' i.
  rewrite (C124_search_with_hangul F sort ops b e cs gs ops' b' e' w ws fuel n u n' v FO SO D D' Hf Hf' CF CF' Sg Sw K K' Mg Mw MP R R' i).
  apply seg_eq in Sg. subst gs. unfold equivalent_run, run_with.
  split; intros (l & m & r & E & L & Q); exists l, m, r; (split; [exact E|split; [exact L|]]).
  - apply (C97_equivalent_without_hangul (concat m) w). exact Q.
  - apply (C97_equivalent_without_hangul (concat m) w); [|exact Q]. intros s [J|J]; [|exact (Hw s J)]. apply (Hg s).
    rewrite <- (seg_concat cs), E, !concat_app. apply in_or_app. right. apply in_or_app. left. exact J.
Qed.
Print Assumptions C124_search_finds_equivalent_runs.

(** Without the condition on where the occurrence ends the search finds what is not there: form D of e with acute has an e. *)
Theorem C124_boundaries_needed : exists cs w u v x y,
  normalize 4 (utf32_ops (string_buffer cs)) (normalization_form_d gnu_sort utf32_append_from_utf32ne 4 (utf32_ops (string_buffer cs))) 0 (zlen cs) []
  = Ok (zlen u, u) /\
  normalize 4 (utf32_ops (string_buffer w)) (normalization_form_d gnu_sort utf32_append_from_utf32ne 4 (utf32_ops (string_buffer w))) 0 (zlen w) []
  = Ok (zlen v, v) /\
  u = x ++ v ++ y /\ segments pairwise_boundary cs [cs] /\ ~ canonically_equivalent cs w /\ ~ canonically_equivalent [] w.
Proof.
  exists [0xE9], [0x65], [0x65; 0x301], [0x65], [], [0x301]. split; [vm_compute; reflexivity|]. split; [vm_compute; reflexivity|].
  split; [reflexivity|]. split; [exact (seg_segments [0xE9])|].
  split; intros E; apply equivalent_eq in E; vm_compute in E; discriminate.
Qed.
Print Assumptions C124_boundaries_needed.

(** "ne" with an acute in one codepoint, in a text where it is spelled with two. *)
Example C124_example :
  let text := [0x75; 0x6E; 0x65; 0x301; 0x21] in let word := [0x6E; 0xE9] in
  let form t := normalize 6 (utf32_ops (string_buffer t)) (normalization_form_c gnu_sort utf32_append_from_utf32ne 6 (utf32_ops (string_buffer t))) 0 (zlen t) [] in
  form text = Ok (4, [0x75; 0x6E; 0xE9; 0x21]) /\ form word = Ok (2, [0x6E; 0xE9]) /\
  segments pairwise_boundary text [[0x75]; [0x6E]; [0x65; 0x301]; [0x21]] /\
  occurs_after 1 [0x6E; 0xE9] [0x75; 0x6E; 0xE9; 0x21] /\ equivalent_run 1 word [[0x75]; [0x6E]; [0x65; 0x301]; [0x21]] /\
  nfd_condition text [[0x75]; [0x6E]; [0x65; 0x301]; [0x21]] /\ modifiers_placed text.
Proof.
  cbv zeta. split; [vm_compute; reflexivity|]. split; [vm_compute; reflexivity|].
  split; [exact (seg_segments [0x75; 0x6E; 0x65; 0x301; 0x21])|]. split; [|split; [|split]].
  - exists [0x75], [0x21], [[0x75]]. split; [reflexivity|]. split; [exact (seg_segments [0x75])|]. split; [reflexivity|].
    assert (B : forall x c, brk (last x 0) c = true -> x <> [] -> forall t, between_graphemes x (c :: t)).
    { intros x c B NE t. right. right. exists c, t. split; [reflexivity|]. apply boundary_after; assumption. }
    split; apply B; try discriminate; vm_compute; reflexivity.
  - exists [[0x75]], [[0x6E]; [0x65; 0x301]], [[0x21]]. split; [reflexivity|]. split; [reflexivity|]. apply equivalent_eq. vm_compute. reflexivity.
  - split.
    + intros s [<-|[<-|[<-|[<-|[<-|[]]]]]] H; unfold hangul_syllable, SBase in H; lia.
    + intros g f I X. apply canonical_listed in X. subst f. apply marks_last_iff, sort_is_order_iff. destruct I as [<-|[<-|[<-|[<-|[]]]]]; vm_compute; reflexivity.
  - intros x a m y E H. exfalso. apply gcb_spec in H.
    assert (I : In m [0x75; 0x6E; 0x65; 0x301; 0x21]) by (rewrite E; apply in_or_app; right; right; left; reflexivity).
    destruct I as [<-|[<-|[<-|[<-|[<-|[]]]]]]; vm_compute in H; discriminate.
Qed.
(** A Korean syllable in a text with other letters. *)
Example C124_hangul_example :
  let text := [0x21; 0xAC00; 0xE9] in let word := [0xAC00] in
  let form t := normalize 6 (utf32_ops (string_buffer t)) (normalization_form_c gnu_sort utf32_append_from_utf32ne 6 (utf32_ops (string_buffer t))) 0 (zlen t) [] in
  form text = Ok (3, text) /\ form word = Ok (1, word) /\ segments pairwise_boundary text [[0x21]; [0xAC00]; [0xE9]] /\
  run_with (equivalent_by listed_canonical) 1 word [[0x21]; [0xAC00]; [0xE9]] /\
  graphemes_marks_last listed_canonical [[0x21]; [0xAC00]; [0xE9]] /\ ~ nfd_condition text [[0x21]; [0xAC00]; [0xE9]].
Proof.
  cbv zeta. split; [vm_compute; reflexivity|]. split; [vm_compute; reflexivity|]. split; [exact (seg_segments [0x21; 0xAC00; 0xE9])|]. split; [|split].
  - exists [[0x21]], [[0xAC00]], [[0xE9]]. split; [reflexivity|]. split; [reflexivity|]. constructor 2.
  - intros g f I X. apply canonical_listed in X. subst f. apply marks_last_iff, sort_is_order_iff. destruct I as [<-|[<-|[<-|[]]]]; vm_compute; reflexivity.
  - intros (H & _). apply (H 0xAC00); [right; left; reflexivity|]. unfold hangul_syllable, SBase. lia.
Qed.
