(** * Properties C83, C84: normalizing some of the graphemes of a text, and views that end
    inside of a grapheme

    Reading guide as in Properties_Normalize.v and Properties_Texts.v.  [nth_grapheme fuel ops b e a]
    is grapheme_begin() incremented [a] times (TextModel.v); [filter_graphemes] is
    filter(from, to, output, operation) on grapheme iterators. *)
From Coq Require Import Permutation Sorted Relations.
From Verif Require Import Prelude DataTables UcdTables PropsModel Utf8Model TextModel Utf8Spec UnicodeSpec GraphemeSpec TextSpec NormSpec FilterSpec
  PropsProofs LawfulProofs DecompTables DecompProofs GraphemeProofs Uax29Proofs GraphemeText FilterProofs OrderProofs ComposeProofs
  NormData HangulProofs NormProofs NfcProofs NormForms EncodeProofs EncodeText NormUtf8 NormText StdSortModel StdSortProofs Properties_Normalize TextsProofs SubRange.
Require Import ZifyBool ZifyNat.

(** A text in memory: a string, or a view followed by anything. *)
Definition text_in_memory (ops : cp_ops) (b e : Z) (cs : list Z) : Prop :=
  (exists pos, string_in_memory ops b e cs pos) \/ (exists c pos, view_in_memory ops b e cs c pos).
Lemma memory_text ops b e cs : text_in_memory ops b e cs -> exists c pos inside, text_in ops b e cs c pos inside.
Proof.
  intros [(pos & H)|(c & pos & H)]; [destruct (string_text _ _ _ _ _ H) as (p & i & T & _)|destruct (view_text _ _ _ _ _ _ H) as (p & i & T & _)];
    exists (ltac:(first [exact c|exact 0])), p, i; exact T.
Qed.

(** ** C83.  Filtering the graphemes number [a] to [k] of a text through a normalization form
    does what normalizing these graphemes as a text of their own does (including failing to
    encode the output). *)
Theorem C83_normalizing_some_graphemes : forall F listed sort append ops b e cs gs a k ops' b' e' fuel out,
  form_of F listed -> std_sort_ok sort -> output_encoding append ->
  text_in_memory ops b e cs -> segments pairwise_boundary cs gs -> (a <= k <= length gs)%nat ->
  let t := concat (firstn (k - a) (skipn a gs)) in
  delimited_text ops' b' e' t -> count_fits listed t -> (2 * length cs < fuel)%nat ->
  exists from to, nth_grapheme fuel ops b e a = Ok from /\ nth_grapheme fuel ops b e k = Ok to /\
    filter_graphemes fuel ops (F sort append fuel ops) from to out
    = normalize fuel ops' (F sort append fuel ops') b' e' out.
Proof.
  intros F listed sort append ops b e cs gs a k ops' b' e' fuel out FO SO OE TM SG H t D CF Hf.
  apply seg_eq in SG. subst gs. destruct (form_data_of F listed FO) as (kd & full & FD).
  destruct (memory_text _ _ _ _ TM) as (c & pos & inside & T).
  destruct (final_nth ops b e cs c pos inside T fuel a ltac:(lia) ltac:(lia)) as (ga & Ea & Ga).
  destruct (final_nth ops b e cs c pos inside T fuel k ltac:(lia) ltac:(lia)) as (gk & Ek & Gk).
  destruct (sub_range ops b e cs c pos inside T fuel a k ga gk Hf H Ga Gk) as (ps & RG & F2).
  pose proof (run_split (seg cs) a k ltac:(lia)) as SP. pose proof (seg_run _ _ _ _ SP) as SR.
  assert (LT : (length t < fuel)%nat).
  { assert (LC : length cs = length (concat (seg cs))) by (rewrite seg_concat; reflexivity).
    rewrite SP, !concat_app, !app_length in LC. unfold t. lia. }
  exists ga, gk. split; [assumption|]. split; [assumption|].
  rewrite (run_any F listed kd full sort append ops' b' e' t fuel out FD SO OE D LT CF). unfold t in *. rewrite SR.
  refine (filter_run ops b e cs c pos inside T F listed kd full sort append fuel out ga gk ps _ _ _ FD SO OE _ SP _ RG F2); [lia|].
  destruct CF as (f & EX & LF). apply (proj1 (data_listed _ _ _ _ FD _ _)) in EX. subst f. unfold zlen, int_max. lia.
Qed.
Print Assumptions C83_normalizing_some_graphemes.
Example C83_example : (* graphemes 1 and 2 of a, e + acute, i + diaeresis, b; into form C *)
  let ops := utf32_ops [0x61; 0x65; 0x301; 0x69; 0x308; 0x62; 0] in
  (let* from := nth_grapheme 20 ops 0 6 1 in let* to := nth_grapheme 20 ops 0 6 3 in
   filter_graphemes 20 ops (normalization_form_c isort utf32_append_from_utf32ne 20 ops) from to [0x3E])
  = Ok (2, [0x3E; 0xE9; 0xEF]) /\
  seg [0x61; 0x65; 0x301; 0x69; 0x308; 0x62] = [[0x61]; [0x65; 0x301]; [0x69; 0x308]; [0x62]].
Proof. cbv zeta. split; vm_compute; reflexivity. Qed.

(** ** C84.  Normalizing any view.  False that the whole view is normalized: the view "e" of
    "e" U+0301 gives nothing. *)
Theorem C84_view_normalized_as_a_text_refuted : exists ops b e cs, text_in_memory ops b e cs /\ cs <> [] /\
  forall sort, std_sort_ok sort -> normalize 5 ops (normalization_form_d sort utf32_append_from_utf32ne 5 ops) b e [] = Ok (0, []).
Proof.
  exists (utf32_ops [0x65; 0x301]), 0, 1, [0x65]. split; [|split; [discriminate|]].
  - right. exists 0x301. eexists. exact (utf32_view [] [0x65] 0x301 []).
  - intros sort _. vm_compute. reflexivity.
Qed.
Print Assumptions C84_view_normalized_as_a_text_refuted.
(** What holds for every view: a number of its leading graphemes is normalized, as a text of
    their own; all of them exactly if the view ends at a grapheme boundary. *)
Theorem C84_normalizing_a_view_partial : forall F listed sort append ops b e cs c pos gs fuel,
  form_of F listed -> std_sort_ok sort -> output_encoding append ->
  view_in_memory ops b e cs c pos -> segments pairwise_boundary cs gs -> (2 * length cs < fuel)%nat ->
  exists gs' rest, gs = gs' ++ rest /\ (rest = [] <-> cs = [] \/ pairwise_boundary cs c) /\
    forall ops' b' e' out, delimited_text ops' b' e' (concat gs') -> count_fits listed (concat gs') ->
      normalize fuel ops (F sort append fuel ops) b e out
      = normalize fuel ops' (F sort append fuel ops') b' e' out.
Proof.
  intros F listed sort append ops b e cs c pos gs fuel FO SO OE V SG Hf.
  apply seg_eq in SG. subst gs. destruct (form_data_of F listed FO) as (kd & full & FD).
  destruct (view_text _ _ _ _ _ _ V) as (p & inside & T & _).
  destruct (view_range ops b e cs c p inside T fuel Hf) as (g0 & ge & K & ps & E0 & E1 & K1 & KI & RG & F2).
  exists (firstn K (seg cs)), (skipn K (seg cs)). split; [symmetry; apply firstn_skipn|]. split.
  { rewrite <- KI. split; [intros X|intros ->; apply skipn_all].
    apply (f_equal (@length (list Z))) in X. rewrite skipn_length in X. cbn in X. lia. }
  intros ops' b' e' out D CF.
  assert (SP : seg cs = [] ++ firstn K (seg cs) ++ skipn K (seg cs)) by (symmetry; apply firstn_skipn).
  pose proof (seg_run _ _ _ _ SP) as SR.
  assert (LT : (length (concat (firstn K (seg cs))) < fuel)%nat).
  { assert (LC : length cs = length (concat (seg cs))) by (rewrite seg_concat; reflexivity).
    rewrite SP, !concat_app, !app_length in LC. lia. }
  rewrite (run_any F listed kd full sort append ops' b' e' _ fuel out FD SO OE D LT CF). rewrite SR.
  unfold normalize. rewrite E0. cbn [bind]. rewrite E1. cbn [bind].
  refine (filter_run ops b e cs c p inside T F listed kd full sort append fuel out g0 ge ps _ _ _ FD SO OE _ SP _ RG F2); [lia|].
  destruct CF as (f & EX & LF). apply (proj1 (data_listed _ _ _ _ FD _ _)) in EX. subst f. unfold zlen, int_max. lia.
Qed.
Print Assumptions C84_normalizing_a_view_partial.
Example C84_example : (* the view "a e" of "a e acute b": only the a *)
  let ops := utf32_ops [0x61; 0x65; 0x301; 0x62; 0] in
  normalize 9 ops (normalization_form_c isort utf32_append_from_utf32ne 9 ops) 0 2 [] = Ok (1, [0x61]) /\
  normalize 9 ops (normalization_form_c isort utf32_append_from_utf32ne 9 ops) 0 3 [] = Ok (2, [0x61; 0xE9]).
Proof. cbv zeta. split; vm_compute; reflexivity. Qed.
