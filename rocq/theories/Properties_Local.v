(** * Property C106: which texts are normalized as the standard says, by looking at neighbours

    The exact conditions of C49-C57 speak of the decompositions of whole graphemes.  Here the
    same conditions are put in terms of two neighbouring codepoints.
    [expands] (UnicodeSpec.v): full expansion; [has_ccc], [has_gcb]: the UCD files. *)
From Verif Require Import Prelude DataTables PropsModel Utf8Model TextModel StdSortModel Utf8Spec UnicodeSpec GraphemeSpec TextSpec NormSpec
  PropsProofs DecompProofs GraphemeProofs Uax29Proofs GraphemeText OrderProofs NormProofs NormText HangulProofs LocalMarks Properties_Normalize Properties_Sort.
Require Import ZifyBool ZifyNat.

(** The expansion of [b] begins with a starter, it attaches to what stands before it, and
    the expansion of [a] ends with a mark. *)
Definition starter_attaches_to_mark (listed : Z -> list Z -> Prop) (a b : Z) : Prop :=
  (exists l m, expands listed a (l ++ [m]) /\ ~ has_ccc m 0) /\
  (exists s l, expands listed b (s :: l) /\ has_ccc s 0) /\
  (has_gcb b G_EXTEND \/ has_gcb b G_ZWJ \/ has_gcb b G_SPACINGMARK \/ (has_gcb a G_EXTEND /\ has_gcb b G_E_MODIFIER)).
Definition no_starter_attaches (listed : Z -> list Z -> Prop) (cs : list Z) : Prop :=
  forall x a b y, cs = x ++ a :: b :: y -> ~ starter_attaches_to_mark listed a b.

Lemma expands_unique listed full : (forall c, expands listed c (full c)) -> (forall c f, expands listed c f -> f = full c) ->
  (forall c, full c <> []) -> forall a b, starter_attaches_to_mark listed a b <->
    ccc (last (full a) 0) <> 0 /\ ccc (hd 0 (full b)) = 0 /\ attaches (gcb_of a) (gcb_of b) = true.
Proof.
  intros F U NE a b. unfold starter_attaches_to_mark. split.
  - intros ((l & m & E & M) & (s & l' & E' & S) & A). apply U in E, E'. rewrite <- E, <- E', last_last. cbn [hd]. rewrite has_ccc_eq in M, S.
    split; [assumption|]. split; [assumption|]. rewrite <- !gcb_spec in A. unfold attaches. destruct A as [A|[A|[A|(A & B)]]]; rewrite ?A, ?B; reflexivity.
  - intros (M & S & A). split; [|split].
    + destruct (exists_last (NE a)) as (l & m & E). exists l, m. split; [rewrite <- E; apply F|]. rewrite E, last_last in M. rewrite has_ccc_eq. assumption.
    + destruct (full b) as [|s l] eqn:E; [destruct (NE b E)|]. exists s, l. split; [rewrite <- E; apply F|]. apply has_ccc_eq. assumption.
    + rewrite <- !gcb_spec. unfold attaches in A. destruct (gcb_of b); try discriminate; auto.
      right. right. right. split; [|reflexivity]. destruct (gcb_of a); try discriminate. reflexivity.
Qed.
Theorem C106_marks_last_locally : forall listed cs gs, listed = listed_canonical \/ listed = listed_compat ->
  segments pairwise_boundary cs gs -> (graphemes_marks_last listed gs <-> no_starter_attaches listed cs).
Proof.
  intros listed cs gs L S. apply seg_eq in S. subst gs. unfold no_starter_attaches. destruct L as [-> | ->].
  - rewrite (marks_last_listed _ _ _ canonical_listed).
    rewrite (local_marks_classes full_canonical cs full_canonical_ne canonical_sf (fun c => table_marked _ _ c canonical_table canonical_rows_marked)).
    split; intros H x a b y E.
    + rewrite (expands_unique _ _ full_canonical_expands full_canonical_unique full_canonical_ne). intros (A & B & C). rewrite (H x a b y E A B) in C. discriminate.
    + intros A B. specialize (H x a b y E). rewrite (expands_unique _ _ full_canonical_expands full_canonical_unique full_canonical_ne) in H.
      destruct (attaches _ _); [|reflexivity]. destruct H. auto.
  - rewrite (marks_last_listed _ _ _ compat_listed).
    rewrite (local_marks_classes full_compat cs full_compat_ne compat_sf (fun c => table_marked _ _ c compat_table compat_rows_marked)).
    split; intros H x a b y E.
    + rewrite (expands_unique _ _ full_compat_expands full_compat_unique full_compat_ne). intros (A & B & C). rewrite (H x a b y E A B) in C. discriminate.
    + intros A B. specialize (H x a b y E). rewrite (expands_unique _ _ full_compat_expands full_compat_unique full_compat_ne) in H.
      destruct (attaches _ _); [|reflexivity]. destruct H. auto.
Qed.
Print Assumptions C106_marks_last_locally.

(** ** With the sort of libstdc++ (StdSortModel.v), no grapheme decomposing to more than 16 codepoints *)
Definition short_graphemes (listed : Z -> list Z -> Prop) (cs : list Z) : Prop :=
  forall gs g f, segments pairwise_boundary cs gs -> In g gs -> expands_all listed g f -> (length f <= 16)%nat.
Lemma short_ties listed cs : short_graphemes listed cs -> exists gs, segments pairwise_boundary cs gs /\ ties_kept gnu_sort listed gs.
Proof.
  intros H. exists (seg cs). assert (S : segments pairwise_boundary cs (seg cs)) by apply seg_segments. split; [assumption|].
  apply C59_short_graphemes. intros g f. apply H. assumption.
Qed.
Local Notation D := normalization_form_d.  Local Notation KD := normalization_form_kd.
Local Notation C := normalization_form_c.  Local Notation KC := normalization_form_kc.

(** Form D writes the NFD of the text exactly if the text has no Hangul syllable and no starter
    that attaches to a mark before it. *)
Theorem C106_form_d_is_nfd_iff : forall ops b e cs fuel out,
  delimited_text ops b e cs -> (length cs < fuel)%nat -> count_fits listed_canonical cs -> short_graphemes listed_canonical cs ->
  exists n d, normalize fuel ops (D gnu_sort utf32_append_from_utf32ne fuel ops) b e out = Ok (n, out ++ d) /\
    (nfd cs d <-> (forall s, In s cs -> ~ hangul_syllable s) /\ no_starter_attaches listed_canonical cs).
Proof.
  intros ops b e cs fuel out T Hf CF SH. destruct (short_ties _ _ SH) as (gs & S & K).
  destruct (C49_form_d_is_nfd_iff_partial gnu_sort ops b e cs gs fuel out C58_an_allowed_sort T Hf CF S) as (n & d & R & Q).
  exists n, d. split; [exact R|]. rewrite Q, <- (C106_marks_last_locally listed_canonical cs gs (or_introl eq_refl) S). tauto.
Qed.
Print Assumptions C106_form_d_is_nfd_iff.
Theorem C106_form_kd_is_nfkd_iff : forall ops b e cs fuel out,
  delimited_text ops b e cs -> (length cs < fuel)%nat -> count_fits listed_compat cs -> short_graphemes listed_compat cs ->
  exists n d, normalize fuel ops (KD gnu_sort utf32_append_from_utf32ne fuel ops) b e out = Ok (n, out ++ d) /\
    (nfkd cs d <-> (forall f x m, expands_all listed_compat cs f -> In x f -> ~ compatibility_mapping x m) /\ no_starter_attaches listed_compat cs).
Proof.
  intros ops b e cs fuel out T Hf CF SH. destruct (short_ties _ _ SH) as (gs & S & K).
  destruct (C55_form_kd_is_nfkd_iff_partial gnu_sort ops b e cs gs fuel out C58_an_allowed_sort T Hf CF S) as (n & d & R & Q).
  exists n, d. split; [exact R|]. rewrite Q, <- (C106_marks_last_locally listed_compat cs gs (or_intror eq_refl) S). tauto.
Qed.
Print Assumptions C106_form_kd_is_nfkd_iff.
Theorem C106_form_c_is_nfc_iff : forall ops b e cs fuel out,
  delimited_text ops b e cs -> (length cs < fuel)%nat -> count_fits listed_canonical cs -> short_graphemes listed_canonical cs ->
  exists n u, normalize fuel ops (C gnu_sort utf32_append_from_utf32ne fuel ops) b e out = Ok (n, out ++ u) /\
    (nfc cs u <-> no_starter_attaches listed_canonical cs /\ fully_composed u).
Proof.
  intros ops b e cs fuel out T Hf CF SH. destruct (short_ties _ _ SH) as (gs & S & K).
  destruct (C50_form_c_is_nfc_iff_partial gnu_sort ops b e cs gs fuel out C58_an_allowed_sort T Hf CF S K) as (n & d & R & Q).
  exists n, d. split; [exact R|]. rewrite Q, <- (C106_marks_last_locally listed_canonical cs gs (or_introl eq_refl) S). tauto.
Qed.
Print Assumptions C106_form_c_is_nfc_iff.
Theorem C106_form_kc_is_nfkc_iff : forall ops b e cs fuel out,
  delimited_text ops b e cs -> (length cs < fuel)%nat -> count_fits listed_compat cs -> short_graphemes listed_compat cs ->
  exists n u, normalize fuel ops (KC gnu_sort utf32_append_from_utf32ne fuel ops) b e out = Ok (n, out ++ u) /\
    (nfkc cs u <-> (forall f x m, expands_all listed_compat cs f -> In x f -> compatibility_mapping x m -> hangul_syllable x) /\
                   no_starter_attaches listed_compat cs /\ fully_composed u).
Proof.
  intros ops b e cs fuel out T Hf CF SH. destruct (short_ties _ _ SH) as (gs & S & K).
  destruct (C56_form_kc_is_nfkc_iff_partial gnu_sort ops b e cs gs fuel out C58_an_allowed_sort T Hf CF S K) as (n & d & R & Q).
  exists n, d. split; [exact R|]. rewrite Q, <- (C106_marks_last_locally listed_compat cs gs (or_intror eq_refl) S). tauto.
Qed.
Print Assumptions C106_form_kc_is_nfkc_iff.

(** Forms D and C keep the text canonically equivalent exactly under the same condition. *)
Theorem C106_equivalent_iff : forall ops b e cs fuel out,
  delimited_text ops b e cs -> (length cs < fuel)%nat -> count_fits listed_canonical cs -> short_graphemes listed_canonical cs ->
  exists n d m u,
    normalize fuel ops (D gnu_sort utf32_append_from_utf32ne fuel ops) b e out = Ok (n, out ++ d) /\
    normalize fuel ops (C gnu_sort utf32_append_from_utf32ne fuel ops) b e out = Ok (m, out ++ u) /\
    (canonically_equivalent cs d <-> no_starter_attaches listed_canonical cs) /\
    (canonically_equivalent cs u <-> no_starter_attaches listed_canonical cs).
Proof.
  intros ops b e cs fuel out T Hf CF SH. destruct (short_ties _ _ SH) as (gs & S & K).
  destruct (C57_equivalent_to_the_input_iff_partial gnu_sort ops b e cs gs fuel out C58_an_allowed_sort T Hf CF S K) as (n & d & m & u & R1 & R2 & Q1 & Q2 & _).
  exists n, d, m, u. rewrite <- (C106_marks_last_locally listed_canonical cs gs (or_introl eq_refl) S). auto.
Qed.
Print Assumptions C106_equivalent_iff.

(** A second pass changes nothing exactly if no starter attaches to a mark in the output of the first. *)
Theorem C106_idempotent_iff : forall F listed ops b e cs fuel n u fuel', form_of F listed ->
  delimited_text ops b e cs -> (length cs < fuel)%nat -> count_fits listed cs -> short_graphemes listed cs ->
  normalize fuel ops (F gnu_sort utf32_append_from_utf32ne fuel ops) b e [] = Ok (n, u) ->
  short_graphemes listed u -> (length u < fuel')%nat ->
  exists n' u',
    normalize fuel' (utf32_ops (string_buffer u)) (F gnu_sort utf32_append_from_utf32ne fuel' (utf32_ops (string_buffer u))) 0 (zlen u) []
    = Ok (n', u') /\ (u' = u <-> no_starter_attaches listed u).
Proof.
  intros F listed ops b e cs fuel n u fuel' FO T Hf CF SH R SH' Hf'.
  destruct (short_ties _ _ SH) as (gs & S & K). destruct (short_ties _ _ SH') as (gs' & S' & K').
  destruct (C51_idempotent_iff_partial F listed gnu_sort ops b e cs gs fuel n u gs' fuel' FO C58_an_allowed_sort T Hf CF S K R S' K' Hf') as (n' & u' & R' & Q).
  exists n', u'. split; [exact R'|]. rewrite Q. apply C106_marks_last_locally; [|assumption]. destruct FO; auto.
Qed.
Print Assumptions C106_idempotent_iff.

(** The condition on the input does not carry over to the output: a, U+0301, U+1D166, U+1F3FB
    meets it, form D writes its NFD, and form D of that NFD is another text. *)
Definition carried : list Z := [0x61; 0x301; 0x1D166; 0x1F3FB].
Definition nfd_of_carried : list Z := [0x61; 0x1D166; 0x301; 0x1F3FB].
Theorem C106_nfd_text_changed : 
  no_starter_attaches listed_canonical carried /\ nfd carried nfd_of_carried /\ nfd nfd_of_carried nfd_of_carried /\
  normalize 5 (utf32_ops (carried ++ [0])) (D gnu_sort utf32_append_from_utf32ne 5 (utf32_ops (carried ++ [0]))) 0 4 [] = Ok (4, nfd_of_carried) /\
  normalize 5 (utf32_ops (nfd_of_carried ++ [0])) (D gnu_sort utf32_append_from_utf32ne 5 (utf32_ops (nfd_of_carried ++ [0]))) 0 4 []
  = Ok (4, [0x61; 0x1F3FB; 0x1D166; 0x301]).
Proof.
  split.
  - intros x a b y E. rewrite (expands_unique _ _ full_canonical_expands full_canonical_unique full_canonical_ne). intros (A & B & Q).
    unfold carried in E. destruct x as [|x1 [|x2 [|x3 [|x4 [|x5 x]]]]]; cbn [app] in E; try discriminate; injection E; intros; subst;
      first [apply A; vm_compute; reflexivity | vm_compute in B; discriminate B | vm_compute in Q; discriminate Q].
  - split; [apply nfd_eq; vm_compute; reflexivity|]. split; [apply nfd_eq; vm_compute; reflexivity|]. split; vm_compute; reflexivity.
Qed.
Print Assumptions C106_nfd_text_changed.

(** Both outcomes of the condition occur: a, U+0301, U+0316 meets it; a, U+0301, U+200D does not. *)
Example C106_example : no_starter_attaches listed_canonical [0x61; 0x301; 0x316; 0x62] /\ ~ no_starter_attaches listed_canonical [0x61; 0x301; 0x200D] /\
  short_graphemes listed_canonical [0x61; 0x301; 0x316; 0x62].
Proof.
  split; [|split].
  - intros x a b y E. rewrite (expands_unique _ _ full_canonical_expands full_canonical_unique full_canonical_ne). intros (A & B & Q).
    destruct x as [|x1 [|x2 [|x3 [|x4 [|x5 x]]]]]; cbn [app] in E; try discriminate; injection E; intros; subst;
      first [apply A; vm_compute; reflexivity | vm_compute in B; discriminate B | vm_compute in Q; discriminate Q].
  - intros H. apply (H [0x61] 0x301 0x200D [] eq_refl). apply (expands_unique _ _ full_canonical_expands full_canonical_unique full_canonical_ne).
    split; [vm_compute; discriminate|]. split; vm_compute; reflexivity.
  - intros gs g f S I X. apply seg_eq in S. subst gs. destruct (canonical_listed g f) as (X1 & _). specialize (X1 X). subst f.
    vm_compute in I. destruct I as [<-|[<-|[]]]; vm_compute; lia.
Qed.
