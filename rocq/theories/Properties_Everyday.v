(** * Properties C109, C110: texts in which no two marks follow each other, and texts of low codepoints

    The conditions here are on the input only.  [expands_all] (UnicodeSpec.v): full expansion;
    [nfc], [nfkc], [nfd], [nfkd] (NormSpec.v): the forms of the standard;
    [no_starter_attaches] (Properties_Local.v): a condition on neighbours in the text;
    [ties_kept] (NormSpec.v): the sort keeps the order of equal classes (C59: libstdc++'s does
    in graphemes that expand to at most 16 codepoints). *)
From Coq Require Import Permutation Sorted Relations.
From Verif Require Import Prelude DataTables UcdTables PropsModel Utf8Model TextModel StdSortModel Utf8Spec UnicodeSpec GraphemeSpec TextSpec NormSpec
  PropsProofs DecompTables DecompProofs GraphemeProofs Uax29Proofs GraphemeText OrderProofs ComposeProofs NormData NormProofs HangulProofs NfcProofs NormText
  TextsProofs EquivProofs LocalMarks SingleMarks FormsProofs NormForms Properties_Normalize Properties_Sort Properties_Texts Properties_Forms Properties_Local.
Require Import ZifyBool ZifyNat.

(** Of two neighbours one is a starter. *)
Definition single_marks (f : list Z) : Prop := forall x a b y, f = x ++ a :: b :: y -> has_ccc a 0 \/ has_ccc b 0.
(** No two neighbours are the parts of a Hangul syllable. *)
Definition no_syllable_parts (f : list Z) : Prop := forall x a b y s, f = x ++ a :: b :: y -> ~ hangul_mapping s [a; b].

Lemma single_adj f : single_marks f -> adj lone_pair f.
Proof. intros H. apply adj_iff. intros x a b y E. destruct (H x a b y E) as [Q|Q]; apply has_ccc_eq in Q; [left|right]; assumption. Qed.
Lemma parts_adj f : no_syllable_parts f -> adj unjoined_pair f.
Proof. intros H. apply adj_iff. intros x a b y E s. exact (H x a b y s E). Qed.
Lemma single_form_c listed full cs : (forall cs f, expands_all listed cs f <-> f = flat_map full cs) ->
  form_c_of full cs = compose (form_d_of full cs) ->
  form_d_of full cs = corder (flat_map full cs) ->
  forall f, expands_all listed cs f -> single_marks f -> no_syllable_parts f -> form_d_of full cs = f /\ fully_composed (form_c_of full cs).
Proof.
  intros L C D f E S U. apply L in E. subst f. apply single_adj in S. apply parts_adj in U.
  rewrite (corder_id _ (lone_ordered _ S)) in D. split; [exact D|]. rewrite C, D. apply lone_fully_composed; assumption.
Qed.

(** ** C109.  Form D writes the expansion as it is, form C the NFC of the text. *)
Theorem C109_single_marks_canonical : forall sort ops b e cs gs f fuel out,
  std_sort_ok sort -> delimited_text ops b e cs -> (length cs < fuel)%nat ->
  segments pairwise_boundary cs gs -> ties_kept sort listed_canonical gs ->
  expands_all listed_canonical cs f -> zlen f <= 2 ^ 31 - 1 ->
  no_starter_attaches listed_canonical cs -> single_marks f -> no_syllable_parts f ->
  normalize fuel ops (normalization_form_d sort utf32_append_from_utf32ne fuel ops) b e out = Ok (zlen f, out ++ f) /\
  exists u, normalize fuel ops (normalization_form_c sort utf32_append_from_utf32ne fuel ops) b e out = Ok (zlen u, out ++ u) /\ nfc cs u.
Proof.
  intros sort ops b e cs gs f fuel out SO T Hf S K E N A SM NP.
  assert (CF : count_fits listed_canonical cs) by (exists f; split; assumption).
  apply (C106_marks_last_locally listed_canonical cs gs (or_introl eq_refl) S) in A. apply seg_eq in S. subst gs.
  pose proof (proj2 (data_ordered _ _ _ _ fd_c cs) A) as D.
  pose proof (form_c_eq _ full_canonical_ne canonical_head canonical_control cs) as C.
  destruct (single_form_c _ _ cs canonical_listed C D f E SM NP) as (D' & FC). split.
  - rewrite (run_any32 _ _ _ _ sort ops b e cs fuel out fd_d SO T Hf CF), (normalized_eq _ _ _ _ sort cs fd_d SO K), D'. reflexivity.
  - exists (form_c_of full_canonical cs). split.
    + rewrite (run_any32 _ _ _ _ sort ops b e cs fuel out fd_c SO T Hf CF), (normalized_eq _ _ _ _ sort cs fd_c SO K). reflexivity.
    + apply canonical_c_standard. split; [|exact FC]. apply (marks_last_listed _ _ _ canonical_listed). exact A.
Qed.
Print Assumptions C109_single_marks_canonical.
(** Forms KD and KC the same with the mappings they use, provided that these leave nothing to map. *)
Theorem C109_single_marks_compatibility : forall sort ops b e cs gs f fuel out,
  std_sort_ok sort -> delimited_text ops b e cs -> (length cs < fuel)%nat ->
  segments pairwise_boundary cs gs -> ties_kept sort listed_compat gs ->
  expands_all listed_compat cs f -> zlen f <= 2 ^ 31 - 1 ->
  no_starter_attaches listed_compat cs -> single_marks f -> no_syllable_parts f ->
  normalize fuel ops (normalization_form_kd sort utf32_append_from_utf32ne fuel ops) b e out = Ok (zlen f, out ++ f) /\
  exists u, normalize fuel ops (normalization_form_kc sort utf32_append_from_utf32ne fuel ops) b e out = Ok (zlen u, out ++ u) /\
    (nfkc cs u <-> forall x m, In x f -> compatibility_mapping x m -> hangul_syllable x).
Proof.
  intros sort ops b e cs gs f fuel out SO T Hf S K E N A SM NP.
  assert (CF : count_fits listed_compat cs) by (exists f; split; assumption).
  apply (C106_marks_last_locally listed_compat cs gs (or_intror eq_refl) S) in A. apply seg_eq in S. subst gs.
  pose proof (proj2 (data_ordered _ _ _ _ fd_kc cs) A) as D.
  pose proof (form_c_eq _ full_compat_ne compat_head compat_control cs) as C.
  destruct (single_form_c _ _ cs compat_listed C D f E SM NP) as (D' & FC). split.
  - rewrite (run_any32 _ _ _ _ sort ops b e cs fuel out fd_kd SO T Hf CF), (normalized_eq _ _ _ _ sort cs fd_kd SO K), D'. reflexivity.
  - exists (form_c_of full_compat cs). split.
    + rewrite (run_any32 _ _ _ _ sort ops b e cs fuel out fd_kc SO T Hf CF), (normalized_eq _ _ _ _ sort cs fd_kc SO K). reflexivity.
    + rewrite compat_c_standard. rewrite (proj1 (compat_listed cs f) E). split.
      * intros (X & _) x m I M. destruct (is_syllable x) eqn:Y; [apply is_syllable_spec; assumption|].
        exfalso. apply (X x m I); [|assumption]. intros Z. apply is_syllable_spec in Z. congruence.
      * intros X. split; [intros x m I NS M; exact (NS (X x m I M))|]. split; [|exact FC]. apply (marks_last_listed _ _ _ compat_listed). exact A.
Qed.
Print Assumptions C109_single_marks_compatibility.
(** The condition cannot be dropped: U+0316 U+0301 after a letter (C50). *)
Theorem C109_two_marks : forall n u,
  normalize 4 (utf32_ops [0x61; 0x316; 0x301; 0]) (normalization_form_c gnu_sort utf32_append_from_utf32ne 4 (utf32_ops [0x61; 0x316; 0x301; 0])) 0 3 []
  = Ok (n, u) -> ~ nfc [0x61; 0x316; 0x301] u.
Proof.
  intros n u H. assert (E : Ok (3, [0x61; 0x316; 0x301]) = Ok (n, u)) by (rewrite <- H; vm_compute; reflexivity). injection E as <- <-.
  exact (proj2 (proj2 (proj1 C50_form_c_is_nfc_refuted))).
Qed.
Print Assumptions C109_two_marks.
(** e with acute, then o, diaeresis, then the syllable GA, then the ligature fi. *)
Example C109_example : let t := [0xE9; 0x6F; 0x308; 0xAC00; 0xFB01] in let f := [0x65; 0x301; 0x6F; 0x308; 0xAC00; 0xFB01] in
  expands_all listed_canonical t f /\ single_marks f /\ no_syllable_parts f /\ no_starter_attaches listed_canonical t /\
  ties_kept gnu_sort listed_canonical (seg t) /\
  normalize 6 (utf32_ops (t ++ [0])) (normalization_form_c gnu_sort utf32_append_from_utf32ne 6 (utf32_ops (t ++ [0]))) 0 5 []
  = Ok (4, [0xE9; 0xF6; 0xAC00; 0xFB01]).
Proof.
  cbv zeta. split; [apply canonical_listed; vm_compute; reflexivity|]. split; [|split; [|split; [|split]]].
  - intros x a b y E. rewrite !has_ccc_eq.
    destruct x as [|x1 [|x2 [|x3 [|x4 [|x5 [|x6 [|x7 x]]]]]]]; cbn [app] in E; try discriminate; injection E; intros; subst; first [left; vm_compute; reflexivity|right; vm_compute; reflexivity].
  - intros x a b y s E H. apply hangul_pair in H. destruct H as (A & B & _).
    destruct x as [|x1 [|x2 [|x3 [|x4 [|x5 [|x6 [|x7 x]]]]]]]; cbn [app] in E; try discriminate; injection E; intros; subst; try discriminate A; discriminate B.
  - intros x a b y E. rewrite (expands_unique _ _ full_canonical_expands full_canonical_unique full_canonical_ne). intros (A & B & Q).
    destruct x as [|x1 [|x2 [|x3 [|x4 [|x5 [|x6 x]]]]]]; cbn [app] in E; try discriminate; injection E; intros; subst;
      first [apply A; vm_compute; reflexivity | vm_compute in B; discriminate B | vm_compute in Q; discriminate Q].
  - apply C59_short_graphemes. intros g f I X. apply canonical_listed in X. subst f.
    vm_compute in I. destruct I as [<-|[<-|[<-|[<-|[]]]]]; vm_compute; lia.
  - vm_compute. reflexivity.
Qed.

(** ** C110.  Texts of low codepoints are normalized already and pass unchanged: form C below
    U+0300 (ASCII, Latin-1, Latin Extended-A and -B, IPA), form D below U+00C0, forms KC and KD
    below U+00A0.  [append]: UTF-8 or UTF-32 output. *)
Lemma low_norm k full cs : (forall c, low 0x300 c -> In c cs -> norm_grapheme k full gnu_sort [c] = [c]) ->
  norm_grapheme k full gnu_sort [13; 10] = [13; 10] -> Forall (low 0x300) cs -> flat_map (norm_grapheme k full gnu_sort) (seg cs) = cs.
Proof.
  intros A B F. apply seg_fixed. intros g I. destruct (low_seg cs g F I) as [(c & J & ->)| ->]; [|exact B].
  apply A; [|exact J]. rewrite Forall_forall in F. exact (F c J).
Qed.
Lemma gnu_isort l : (length l <= 16)%nat -> gnu_sort l = isort l.
Proof.
  intros H. assert (K : order_kept l (gnu_sort l)).
  { destruct (C59_short_strings l H) as (l' & S & K). unfold gnu_sort. rewrite S. exact K. }
  apply sorted_class_unique; [apply (proj1 (std_sort_classes gnu_sort) C58_an_allowed_sort)|apply isort_sorted|].
  intros k. rewrite isort_class. apply order_kept_eq. exact K.
Qed.
Lemma gnu_self (full : Z -> list Z) c : full c = [c] -> gnu_sort (flat_map full [c]) = [c].
Proof. intros H. cbn [flat_map]. rewrite H. cbn [app]. rewrite gnu_isort by (cbn; lia). reflexivity. Qed.
Lemma low_up n cs : n <= 0x300 -> Forall (low n) cs -> Forall (low 0x300) cs.
Proof. intros L. apply Forall_impl. intros c. apply low_mono. exact L. Qed.
Lemma self_expands (full : Z -> list Z) cs : (forall c, In c cs -> full c = [c]) -> flat_map full cs = cs.
Proof. apply flat_map_id. Qed.
Lemma starters_order cs : Forall (low 0x300) cs -> canonical_order cs cs.
Proof.
  intros F. apply canonical_order_eq. symmetry. apply corder_id, lone_ordered, adj_iff. intros x a b y ->. left. apply low_ccc.
  apply Forall_app in F. destruct F as (_ & F). inversion F; assumption.
Qed.
Lemma low_compose cs : Forall (low 0x300) cs -> compose_text cs cs.
Proof.
  intros F. destruct cs as [|a t]; [constructor|]. inversion F as [|? ? A T]; subst. apply ct_starter; [apply has_ccc_eq, low_ccc; assumption|].
  clear F A. revert a. induction T as [|b t B T IH]; intros a; [constructor|].
  change (a :: b :: t) with (a :: [] ++ (b :: t)). apply cf_starter; [|apply has_ccc_eq, low_ccc; assumption|apply IH].
  right. intros d C. apply composes_cases in C. destruct C as [C|(_ & C & _)]; [rewrite low_not_second in C by assumption; discriminate|].
  rewrite low_hangulish in C by assumption. discriminate.
Qed.
Lemma low_expands_all M n cs : (forall c m, low n c -> ~ M c m) -> Forall (low n) cs -> expands_all M cs cs.
Proof.
  intros H. induction 1 as [|c t C T IH]; [constructor|]. apply (expands_cons M c t [c] t); [|assumption]. apply expands_none. intros m. apply H. assumption.
Qed.

Theorem C110_form_c_below_300 : forall append ops b e cs fuel out,
  output_encoding append -> delimited_text ops b e cs -> (length cs < fuel)%nat -> count_fits listed_canonical cs ->
  Forall (fun c => 0 <= c < 0x300) cs ->
  normalize fuel ops (normalization_form_c gnu_sort append fuel ops) b e out = (let* o := append out cs in Ok (zlen cs, o)) /\ nfc cs cs.
Proof.
  intros append ops b e cs fuel out OE T Hf CF F.
  assert (E : forall g, In g (seg cs) -> norm_grapheme true full_canonical gnu_sort g = compose (isort (flat_map full_canonical g))).
  { intros g I. unfold norm_grapheme. rewrite gnu_isort; [reflexivity|]. destruct (low_seg cs g F I) as [(c & J & ->)| ->]; [|vm_compute; lia].
    cbn [flat_map]. rewrite app_nil_r. destruct (wide c) as [W|[(x1 & x2 & x3 & W & _)|(W & _)]]; [apply (Nat.le_trans _ 2 _ W)|rewrite W; cbn [length]|rewrite W]; repeat constructor. }
  assert (R : flat_map (norm_grapheme true full_canonical gnu_sort) (seg cs) = cs).
  { apply seg_fixed. intros g I. rewrite (E g I). destruct (low_seg cs g F I) as [(c & J & ->)| ->]; [|vm_compute; reflexivity].
    cbn [flat_map]. rewrite app_nil_r. apply low_one. rewrite Forall_forall in F. exact (F c J). }
  split; [rewrite (run_any _ _ _ _ gnu_sort append ops b e cs fuel out fd_c C58_an_allowed_sort OE T Hf CF), R; reflexivity|].
  assert (Q : form_c_of full_canonical cs = cs).
  { rewrite <- R at 2. unfold form_c_of, pieces. rewrite flat_map_concat_map, !map_map. f_equal. apply map_ext_in. intros g I. symmetry. exact (E g I). }
  pose proof (canonical_c_standard cs) as H. rewrite Q in H. apply H. split; [|apply low_fully_composed; assumption].
  intros g I. apply marks_last_iff. destruct (low_seg cs g F I) as [(c & J & ->)| ->].
  - cbn [flat_map]. rewrite app_nil_r. apply canonical_sf.
  - intros x a y d z X. vm_compute in X. destruct x as [|x1 [|x2 [|]]]; cbn [app] in X; try discriminate; injection X; intros; subst; try (destruct y; discriminate).
    exfalso. match goal with Y : ccc 13 <> 0 |- _ => apply Y; vm_compute; reflexivity end.
Qed.
Print Assumptions C110_form_c_below_300.

Lemma low_run F listed k full n append ops b e cs fuel out : form_data F listed k full ->
  n <= 0x300 -> (forall c, low n c -> full c = [c]) -> norm_grapheme k full gnu_sort [13; 10] = [13; 10] ->
  output_encoding append -> delimited_text ops b e cs -> (length cs < fuel)%nat -> zlen cs <= 2 ^ 31 - 1 -> Forall (low n) cs ->
  normalize fuel ops (F gnu_sort append fuel ops) b e out = (let* o := append out cs in Ok (zlen cs, o)).
Proof.
  intros FD N S B OE T Hf L Q.
  assert (SE : flat_map full cs = cs).
  { apply self_expands. intros c I. apply S. rewrite Forall_forall in Q. exact (Q c I). }
  assert (CF : count_fits listed cs) by (exists cs; split; [apply (data_listed _ _ _ _ FD); symmetry; exact SE|exact L]).
  rewrite (run_any F listed k full gnu_sort append ops b e cs fuel out FD C58_an_allowed_sort OE T Hf CF).
  rewrite (low_norm k full cs); [reflexivity| |exact B|exact (low_up n cs N Q)].
  intros c _ I. rewrite Forall_forall in Q. specialize (Q c I). unfold norm_grapheme. rewrite (gnu_self full c (S c Q)). destruct k; reflexivity.
Qed.
Theorem C110_form_d_below_C0 : forall append ops b e cs fuel out,
  output_encoding append -> delimited_text ops b e cs -> (length cs < fuel)%nat -> zlen cs <= 2 ^ 31 - 1 ->
  Forall (fun c => 0 <= c < 0xC0) cs ->
  normalize fuel ops (normalization_form_d gnu_sort append fuel ops) b e out = (let* o := append out cs in Ok (zlen cs, o)) /\ nfd cs cs.
Proof.
  intros append ops b e cs fuel out OE T Hf L Q. split.
  - refine (low_run _ _ _ _ 0xC0 append ops b e cs fuel out fd_d _ low_canonical _ OE T Hf L Q); [lia|vm_compute; reflexivity].
  - exists cs. split; [|apply starters_order; exact (low_up 0xC0 cs ltac:(lia) Q)].
    refine (low_expands_all _ 0xC0 cs _ Q). intros c m LC [M|(H & _)].
    + pose proof (low_canonical c LC) as E. pose proof (full_canonical_expands c) as X. rewrite E in X.
      assert (Z : In (c, Canonical, m) ucd_decomposition) by exact M.
      assert (R : forallb (fun r => match r with (c, Canonical, _) => 0xC0 <=? c | _ => true end) ucd_decomposition = true) by (vm_cast_no_check (eq_refl true)).
      rewrite forallb_forall in R. specialize (R _ Z). cbv beta iota in R. apply Z.leb_le in R. destruct LC as (_ & LC).
      apply (Z.lt_irrefl c). eapply Z.lt_le_trans; eassumption.
    + unfold hangul_syllable, low, SBase in *. lia.
Qed.
Print Assumptions C110_form_d_below_C0.
Theorem C110_compatibility_forms_below_A0 : forall append ops b e cs fuel out,
  output_encoding append -> delimited_text ops b e cs -> (length cs < fuel)%nat -> zlen cs <= 2 ^ 31 - 1 ->
  Forall (fun c => 0 <= c < 0xA0) cs ->
  normalize fuel ops (normalization_form_kd gnu_sort append fuel ops) b e out = (let* o := append out cs in Ok (zlen cs, o)) /\ nfkd cs cs /\
  normalize fuel ops (normalization_form_kc gnu_sort append fuel ops) b e out = (let* o := append out cs in Ok (zlen cs, o)) /\ nfkc cs cs.
Proof.
  intros append ops b e cs fuel out OE T Hf L Q. assert (U : Forall (low 0x300) cs) by exact (low_up 0xA0 cs ltac:(lia) Q).
  assert (N : nfkd cs cs).
  { exists cs. split; [|apply starters_order; exact U]. refine (low_expands_all _ 0xA0 cs _ Q). intros c m. apply low_unmapped. }
  split; [|split; [exact N|split]].
  - refine (low_run _ _ _ _ 0xA0 append ops b e cs fuel out fd_kd _ low_compat _ OE T Hf L Q); [lia|vm_compute; reflexivity].
  - refine (low_run _ _ _ _ 0xA0 append ops b e cs fuel out fd_kc _ low_compat _ OE T Hf L Q); [lia|vm_compute; reflexivity].
  - exists cs. split; [exact N|apply low_compose; exact U].
Qed.
Print Assumptions C110_compatibility_forms_below_A0.
(** The bounds cannot be moved: U+0300 after a letter in form C, U+00C0 in form D, U+00A0 in forms KC and KD. *)
Theorem C110_bounds :
  normalize 3 (utf32_ops [0x61; 0x300; 0]) (normalization_form_c gnu_sort utf32_append_from_utf32ne 3 (utf32_ops [0x61; 0x300; 0])) 0 2 [] = Ok (1, [0xE0]) /\
  normalize 2 (utf32_ops [0xC0; 0]) (normalization_form_d gnu_sort utf32_append_from_utf32ne 2 (utf32_ops [0xC0; 0])) 0 1 [] = Ok (2, [0x41; 0x300]) /\
  ~ nfkd [0xA0] [0xA0] /\ ~ nfkc [0xA0] [0xA0].
Proof.
  split; [vm_compute; reflexivity|]. split; [vm_compute; reflexivity|].
  assert (M : compatibility_mapping 0xA0 [0x20]).
  { left. exists (match find (fun r => fst (fst r) =? 0xA0) ucd_decomposition with Some r => snd (fst r) | None => Canonical end).
    destruct (find (fun r => fst (fst r) =? 0xA0) ucd_decomposition) as [r|] eqn:F; [|vm_compute in F; discriminate].
    pose proof (proj1 (find_some _ _ F)) as I. assert (E : Some r = Some (0xA0, snd (fst r), [0x20])).
    { rewrite <- F. vm_compute in F. injection F as <-. vm_compute. reflexivity. }
    injection E as E. rewrite <- E. exact I. }
  assert (N : ~ nfkd [0xA0] [0xA0]).
  { intros (f & E & O). assert (P : Permutation f [0xA0]) by (apply canonical_order_eq in O; rewrite O; apply corder_perm).
    refine (proj2 (expands_unmapped compatibility_mapping) _ f E 0xA0 [0x20] _ M).
    eapply Permutation_in; [symmetry; exact P|]. left. reflexivity. }
  split; [exact N|]. intros (d & D & C). apply N.
  assert (X : flat_map full_standard d = d) by exact (nf_standard_id compatibility_mapping compatibility_of_canonical [0xA0] d D).
  assert (Y : corder d = d) by exact (nf_order_id compatibility_mapping [0xA0] d D).
  pose proof (algorithm_text_equivalent _ _ C) as Z. rewrite X, Y in Z. rewrite <- Z in D. vm_compute in D. exact D.
Qed.
Print Assumptions C110_bounds.
(** "Caf\u00e9" CR LF in form C to UTF-8, "ab" CR LF in form KD. *)
Example C110_example :
  normalize 7 (utf32_ops [0x43; 0x61; 0x66; 0xE9; 13; 10; 0]) (normalization_form_c gnu_sort utf8_append_from_utf32ne 7 (utf32_ops [0x43; 0x61; 0x66; 0xE9; 13; 10; 0])) 0 6 []
  = Ok (6, [0x43; 0x61; 0x66; 0xC3; 0xA9; 13; 10]) /\
  normalize 5 (utf32_ops [0x61; 0x62; 13; 10; 0]) (normalization_form_kd gnu_sort utf32_append_from_utf32ne 5 (utf32_ops [0x61; 0x62; 13; 10; 0])) 0 4 []
  = Ok (4, [0x61; 0x62; 13; 10]).
Proof. split; vm_compute; reflexivity. Qed.
