(** * Properties C58, C59: sorting by combining class with the GNU C++ library

    [sort_by_combining_class l] (StdSortModel.v) is
    [std::sort(s.codepoint_begin(), s.codepoint_end(), canonical_combining_order)] on a
    utf32ne_string with contents [l], as libstdc++ implements std::sort; [Ok l'] means that it
    terminates without undefined behaviour and leaves the contents [l'].  [has_ccc]
    (UnicodeSpec.v), [std_sort_ok], [order_kept], [ties_kept], [nfd]: NormSpec.v. *)
From Coq Require Import Permutation Sorted.
From Verif Require Import Prelude DataTables UcdTables PropsModel Utf8Model TextModel Utf8Spec UnicodeSpec GraphemeSpec TextSpec NormSpec FilterSpec
  PropsProofs LawfulProofs DecompTables DecompProofs GraphemeProofs Uax29Proofs GraphemeText FilterProofs OrderProofs ComposeProofs
  NormData HangulProofs NormProofs NfcProofs NormForms StdSortModel StdSortProofs Properties_Normalize.
Require Import ZifyBool ZifyNat.

Lemma sorted_strongly l : sorted ccc 0 (zlen l) l -> StronglySorted ccc_le l.
Proof.
  induction l as [|x l IH]; intros S; constructor.
  - apply IH. intros i j I J. unfold sorted, get, zlen in *. cbn [length] in S.
    specialize (S (i + 1) (j + 1)).
    replace (Z.to_nat (i + 1)) with (Datatypes.S (Z.to_nat i)) in S by lia. replace (Z.to_nat (j + 1)) with (Datatypes.S (Z.to_nat j)) in S by lia.
    cbn [nth] in S. lia.
  - rewrite Forall_forall. intros y Y. apply ccc_le_iff. apply (In_nth l y 0) in Y. destruct Y as (n & N & <-).
    specialize (S 0 (Z.of_nat n + 1)). unfold get, zlen in S. cbn [length] in S.
    replace (Z.to_nat (Z.of_nat n + 1)) with (Datatypes.S n) in S by lia. cbn [Z.to_nat nth] in S. lia.
Qed.

(** ** C58 *)
Theorem C58_sort_contract : forall l, exists l', sort_by_combining_class l = Ok l' /\
  Permutation l l' /\
  (forall x a y b z i j, l' = x ++ a :: y ++ b :: z -> has_ccc a i -> has_ccc b j -> i <= j).
Proof.
  intros l. destruct (std_sort_spec _ ccc order_is_ccc 0 (zlen l) l) as (l' & E & S & SO); [unfold zlen; lia|lia|].
  exists l'. split; [exact E|]. split; [apply (shuf_perm 0 (zlen l)); [lia..|assumption]|].
  rewrite <- (shuf_len _ _ _ _ S) in SO. apply sorted_strongly in SO. intros x a y b z i j -> A B.
  clear - SO A B. induction x as [|c x IH]; cbn [app] in SO; inversion SO as [|? ? SO' F]; subst; [|auto].
  rewrite Forall_forall in F. specialize (F b). apply F; [|assumption..]. apply in_or_app. right. left. reflexivity.
Qed.
Print Assumptions C58_sort_contract.
Example C58_example :
  sort_by_combining_class [0x61; 0x301; 0x323; 0x62; 0x327] = Ok [0x61; 0x62; 0x327; 0x323; 0x301].
Proof. vm_compute. reflexivity. Qed.
(** So it is one of the sorts the theorems about normalization (C47-C57) speak about. *)
Definition gnu_sort (l : list Z) : list Z := match sort_by_combining_class l with Ok l' => l' | _ => l end.
Theorem C58_an_allowed_sort : std_sort_ok gnu_sort.
Proof.
  apply std_sort_classes. intros l. destruct (std_sort_spec _ ccc order_is_ccc 0 (zlen l) l) as (l' & E & S & SO); [unfold zlen; lia|lia|].
  unfold gnu_sort, sort_by_combining_class. rewrite E. split; [apply (shuf_perm 0 (zlen l)); [lia..|assumption]|].
  rewrite <- (shuf_len _ _ _ _ S) in SO. apply sorted_strongly. assumption.
Qed.
Print Assumptions C58_an_allowed_sort.

(** ** C59.  Up to 16 elements the order of equal classes is kept ... *)
Theorem C59_short_strings : forall l, (length l <= 16)%nat -> exists l', sort_by_combining_class l = Ok l' /\ order_kept l l'.
Proof.
  intros l LE. destruct (std_sort_small _ ccc order_is_ccc 0 (zlen l) l) as (l' & E & B & SO); [unfold zlen; lia|lia|unfold zlen; lia|].
  exists l'. split; [exact E|]. apply order_kept_eq. intros k. unfold of_class.
  apply (bub_filter _ ccc order_is_ccc 0 (zlen l) l l'); [|lia|lia|assumption]. intros a b A Bb. lia.
Qed.
Print Assumptions C59_short_strings.
(** ... so normalization is decided by the standard alone ([ties_kept] is the hypothesis of C49-C57). *)
Theorem C59_short_graphemes : forall listed gs,
  (forall g f, In g gs -> expands_all listed g f -> (length f <= 16)%nat) -> ties_kept gnu_sort listed gs.
Proof.
  intros listed gs H g f I E. destruct (C59_short_strings f (H g f I E)) as (l' & S & K). unfold gnu_sort. rewrite S. assumption.
Qed.
Print Assumptions C59_short_graphemes.
Theorem C59_form_d_is_nfd_for_short_graphemes : forall ops b e cs gs fuel out,
  delimited_text ops b e cs -> (length cs < fuel)%nat -> count_fits listed_canonical cs -> segments pairwise_boundary cs gs ->
  (forall g f, In g gs -> expands_all listed_canonical g f -> (length f <= 16)%nat) ->
  (forall s, In s cs -> ~ hangul_syllable s) -> graphemes_marks_last listed_canonical gs ->
  exists n d, normalize fuel ops (normalization_form_d gnu_sort utf32_append_from_utf32ne fuel ops) b e out = Ok (n, out ++ d) /\ nfd cs d.
Proof.
  intros ops b e cs gs fuel out D Hf CF S SH NH ML.
  destruct (C49_form_d_is_nfd_iff_partial gnu_sort ops b e cs gs fuel out C58_an_allowed_sort D Hf CF S) as (n & d & E & I).
  exists n, d. split; [assumption|]. apply I. split; [assumption|]. split; [assumption|]. apply C59_short_graphemes. assumption.
Qed.
Print Assumptions C59_form_d_is_nfd_for_short_graphemes.
(** ... and with 17 it is not: [a] followed by the accents U+0300 .. U+030F. *)
Definition many_marks : list Z :=
  [0x61; 0x300; 0x301; 0x302; 0x303; 0x304; 0x305; 0x306; 0x307; 0x308; 0x309; 0x30A; 0x30B; 0x30C; 0x30D; 0x30E; 0x30F].
Theorem C59_seventeen_codepoints_reordered :
  (forall c, 0x300 <= c <= 0x30F -> has_ccc c 230) /\
  exists d, normalize 18 (utf32_ops (many_marks ++ [0])) (normalization_form_d gnu_sort utf32_append_from_utf32ne 18 (utf32_ops (many_marks ++ [0])))
     0 17 [] = Ok (17, d) /\
  d = [0x61; 0x307; 0x30F; 0x30E; 0x30D; 0x30C; 0x30B; 0x30A; 0x309; 0x308; 0x306; 0x305; 0x304; 0x303; 0x302; 0x301; 0x300] /\
  nfd many_marks many_marks /\ ~ nfd many_marks d.
Proof.
  split.
  { intros c C. apply has_ccc_eq. assert (A : forallb (fun i => ccc (0x300 + Z.of_nat i) =? 230) (seq 0 16) = true) by (vm_compute; reflexivity).
    rewrite forallb_forall in A. specialize (A (Z.to_nat (c - 0x300)) ltac:(apply in_seq; lia)).
    replace (0x300 + Z.of_nat (Z.to_nat (c - 0x300))) with c in A by lia. lia. }
  eexists. split; [vm_compute; reflexivity|]. split; [reflexivity|].
  assert (N : nfd many_marks many_marks) by (apply nfd_eq; vm_compute; reflexivity).
  split; [assumption|]. intros N'. apply nfd_eq in N'. vm_compute in N'. discriminate N'.
Qed.
Print Assumptions C59_seventeen_codepoints_reordered.
Example C59_example : (* 16 codepoints, equal classes in the same order *)
  sort_by_combining_class [0x61; 0x300; 0x301; 0x302; 0x303; 0x304; 0x305; 0x306; 0x307; 0x308; 0x309; 0x316; 0x30B; 0x30C; 0x30D; 0x30E]
  = Ok [0x61; 0x316; 0x300; 0x301; 0x302; 0x303; 0x304; 0x305; 0x306; 0x307; 0x308; 0x309; 0x30B; 0x30C; 0x30D; 0x30E].
Proof. vm_compute. reflexivity. Qed.
