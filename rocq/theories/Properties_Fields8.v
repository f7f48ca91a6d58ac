(** * Property C127, continued: the ASCII octets of a normalized UTF-8 text

    Wherever [append_from_utf32ne] does not encode a codepoint correctly (C19), it writes other non-ASCII octets and NULs, never
    another ASCII character: so the counts of C127 hold for the octets of every UTF-8 output, correct or not. *)
From Coq Require Import Permutation Sorted Relations.
From Verif Require Import Prelude DataTables UcdTables PropsModel Utf8Model TextModel StdSortModel Utf8Spec UnicodeSpec GraphemeSpec TextSpec NormSpec
  PropsProofs LawfulProofs Utf8Proofs EncodeProofs DecompTables DecompProofs GraphemeProofs Uax29Proofs GraphemeText OrderProofs ComposeProofs NormData NormProofs HangulProofs NfcProofs NormText
  TextsProofs KeepGraphemes LinesSpec LinesProofs
  Properties_Iteration Properties_Graphemes Properties_Normalize Properties_Sort Properties_Texts Properties_Forms Properties_Keep Properties_Lines Properties_Pipeline Properties_Fields.
Require Import ZifyBool ZifyNat.

Lemma occurs_high l s : 1 <= s < 128 -> Forall (fun b => b = 0 \/ 128 <= b) l -> occurs l s = 0%nat.
Proof. intros S H. apply count_occ_not_In. intros I. rewrite Forall_forall in H. specialize (H s I). lia. Qed.
Lemma Forall_firstn {A} (P : A -> Prop) n : forall l, Forall P l -> Forall P (firstn n l).
Proof. induction n as [|n IH]; intros l H; [constructor|]. destruct H; [constructor|]. cbn [firstn]. constructor; [assumption|]. apply IH. assumption. Qed.
Lemma code_octets_high n c : 2 <= n <= 5 -> 0 <= c -> Forall (fun b => b = 0 \/ 128 <= b) (code_octets n c).
Proof.
  intros Hn Hc. unfold code_octets. destruct (first_octet_eq n c Hn Hc) as (_ & _ & H). constructor; [right; lia|]. apply Forall_app. split.
  - eapply Forall_impl; [|apply conts_cont]. intros b B. unfold continuation_octet in B. lia.
  - apply Forall_forall. intros b B. apply repeat_spec in B. auto.
Qed.
Lemma encode_one_occurs c l s : codepoint31 c -> 1 <= s < 128 -> utf8_encode_one c = Ok l -> occurs l s = occurs [c] s.
Proof.
  intros C S E. unfold codepoint31 in C. change (2 ^ 31) with 2147483648 in C. destruct (Z.eq_dec c 0) as [->|C0]; [vm_compute in E; discriminate|].
  destruct (Z.ltb_spec c 128).
  - rewrite encode_one_ascii in E by lia. injection E as <-. reflexivity.
  - destruct (encoded_size_ranges c ltac:(lia)) as (n & En & R).
    assert (Hn : 2 <= n <= 5) by (destruct R as (_ & R2 & R3 & R4 & R5); destruct (Z.ltb_spec c 8192); [|destruct (Z.ltb_spec c 524288); [|destruct (Z.ltb_spec c 33554432)]]; lia).
    rewrite (encode_one_multi c n En Hn) in E by lia. destruct (first_octet n c <? 254); [|discriminate]. injection E as <-.
    rewrite (occurs_one c s) by lia. apply occurs_high; [exact S|]. apply Forall_firstn, code_octets_high; lia.
Qed.
Lemma append_occurs s cs : 1 <= s < 128 -> Forall codepoint31 cs -> forall out o, utf8_append_from_utf32ne out cs = Ok o ->
  occurs o s = (occurs out s + occurs cs s)%nat.
Proof.
  intros S H. induction H as [|c cs C _ IH]; intros out o E; cbn [utf8_append_from_utf32ne] in E.
  - injection E as <-. unfold occurs at 3. cbn. lia.
  - destruct (utf8_encode_one c) as [l| |] eqn:El; [|discriminate..]. cbn [bind] in E. apply IH in E. rewrite E, occurs_app, (occurs_cons c cs), (encode_one_occurs c l s C S El). lia.
Qed.
Lemma encode_occurs c s : codepoint31 c -> 1 <= s < 128 -> occurs (utf8_encode c) s = occurs [c] s.
Proof.
  intros C S. destruct (Z.ltb_spec c 128).
  - unfold utf8_encode. unfold codepoint31 in C. zcases; try lia; reflexivity.
  - rewrite (occurs_one c s) by lia. apply occurs_high; [exact S|]. destruct (utf8_encode_chunk c C) as (l & t & E & K & _).
    apply Forall_forall. intros b B. right. apply In_nth with (d := 0) in B. destruct B as (n & L & <-). destruct n as [|n]; [|apply encode_last; [exact C|lia]].
    clear L. unfold utf8_encode, cont. unfold codepoint31 in C. change (2 ^ 31) with 2147483648 in C. zcases; try lia; cbn [nth];
      try (Z.div_mod_to_equations; lia).
Qed.
Lemma text_occurs s cs : 1 <= s < 128 -> Forall codepoint31 cs -> occurs (utf8_text cs) s = occurs cs s.
Proof.
  intros S H. induction H as [|c cs C _ IH]; [reflexivity|]. unfold utf8_text in *. cbn [flat_map]. rewrite occurs_app, (occurs_cons c cs), IH, (encode_occurs c s C S). reflexivity.
Qed.

(** [normalize_utf8] (Properties_Pipeline.v): a whole utf8_string, normalized into an empty one.  No codepoint needs to be encodable. *)
Theorem C127_octets : forall F listed sort s cs fuel n o,
  form_of F listed -> std_sort_ok sort -> symbol s -> only_itself listed s cs ->
  Forall unicode_codepoint cs -> (length cs < fuel)%nat -> count_fits listed cs ->
  normalize_utf8 F sort fuel (utf8_text cs) = Ok (n, o) ->
  count_occ Z.eq_dec o s = count_occ Z.eq_dec (utf8_text cs) s.
Proof.
  intros F listed sort s cs fuel n o FO SO S O U Hf CF E.
  assert (C31 : forall l, Forall unicode_codepoint l -> Forall codepoint31 l).
  { intros l. apply Forall_impl. unfold unicode_codepoint, codepoint31. intros. change (2 ^ 31) with 2147483648. lia. }
  assert (S' : 1 <= s < 128) by (destruct S as (P & _); unfold printable_ascii in P; lia).
  destruct (form_data_of F listed FO) as (k & full & FD).
  assert (D : delimited_text (utf8_ops (string_buffer (utf8_text cs))) 0 (zlen (utf8_text cs)) cs) by (eapply delimited_string; constructor; exact (C31 _ U)).
  unfold normalize_utf8 in E. rewrite (run_any F listed k full sort _ _ 0 _ cs fuel [] FD SO utf8_output D Hf CF) in E.
  set (d := flat_map (norm_grapheme k full sort) (seg cs)) in *.
  destruct (utf8_append_from_utf32ne [] d) as [o'| |] eqn:A; [|discriminate..]. cbn [bind] in E. injection E as _ <-.
  assert (UD : Forall unicode_codepoint d).
  { unfold d. rewrite flat_map_concat_map. destruct FD;
      first [apply (d_pieces_unicode _ canonical_unicode); assumption|apply (d_pieces_unicode _ compat_unicode); assumption
            |replace (map _ (seg cs)) with (c_pieces full_canonical sort cs) by (unfold c_pieces, d_pieces; rewrite map_map; reflexivity);
               apply (c_pieces_unicode _ canonical_unicode); assumption
            |replace (map _ (seg cs)) with (c_pieces full_compat sort cs) by (unfold c_pieces, d_pieces; rewrite map_map; reflexivity);
               apply (c_pieces_unicode _ compat_unicode); assumption]. }
  change (occurs o' s = occurs (utf8_text cs) s).
  rewrite (append_occurs s d S' (C31 _ UD) [] o' A), (text_occurs s cs S' (C31 _ U)). unfold occurs at 1. cbn [count_occ Nat.add].
  unfold d. exact (norm_occurs F listed k full sort FD SO s cs (proj1 S) (or_intror S) O).
Qed.
Print Assumptions C127_octets.
(** So no normalization of a UTF-8 string makes or removes a quote, a backslash, a bracket, an ampersand octet ..., whatever the codepoints. *)
Corollary C127_quote_octets_are_kept : forall F listed sort s cs fuel n o,
  form_of F listed -> std_sort_ok sort -> safe_symbol s ->
  Forall unicode_codepoint cs -> (length cs < fuel)%nat -> count_fits listed cs ->
  normalize_utf8 F sort fuel (utf8_text cs) = Ok (n, o) ->
  count_occ Z.eq_dec o s = count_occ Z.eq_dec (utf8_text cs) s.
Proof.
  intros F listed sort s cs fuel n o FO SO S. destruct (C127_safe_symbols F listed s cs FO S) as (Y & O). apply (C127_octets F listed); assumption.
Qed.
Print Assumptions C127_quote_octets_are_kept.
(** NUL octets are another matter: a text without any gets some. *)
Theorem C127_nul_octets_appear : normalize_utf8 normalization_form_c gnu_sort 5 (utf8_text [0x27; 0x1E69; 0x27]) = Ok (3, [0x27; 0xF9; 0xA9; 0; 0; 0; 0x27]) /\
  ~ In 0 (utf8_text [0x27; 0x1E69; 0x27]).
Proof. split; [vm_compute; reflexivity|]. vm_compute. intuition discriminate. Qed.
Print Assumptions C127_nul_octets_appear.
(** An apostrophe, U+1E69 (not encodable), an apostrophe. *)
Example C127_octets_example :
  let cs := [0x27; 0x1E69; 0x27] in
  safe_symbol 0x27 /\ Forall unicode_codepoint cs /\ count_fits listed_canonical cs /\
  normalize_utf8 normalization_form_c gnu_sort 5 (utf8_text cs) = Ok (3, [0x27; 0xF9; 0xA9; 0; 0; 0; 0x27]) /\
  count_occ Z.eq_dec [0x27; 0xF9; 0xA9; 0; 0; 0; 0x27] 0x27 = 2%nat /\ count_occ Z.eq_dec (utf8_text cs) 0x27 = 2%nat.
Proof.
  cbv zeta. split; [unfold safe_symbol; lia|]. split; [repeat constructor; unfold unicode_codepoint; lia|]. split.
  - exists (flat_map full_canonical [0x27; 0x1E69; 0x27]). split; [apply canonical_listed; reflexivity|vm_compute; discriminate].
  - split; [vm_compute; reflexivity|]. split; reflexivity.
Qed.
