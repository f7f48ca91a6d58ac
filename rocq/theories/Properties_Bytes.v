(** * Properties C69-C71: graphemes of arbitrary octets, of cut texts, and increments

    [string_buffer s] is the memory of a std::string with octets [s] (Utf8Spec.v);
    [graphemes] and [normalize] are the client loops from grapheme_begin() to
    grapheme_end() (TextModel.v).  [UB OobRead] is a read outside of the string and its
    terminating NUL. *)
From Coq Require Import Permutation.
From Verif Require Import Prelude DataTables PropsModel Utf8Model TextModel Utf8Spec UnicodeSpec GraphemeSpec TextSpec NormSpec
  PropsProofs LawfulProofs SequenceProofs ByteProofs DecompProofs GraphemeProofs Uax29Proofs GraphemeText ComposeProofs OrderProofs
  EncodeProofs Properties_Bounds Properties_Normalize TextsProofs GraphemeBytes.
Require Import ZifyBool ZifyNat.

(** ** C69.  False for arbitrary octets, even when check() accepts them: computing
    grapheme_end() of "\xE2" reads past the terminating NUL. *)
Theorem C69_grapheme_loop_memory_safe_refuted : exists s,
  Forall octet_upto_FD s /\ bounds_check (string_buffer s) 0 (zlen s) = Ok true /\
  forall fuel, grapheme_end fuel (utf8_ops (string_buffer s)) 0 (zlen s) = UB OobRead.
Proof.
  exists [0xE2]. split; [repeat constructor; unfold octet_upto_FD; lia|]. split; [vm_compute; reflexivity|].
  intros fuel. vm_compute. reflexivity.
Qed.
Print Assumptions C69_grapheme_loop_memory_safe_refuted.
(** Exactly: the string is empty, or the last octet that is not a continuation octet
    announces at most one octet more than there are (the NUL stands in for it). *)
Definition end_readable (s : list Z) : Prop :=
  s = [] \/ exists r, closest_lead s (zlen s - 1) r /\ r + announced_len (octet s r) <= zlen s + 1.
Lemma octet_buffer s k : 0 <= k < zlen s -> octet (string_buffer s) k = octet s k.
Proof. intros H. unfold octet, string_buffer. rewrite app_nth1; [reflexivity|]. unfold zlen in H. lia. Qed.
Lemma lead_buffer s p r : p < zlen s -> closest_lead (string_buffer s) p r <-> closest_lead s p r.
Proof.
  intros H. unfold closest_lead. split; intros (A & B & C).
  - split; [assumption|]. rewrite (octet_buffer s r) in B by lia. split; [assumption|]. intros k K. rewrite <- (octet_buffer s k) by lia. auto.
  - split; [assumption|]. rewrite (octet_buffer s r) by lia. split; [assumption|]. intros k K. rewrite (octet_buffer s k) by lia. auto.
Qed.
Lemma readable_cases s : Forall octet_upto_FD s -> ~ continuation_octet (octet s 0) ->
  (end_readable s /\ forall fuel, grapheme_end (S fuel) (utf8_ops (string_buffer s)) 0 (zlen s) = Ok (the_end s)) \/
  (~ end_readable s /\ forall fuel, grapheme_end fuel (utf8_ops (string_buffer s)) 0 (zlen s) = UB OobRead).
Proof.
  intros F C. destruct (end_cases s _ (byte_env_string s F (octet_string_first s C))) as [(Z0 & H)|(r & Hr & H)].
  - left. split; [left; destruct s; [reflexivity|unfold zlen in Z0; cbn in Z0; lia]|]. intros fuel. apply H.
  - assert (R : 0 <= r <= zlen s - 1) by (destruct Hr; lia).
    apply (proj1 (lead_buffer s (zlen s - 1) r ltac:(lia))) in Hr. rewrite octet_buffer in H by lia. destruct H as [(L & H)|(L & H)].
    + left. split; [right; exists r; auto|exact H].
    + right. split; [|exact H]. intros [->|(r' & Hr' & L')]; [cbn in R; lia|].
      assert (r' = r) by (eapply closest_lead_unique; eassumption). subst. lia.
Qed.
Theorem C69_grapheme_end_defined_iff_partial : forall s fuel,
  Forall octet_upto_FD s -> ~ continuation_octet (octet s 0) -> (0 < fuel)%nat ->
  (end_readable s -> exists it, grapheme_end fuel (utf8_ops (string_buffer s)) 0 (zlen s) = Ok it /\
     gi_deref it = (zlen s, zlen s)) /\
  (~ end_readable s -> grapheme_end fuel (utf8_ops (string_buffer s)) 0 (zlen s) = UB OobRead).
Proof.
  intros s fuel F C Hf. destruct fuel as [|f]; [lia|]. destruct (readable_cases s F C) as [(R & H)|(R & H)].
  - split; [|contradiction]. intros _. exists (the_end s). split; [apply H|reflexivity].
  - split; [contradiction|]. intros _. apply H.
Qed.
Print Assumptions C69_grapheme_end_defined_iff_partial.
(** Then nothing undefined happens in the grapheme loop, however long it runs (it runs
    forever on some strings with stray continuation octets), *)
Theorem C69_grapheme_loop_memory_safe_partial : forall s fuel,
  Forall octet_upto_FD s -> ~ continuation_octet (octet s 0) -> end_readable s ->
  forall u, graphemes fuel (utf8_ops (string_buffer s)) 0 (zlen s) <> UB u.
Proof.
  intros s fuel F C R. destruct (readable_cases s F C) as [(_ & H)|(N & _)]; [|contradiction].
  apply (graphemes_safe s _ (byte_env_string s F (octet_string_first s C)) fuel H).
Qed.
Print Assumptions C69_grapheme_loop_memory_safe_partial.
(** and in the normalization of the string in any form, except that the count of the
    codepoints may overflow. *)
Theorem C69_normalization_memory_safe_partial : forall F listed sort s fuel out,
  form_of F listed -> Forall octet_upto_FD s -> ~ continuation_octet (octet s 0) -> end_readable s ->
  forall u, normalize fuel (utf8_ops (string_buffer s)) (F sort utf32_append_from_utf32ne fuel (utf8_ops (string_buffer s)))
    0 (zlen s) out = UB u -> u = IntOverflow.
Proof.
  intros F listed sort s fuel out FO U C R. destruct (readable_cases s U C) as [(_ & H)|(N & _)]; [|contradiction].
  pose proof (byte_env_string s U (octet_string_first s C)) as E.
  apply (normalize_safe s _ E); [|exact H]. intros p q o Hp Hq.
  destruct FO; first
    [eapply (decomposed_safe s _ E canonical_decomposition); [exact canonical_decomposition_eq|assumption..]
    |eapply (decomposed_safe s _ E compatibility_and_canonical_decomposition); [exact compat_decomposition_eq|assumption..]
    |eapply (composed_safe s _ E canonical_decomposition); [exact canonical_decomposition_eq|assumption..]
    |eapply (composed_safe s _ E compatibility_and_canonical_decomposition); [exact compat_decomposition_eq|assumption..]].
Qed.
Print Assumptions C69_normalization_memory_safe_partial.
(** check() is enough if the string has at least six octets, or its first octet announces
    at most one octet more than the string has. *)
Theorem C69_checked_text_is_readable_partial : forall s,
  Forall octet_upto_FD s -> bounds_check (string_buffer s) 0 (zlen s) = Ok true ->
  6 <= zlen s \/ announced_len (octet s 0) <= zlen s + 1 -> end_readable s.
Proof.
  intros s F B H. assert (FB : Forall is_byte s) by (eapply Forall_impl; [|exact F]; unfold octet_upto_FD, is_byte; lia).
  destruct (proj1 (C13_check_meaning_partial s FB) B) as (C & K).
  destruct s as [|x t]; [left; reflexivity|]. right. set (s := x :: t) in *.
  assert (1 <= zlen s) by (unfold s, zlen; cbn [length]; lia).
  destruct (closest_lead_exists s _ (zlen s - 1) (byte_env_string s F (octet_string_first s C)) ltac:(lia)) as (r & Hr).
  apply (proj1 (lead_buffer s (zlen s - 1) r ltac:(lia))) in Hr. exists r. split; [assumption|].
  pose proof (ByteProofs.be_upto s _ r (byte_env_string s F (octet_string_first s C))) as U.
  assert (R : 0 <= r <= zlen s - 1) by (destruct Hr; lia). rewrite octet_buffer in U by lia.
  destruct (Z.le_gt_cases (zlen s + 2) (r + announced_len (octet s r))) as [L|L]; [exfalso|lia].
  assert (A6 : announced_len (octet s r) <= 6).
  { unfold octet_upto_FD in U. unfold announced_len. repeat match goal with |- context [?a <? ?b] => destruct (Z.ltb_spec a b) end; lia. }
  destruct (Z.eq_dec r 0) as [->|Hr0].
  - destruct H as [H|H]; lia.
  - apply (K r); [lia|lia|]. split.
    + unfold announced_len in L. destruct (Z.ltb_spec (octet s r) 192); lia.
    + unfold zlen in *. lia.
Qed.
Print Assumptions C69_checked_text_is_readable_partial.
Example C69_example : (* "a\xE2\x82" lacks one octet: fine; "a\xE2" lacks two *)
  end_readable [0x61; 0xE2; 0x82] /\ ~ end_readable [0x61; 0xE2] /\
  graphemes 5 (utf8_ops (string_buffer [0x61; 0xE2; 0x82])) 0 3 = Ok [[0x61]] /\
  graphemes 5 (utf8_ops (string_buffer [0x61; 0xE2])) 0 2 = UB OobRead /\
  (* a stray continuation octet: empty graphemes forever *)
  end_readable [0x61; 0x81] /\ graphemes 50 (utf8_ops (string_buffer [0x61; 0x81])) 0 2 = OutOfFuel.
Proof.
  split.
  { right. exists 1. split; [|vm_compute; discriminate]. split; [unfold zlen; cbn; lia|]. unfold continuation_octet.
    change (octet [0x61; 0xE2; 0x82] 1) with 0xE2. split; [lia|]. intros k K. unfold zlen in K. cbn in K.
    replace k with 2 by lia. change (octet [0x61; 0xE2; 0x82] 2) with 0x82. lia. }
  split.
  { intros [X|(r & (A & B & C) & L)]; [discriminate|]. unfold zlen in *. cbn [length] in *.
    destruct (Z.eq_dec r 0) as [->|].
    - specialize (C 1 ltac:(lia)). unfold continuation_octet in C. change (octet [0x61; 0xE2] 1) with 0xE2 in C. lia.
    - replace r with 1 in * by lia. vm_compute in L. apply L. reflexivity. }
  split; [vm_compute; reflexivity|]. split; [vm_compute; reflexivity|]. split; [|vm_compute; reflexivity].
  right. exists 0. split; [|vm_compute; discriminate]. split; [unfold zlen; cbn; lia|]. unfold continuation_octet.
  change (octet [0x61; 0x81] 0) with 0x61. split; [lia|]. intros k K. unfold zlen in K. cbn in K.
  replace k with 1 by lia. change (octet [0x61; 0x81] 1) with 0x81. lia.
Qed.

(** ** C70.  A text whose last codepoint has lost its last octets: the codepoint loops
    visit exactly the complete codepoints. *)
Theorem C70_codepoints_of_a_cut_text : forall os o fuel,
  Forall octet_sequence os -> cut_sequence o -> (length os < fuel)%nat ->
  let s := concat os ++ o in
  iterate_codepoints fuel (utf8_ops (string_buffer s)) 0 (zlen s) = Ok (map sequence_value os) /\
  iterate_codepoints_for fuel (utf8_ops (string_buffer s)) 0 (zlen s) = Ok (map sequence_value os).
Proof. intros os o fuel FO CO Hf. exact (cut_loops os o FO CO fuel Hf). Qed.
Print Assumptions C70_codepoints_of_a_cut_text.
(** False for graphemes: with two or more octets missing, grapheme_end() reads past the
    terminating NUL. *)
Theorem C70_graphemes_of_a_cut_text_refuted : forall os o fuel,
  Forall octet_sequence os -> cut_sequence o -> Z.of_nat (length o) + 1 <> announced_len (octet o 0) ->
  let s := concat os ++ o in
  grapheme_end fuel (utf8_ops (string_buffer s)) 0 (zlen s) = UB OobRead.
Proof. intros os o fuel FO CO H. exact (cut_end_oob os o FO CO H fuel). Qed.
Print Assumptions C70_graphemes_of_a_cut_text_refuted.
(** With one octet missing, the graphemes are those of the complete codepoints, *)
Lemma whole_end os fuel : Forall octet_sequence os -> (length os < fuel)%nat ->
  exists E, grapheme_end fuel (utf8_ops (string_buffer (concat os))) 0 (zlen (concat os)) = Ok E /\
    end_at (zlen (concat os)) E.
Proof.
  intros FO Hf. pose proof (utf8_sequences_string os FO) as M.
  destruct (string_text _ _ _ _ _ M) as (pos' & inside & T & P). rewrite <- (map_length sequence_value os) in Hf.
  destruct (final_view_end _ _ _ _ _ _ pos' inside T P fuel Hf) as (it & E & Q & W).
  exists it. split; [exact E|]. split; [|split].
  - unfold grapheme_end, gi_make3 in E.
    destruct (find_start_of_grapheme fuel (utf8_ops (string_buffer (concat os))) 0 (zlen (concat os))); cbn [bind] in E; try discriminate.
    destruct (find_end_of_grapheme fuel (utf8_ops (string_buffer (concat os))) (zlen (concat os)) (zlen (concat os))); cbn [bind] in E; try discriminate.
    injection E as <-. reflexivity.
  - apply W. apply boundary_nul.
  - exact Q.
Qed.
Theorem C70_graphemes_of_a_cut_text_partial : forall os o fuel,
  Forall octet_sequence os -> cut_sequence o -> Z.of_nat (length o) + 1 = announced_len (octet o 0) -> (length os < fuel)%nat ->
  let s := concat os ++ o in
  exists gs, graphemes fuel (utf8_ops (string_buffer s)) 0 (zlen s) = Ok gs /\
    segments pairwise_boundary (map sequence_value os) gs.
Proof.
  intros os o fuel FO CO H Hf. cbv zeta. exists (seg (map sequence_value os)). split; [|apply seg_segments].
  destruct fuel as [|f]; [lia|].
  pose proof (utf8_sequences_string os FO) as M. destruct (string_text _ _ _ _ _ M) as (pos' & inside & T & P).
  rewrite <- (text_graphemes _ _ _ _ _ pos' inside T (S f)); [|apply boundary_after_or, boundary_nul|rewrite map_length; assumption].
  destruct (whole_end os (S f) FO Hf) as (E2 & X2 & H2).
  assert (H1 : end_at (zlen (concat os ++ o)) (the_end (concat os ++ o))) by (split; [|split]; reflexivity).
  pose proof (cut_forward os o FO CO) as F1. pose proof (whole_forward os FO) as F2.
  unfold graphemes. rewrite (cut_end os o FO CO H f), X2.
  destruct (alike_begin _ _ _ _ _ _ F1 F2 (S f)) as [(A & B)|(h1 & h2 & A & B & AL)];
    change (spos 0 os 0) with 0 in A, B; rewrite A, B; [reflexivity|]. cbn [bind].
  apply (alike_graphemes_loop _ _ _ _ _ _ F1 F2 _ _ (S f) H1 H2 (S f) h1 h2 AL).
Qed.
Print Assumptions C70_graphemes_of_a_cut_text_partial.
(** and normalizing the text does exactly what normalizing its complete codepoints does. *)
Theorem C70_normalization_of_a_cut_text_partial : forall F listed sort append os o fuel out,
  form_of F listed -> output_encoding append ->
  Forall octet_sequence os -> cut_sequence o -> Z.of_nat (length o) + 1 = announced_len (octet o 0) -> (length os < fuel)%nat ->
  let s := concat os ++ o in let t := concat os in
  normalize fuel (utf8_ops (string_buffer s)) (F sort append fuel (utf8_ops (string_buffer s))) 0 (zlen s) out
  = normalize fuel (utf8_ops (string_buffer t)) (F sort append fuel (utf8_ops (string_buffer t))) 0 (zlen t) out.
Proof.
  intros F listed sort append os o fuel out FO OE FS CO H Hf. cbv zeta.
  destruct fuel as [|f]; [lia|].
  destruct (whole_end os (S f) FS Hf) as (E2 & X2 & H2).
  assert (H1 : end_at (zlen (concat os ++ o)) (the_end (concat os ++ o))) by (split; [|split]; reflexivity).
  pose proof (cut_forward os o FS CO) as F1. pose proof (whole_forward os FS) as F2.
  unfold normalize. rewrite (cut_end os o FS CO H f), X2.
  destruct (alike_begin _ _ _ _ _ _ F1 F2 (S f)) as [(A & B)|(h1 & h2 & A & B & AL)];
    change (spos 0 os 0) with 0 in A, B; rewrite A, B; [reflexivity|]. cbn [bind].
  unfold filter_graphemes, filter.
  apply (alike_filter _ _ _ _ _ _ F1 F2 _ _ (S f) _ _ H1 H2); [|exact AL].
  intros i j o' Hij.
  destruct FO; unfold normalization_form_d, normalization_form_c, normalization_form_kd, normalization_form_kc,
    form_decomposed, form_composed, decompose_grapheme, filter_codepoints, filter; cbn [fst snd];
    rewrite (alike_filter_codepoints _ _ _ _ _ _ F1 F2 _ (S f) i j [] 0 Hij); reflexivity.
Qed.
Print Assumptions C70_normalization_of_a_cut_text_partial.
Example C70_example : (* "e\u0301" and the first two octets of U+20AC *)
  Forall octet_sequence [[0x65]; [0xCC; 0x81]] /\ cut_sequence [0xE2; 0x82] /\
  Z.of_nat (length [0xE2; 0x82]) + 1 = announced_len (octet [0xE2; 0x82] 0) /\
  map sequence_value [[0x65]; [0xCC; 0x81]] = [0x65; 0x301] /\
  graphemes 3 (utf8_ops (string_buffer [0x65; 0xCC; 0x81; 0xE2; 0x82])) 0 5 = Ok [[0x65; 0x301]] /\
  cut_sequence [0xE2] /\ Z.of_nat (length [0xE2]) + 1 <> announced_len (octet [0xE2] 0).
Proof.
  split.
  { constructor; [|constructor; [|constructor]]; (split; [|repeat constructor; unfold octet_upto_FD; lia]).
    - exists 0x65, []. unfold continuation_octet. split; [reflexivity|]. split; [lia|]. split; [constructor|reflexivity].
    - exists 0xCC, [0x81]. unfold continuation_octet. split; [reflexivity|]. split; [lia|]. split; [|reflexivity].
      constructor; [unfold continuation_octet; lia|constructor]. }
  split.
  { exists 0xE2, [0x82]. unfold continuation_octet, octet_upto_FD. split; [reflexivity|]. split; [lia|].
    split; [constructor; [unfold continuation_octet; lia|constructor]|]. split; [lia|]. vm_compute. reflexivity. }
  split; [reflexivity|]. split; [vm_compute; reflexivity|]. split; [vm_compute; reflexivity|].
  split; [|vm_compute; discriminate].
  exists 0xE2, []. unfold continuation_octet, octet_upto_FD. split; [reflexivity|]. split; [lia|].
  split; [constructor|]. split; [lia|]. vm_compute. reflexivity.
Qed.

(** ** C71.  grapheme_begin() incremented [k] times stands on grapheme number [k]: it
    dereferences to the range of its codepoints; postfix ++ returns the iterator as it
    was and then does what prefix ++ does. *)
Theorem C71_iterator_stands_on_its_grapheme : forall ops b e cs pos before g after fuel,
  string_in_memory ops b e cs pos -> (length cs < fuel)%nat ->
  segments pairwise_boundary cs (before ++ g :: after) ->
  exists it, nth_grapheme fuel ops b e (length before) = Ok it /\
    gi_deref it = (pos (length (concat before)), pos (length (concat before) + length g)%nat) /\
    iterate_codepoints_for fuel ops (fst (gi_deref it)) (snd (gi_deref it)) = Ok g.
Proof.
  intros ops b e cs pos before g after fuel M Hf S. destruct (string_text _ _ _ _ _ M) as (pos' & inside & T & P).
  apply seg_eq in S. symmetry in S.
  assert (LB : (length before < length (seg cs))%nat) by (rewrite S, app_length; cbn; lia).
  destruct (final_nth ops b e cs 0 pos' inside T fuel (length before) ltac:(lia) ltac:(lia)) as (it & E & ON).
  exists it. split; [exact E|]. rewrite S, firstn_app, firstn_all, Nat.sub_diag in ON. cbn [firstn] in ON. rewrite app_nil_r in ON.
  destruct (seg_is_end (cs ++ [0]) (length cs) (text_n cs 0) 0 cs before g after (eq_sym (text_sub cs 0)) S) as (SE & _).
  destruct ON as (W & En & Hi & A & B).
  assert (CL : (length (concat before) + length g <= length cs)%nat).
  { rewrite <- (seg_concat cs), S, concat_app, app_length. cbn [concat]. rewrite app_length. lia. }
  assert (NG : g <> []).
  { pose proof (seg_nonempty cs) as N. rewrite S in N. apply Forall_app in N. destruct N as [_ N]. inversion N. assumption. }
  assert (LG : (0 < length g)%nat) by (destruct g; [contradiction|cbn; lia]).
  destruct (A ltac:(lia)) as (j & J & Ej).
  assert (j = (length (concat before) + length g)%nat) by (eapply is_end_unique; [apply (text_n cs 0)|exact J|exact SE]). subst j.
  unfold gi_deref. rewrite W, Ej, !P by lia. split; [reflexivity|]. cbn [fst snd]. rewrite <- !P by lia.
  pose proof (ti_lawful _ _ _ _ _ _ _ T) as L.
  rewrite (iterate_for_lawful _ _ _ _ L (length g) (length (concat before)) (length (concat before) + length g));
    [|lia|rewrite app_length; cbn; lia|apply (lw_pos _ _ _ _ L); rewrite app_length; cbn; lia|apply (lw_pos _ _ _ _ L); rewrite app_length; cbn; lia|lia].
  f_equal. replace (cs ++ [0]) with (concat before ++ g ++ (concat after ++ [0])); [apply sub_all|].
  rewrite <- (seg_concat cs), S, concat_app. cbn [concat]. rewrite <- !app_assoc. reflexivity.
Qed.
Print Assumptions C71_iterator_stands_on_its_grapheme.
Theorem C71_postfix_increment : forall fuel ops it,
  (forall old it', gi_postinc fuel ops it = Ok (old, it') <-> old = it /\ gi_inc fuel ops it = Ok it') /\
  (forall u, gi_postinc fuel ops it = UB u <-> gi_inc fuel ops it = UB u).
Proof.
  intros fuel ops it. unfold gi_postinc. destruct (gi_inc fuel ops it) as [x|u|]; cbn [bind].
  - split; [|intros; split; discriminate]. intros old it'. split; [intros X; injection X as <- <-; auto|].
    intros (-> & X). injection X as <-. reflexivity.
  - split; [intros; split; [discriminate|intros (_ & X); discriminate]|]. intros v. split; intros X; injection X as <-; reflexivity.
  - split; [intros; split; [discriminate|intros (_ & X); discriminate]|]. intros v. split; discriminate.
Qed.
Print Assumptions C71_postfix_increment.
Example C71_example : (* "xe\u0301y": the second grapheme is octets 1 to 4 *)
  let s := utf8_text [0x78; 0x65; 0x301; 0x79] in let ops := utf8_ops (string_buffer s) in
  segments pairwise_boundary [0x78; 0x65; 0x301; 0x79] [[0x78]; [0x65; 0x301]; [0x79]] /\
  (let* it := nth_grapheme 5 ops 0 (zlen s) 1 in Ok (gi_deref it)) = Ok (1, 4) /\
  (let* it := nth_grapheme 5 ops 0 (zlen s) 0 in let* '(old, it) := gi_postinc 5 ops it in Ok (gi_deref old, gi_deref it))
  = Ok ((0, 1), (1, 4)).
Proof.
  cbv zeta. split; [|split; vm_compute; reflexivity].
  replace [[0x78]; [0x65; 0x301]; [0x79]] with (seg [0x78; 0x65; 0x301; 0x79]) by (vm_compute; reflexivity). apply seg_segments.
Qed.
