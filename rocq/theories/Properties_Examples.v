(** * Properties C100-C103: the example programs

    A program's arguments are C strings ([c_text mem cs]: the memory from argv[i] on holds the
    UTF-8 text of the codepoints [cs], none of them U+0000, and then a NUL); what it writes to
    its standard output is a list of octets.  [printed], [printed_graphemes], [lines]
    (ExamplesSpec.v) say what the output is to look like: " U+" and a hexadecimal number of at
    least six digits for each codepoint, a line for each argument. *)
From Verif Require Import Prelude DataTables PropsModel Utf8Model TextModel ExamplesModel Utf8Spec UnicodeSpec GraphemeSpec TextSpec RangeSpec MemSpec NormSpec ExamplesSpec
  IterProofs LawfulProofs ByteProofs RangeProofs MemProofs MemLoops GraphemeProofs Uax29Proofs GraphemeText DecompTables DecompProofs FilterProofs OrderProofs ComposeProofs
  NormData HangulProofs NormProofs NfcProofs NormForms EncodeProofs AppendProofs EncodeText NormUtf8 NormText SequenceProofs EncodeMore ReadBack ReadBackMore GraphemeBytes OctetGraphemes ExamplesProofs
  Properties_Iteration Properties_Encode Properties_Graphemes Properties_Normalize Properties_Texts.
Require Import ZifyBool ZifyNat.

(** ** C100.  simple_iteration prints the codepoints of its arguments, one line for each. *)
Theorem C100_simple_iteration : forall argv texts fuel, Forall2 c_text argv texts -> Forall (fun cs => (length cs < fuel)%nat) texts ->
  exists out, simple_iteration fuel argv = Ok out /\ lines (printed [32]) texts out.
Proof.
  intros argv texts fuel F2 FF. unfold simple_iteration.
  apply (arguments_lines _ _ (fun mem cs => c_text mem cs /\ (length cs < fuel)%nat)).
  - intros mem cs (C & L). rewrite (c_text_strlen mem cs C). cbn [bind]. pose proof (c_text_31 mem cs C) as C31. destruct C as (_ & rest & ->).
    destruct (C01_forward_iteration_view [] cs 0 rest fuel C31 ltac:(unfold codepoint31; lia) L) as (E & _). cbv zeta in E. cbn [app] in E.
    change (utf8_encode 0) with [0] in E. change (zlen (@nil Z)) with 0 in E. rewrite Z.add_0_l in E. cbn [app] in E. rewrite E. cbn [bind].
    eexists. split; [reflexivity|]. apply printed_ok. assumption.
  - induction F2; [constructor|]. inversion FF; subst. constructor; [auto|]. apply IHF2. assumption.
Qed.
Print Assumptions C100_simple_iteration.
(** So the output tells the arguments. *)
Theorem C100_output_tells_the_arguments : forall argv texts argv' texts' fuel out,
  Forall2 c_text argv texts -> Forall2 c_text argv' texts' -> Forall (fun cs => (length cs < fuel)%nat) texts -> Forall (fun cs => (length cs < fuel)%nat) texts' ->
  simple_iteration fuel argv = Ok out -> simple_iteration fuel argv' = Ok out -> texts = texts'.
Proof.
  intros argv texts argv' texts' fuel out F F' L L' E E'.
  destruct (C100_simple_iteration _ _ _ F L) as (o & O & P). destruct (C100_simple_iteration _ _ _ F' L') as (o' & O' & P').
  assert (o = out) by congruence. assert (o' = out) by congruence. subst o o'.
  apply (lines_fun (printed [32])) with (t := out); [|assumption|assumption].
  intros x t x' t' r r' A B EQ. apply (printed_line [32] x t x' t' r r'); auto.
Qed.
Print Assumptions C100_output_tells_the_arguments.
(** Any octets up to FD: if the loop comes to its end, it prints the codepoints found on the
    way; otherwise (C98, C77) it stands on a stray continuation octet and prints for ever. *)
Theorem C100_any_octets : forall argv texts fuel,
  Forall2 (fun mem cs => exists s rs, c_string mem s /\ Forall octet_upto_FD mem /\ forward_walk mem (zlen s) 0 rs /\ cs = map (value_at mem) rs /\ (length rs < fuel)%nat) argv texts ->
  exists out, simple_iteration fuel argv = Ok out /\ lines (printed [32]) texts out.
Proof.
  intros argv texts fuel F2. unfold simple_iteration. eapply arguments_lines; [|exact F2].
  intros mem cs (s & rs & (N & rest & EM) & U & W & -> & L). pose proof (strlen_ok s rest N) as SL. rewrite <- EM in SL. rewrite SL. cbn [bind].
  assert (He : 0 <= zlen s < zlen mem) by (rewrite EM; unfold zlen; rewrite app_length; cbn [length]; lia).
  destruct (walk_result mem U (zlen s) He 0 rs ltac:(lia) W fuel L) as (-> & _). cbn [bind].
  eexists. split; [reflexivity|]. apply printed_ok. apply Forall_forall. intros v V. apply in_map_iff in V. destruct V as (r & <- & _).
  pose proof (value_small mem U r). unfold codepoint31. lia.
Qed.
Print Assumptions C100_any_octets.
Theorem C100_never_ends_otherwise : forall argv fuel mem s, In mem argv -> c_string mem s -> Forall octet_upto_FD mem ->
  (exists x, reached mem (zlen s) 0 x /\ stray mem x) -> forall out, simple_iteration fuel argv <> Ok out.
Proof.
  intros argv fuel mem s I (N & rest & EM) U X out. revert out. unfold simple_iteration. induction argv as [|m argv IH]; [destruct I|]. intros out. cbn [for_each_argument].
  destruct I as [->|I].
  - pose proof (strlen_ok s rest N) as SL. rewrite <- EM in SL. rewrite SL. cbn [bind].
    assert (He : 0 <= zlen s < zlen mem) by (rewrite EM; unfold zlen; rewrite app_length; cbn [length]; lia).
    destruct (forward_any mem U (zlen s) He 0 ltac:(lia)) as (_ & _ & B & _). destruct (B X fuel) as (-> & _). discriminate.
  - match goal with |- bind ?a _ <> _ => destruct a end; cbn [bind]; try discriminate.
    destruct (for_each_argument _ argv) as [o| |] eqn:E; cbn [bind]; try discriminate. destruct (IH I o). reflexivity.
Qed.
Print Assumptions C100_never_ends_otherwise.
(** The first argument for which that does not hold: the program prints for ever if the walk
    meets a stray continuation octet, and is undefined if the argument begins with one. *)
Theorem C100_first_other_argument : forall before texts mem s after fuel, (0 < fuel)%nat ->
  Forall2 (fun mem cs => exists s rs, c_string mem s /\ Forall octet_upto_FD mem /\ forward_walk mem (zlen s) 0 rs /\ cs = map (value_at mem) rs /\ (length rs < fuel)%nat) before texts ->
  c_string mem s -> Forall octet_upto_FD mem ->
  ((exists x, reached mem (zlen s) 0 x /\ stray mem x) -> simple_iteration fuel (before ++ mem :: after) = OutOfFuel) /\
  (continuation_octet (octet mem 0) -> simple_iteration fuel (before ++ mem :: after) = UB BadPointer) /\
  ((exists x, reached mem (zlen s) 0 x /\ stray mem x) \/ continuation_octet (octet mem 0) \/ exists rs, forward_walk mem (zlen s) 0 rs).
Proof.
  intros before texts mem s after fuel Hf F2 (N & rest & EM) U.
  pose proof (strlen_ok s rest N) as SL. rewrite <- EM in SL.
  assert (He : 0 <= zlen s < zlen mem) by (rewrite EM; unfold zlen; rewrite app_length; cbn [length]; lia).
  destruct (forward_any mem U (zlen s) He 0 ltac:(lia)) as (A & _ & B & C).
  assert (X : forall r : res (list Z), (forall v, r <> Ok v) ->
    iterate_codepoints fuel (utf8_ops mem) 0 (zlen s) = (match r with Ok v => Ok v | UB u => UB u | OutOfFuel => OutOfFuel end) ->
    simple_iteration fuel (before ++ mem :: after) = r).
  { intros r R E. unfold simple_iteration. induction F2 as [|m cs before texts H F2 IH]; cbn [app for_each_argument].
    - rewrite SL. cbn [bind]. rewrite E. destruct r as [v|u|]; [destruct (R v); reflexivity|reflexivity|reflexivity].
    - destruct H as (s' & rs & (N' & rest' & EM') & U' & W & _ & L). pose proof (strlen_ok s' rest' N') as SL'. rewrite <- EM' in SL'. rewrite SL'. cbn [bind].
      assert (He' : 0 <= zlen s' < zlen m) by (rewrite EM'; unfold zlen; rewrite app_length; cbn [length]; lia).
      destruct (walk_result m U' (zlen s') He' 0 rs ltac:(lia) W fuel L) as (-> & _). cbn [bind]. rewrite IH.
      destruct r as [v|u|]; [destruct (R v); reflexivity|reflexivity|reflexivity]. }
  assert (Z0 : continuation_octet (octet mem 0) <-> leading_continuation mem 0).
  { split; [|intros H; apply H; lia]. intros H i Hi. assert (i = 0) by lia. subst i. exact H. }
  split; [|split].
  - intros Y. apply X; [discriminate|]. exact (proj1 (B Y fuel)).
  - intros Y. apply X; [discriminate|]. apply Z0 in Y. exact (proj1 (A Y fuel Hf)).
  - destruct C as [C|[(rs & _ & C)|C]]; [right; left; apply Z0; exact C|right; right; exists rs; exact C|left; exact C].
Qed.
Print Assumptions C100_first_other_argument.
Example C100_example : (* simple_iteration "é" "a€" *)
  c_text [0xC3; 0xA9; 0] [0xE9] /\ simple_iteration 3 [[0xC3; 0xA9; 0]; [0x61; 0xE2; 0x82; 0xAC; 0; 7]] =
  Ok ([32; 85; 43; 48; 48; 48; 48; 101; 57; 32; 10] ++
      [32; 85; 43; 48; 48; 48; 48; 54; 49; 32; 32; 85; 43; 48; 48; 50; 48; 97; 99; 32; 10]).
Proof. split; [split; [repeat constructor; lia|exists []; reflexivity]|vm_compute; reflexivity]. Qed.

(** ** C101.  grapheme_iteration prints the graphemes of its arguments. *)
Theorem C101_grapheme_iteration : forall argv texts fuel, Forall2 c_text argv texts -> Forall (fun cs => (length cs < fuel)%nat) texts ->
  exists gss out, Forall2 (segments pairwise_boundary) texts gss /\
    grapheme_iteration fuel argv = Ok out /\ lines printed_graphemes gss out.
Proof.
  intros argv texts fuel F2 FF. unfold grapheme_iteration.
  exists (map seg texts).
  assert (G : exists out, for_each_argument (fun mem => let* n := strlen mem in let* gs := graphemes fuel (utf8_ops mem) 0 n in
      Ok (flat_map (fun g => [91] ++ flat_map printf_codepoint g ++ [32; 93]) gs)) argv = Ok out /\ lines printed_graphemes (map seg texts) out).
  { apply (arguments_lines _ _ (fun mem gs => exists cs, c_text mem cs /\ (length cs < fuel)%nat /\ gs = seg cs)).
    - intros mem gs (cs & C & L & ->). rewrite (c_text_strlen mem cs C). cbn [bind]. pose proof (c_text_31 mem cs C) as C31. destruct C as (_ & rest & ->).
      pose proof (utf8_view [] cs 0 rest C31 ltac:(unfold codepoint31; lia)) as V.
      cbn [app] in V. change (utf8_encode 0) with [0] in V. change (zlen (@nil Z)) with 0 in V. rewrite Z.add_0_l in V. cbn [app] in V.
      destruct (view_text _ _ _ _ _ _ V) as (pos' & inside & T & _).
      rewrite (text_graphemes _ _ _ _ _ pos' inside T fuel) by (try assumption; apply boundary_after_or, boundary_nul). cbn [bind].
      eexists. split; [reflexivity|]. apply printed_graphemes_ok.
      assert (CC : Forall codepoint31 (concat (seg cs))) by (rewrite seg_concat; assumption).
      clear - CC. induction (seg cs) as [|g gs IH]; [constructor|]. cbn [concat] in CC. apply Forall_app in CC. destruct CC. constructor; auto.
    - clear - F2 FF. induction F2; [constructor|]. inversion FF; subst. cbn [map]. constructor; [eauto|]. apply IHF2. assumption. }
  destruct G as (out & E & L). exists out. split; [|split; assumption].
  clear. induction texts; constructor; [apply seg_segments|assumption].
Qed.
Print Assumptions C101_grapheme_iteration.
Theorem C101_output_tells_the_graphemes : forall gss gss' out, lines printed_graphemes gss out -> lines printed_graphemes gss' out -> gss = gss'.
Proof.
  intros gss gss' out L L'. apply (lines_fun printed_graphemes) with (t := out); [|assumption|assumption].
  intros x t x' t' r r' P P' E. destruct (printed_graphemes_split x t P x' t' r r' P' E) as (-> & _ & ->). auto.
Qed.
Print Assumptions C101_output_tells_the_graphemes.
Example C101_example : (* grapheme_iteration "e\u0301x" *)
  c_text [0x65; 0xCC; 0x81; 0x78; 0] [0x65; 0x301; 0x78] /\ grapheme_iteration 4 [[0x65; 0xCC; 0x81; 0x78; 0]] =
  Ok ([91; 32; 85; 43; 48; 48; 48; 48; 54; 53; 32; 85; 43; 48; 48; 48; 51; 48; 49; 32; 93] ++
      [91; 32; 85; 43; 48; 48; 48; 48; 55; 56; 32; 93; 10]).
Proof. split; [split; [repeat constructor; lia|exists []; reflexivity]|vm_compute; reflexivity]. Qed.

(** ** C102.  The normalization programs print the normalization form of their arguments. *)
(** [d] is the form of [cs] as the library computes it for UTF-32 (C47-C50, C55, C56 say what
    that is). *)
Definition form_text F (sort : list Z -> list Z) (fuel : nat) (cs d : list Z) : Prop :=
  exists n, normalize fuel (utf32_ops (string_buffer cs)) (F sort utf32_append_from_utf32ne fuel (utf32_ops (string_buffer cs))) 0 (zlen cs) [] = Ok (n, d).
Lemma form_text_unicode F listed sort cs fuel d : form_of F listed -> std_sort_ok sort -> Forall unicode_codepoint cs -> (length cs < fuel)%nat ->
  count_fits listed cs -> form_text F sort fuel cs d -> Forall unicode_codepoint d.
Proof.
  intros FO SO U Hf CF (n & E).
  assert (D32 : delimited_text (utf32_ops (string_buffer cs)) 0 (zlen cs) cs) by (eapply delimited_string; constructor). destruct FO.
  - unfold normalization_form_d in E. rewrite (run_d32 _ _ _ canonical_decomposition_eq canonical_listed sort SO _ _ _ _ D32 fuel Hf CF []) in E.
    injection E as _ <-. apply d_pieces_unicode; [exact canonical_unicode|assumption|assumption].
  - unfold normalization_form_kd in E. rewrite (run_d32 _ _ _ compat_decomposition_eq compat_listed sort SO _ _ _ _ D32 fuel Hf CF []) in E.
    injection E as _ <-. apply d_pieces_unicode; [exact compat_unicode|assumption|assumption].
  - unfold normalization_form_c in E. rewrite (run_c32 _ _ _ canonical_decomposition_eq canonical_listed sort SO _ _ _ _ D32 fuel Hf CF []) in E.
    injection E as _ <-. apply c_pieces_unicode; [exact canonical_unicode|assumption|assumption].
  - unfold normalization_form_kc in E. rewrite (run_c32 _ _ _ compat_decomposition_eq compat_listed sort SO _ _ _ _ D32 fuel Hf CF []) in E.
    injection E as _ <-. apply c_pieces_unicode; [exact compat_unicode|assumption|assumption].
Qed.
Lemma unicode_31 cs : Forall unicode_codepoint cs -> Forall codepoint31 cs.
Proof. intros U. eapply Forall_impl; [|exact U]. unfold unicode_codepoint, codepoint31. intros. change (2 ^ 31) with 2147483648. lia. Qed.
Lemma utf32_loop d fuel : (length d < fuel)%nat -> iterate_codepoints_for fuel (utf32_ops (string_buffer d)) 0 (zlen d) = Ok d.
Proof.
  intros H. pose proof (utf32_string_text d) as T. pose proof (ti_lawful _ _ _ _ _ _ _ T) as L.
  rewrite (iterate_for_lawful _ _ _ _ L (length d) 0%nat (length d) 0 (zlen d) fuel);
    [|lia|rewrite app_length; cbn [length]; lia|reflexivity|unfold zlen; lia|assumption].
  f_equal. exact (sub_all [] d [0]).
Qed.
(** The programs for UTF-32 do. *)
Theorem C102_utf32_programs : forall F listed sort cs d fuel, form_of F listed -> std_sort_ok sort -> Forall unicode_codepoint cs -> (length cs < fuel)%nat ->
  count_fits listed cs -> form_text F sort fuel cs d -> (length d < fuel)%nat ->
  exists out, normalization_program_utf32 (F sort) fuel cs = Ok out /\ printed [] d out.
Proof.
  intros F listed sort cs d fuel FO SO U Hf CF FT Ld. pose proof (form_text_unicode F listed sort cs fuel d FO SO U Hf CF FT) as UD.
  destruct FT as (n & E). unfold normalization_program_utf32. change (cs ++ [0]) with (string_buffer cs). rewrite E. cbn [bind].
  change (d ++ [0]) with (string_buffer d). rewrite (utf32_loop d fuel Ld). cbn [bind].
  eexists. split; [reflexivity|]. apply printed_ok'. apply unicode_31. assumption.
Qed.
Print Assumptions C102_utf32_programs.
(** The programs for UTF-8 do exactly if the forms of all arguments only have codepoints the
    encoder handles (C19). *)
Lemma read_back_for cs s fuel : Forall codepoint31 cs -> utf8_append_from_utf32ne [] cs = Ok s -> (length cs < fuel)%nat ->
  exists vs, iterate_codepoints_for fuel (utf8_ops (string_buffer s)) 0 (zlen s) = Ok vs /\
    Forall2 (fun c v => v = c <-> sized_ok c) cs vs /\ Forall codepoint31 vs.
Proof.
  intros F E L. destruct (append_chunks cs [] s E) as (os & ES & F2). cbn [app] in ES.
  assert (X : Forall loose os /\ Forall2 (fun c v => v = c <-> sized_ok c) cs (map sequence_value os) /\ length os = length cs).
  { clear E ES L. revert os F2. induction F as [|c cs Hc F IH]; intros os F2; inversion F2 as [|c' o cs' os' E1 F2' E2 E3].
    - subst. repeat split; constructor.
    - destruct (IH os' F2') as (A & B & C). destruct (encode_one_loose c o Hc E1) as (A1 & B1).
      split; [|split]; [constructor; assumption|cbn [map]; constructor; assumption|cbn [length]; lia]. }
  destruct X as (FL & FV & LL).
  assert (US : Forall octet_upto_FD s).
  { subst s. apply Forall_concat. intros o I. rewrite Forall_forall in FL. destruct (FL o I) as (h & t & _ & _ & U & _). exact U. }
  exists (map sequence_value os). split; [apply (loose_loops s); [assumption|assumption|assumption|lia]|]. split; [assumption|].
  destruct (loose_walk s os [] ES FL) as (rs & _ & <-). apply Forall_forall. intros v V. apply in_map_iff in V. destruct V as (r & <- & _).
  pose proof (value_small (string_buffer s) (buffer_upto s US) r). unfold codepoint31. lia.
Qed.
Lemma program_line F listed sort cs d fuel mem : form_of F listed -> std_sort_ok sort -> Forall unicode_codepoint cs -> (length cs < fuel)%nat ->
  count_fits listed cs -> c_text mem cs -> form_text F sort fuel cs d -> (length d < fuel)%nat ->
  let body := let* n := strlen mem in
    let mem := firstn (Z.to_nat n) mem ++ [0] in
    let* '(_, output) := normalize fuel (utf8_ops mem) (F sort utf8_append_from_utf32ne fuel (utf8_ops mem)) 0 n [] in
    let* cs := iterate_codepoints_for fuel (utf8_ops (output ++ [0])) 0 (zlen output) in
    Ok (flat_map printf_codepoint cs) in
  ((forall t, body <> Ok t) /\ ~ (forall c, In c d -> sized_ok c)) \/
  exists vs t, body = Ok t /\ printed [] vs t /\ (vs = d <-> forall c, In c d -> sized_ok c).
Proof.
  intros FO SO U Hf CF C FT Ld. pose proof (form_text_unicode F listed sort cs fuel d FO SO U Hf CF FT) as UD.
  pose proof (c_text_31 mem cs C) as C31. rewrite (c_text_strlen mem cs C). destruct C as (_ & rest & ->). cbn [bind].
  assert (FN : firstn (Z.to_nat (zlen (utf8_text cs))) (utf8_text cs ++ 0 :: rest) = utf8_text cs).
  { unfold zlen. rewrite Nat2Z.id, firstn_app, Nat.sub_diag, firstn_all. cbn [firstn]. apply app_nil_r. }
  rewrite FN. change (utf8_text cs ++ [0]) with (string_buffer (utf8_text cs)). cbv zeta.
  destruct (C52_utf8_is_encoded_utf32_partial F listed sort cs fuel FO SO C31 Hf CF) as (n & d' & E & H). destruct FT as (n' & E').
  rewrite E in E'. injection E' as -> ->. rewrite (H []). clear H E.
  destruct (utf8_append_from_utf32ne [] d) as [o|u|] eqn:EO; cbn [bind].
  - right. destruct (read_back_for d o fuel (unicode_31 d UD) EO Ld) as (vs & EV & F2 & V31). change (o ++ [0]) with (string_buffer o). rewrite EV. cbn [bind].
    eexists vs, _. split; [reflexivity|]. split; [apply printed_ok'; assumption|apply Forall2_all_eq; assumption].
  - left. split; [discriminate|]. intros K. rewrite (proj2 (append_text_iff d (unicode_31 d UD) []) (proj2 (Forall_forall _ d) K)) in EO. discriminate.
  - left. split; [discriminate|]. intros K. rewrite (proj2 (append_text_iff d (unicode_31 d UD) []) (proj2 (Forall_forall _ d) K)) in EO. discriminate.
Qed.
Theorem C102_utf8_programs_iff_partial : forall F listed sort argv texts forms fuel, form_of F listed -> std_sort_ok sort ->
  Forall2 c_text argv texts -> Forall2 (form_text F sort fuel) texts forms ->
  Forall (fun cs => Forall unicode_codepoint cs /\ count_fits listed cs /\ (length cs < fuel)%nat) texts -> Forall (fun d => (length d < fuel)%nat) forms ->
  ((exists out, normalization_program (F sort) fuel argv = Ok out /\ lines (printed []) forms out) <->
   forall d c, In d forms -> In c d -> 1 <= c <= 0x7FF \/ 0x2000 <= c <= 0xFFFF \/ 0x80000 <= c <= 0x10FFFF).
Proof.
  intros F listed sort argv texts forms fuel FO SO FC FF FU FL.
  assert (US : forall d c, Forall2 (form_text F sort fuel) texts forms -> In d forms -> In c d -> (sized_ok c <-> 1 <= c <= 0x7FF \/ 0x2000 <= c <= 0xFFFF \/ 0x80000 <= c <= 0x10FFFF)).
  { intros d c F2 Id Ic. assert (X : exists cs, In cs texts /\ form_text F sort fuel cs d).
    { clear - F2 Id. induction F2 as [|cs d0 texts forms H F2 IH]; [destruct Id|]. destruct Id as [->|Id]; [exists cs; split; [left; reflexivity|assumption]|].
      destruct (IH Id) as (cs' & I & X). exists cs'. split; [right; assumption|assumption]. }
    destruct X as (cs & I & X). rewrite Forall_forall in FU. destruct (FU cs I) as (U & CF & L).
    pose proof (form_text_unicode F listed sort cs fuel d FO SO U L CF X) as UD. rewrite Forall_forall in UD. specialize (UD c Ic).
    unfold unicode_codepoint, sized_ok in *. lia. }
  assert (G : (exists out, normalization_program (F sort) fuel argv = Ok out /\ lines (printed []) forms out) <-> forall d c, In d forms -> In c d -> sized_ok c).
  { clear US. revert forms FF FL. unfold normalization_program.
    induction FC as [|mem cs argv texts C FC IH]; intros forms FF FL; inversion FF as [|a d b forms' FT FF']; subst.
    - split; [intros _ d c []|]. intros _. exists []. split; constructor.
    - inversion FU as [|a b (U & CF & L) FU']; subst. inversion FL as [|a b Ld FL']; subst. specialize (IH FU' forms' FF' FL').
      cbn [for_each_argument]. pose proof (program_line F listed sort cs d fuel mem FO SO U L CF C FT Ld) as PL. cbv zeta in PL.
      match type of PL with ((forall t, ?b <> _) /\ _) \/ _ => set (line := b) in * end.
      match type of IH with (exists out, ?r = Ok out /\ _) <-> _ => set (more := r) in * end.
      destruct PL as [(N & K)|(vs & t & E & P & I)].
      + split; [|intros X; destruct K; intros c Hc; apply (X d c); [left; reflexivity|assumption]].
        intros (out & O & _). destruct line as [l| |]; try discriminate. destruct (N l eq_refl).
      + rewrite E. cbn [bind]. split.
        * intros (out & O & LN). destruct more as [r| |]; try discriminate. cbn [bind] in O. injection O as <-.
          inversion LN as [|x xs t1 r1 P1 L1 E1]; subst. 
          destruct (printed_line [] d t1 vs t r1 r ltac:(auto) P1 P ltac:(assumption)) as (-> & ->).
          intros d0 c [<-|Id] Ic; [apply (proj1 I eq_refl); assumption|]. apply (proj1 IH ltac:(eauto) d0 c); assumption.
        * intros X. rewrite (proj2 I) in P by (intros c Hc; apply (X d c); [left; reflexivity|assumption]).
          destruct (proj2 IH ltac:(intros d0 c Hd Hc; apply (X d0 c); [right; assumption|assumption])) as (r & -> & LR). cbn [bind].
          eexists. split; [reflexivity|]. constructor; assumption. }
  rewrite G. split; intros X d c Hd Hc; [apply (US d c FF Hd Hc)|apply (US d c FF Hd Hc)]; apply X with d; assumption.
Qed.
Print Assumptions C102_utf8_programs_iff_partial.
(** False in general: normalization_form_c "\u1E69" prints " U+1a40000". *)
Theorem C102_utf8_programs_refuted : exists out, c_text [0xE1; 0xB9; 0xA9; 0] [0x1E69] /\ form_text normalization_form_c isort 9 [0x1E69] [0x1E69] /\
  normalization_program (normalization_form_c isort) 9 [[0xE1; 0xB9; 0xA9; 0]] = Ok out /\
  lines (printed []) [[0x1A40000]] out /\ ~ lines (printed []) [[0x1E69]] out.
Proof.
  eexists. split; [split; [repeat constructor; lia|exists []; reflexivity]|]. split; [exists 1; vm_compute; reflexivity|].
  split; [vm_compute; reflexivity|].
  assert (P : lines (printed []) [[0x1A40000]] [32; 85; 43; 49; 97; 52; 48; 48; 48; 48; 10]).
  { change [32; 85; 43; 49; 97; 52; 48; 48; 48; 48; 10] with ([32; 85; 43; 49; 97; 52; 48; 48; 48; 48] ++ [10] ++ []). constructor; [|constructor].
    exact (printed_ok' [0x1A40000] ltac:(repeat constructor; unfold codepoint31; lia)). }
  split; [exact P|]. intros L.
  assert (E : [[0x1A40000]] = [[0x1E69]]).
  { apply (lines_fun (printed [])) with (t := [32; 85; 43; 49; 97; 52; 48; 48; 48; 48; 10]); [|assumption|assumption].
    intros x t x' t' r r' A B EQ. apply (printed_line [] x t x' t' r r'); auto. }
  discriminate.
Qed.
Print Assumptions C102_utf8_programs_refuted.
Example C102_example : (* normalization_form_d "é" "x"; the input of the UTF-32 examples in form KC *)
  c_text [0xC3; 0xA9; 0] [0xE9] /\ form_text normalization_form_d isort 3 [0xE9] [0x65; 0x301] /\
  normalization_program (normalization_form_d isort) 3 [[0xC3; 0xA9; 0]; [0x78; 0]] =
    Ok ([32; 85; 43; 48; 48; 48; 48; 54; 53; 32; 85; 43; 48; 48; 48; 51; 48; 49; 10] ++ [32; 85; 43; 48; 48; 48; 48; 55; 56; 10]) /\
  (exists out, normalization_program_utf32 (normalization_form_kc isort) 9 [0xC4; 0xFB03; 110] = Ok out /\ printed [] [0xC4; 102; 102; 105; 110] out).
Proof.
  split; [split; [repeat constructor; lia|exists []; reflexivity]|]. split; [exists 2; vm_compute; reflexivity|]. split; [vm_compute; reflexivity|].
  eexists. split; [vm_compute; reflexivity|]. exact (printed_ok' [0xC4; 102; 102; 105; 110] ltac:(repeat constructor; unfold codepoint31; lia)).
Qed.

(** ** C103.  smallest_code returns the first codepoint of its argument (0 for the empty
    argument); truncate_on_codepoint prints the longest prefix of whole codepoints that fits
    in [count] octets, truncate_on_grapheme whole graphemes from in front of position [count]. *)
Theorem C103_smallest_code : forall mem cs, c_text mem cs -> smallest_code mem = Ok (hd 0 cs).
Proof.
  intros mem cs (F & rest & ->). unfold smallest_code. destruct cs as [|c cs].
  - vm_compute. reflexivity.
  - inversion F as [|a b Hc _]; subst. unfold utf8_text. cbn [flat_map hd]. rewrite <- app_assoc.
    assert (C : codepoint31 c) by (unfold codepoint31; lia).
    destruct (C04_inside_a_codepoint [] c (flat_map utf8_encode cs ++ 0 :: rest) 0 C) as (E & _).
    { split; [lia|]. unfold utf8_encode. repeat match goal with |- context [if ?a then _ else _] => destruct a end; reflexivity. }
    cbn [app] in E. change (zlen (@nil Z)) with 0 in E. cbn in E. rewrite E. reflexivity.
Qed.
Print Assumptions C103_smallest_code.
Theorem C103_truncate_on_codepoint : forall cs count, Forall codepoint31 cs -> 0 <= count <= zlen (utf8_text cs) ->
  exists k, (k <= length cs)%nat /\ truncate_on_codepoint (utf8_text cs) count = Ok (utf8_text (firstn k cs) ++ [10]) /\
    zlen (utf8_text (firstn k cs)) <= count /\ ((k < length cs)%nat -> count < zlen (utf8_text (firstn (S k) cs))).
Proof.
  intros cs count C H. destruct (C25_append_truncates cs count C H) as (k & K & E & A & B). exists k. split; [assumption|].
  split; [|split; assumption]. unfold truncate_on_codepoint. change (utf8_text cs ++ [0]) with (string_buffer (utf8_text cs)). rewrite E. reflexivity.
Qed.
Print Assumptions C103_truncate_on_codepoint.
Theorem C103_truncate_on_grapheme_partial : forall cs before g after i count fuel,
  Forall codepoint31 cs -> segments pairwise_boundary cs (before ++ g :: after) ->
  (length (concat before) <= i < length (concat before) + length g)%nat ->
  zlen (utf8_text (firstn i cs)) <= count < zlen (utf8_text (firstn (S i) cs)) -> (length cs < fuel)%nat ->
  exists kept, truncate_on_grapheme fuel (utf8_text cs) count = Ok (map (fun c => c mod 256) kept ++ [10]) /\
    (exists k, (k <= i)%nat /\ kept = firstn k cs) /\
    (kept = concat before <-> backwards_condition cs (length (concat before)) i).
Proof.
  intros cs before g after i count fuel C S Hi Hp Hf.
  destruct (C66_truncate_on_grapheme_utf8_partial cs before g after i count fuel [] C S Hi Hp Hf) as (gb & gi & kept & B & G & A & P & Q).
  exists kept. split; [|split; assumption]. unfold truncate_on_grapheme. change (utf8_text cs ++ [0]) with (string_buffer (utf8_text cs)).
  unfold grapheme_begin in B. rewrite B, G. cbn [bind]. rewrite A. reflexivity.
Qed.
Print Assumptions C103_truncate_on_grapheme_partial.
(** So it does for texts that are ASCII in front of the grapheme and for which the condition
    of C41 holds. *)
Theorem C103_truncate_on_grapheme_ascii_partial : forall cs before g after i count fuel,
  Forall codepoint31 cs -> segments pairwise_boundary cs (before ++ g :: after) ->
  (length (concat before) <= i < length (concat before) + length g)%nat ->
  zlen (utf8_text (firstn i cs)) <= count < zlen (utf8_text (firstn (S i) cs)) -> (length cs < fuel)%nat ->
  Forall (fun c => c < 128) (concat before) -> backwards_condition cs (length (concat before)) i ->
  truncate_on_grapheme fuel (utf8_text cs) count = Ok (utf8_text (concat before) ++ [10]).
Proof.
  intros cs before g after i count fuel C S Hi Hp Hf A B.
  destruct (C103_truncate_on_grapheme_partial cs before g after i count fuel C S Hi Hp Hf) as (kept & E & _ & Q).
  rewrite E, (proj2 Q B). do 2 f_equal. destruct S as (EC & _). rewrite <- EC, concat_app in C. apply Forall_app in C. destruct C as (C & _).
  clear - A C. induction (concat before) as [|c l IH]; [reflexivity|]. inversion A; inversion C; subst. unfold utf8_text. cbn [map flat_map].
  unfold codepoint31 in *. unfold utf8_encode at 1. replace (c <? 128) with true by lia. rewrite Z.mod_small by lia. cbn [app]. f_equal. apply IH; assumption.
Qed.
Print Assumptions C103_truncate_on_grapheme_ascii_partial.
(** False in general: of "éa\u0301!" cut at 3 octets it prints the octet E9 (C26), not "é". *)
Theorem C103_truncate_on_grapheme_refuted : segments pairwise_boundary [0xE9; 0x61; 0x301; 0x21] ([[0xE9]] ++ [0x61; 0x301] :: [[0x21]]) /\
  utf8_text [0xE9; 0x61; 0x301; 0x21] = [0xC3; 0xA9; 0x61; 0xCC; 0x81; 0x21] /\
  truncate_on_grapheme 9 [0xC3; 0xA9; 0x61; 0xCC; 0x81; 0x21] 3 = Ok [0xE9; 10].
Proof.
  split; [|split; vm_compute; reflexivity].
  replace ([[0xE9]] ++ [0x61; 0x301] :: [[0x21]]) with (seg [0xE9; 0x61; 0x301; 0x21]) by (vm_compute; reflexivity). apply seg_segments.
Qed.
Print Assumptions C103_truncate_on_grapheme_refuted.
Example C103_example : (* the programs as they are: "Ola\xCC\x81!" cut at 4 *)
  utf8_text [0x4F; 0x6C; 0x61; 0x301; 0x21] = [0x4F; 0x6C; 0x61; 0xCC; 0x81; 0x21] /\
  truncate_on_codepoint [0x4F; 0x6C; 0x61; 0xCC; 0x81; 0x21] 4 = Ok [0x4F; 0x6C; 0x61; 10] /\
  truncate_on_grapheme 9 [0x4F; 0x6C; 0x61; 0xCC; 0x81; 0x21] 4 = Ok [0x4F; 0x6C; 10] /\
  smallest_code [0xE2; 0x82; 0xAC; 0] = Ok 0x20AC.
Proof. repeat split; vm_compute; reflexivity. Qed.
Example C103_ascii_example : exists before g after, segments pairwise_boundary [0x4F; 0x6C; 0x61; 0x301; 0x21] (before ++ g :: after) /\
  concat before = [0x4F; 0x6C] /\ g = [0x61; 0x301] /\ backwards_condition [0x4F; 0x6C; 0x61; 0x301; 0x21] 2 3.
Proof.
  exists [[0x4F]; [0x6C]], [0x61; 0x301], [[0x21]]. split.
  - replace ([[0x4F]; [0x6C]] ++ [0x61; 0x301] :: [[0x21]]) with (seg [0x4F; 0x6C; 0x61; 0x301; 0x21]) by (vm_compute; reflexivity). apply seg_segments.
  - split; [reflexivity|]. split; [reflexivity|]. right. split; [|intros k K; lia]. right. cbn [nth]. apply (boundary_after [0x301] 0x61); [discriminate|]. vm_compute. reflexivity.
Qed.
