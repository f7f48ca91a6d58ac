(** * Properties C72-C76: the generators of the property tables

    Read with GenSpec.v (what the files of the Unicode Character Database say) and
    UnicodeSpec.v ([expands]).  [ord] is the order in which Perl returns the keys of a
    hash, which differs between runs: it is universally quantified. *)
From Coq Require Import Ascii String Permutation.
From Verif Require Import Prelude DataTables UcdTables UnicodeSpec GenModel GenSpec PropsModel GenText
  DecompTables GenProofs GenComp GenBreak GenBare GenShipped.

(** ** C72 *)
Theorem C72_class_table : forall ord file, some_order ord -> file_ok file ->
  forall c k, class_resolve_in (generate_class ord (map line_of file)) c = Ok k <-> file_class file c k.
Proof. exact class_resolve_generated. Qed.
Print Assumptions C72_class_table.
Definition txt (s : string) : list ascii := list_ascii_of_string s.
Definition keep_order : nat -> list (list ascii) -> list (list ascii) := fun _ l => l.
Definition reversed : nat -> list (list ascii) -> list (list ascii) := fun _ l => rev l.
Lemma keep_order_ok : some_order keep_order.
Proof. intros n l. apply Permutation_refl. Qed.
Lemma reversed_ok : some_order reversed.
Proof. intros n l. apply Permutation_rev. Qed.
(** A small file: the lines below, in another order, with a letter that has a
    compatibility mapping only. *)
Definition small_file : list entry :=
  [ Entry 0x1E69 (txt "LATIN SMALL LETTER S WITH DOT BELOW AND DOT ABOVE") (txt "Ll") 0 (txt "L")
      (Some (None, [0x1E63; 0x307])) [[]; []; []; txt "N"];
    Entry 0x307 (txt "COMBINING DOT ABOVE") (txt "Mn") 230 (txt "NSM") None [[]; []; []; txt "N"];
    Entry 0x1E63 (txt "LATIN SMALL LETTER S WITH DOT BELOW") (txt "Ll") 0 (txt "L")
      (Some (None, [0x73; 0x323])) [[]; []; []; txt "N"];
    Entry 0x323 (txt "COMBINING DOT BELOW") (txt "Mn") 220 (txt "NSM") None [[]; []; []; txt "N"];
    Entry 0x73 (txt "LATIN SMALL LETTER S") (txt "Ll") 0 (txt "L") None [[]; []; []; txt "N"];
    Entry 0x17F (txt "LATIN SMALL LETTER LONG S") (txt "Ll") 0 (txt "L")
      (Some (Some (txt "compat"), [0x73])) [[]; []; []; txt "N"];
    Entry 0x1E9B (txt "LATIN SMALL LETTER LONG S WITH DOT ABOVE") (txt "Ll") 0 (txt "L")
      (Some (None, [0x17F; 0x307])) [[]; []; []; txt "N"] ].
Lemma not_in_text (c : ascii) (t : list ascii) : existsb (Ascii.eqb c) t = false -> ~ In c t.
Proof.
  intros H N. assert (existsb (Ascii.eqb c) t = true); [|congruence].
  apply existsb_exists. exists c. split; [assumption|apply Ascii.eqb_refl].
Qed.
Lemma small_file_ok : file_ok small_file.
Proof.
  split.
  - apply Forall_forall. unfold small_file.
    do 7 (apply Forall_cons;
      [split; [cbn; lia|]; split; [cbn; lia|]; split;
       [apply Forall_forall; cbn [e_name e_category e_bidi e_rest];
        repeat (apply Forall_cons; [apply not_in_text; vm_compute; reflexivity|]); apply Forall_nil
       |intros tag l E; cbn [e_mapping] in E; first [discriminate E|injection E as <- <-; split; [discriminate|]; split;
        [apply Forall_forall; repeat (apply Forall_cons; [lia|]); apply Forall_nil
        |intros t T; try discriminate T; injection T as <-; split; apply not_in_text; vm_compute; reflexivity]]]|]).
    apply Forall_nil.
  - cbn [map e_code small_file].
    repeat (constructor; [intros H; cbn [In] in H; repeat (destruct H as [H|H]; [discriminate H|]); exact H|]). constructor.
Qed.
Example C72_example :
  map line_of (firstn 2 small_file) =
    [txt "1E69;LATIN SMALL LETTER S WITH DOT BELOW AND DOT ABOVE;Ll;0;L;1E63 0307;;;;N";
     txt "0307;COMBINING DOT ABOVE;Mn;230;NSM;;;;;N"] /\
  generate_class keep_order (map line_of small_file) = [[0x307; 230]; [0x323; 220]] /\
  generate_class reversed (map line_of small_file) = [[0x307; 230]; [0x323; 220]].
Proof. repeat split; vm_compute; reflexivity. Qed.

(** ** C73 *)
(** When every codepoint has a full decomposition, the generators terminate, and the
    lookup in the table they write gives it. *)
Theorem C73_canonical_table : forall ord file, some_order ord -> file_ok file ->
  (forall c, exists D, expands (file_canonical file) c D) ->
  exists N table,
    (forall fuel, (N <= fuel)%nat -> generate_mapping false fuel ord (map line_of file) = Ok table) /\
    forall c,
      (forall l, file_canonical file c l ->
         exists D, mapping_resolve_in table c = Ok (Some (D ++ [0])) /\ expands (file_canonical file) c D) /\
      ((forall l, ~ file_canonical file c l) -> mapping_resolve_in table c = Ok None).
Proof.
  intros ord file O W E. destruct (mapping_terminates false ord file O W E) as (N & table & G).
  exists N, table. split; [assumption|]. exact (mapping_resolve_generated false ord file O W N table (G N (Nat.le_refl N))).
Qed.
Print Assumptions C73_canonical_table.
Theorem C73_compatibility_table : forall ord file, some_order ord -> file_ok file ->
  (forall c, exists D, expands (file_compat file) c D) ->
  exists N table,
    (forall fuel, (N <= fuel)%nat -> generate_mapping true fuel ord (map line_of file) = Ok table) /\
    forall c,
      (forall l, file_compat file c l ->
         exists D, mapping_resolve_in table c = Ok (Some (D ++ [0])) /\ expands (file_compat file) c D) /\
      ((forall l, ~ file_compat file c l) -> mapping_resolve_in table c = Ok None).
Proof.
  intros ord file O W E. destruct (mapping_terminates true ord file O W E) as (N & table & G).
  exists N, table. split; [assumption|]. exact (mapping_resolve_generated true ord file O W N table (G N (Nat.le_refl N))).
Qed.
Print Assumptions C73_compatibility_table.
(** Otherwise they run forever, for instance when a codepoint leads back to itself. *)
Theorem C73_runs_forever : forall ord file, some_order ord -> file_ok file ->
  (forall c, (forall D, ~ expands (file_canonical file) c D) ->
     forall fuel, generate_mapping false fuel ord (map line_of file) = OutOfFuel) /\
  (forall c, (forall D, ~ expands (file_compat file) c D) ->
     forall fuel, generate_mapping true fuel ord (map line_of file) = OutOfFuel).
Proof. intros ord file O W. split; intros c; [exact (mapping_hangs false ord file O W c)|exact (mapping_hangs true ord file O W c)]. Qed.
Print Assumptions C73_runs_forever.
Theorem C73_cycle_runs_forever : forall ord file, some_order ord -> file_ok file ->
  (forall c, reaches (file_canonical file) c c ->
     forall fuel, generate_mapping false fuel ord (map line_of file) = OutOfFuel) /\
  (forall c, reaches (file_compat file) c c ->
     forall fuel, generate_mapping true fuel ord (map line_of file) = OutOfFuel).
Proof.
  intros ord file O W. split; intros c R.
  - apply (mapping_hangs false ord file O W c). intros D. apply (cycle_no_expansion _ _ _ (file_mapping_fun false file W) R).
  - apply (mapping_hangs true ord file O W c). intros D. apply (cycle_no_expansion _ _ _ (file_mapping_fun true file W) R).
Qed.
Print Assumptions C73_cycle_runs_forever.
Example C73_example :
  generate_mapping false 3 keep_order (map line_of small_file) =
    Ok [[0x1E63; 0x73; 0x323; 0]; [0x1E69; 0x73; 0x323; 0x307; 0]; [0x1E9B; 0x17F; 0x307; 0]] /\
  generate_mapping true 3 reversed (map line_of small_file) =
    Ok [[0x17F; 0x73; 0]; [0x1E63; 0x73; 0x323; 0]; [0x1E69; 0x73; 0x323; 0x307; 0]; [0x1E9B; 0x73; 0x307; 0]].
Proof. repeat split; vm_compute; reflexivity. Qed.
(** The small file meets the hypothesis. *)
Lemma small_expansions : forall c, exists D, expands (file_canonical small_file) c D.
Proof.
  set (M := file_canonical small_file).
  assert (None' : forall x, ~ In x [0x1E69; 0x1E63; 0x1E9B] -> forall l, ~ M x l).
  { intros x N l (e & I & C & E). cbn in I. apply N.
    repeat (destruct I as [<-|I]; [cbn in C, E; subst x; first [discriminate E|cbn; tauto]|]). destruct I. }
  assert (U : forall x, ~ In x [0x1E69; 0x1E63; 0x1E9B] -> expands M x [x]) by (intros x N; apply expands_none, None', N).
  assert (B : expands M 0x1E63 [0x73; 0x323]).
  { eapply (expands_map _ _ [0x73; 0x323]); [eexists; split; [right; right; left; reflexivity|split; reflexivity]|].
    apply (expands_cons _ _ _ [0x73] [0x323]); [apply U; cbn; lia|]. apply (expands_cons _ _ _ [0x323] []); [apply U; cbn; lia|constructor]. }
  intros c. destruct (Z.eq_dec c 0x1E69) as [->|N1].
  { exists [0x73; 0x323; 0x307]. eapply (expands_map _ _ [0x1E63; 0x307]); [eexists; split; [left; reflexivity|split; reflexivity]|].
    apply (expands_cons _ _ _ [0x73; 0x323] [0x307]); [exact B|]. apply (expands_cons _ _ _ [0x307] []); [apply U; cbn; lia|constructor]. }
  destruct (Z.eq_dec c 0x1E63) as [->|N2]; [eexists; exact B|].
  destruct (Z.eq_dec c 0x1E9B) as [->|N3].
  { exists [0x17F; 0x307]. eapply (expands_map _ _ [0x17F; 0x307]); [eexists; split; [do 6 right; left; reflexivity|split; reflexivity]|].
    apply (expands_cons _ _ _ [0x17F] [0x307]); [apply U; cbn; lia|]. apply (expands_cons _ _ _ [0x307] []); [apply U; cbn; lia|constructor]. }
  exists [c]. apply U. cbn. intros [H|[H|[H|[]]]]; congruence.
Qed.
(** Two codepoints mapped to each other. *)
Definition cyclic_file : list entry :=
  [ Entry 0x41 [] [] 0 [] (Some (None, [0x42])) []; Entry 0x42 [] [] 0 [] (Some (None, [0x41])) [] ].
Example C73_cycle_example : reaches (file_canonical cyclic_file) 0x41 0x41 /\
  generate_mapping false 20 keep_order (map line_of cyclic_file) = OutOfFuel.
Proof.
  split; [|vm_compute; reflexivity].
  eapply (reaches_more _ _ [0x42] 0x42); [eexists; split; [left; reflexivity|split; reflexivity]|left; reflexivity|].
  eapply (reaches_one _ _ [0x41]); [eexists; split; [right; left; reflexivity|split; reflexivity]|left; reflexivity].
Qed.

(** ** C74.  False: a line of CompositionExclusions.txt with exactly one space before
    the comment is ignored. *)
Definition small_exclusions (spaces : nat) : list exclusion :=
  [ Comment (txt " exclusions"); Blank; Excluded 0x1E63 spaces (txt "  LATIN SMALL LETTER S WITH DOT BELOW") ].
Theorem C74_composition_table_refuted :
  (forall x, In x (small_exclusions 1) -> exclusion_ok x) /\ file_ok small_file /\ pairs_ok small_file /\
  listed_exclusion (small_exclusions 1) 0x1E63 /\
  (forall ord, some_order ord ->
     composition_resolve_in (generate_composition ord (map line_of small_file)
       (map exclusion_text (small_exclusions 1))) 0x73 0x323 = Ok (Some 0x1E63)) /\
  map exclusion_text (small_exclusions 1) =
    [txt "# exclusions"; []; txt "1E63 #  LATIN SMALL LETTER S WITH DOT BELOW"].
Proof.
  assert (K : forall n x, In x (small_exclusions n) -> exclusion_ok x).
  { intros n x [<-|[<-|[<-|[]]]]; cbn; lia || exact I. }
  assert (C : forall c l, file_canonical small_file c l -> (c, l) = (0x1E69, [0x1E63; 0x307]) \/ (c, l) = (0x1E63, [0x73; 0x323]) \/ (c, l) = (0x1E9B, [0x17F; 0x307])).
  { intros c l (e & J & Q & E). cbn in J.
    repeat (destruct J as [<-|J]; [cbn in Q, E; subst c; first [discriminate E|injection E as <-; tauto]|]). destruct J. }
  assert (P : pairs_ok small_file).
  { split.
    - intros c l H. apply C in H. destruct H as [H|[H|H]]; injection H as -> ->; cbn; lia.
    - intros a b c c' H _ H' _. apply C in H, H'.
      destruct H as [H|[H|H]]; injection H as -> -> ->; destruct H' as [H'|[H'|H']]; congruence. }
  split; [apply K|]. split; [exact small_file_ok|]. split; [exact P|].
  split; [left; eexists _, _; right; right; left; reflexivity|]. split; [|vm_compute; reflexivity].
  intros ord O. apply (composition_resolve_generated ord small_file (small_exclusions 1) O small_file_ok P (K 1%nat) 0x73 0x323).
  split; [eexists; split; [right; right; left; reflexivity|split; reflexivity]|].
  split; [left; eexists; split; [right; right; left; reflexivity|split; reflexivity]|].
  split; [left; eexists; split; [do 4 right; left; reflexivity|split; reflexivity]|].
  intros [(n & t & [H|[H|[]]])|[H|[H|[]]]]; discriminate H.
Qed.
Print Assumptions C74_composition_table_refuted.
(** The lookup in the table gives exactly the primary composites of the files, as if
    the lines with a single space were not there. *)
Theorem C74_composition_table_partial : forall ord file excl, some_order ord -> file_ok file -> pairs_ok file ->
  (forall x, In x excl -> exclusion_ok x) ->
  forall a b,
    (forall c, file_primary file (not_single_space excl) a b c ->
       composition_resolve_in (generate_composition ord (map line_of file) (map exclusion_text excl)) a b = Ok (Some c)) /\
    ((forall c, ~ file_primary file (not_single_space excl) a b c) ->
       composition_resolve_in (generate_composition ord (map line_of file) (map exclusion_text excl)) a b = Ok None).
Proof. exact composition_resolve_generated. Qed.
Print Assumptions C74_composition_table_partial.
(** So the table is right exactly when no line with a single space is the only one to
    exclude a composite. *)
Theorem C74_composition_table_iff_partial : forall ord file excl, some_order ord -> file_ok file -> pairs_ok file ->
  (forall x, In x excl -> exclusion_ok x) ->
  ((forall a b c, composition_resolve_in (generate_composition ord (map line_of file) (map exclusion_text excl)) a b
      = Ok (Some c) <-> file_primary file excl a b c) <->
   (forall a b c, file_primary file (not_single_space excl) a b c -> ~ listed_exclusion excl c)).
Proof.
  intros ord file excl O W U X. pose proof (composition_resolve_generated ord file excl O W U X) as G.
  assert (L : forall c, listed_exclusion (not_single_space excl) c -> listed_exclusion excl c).
  { intros c [(n & t & H)|H]; apply filter_In in H; [left; exists n, t|right]; apply H. }
  split.
  - intros H a b c P. apply (H a b c). apply G. exact P.
  - intros H a b c. split.
    + intros E. destruct (composition_rows ord file excl O W U X) as [_ R].
      assert (P : file_primary file (not_single_space excl) a b c).
      { unfold composition_resolve_in in E.
        destruct (PropsProofs.bsearch_correct _ _ (ordered_pairs' _ a b (proj1 (composition_rows ord file excl O W U X)))) as [(r & Q & I & C)|(Q & _)];
          rewrite Q in E; cbn [bind] in E; [|discriminate].
        apply R in I. destruct I as (a' & b' & c' & F & ->). apply compare_pair_zero in C. destruct C as [<- <-].
        change (rd [a; b; c'] 2) with (Ok c') in E. cbn [bind] in E. injection E as <-. exact F. }
      destruct P as (P1 & P2 & P3 & P4). repeat split; [assumption..|]. apply (H a b c). repeat split; assumption.
    + intros (P1 & P2 & P3 & P4). apply G. repeat split; [assumption..|]. intros N. apply P4, L, N.
Qed.
Print Assumptions C74_composition_table_iff_partial.
Example C74_example : (* excluded with four spaces, and everything else composes *)
  generate_composition reversed (map line_of small_file) (map exclusion_text (small_exclusions 4)) =
    [[0x17F; 0x307; 0x1E9B]; [0x1E63; 0x307; 0x1E69]].
Proof. vm_compute. reflexivity. Qed.

(** ** C75.  False: without a comment after it a value loses its last letter, and the
    table says LV where the file says LVT. *)
Theorem C75_break_table_refuted :
  exists table, generate_break [txt "AC01..AC1B    ; LVT"] = Some table /\
    break_resolve_in table 0xAC01 = Ok G_LV.
Proof. eexists. split; vm_compute; reflexivity. Qed.
Print Assumptions C75_break_table_refuted.
(** With a comment after each value, and with each codepoint on one line at most, the
    generator succeeds and the lookup gives what the file says. *)
Theorem C75_break_table_partial : forall xs lines, Forall2 break_line_says xs lines -> Forall break_line_ok xs ->
  disjoint (flat_map break_range xs) ->
  exists table, generate_break lines = Some table /\
    forall c v, break_resolve_in table c = Ok v <-> file_break (flat_map break_range xs) c v.
Proof.
  intros xs lines F O D. eexists. split; [apply (generate_break_rows xs lines F O)|].
  intros c v. apply break_table_resolve; [assumption|].
  apply Forall_forall. intros r H. apply in_flat_map in H. destruct H as (x & I & R). rewrite Forall_forall in O. specialize (O x I).
  destruct x as [lo hi n u t|z n u t|l]; cbn in R; try (destruct R as [<-|[]]); cbn in *; try lia.
Qed.
Print Assumptions C75_break_table_partial.
(** Exactly: in a file where some values have no comment behind them, the generator succeeds
    with the right table if and only if there is no such line. *)
Theorem C75_break_table_iff_partial : forall xs lines,
  Forall2 (fun x line => break_line_says x line \/ bare_line_says x line) xs lines -> Forall break_line_ok xs ->
  disjoint (flat_map break_range xs) ->
  ((exists table, generate_break lines = Some table /\
     forall c v, break_resolve_in table c = Ok v <-> file_break (flat_map break_range xs) c v) <->
   forall i x line, nth_error xs i = Some x -> nth_error lines i = Some line -> ~ bare_line_says x line).
Proof. exact break_table_iff. Qed.
Print Assumptions C75_break_table_iff_partial.
(** A file with both kinds of lines; the value LF without a comment is read as L. *)
Example C75_bare_example :
  let xs := [BreakOne 0xD 10 G_CR (txt " Cc"); BreakOne 0xA 10 G_LF []] in
  let lines := [txt "000D          ; CR # Cc"; txt "000A          ; LF"] in
  Forall2 (fun x line => break_line_says x line \/ bare_line_says x line) xs lines /\ Forall break_line_ok xs /\
  disjoint (flat_map break_range xs) /\ generate_break lines = Some [(0xA, 0xA, G_L); (0xD, 0xD, G_CR)].
Proof.
  cbn zeta. split; [|split; [|split]].
  - constructor; [left; apply (says_one 0xD 10 G_CR "CR" (txt " Cc")); cbn; tauto|].
    constructor; [right; apply (bare_one 0xA 10 G_LF "LF"); cbn; tauto|constructor].
  - repeat constructor; cbn; lia.
  - cbn. repeat split; try exact I; intros lo hi v H; repeat (destruct H as [H|H]; [injection H as <- <- <-; lia|]); destruct H.
  - vm_compute. reflexivity.
Qed.
Example C75_example :
  let xs := [BreakOther (txt "# comment"); BreakOne 0xD 10 G_CR (txt " Cc <control-000D>");
             BreakRange 0x600 0x605 4 G_PREPEND (txt " Cf [6]"); BreakOther []; BreakRange 0 9 4 G_CONTROL (txt " Cc")] in
  let lines := [txt "# comment"; txt "000D          ; CR # Cc <control-000D>";
                txt "0600..0605    ; Prepend # Cf [6]"; []; txt "0000..0009    ; Control # Cc"] in
  Forall2 break_line_says xs lines /\ Forall break_line_ok xs /\ disjoint (flat_map break_range xs) /\
  generate_break lines = Some [(0, 9, G_CONTROL); (0xD, 0xD, G_CR); (0x600, 0x605, G_PREPEND)].
Proof.
  cbn zeta. split; [|split; [|split]].
  - repeat constructor.
    + intros d D. assert (H : d = 0 \/ d = 1 \/ d = 2 \/ d = 3 \/ d = 4 \/ d = 5 \/ d = 6 \/ d = 7 \/ d = 8 \/ d = 9 \/ d = 10 \/ d = 11 \/ d = 12 \/ d = 13 \/ d = 14 \/ d = 15) by lia.
      repeat (destruct H as [->|H]; [discriminate|]). subst. discriminate.
    + apply (says_one 0xD 10 G_CR "CR" (txt " Cc <control-000D>")). cbn. tauto.
    + apply (says_range 0x600 0x605 4 G_PREPEND "Prepend" (txt " Cf [6]")). cbn. tauto.
    + intros d D. discriminate.
    + apply (says_range 0 9 4 G_CONTROL "Control" (txt " Cc")). cbn. tauto.
  - repeat constructor; cbn; lia.
  - cbn. repeat split; try exact I; intros lo hi v H; repeat (destruct H as [H|H]; [injection H as <- <- <-; lia|]); destruct H.
  - vm_compute. reflexivity.
Qed.

(** ** C76 *)
(** The tables do not depend on the order Perl gives the keys in. *)
Theorem C76_reproducible : forall file ord ord', file_ok file -> some_order ord -> some_order ord' ->
  generate_class ord (map line_of file) = generate_class ord' (map line_of file) /\
  (forall compat fuel fuel' table table',
     generate_mapping compat fuel ord (map line_of file) = Ok table ->
     generate_mapping compat fuel' ord' (map line_of file) = Ok table' -> table = table') /\
  (forall excl, pairs_ok file -> (forall x, In x excl -> exclusion_ok x) ->
     generate_composition ord (map line_of file) (map exclusion_text excl) =
     generate_composition ord' (map line_of file) (map exclusion_text excl)).
Proof.
  intros file ord ord' W O O'. split; [apply class_any_order; assumption|]. split.
  - intros compat fuel fuel' table table' G G'. exact (mapping_any_order compat file ord ord' fuel fuel' table table' W O O' G G').
  - intros excl U X. apply composition_any_order; assumption.
Qed.
Print Assumptions C76_reproducible.
(** The five tables in the repository are what the generators make of any files with
    the contents of Unicode 9.0. *)
Theorem C76_tables_in_the_repository : forall file excl xs lines ord,
  is_unicode_9 file -> is_exclusions_9 excl -> is_breaks_9 xs lines -> some_order ord ->
  generate_class ord (map line_of file) = canonical_combining_class_data /\
  generate_composition ord (map line_of file) (map exclusion_text excl) = canonical_composition_mapping_data /\
  generate_break lines = Some grapheme_cluster_break_data /\
  exists N, forall fuel, (N <= fuel)%nat ->
    generate_mapping false fuel ord (map line_of file) = Ok canonical_decomposition_mapping_data /\
    generate_mapping true fuel ord (map line_of file) = Ok compatibility_and_canonical_decomposition_mapping_data.
Proof.
  intros file excl xs lines ord H X B O. split; [apply shipped_class; assumption|].
  split; [apply shipped_composition; assumption|]. split; [eapply shipped_break; eassumption|].
  destruct (shipped_canonical file H ord O) as [N1 G1]. destruct (shipped_compat file H ord O) as [N2 G2].
  exists (Nat.max N1 N2). intros fuel F. split; [apply G1|apply G2]; lia.
Qed.
Print Assumptions C76_tables_in_the_repository.
(** Such files exist. *)
Example C76_example : exists file excl xs lines ord,
  is_unicode_9 file /\ is_exclusions_9 excl /\ is_breaks_9 xs lines /\ some_order ord.
Proof.
  destruct breaks_9_sample as (xs & lines & B).
  exists unicode_9_sample, exclusions_9_sample, xs, lines, keep_order.
  exact (conj unicode_9_sample_ok (conj exclusions_9_sample_ok (conj B keep_order_ok))).
Qed.
