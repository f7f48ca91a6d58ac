(** * Property C108: the headers the generators write

    Read with GenSpec.v (what the files of the Unicode Character Database say) and CxxSpec.v (what
    a C++ compiler reads between the braces of the tables). *)
From Coq Require Import Ascii String Permutation.
From Verif Require Import Prelude DataTables UcdTables UnicodeSpec GenModel GenSpec CxxSpec GenHeaderModel PropsModel
  GenText DecompTables GenProofs GenComp GenBreak GenHeaderProofs Properties_Generators.

(** The codepoints and classes of a file fit an int. *)
Definition fits_int (file : list entry) : Prop := forall e, In e file ->
  e_code e < 2 ^ 31 /\ e_class e < 2 ^ 31 /\ forall tag l c, e_mapping e = Some (tag, l) -> In c l -> c < 2 ^ 31.

(** ** The combining classes: the header compiles, and the lookup gives what the file says. *)
Theorem C108_class_header : forall ord file, some_order ord -> file_ok file -> fits_int file ->
  exists table, int_table (class_header ord (map line_of file)) = Some table /\
    table = generate_class ord (map line_of file) /\
    forall c k, class_resolve_in table c = Ok k <-> file_class file c k.
Proof.
  intros ord file O W B. eexists. split.
  - apply class_header_reads; [assumption..|]. intros e I _. destruct (B e I) as (B1 & B2 & _). split; assumption.
  - split; [reflexivity|]. apply C72_class_table; assumption.
Qed.
Print Assumptions C108_class_header.

(** ** The decomposition mappings *)
Lemma mapping_fits compat file c l x : fits_int file -> file_mapping compat file c l -> c < 2 ^ 31 /\ (In x l -> x < 2 ^ 31).
Proof.
  intros B H. apply kept_mapping in H. destruct H as (e & I & <- & K). destruct (B e I) as (B1 & _ & B3).
  split; [assumption|]. intros X. unfold kept in K. destruct (e_mapping e) as [[[t|] m]|]; [| |discriminate].
  - destruct (compat && text_eqb t compat_tag)%bool; [|discriminate]. injection K as ->. exact (B3 _ _ _ eq_refl X).
  - injection K as ->. exact (B3 _ _ _ eq_refl X).
Qed.
Lemma mapping_some compat file c l : file_ok file -> file_mapping compat file c l -> l <> [].
Proof.
  intros W H. apply kept_mapping in H. destruct H as (e & I & _ & K). destruct (proj1 W e I) as (_ & _ & _ & M).
  unfold kept in K. destruct (e_mapping e) as [[[t|] m]|]; [| |discriminate].
  - destruct (compat && text_eqb t compat_tag)%bool; [|discriminate]. injection K as ->. apply (M _ _ eq_refl).
  - injection K as ->. apply (M _ _ eq_refl).
Qed.
Lemma expansion_fits (M : Z -> list Z -> Prop) (P : Z -> Prop) :
  (forall c l, M c l -> l <> [] /\ forall x, In x l -> P x) ->
  (forall c D, expands M c D -> D <> [] /\ (P c -> Forall P D)) /\
  (forall l D, expands_all M l D -> (l <> [] -> D <> []) /\ (Forall P l -> Forall P D)).
Proof.
  intros H. apply expands_ind2.
  - intros c N. split; [discriminate|]. intros Q. constructor; [assumption|constructor].
  - intros c l d Ml _ [IH1 IH2]. destruct (H c l Ml) as [H1 H2]. split; [auto|]. intros _. apply IH2, Forall_forall, H2.
  - split; auto.
  - intros c cs d ds _ [A1 A2] _ [B1 B2]. split.
    + intros _ E. apply app_eq_nil in E. tauto.
    + intros F. inversion F; subst. apply Forall_app. auto.
Qed.
Lemma mapping_header_file compat ord file : some_order ord -> file_ok file -> fits_int file ->
  (forall c, exists D, expands (file_mapping compat file) c D) ->
  exists N header table,
    (forall fuel, (N <= fuel)%nat -> mapping_header compat fuel ord (map line_of file) = Ok header /\
       generate_mapping compat fuel ord (map line_of file) = Ok table) /\
    int_table header = Some table /\
    forall c,
      (forall l, file_mapping compat file c l ->
         exists D, mapping_resolve_in table c = Ok (Some (D ++ [0])) /\ expands (file_mapping compat file) c D) /\
      ((forall l, ~ file_mapping compat file c l) -> mapping_resolve_in table c = Ok None).
Proof.
  intros O W B E. destruct (mapping_terminates compat ord file O W E) as (N & table & G).
  assert (G0 := G N (Nat.le_refl N)). destruct (mapping_rows compat ord file O W N table G0) as [_ R].
  destruct (expansion_fits (file_mapping compat file) (fun x => 0 <= x < 2 ^ 31)) as [X _].
  { intros c l Ml. split; [exact (mapping_some compat file c l W Ml)|]. intros x I.
    destruct (file_mapping_pos compat file W c l Ml) as [_ F]. rewrite Forall_forall in F.
    split; [exact (F x I)|]. exact (proj2 (mapping_fits compat file c l x B Ml) I). }
  destruct (mapping_header_reads compat N ord (map line_of file) table G0) as (header & Hh & Ht).
  - intros r I. apply R in I. destruct I as (c & l & D & Ml & XD & ->). destruct (X c D XD) as [D0 _].
    destruct D as [|d D]; [contradiction|]. cbn [List.length app]. rewrite app_length. cbn [List.length]. lia.
  - intros r n I J. apply R in I. destruct I as (c & l & D & Ml & XD & ->).
    assert (C : 0 <= c < 2 ^ 31).
    { split; [apply (file_mapping_pos compat file W c l Ml)|exact (proj1 (mapping_fits compat file c l 0 B Ml))]. }
    destruct J as [<-|J]; [exact C|]. apply in_app_or in J. destruct J as [J|[<-|[]]]; [|unfold in_int; lia].
    destruct (X c D XD) as [_ F]. specialize (F C). rewrite Forall_forall in F. exact (F n J).
  - exists N, header, table. split; [|split; [assumption|exact (mapping_resolve_generated compat ord file O W N table G0)]].
    intros fuel L. split; [|exact (G fuel L)].
    unfold mapping_header in Hh |- *.
    destruct (expand_loop N ord 1 (fold_left (mapping_line compat) (map line_of file) [])) as [d| |] eqn:Q; try discriminate.
    rewrite (loop_more ord N 1 _ _ Q fuel L). exact Hh.
Qed.
Theorem C108_canonical_header : forall ord file, some_order ord -> file_ok file -> fits_int file ->
  (forall c, exists D, expands (file_canonical file) c D) ->
  exists N header table,
    (forall fuel, (N <= fuel)%nat -> mapping_header false fuel ord (map line_of file) = Ok header /\
       generate_mapping false fuel ord (map line_of file) = Ok table) /\
    int_table header = Some table /\
    forall c,
      (forall l, file_canonical file c l ->
         exists D, mapping_resolve_in table c = Ok (Some (D ++ [0])) /\ expands (file_canonical file) c D) /\
      ((forall l, ~ file_canonical file c l) -> mapping_resolve_in table c = Ok None).
Proof. exact (mapping_header_file false). Qed.
Print Assumptions C108_canonical_header.
Theorem C108_compatibility_header : forall ord file, some_order ord -> file_ok file -> fits_int file ->
  (forall c, exists D, expands (file_compat file) c D) ->
  exists N header table,
    (forall fuel, (N <= fuel)%nat -> mapping_header true fuel ord (map line_of file) = Ok header /\
       generate_mapping true fuel ord (map line_of file) = Ok table) /\
    int_table header = Some table /\
    forall c,
      (forall l, file_compat file c l ->
         exists D, mapping_resolve_in table c = Ok (Some (D ++ [0])) /\ expands (file_compat file) c D) /\
      ((forall l, ~ file_compat file c l) -> mapping_resolve_in table c = Ok None).
Proof. exact (mapping_header_file true). Qed.
Print Assumptions C108_compatibility_header.

(** ** The compositions: the header compiles to the table of C74. *)
Theorem C108_composition_header : forall ord file excl, some_order ord -> file_ok file -> fits_int file -> pairs_ok file ->
  (forall x, In x excl -> exclusion_ok x) ->
  exists table, int_table (composition_header ord (map line_of file) (map exclusion_text excl)) = Some table /\
    table = generate_composition ord (map line_of file) (map exclusion_text excl) /\
    forall a b c, composition_resolve_in table a b = Ok (Some c) <-> file_primary file (not_single_space excl) a b c.
Proof.
  intros ord file excl O W B U X. destruct (composition_rows ord file excl O W U X) as [S R].
  eexists. split; [|split; [reflexivity|]].
  - apply composition_header_reads. intros r n I J. apply R in I. destruct I as (a & b & c & F & ->).
    destruct (primary_pos file excl W a b c F) as (Pa & Pb & Pc).
    destruct F as (K & _). assert (Q := fun x => mapping_fits false file c [a; b] x B K).
    unfold in_int. destruct J as [<-|[<-|[<-|[]]]].
    + split; [assumption|]. apply (Q a). left. reflexivity.
    + split; [assumption|]. apply (Q b). right. left. reflexivity.
    + split; [assumption|]. apply (Q 0).
  - intros a b c. split.
    + intros E. unfold composition_resolve_in in E.
      destruct (PropsProofs.bsearch_correct _ _ (ordered_pairs' _ a b S)) as [(r & Q & I & C)|(Q & _)];
        rewrite Q in E; cbn [bind] in E; [|discriminate].
      apply R in I. destruct I as (a' & b' & c' & F & ->). apply compare_pair_zero in C. destruct C as [<- <-].
      change (rd [a; b; c'] 2) with (Ok c') in E. cbn [bind] in E. injection E as <-. exact F.
    + apply (composition_resolve_generated ord file excl O W U X a b).
Qed.
Print Assumptions C108_composition_header.

(** ** The grapheme cluster breaks *)
Theorem C108_break_header : forall xs lines, Forall2 break_line_says xs lines -> Forall break_line_ok xs ->
  disjoint (flat_map break_range xs) -> (forall lo hi v, In (lo, hi, v) (flat_map break_range xs) -> hi < 2 ^ 31) ->
  exists table, range_table (break_header lines) = Some table /\ generate_break lines = Some table /\
    forall c v, break_resolve_in table c = Ok v <-> file_break (flat_map break_range xs) c v.
Proof.
  intros xs lines F O D B. destruct (C75_break_table_partial xs lines F O D) as (table & G & R).
  exists table. split; [|split; assumption]. apply break_header_reads; [assumption|].
  rewrite (generate_break_rows xs lines F O) in G. injection G as <-.
  intros a b v I. assert (J : In (a, b, v) (flat_map break_range xs)).
  { eapply Permutation_in; [|exact I]. apply Permutation_sym, sort_perm. }
  assert (V : 0 <= a <= b).
  { apply in_flat_map in J. destruct J as (x & Ix & J). rewrite Forall_forall in O. specialize (O x Ix).
    destruct x as [lo hi n u t|z n u t|l]; cbn in J; try (destruct J as [J|[]]; injection J as <- <- <-); cbn in O; try lia. }
  specialize (B a b v J). unfold in_int. lia.
Qed.
Print Assumptions C108_break_header.

(** ** The headers made of any files with the contents of Unicode 9.0 compile to the tables in
    the repository. *)
Theorem C108_headers_in_the_repository : forall file excl xs lines ord,
  is_unicode_9 file -> is_exclusions_9 excl -> is_breaks_9 xs lines -> some_order ord ->
  int_table (class_header ord (map line_of file)) = Some canonical_combining_class_data /\
  int_table (composition_header ord (map line_of file) (map exclusion_text excl)) = Some canonical_composition_mapping_data /\
  range_table (break_header lines) = Some grapheme_cluster_break_data /\
  exists N, forall fuel, (N <= fuel)%nat -> exists canonical compatible,
    mapping_header false fuel ord (map line_of file) = Ok canonical /\
    mapping_header true fuel ord (map line_of file) = Ok compatible /\
    int_table canonical = Some canonical_decomposition_mapping_data /\
    int_table compatible = Some compatibility_and_canonical_decomposition_mapping_data.
Proof.
  intros file excl xs lines ord H X Bk O. destruct (C76_tables_in_the_repository file excl xs lines ord H X Bk O) as (G1 & G2 & G3 & N & G).
  assert (S : forall t, forallb (fun r => (3 <=? List.length r)%nat && forallb (fun n => (0 <=? n) && (n <? 2 ^ 31)) r) t = true ->
    (forall r, In r t -> (3 <= List.length r)%nat) /\ small_table t).
  { intros t C. rewrite forallb_forall in C. split.
    - intros r I. specialize (C r I). apply andb_prop in C. apply Nat.leb_le, C.
    - intros r n I J. specialize (C r I). apply andb_prop in C. destruct C as [_ C]. rewrite forallb_forall in C.
      specialize (C n J). apply andb_prop in C. destruct C as [C1 C2]. split; [apply Z.leb_le, C1|apply Z.ltb_lt, C2]. }
  split; [|split; [|split]].
  - rewrite <- G1. apply class_header_reads; [assumption|apply H|].
    assert (C : forallb (fun p => (fst p <? 2 ^ 31) && (snd p <? 2 ^ 31)) ucd_ccc = true) by (vm_compute; reflexivity).
    intros e I NZ. rewrite forallb_forall in C.
    assert (J : In (e_code e, e_class e) ucd_ccc) by (apply (proj1 (proj2 H)); split; [exact NZ|exists e; auto]).
    specialize (C _ J). apply andb_prop in C. destruct C as [C1 C2]. split; [apply Z.ltb_lt, C1|apply Z.ltb_lt, C2].
  - rewrite <- G2. apply composition_header_reads. rewrite G2. apply S. vm_compute. reflexivity.
  - apply break_header_reads; [assumption|].
    assert (C : forallb (fun r => let '(a, b, _) := r in (0 <=? a) && (a <? 2 ^ 31) && (0 <=? b) && (b <? 2 ^ 31)) grapheme_cluster_break_data = true)
      by (vm_compute; reflexivity).
    intros a b v I. rewrite forallb_forall in C. specialize (C _ I). cbv beta iota in C.
    apply andb_prop in C. destruct C as [C C4]. apply andb_prop in C. destruct C as [C C3]. apply andb_prop in C. destruct C as [C1 C2].
    unfold in_int. apply Z.leb_le in C1, C3. apply Z.ltb_lt in C2, C4. exact (conj (conj C1 C2) (conj C3 C4)).
  - exists N. intros fuel L. destruct (G fuel L) as [Gc Gk].
    destruct (S canonical_decomposition_mapping_data) as [S1 S2]; [vm_compute; reflexivity|].
    destruct (S compatibility_and_canonical_decomposition_mapping_data) as [S3 S4]; [vm_compute; reflexivity|].
    destruct (mapping_header_reads false fuel ord _ _ Gc S1 S2) as (h1 & E1 & T1).
    destruct (mapping_header_reads true fuel ord _ _ Gk S3 S4) as (h2 & E2 & T2).
    exists h1, h2. auto.
Qed.
Print Assumptions C108_headers_in_the_repository.
(** ** Examples *)
Lemma small_file_fits : fits_int small_file.
Proof.
  unfold fits_int. apply (proj1 (Forall_forall _ small_file)). unfold small_file.
  repeat (apply Forall_cons; [split; [cbn; lia|]; split; [cbn; lia|]; intros tag l c E; cbn [e_mapping] in E;
    first [discriminate E|injection E as <- <-; cbn [In]; lia]|]). apply Forall_nil.
Qed.
Example C108_example :
  class_header reversed (map line_of small_file) = txt "{ 775, 230 }," ++ ["010"%char] ++ txt "{ 803, 220 }" /\
  int_table (txt "{ 775, 230 }," ++ ["010"%char] ++ txt "{ 803, 220 }") = Some [[0x307; 230]; [0x323; 220]] /\
  mapping_header true 3 keep_order (map line_of [nth 5 small_file (Entry 0 [] [] 0 [] None [])]) = Ok (txt "{ 383, 115, 0 }") /\
  break_header [txt "0600..0605    ; Prepend # Cf [6]"; txt "# comment"; txt "000D          ; CR # Cc"] =
    txt "{ 13, 13, grapheme_cluster_break::prop_value_type::CR }," ++ ["010"%char] ++
    txt "{ 1536, 1541, grapheme_cluster_break::prop_value_type::PREPEND }," ++ ["010"%char].
Proof. repeat split; vm_compute; reflexivity. Qed.
(** The class is printed as it stands in the file: one written with a leading zero would be read
    as octal (and 9 would not compile).  No class of Unicode is written like this. *)
Example C108_leading_zero :
  int_table (class_header keep_order [txt "0307;COMBINING DOT ABOVE;Mn;010;NSM;;;;;N"]) = Some [[0x307; 8]] /\
  int_table (class_header keep_order [txt "0307;COMBINING DOT ABOVE;Mn;09;NSM;;;;;N"]) = None /\
  (* nor does a list without an element or a value without a name *)
  int_table (txt "{ 775, , 0 }") = None /\
  range_table (txt "{ 1, 2, grapheme_cluster_break::prop_value_type::PREPENDED },") = None.
Proof. repeat split; vm_compute; reflexivity. Qed.
