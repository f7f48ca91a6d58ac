(** * Property C127: ASCII characters and the fields they separate pass normalization

    [count_occ] (the standard library): how often a codepoint stands in a text.  [joined], [lines_of] (LinesSpec.v): texts with a
    separator between them.  [form_alone] (Properties_Keep.v): the form of a text alone in a string.
    [listed_canonical], [listed_compat], [expands_all] (NormSpec.v): the mappings the forms apply. *)
From Coq Require Import Permutation Sorted Relations.
From Verif Require Import Prelude DataTables UcdTables PropsModel Utf8Model TextModel StdSortModel Utf8Spec UnicodeSpec GraphemeSpec TextSpec NormSpec
  PropsProofs LawfulProofs DecompTables DecompProofs GraphemeProofs Uax29Proofs GraphemeText OrderProofs ComposeProofs NormData NormProofs HangulProofs NfcProofs NormText
  TextsProofs KeepGraphemes LinesSpec LinesProofs
  Properties_Iteration Properties_Graphemes Properties_Normalize Properties_Sort Properties_Texts Properties_Forms Properties_Keep Properties_Lines.
Require Import ZifyBool ZifyNat.

Definition printable_ascii (s : Z) : Prop := 0x20 <= s <= 0x7E.
Definition ascii_letter (s : Z) : Prop := 0x41 <= s <= 0x5A \/ 0x61 <= s <= 0x7A.
(** Printable, but no letter and none of < = >, which compose with U+0338. *)
Definition symbol (s : Z) : Prop := printable_ascii s /\ ~ ascii_letter s /\ ~ 0x3C <= s <= 0x3E.
(** A quotation mark, number sign, dollar, per cent, ampersand, apostrophe, asterisk, plus, hyphen, at, brackets, backslash, circumflex, braces, bar, tilde. *)
Definition safe_symbol (s : Z) : Prop := 0x22 <= s <= 0x27 \/ 0x2A <= s <= 0x2B \/ s = 0x2D \/ s = 0x40 \/ 0x5B <= s <= 0x5E \/ 0x7B <= s <= 0x7E.
(** Among the codepoints of [cs] only [s] itself decomposes into something with an [s]. *)
Definition only_itself (listed : Z -> list Z -> Prop) (s : Z) (cs : list Z) : Prop :=
  forall c d, In c cs -> expands_all listed [c] d -> In s d -> c = s.

Lemma ascii_unmapped : forallb (fun r => 0x7F <=? hd 0 r) canonical_decomposition_mapping_data = true /\
  forallb (fun r => 0x7F <=? hd 0 r) compatibility_and_canonical_decomposition_mapping_data = true.
Proof. split; vm_cast_no_check (eq_refl true). Qed.
Lemma table_ascii keep data s : closed_table keep data -> forallb (fun r => 0x7F <=? hd 0 r) data = true -> printable_ascii s -> table_full data s = [s].
Proof.
  intros T L P. destruct (table_full_row keep data s T) as [E|I]; [exact E|]. rewrite forallb_forall in L. specialize (L _ I). cbn [hd] in L.
  unfold printable_ascii in P. lia.
Qed.
Lemma full_ascii F listed k full s : form_data F listed k full -> printable_ascii s -> full s = [s].
Proof.
  destruct ascii_unmapped as (A & B). intros [] P; first [exact (table_ascii _ _ s canonical_table A P)|exact (table_ascii _ _ s compat_table B P)].
Qed.
(** No composite is made of symbols, nor is one. *)
Definition symbolb (s : Z) : bool := (0x20 <=? s) && (s <=? 0x7E) && negb (((0x41 <=? s) && (s <=? 0x5A)) || ((0x61 <=? s) && (s <=? 0x7A)) || ((0x3C <=? s) && (s <=? 0x3E))).
Lemma symbol_b s : symbol s -> symbolb s = true.
Proof. unfold symbol, symbolb, printable_ascii, ascii_letter. lia. Qed.
Lemma symbols_inert : forallb (fun r => negb (existsb symbolb r)) canonical_composition_mapping_data = true.
Proof. vm_cast_no_check (eq_refl true). Qed.
Lemma comp_symbol a b c s : comp a b = Some c -> symbol s -> a <> s /\ b <> s /\ c <> s.
Proof.
  intros E S. apply comp_row in E. pose proof symbols_inert as Q. rewrite forallb_forall in Q. specialize (Q _ E). apply symbol_b in S.
  cbn [existsb] in Q. repeat split; intros ->; rewrite S in Q; lia.
Qed.
Lemma composites_not_ascii : forallb (fun r => 0x7F <=? nth 2 r 0) canonical_composition_mapping_data = true.
Proof. vm_cast_no_check (eq_refl true). Qed.
Lemma comp_not_ascii a b s : printable_ascii s -> comp a b <> Some s.
Proof.
  intros P E. apply comp_row in E. pose proof composites_not_ascii as Q. rewrite forallb_forall in Q. specialize (Q _ E). cbn [nth] in Q.
  unfold printable_ascii in P. lia.
Qed.

Definition occurs (l : list Z) (s : Z) : nat := count_occ Z.eq_dec l s.
Lemma occurs_cons c l s : occurs (c :: l) s = (occurs [c] s + occurs l s)%nat.
Proof. unfold occurs. exact (count_occ_app Z.eq_dec [c] l s). Qed.
Lemma occurs_app x y s : occurs (x ++ y) s = (occurs x s + occurs y s)%nat.
Proof. apply count_occ_app. Qed.
Lemma occurs_one c s : c <> s -> occurs [c] s = 0%nat.
Proof. intros H. unfold occurs. cbn. destruct (Z.eq_dec c s); [contradiction|reflexivity]. Qed.
Lemma composeF_occurs s t : symbol s -> forall a, occurs (composeF a t) s = occurs (a :: t) s.
Proof.
  intros S. induction t as [|b t IH]; intros a; cbn [composeF]; [reflexivity|]. rewrite (occurs_cons a (b :: t)), (occurs_cons b t).
  destruct (comp a b) as [c|] eqn:E.
  - destruct (comp_symbol a b c s E S) as (A & B & C). rewrite IH, (occurs_cons c t), !occurs_one by assumption. reflexivity.
  - rewrite (occurs_cons a (composeF b t)), IH, (occurs_cons b t). reflexivity.
Qed.
Lemma flat_occurs (f : Z -> list Z) s l : f s = [s] -> (forall c, In c l -> In s (f c) -> c = s) -> occurs (flat_map f l) s = occurs l s.
Proof.
  intros E H. induction l as [|c l IH]; [reflexivity|]. cbn [flat_map]. rewrite occurs_app, (occurs_cons c l), IH by (intros d I; apply H; right; exact I).
  f_equal. destruct (Z.eq_dec c s) as [->|N]; [rewrite E; reflexivity|]. rewrite (occurs_one c s N). apply count_occ_not_In.
  intros I. apply N, (H c (or_introl eq_refl) I).
Qed.

Section Form.
Context (F : (list Z -> list Z) -> (list Z -> list Z -> res (list Z)) -> nat -> cp_ops -> Z * Z -> list Z -> res (Z * list Z)).
Context (listed : Z -> list Z -> Prop) (k : bool) (full : Z -> list Z) (sort : list Z -> list Z).
Context (FD : form_data F listed k full) (SO : std_sort_ok sort).
Let N (cs : list Z) : list Z := flat_map (norm_grapheme k full sort) (seg cs).
Lemma only_full s cs c : only_itself listed s cs -> In c cs -> In s (full c) -> c = s.
Proof.
  intros O I J. apply (O c (full c) I); [|exact J]. apply (data_listed _ _ _ _ FD). cbn. rewrite app_nil_r. reflexivity.
Qed.
Lemma norm_occurs s cs : printable_ascii s -> k = false \/ symbol s -> only_itself listed s cs -> occurs (N cs) s = occurs cs s.
Proof.
  intros P K O. unfold N. rewrite <- (seg_concat cs) at 2. assert (A : forall g, In g (seg cs) -> forall c, In c g -> In s (full c) -> c = s).
  { intros g G c C. apply (only_full s cs c O). rewrite <- (seg_concat cs). apply in_concat. eauto. }
  induction (seg cs) as [|g gs IH]; [reflexivity|]. cbn [flat_map concat]. rewrite !occurs_app, IH by (intros g' G; apply A; right; exact G).
  f_equal. assert (Q : occurs (sort (flat_map full g)) s = occurs g s).
  { unfold occurs at 1. rewrite <- (proj1 (Permutation_count_occ Z.eq_dec _ _) (proj1 (SO (flat_map full g)))).
    apply flat_occurs; [exact (full_ascii F listed k full s FD P)|]. apply (A g). left. reflexivity. }
  unfold norm_grapheme. destruct K as [-> |S]; [exact Q|]. destruct k; [|exact Q]. destruct (sort (flat_map full g)) as [|a t]; [exact Q|].
  cbn [compose]. rewrite composeF_occurs by exact S. exact Q.
Qed.
Lemma norm_no_new s cs : printable_ascii s -> only_itself listed s cs -> In s (N cs) -> In s cs.
Proof.
  intros P O I. unfold N in I. apply in_flat_map in I. destruct I as (g & G & I).
  assert (J : In s (sort (flat_map full g))).
  { unfold norm_grapheme in I. destruct k; [|exact I]. destruct (sort (flat_map full g)) as [|a t]; [destruct I|].
    destruct (composeF_in s t a I) as [J|(p & q & J)]; [exact J|]. exfalso. exact (comp_not_ascii p q s P J). }
  apply (Permutation_in _ (Permutation_sym (proj1 (SO _)))) in J. apply in_flat_map in J. destruct J as (c & J & H).
  assert (I' : In c cs) by (rewrite <- (seg_concat cs); apply in_concat; eauto).
  rewrite <- (only_full s cs c O I' H). exact I'.
Qed.
Lemma norm_field s x y : printable_ascii s -> x = [] \/ brk (last x 0) s = true -> y = [] \/ brk s (hd 0 y) = true ->
  N (x ++ s :: y) = N x ++ s :: N y.
Proof.
  intros P X Y. unfold N at 1.
  assert (S1 : seg (x ++ s :: y) = seg x ++ seg ([s] ++ y)).
  { apply seg_parts. destruct X as [->|B]; [auto|]. destruct x as [|a x]; [auto|]. right. right. exists s, y. split; [reflexivity|]. apply boundary_after; [discriminate|exact B]. }
  assert (S2 : seg ([s] ++ y) = seg [s] ++ seg y).
  { apply seg_parts. destruct Y as [->|B]; [auto|]. destruct y as [|a y]; [auto|]. right. right. exists a, y. split; [reflexivity|]. apply boundary_after; [discriminate|exact B]. }
  rewrite S1, S2, !flat_map_app. fold (N x) (N y). f_equal. change (s :: N y) with ([s] ++ N y). f_equal.
  cbn [seg flat_map]. rewrite app_nil_r. unfold norm_grapheme. cbn [flat_map]. rewrite (full_ascii F listed k full s FD P). cbn [app].
  assert (E : sort [s] = [s]) by (pose proof (proj1 (SO [s])) as Q; apply Permutation_length_1_inv in Q; exact Q).
  rewrite E. destruct k; reflexivity.
Qed.
End Form.

(** ** A symbol stands in the output as often as in the text, if nothing else decomposes into it; in forms D and KD so does
    any printable ASCII character. *)
Theorem C127_count : forall F listed sort s ops b e cs fuel out,
  std_sort_ok sort -> printable_ascii s ->
  (F = normalization_form_d /\ listed = listed_canonical) \/ (F = normalization_form_kd /\ listed = listed_compat) \/ (form_of F listed /\ symbol s) ->
  only_itself listed s cs ->
  delimited_text ops b e cs -> (length cs < fuel)%nat -> count_fits listed cs ->
  exists u, normalize fuel ops (F sort utf32_append_from_utf32ne fuel ops) b e out = Ok (zlen u, out ++ u) /\
    count_occ Z.eq_dec u s = count_occ Z.eq_dec cs s.
Proof.
  intros F listed sort s ops b e cs fuel out SO P K O D Hf CF.
  assert (X : exists k full, form_data F listed k full /\ (k = false \/ symbol s)).
  { destruct K as [(-> & ->)|[(-> & ->)|(FO & S)]]; [eexists false, _; split; [constructor|auto]..|].
    destruct (form_data_of F listed FO) as (k & full & FD). eauto. }
  destruct X as (k & full & FD & K'). eexists. split; [exact (run_any32 F listed k full sort ops b e cs fuel out FD SO D Hf CF)|].
  exact (norm_occurs F listed k full sort FD SO s cs P K' O).
Qed.
Print Assumptions C127_count.

(** Two codepoints decompose canonically into a symbol: U+037E into a semicolon, U+1FEF into a grave accent. *)
Definition symbol_row (r : list Z) : bool :=
  match r with c :: t => forallb (fun z => negb (symbolb z) || ((z =? 0x3B) && (c =? 0x37E)) || ((z =? 0x60) && (c =? 0x1FEF))) (removelast t) | [] => true end.
Lemma symbol_rows : forallb symbol_row canonical_decomposition_mapping_data = true.
Proof. vm_cast_no_check (eq_refl true). Qed.
Theorem C127_canonical_sources : forall s c d, symbol s -> expands_all listed_canonical [c] d -> In s d ->
  c = s \/ (s = 0x3B /\ c = 0x37E) \/ (s = 0x60 /\ c = 0x1FEF).
Proof.
  intros s c d S X I. apply canonical_listed in X. cbn [flat_map] in X. rewrite app_nil_r in X. subst d. unfold full_canonical in I.
  destruct (table_full_row _ _ c canonical_table) as [E|R]; [rewrite E in I; destruct I as [I|[]]; auto|]. right.
  pose proof symbol_rows as Q. rewrite forallb_forall in Q. specialize (Q _ R). unfold symbol_row in Q. rewrite removelast_snoc in Q.
  rewrite forallb_forall in Q. specialize (Q _ I). rewrite (symbol_b s S) in Q. cbn [negb orb] in Q. lia.
Qed.
Print Assumptions C127_canonical_sources.
(** Nothing decomposes into a safe symbol, in any form. *)
Definition safeb (s : Z) : bool := ((0x22 <=? s) && (s <=? 0x27)) || ((0x2A <=? s) && (s <=? 0x2B)) || (s =? 0x2D) || (s =? 0x40) ||
  ((0x5B <=? s) && (s <=? 0x5E)) || ((0x7B <=? s) && (s <=? 0x7E)).
Definition safe_row (r : list Z) : bool := match r with c :: t => forallb (fun z => negb (safeb z)) (removelast t) | [] => true end.
Lemma safe_rows : forallb safe_row canonical_decomposition_mapping_data = true /\ forallb safe_row compatibility_and_canonical_decomposition_mapping_data = true.
Proof. split; vm_cast_no_check (eq_refl true). Qed.
Lemma table_safe keep data s c : closed_table keep data -> forallb safe_row data = true -> safe_symbol s -> In s (table_full data c) -> c = s.
Proof.
  intros T L S I. destruct (table_full_row keep data c T) as [E|R]; [rewrite E in I; destruct I as [I|[]]; exact I|].
  exfalso. rewrite forallb_forall in L. specialize (L _ R). unfold safe_row in L. rewrite removelast_snoc in L. rewrite forallb_forall in L.
  specialize (L _ I). assert (safeb s = true) by (unfold safe_symbol, safeb in *; lia). rewrite H in L. discriminate.
Qed.
Theorem C127_safe_symbols : forall F listed s cs, form_of F listed -> safe_symbol s -> symbol s /\ only_itself listed s cs.
Proof.
  intros F listed s cs FO S. split; [unfold safe_symbol, symbol, printable_ascii, ascii_letter in *; lia|]. intros c d I X J.
  destruct (form_data_of F listed FO) as (k & full & FD). apply (data_listed F listed k full FD) in X. cbn [flat_map] in X. rewrite app_nil_r in X. subst d.
  destruct safe_rows as (A & B). destruct FD; first [exact (table_safe _ _ s c canonical_table A S J)|exact (table_safe _ _ s c compat_table B S J)].
Qed.
Print Assumptions C127_safe_symbols.
(** So no normalization makes or removes a quote, a bracket, a backslash, an at sign, ... *)
Corollary C127_quotes_are_kept : forall F listed sort s ops b e cs fuel out,
  form_of F listed -> std_sort_ok sort -> safe_symbol s -> delimited_text ops b e cs -> (length cs < fuel)%nat -> count_fits listed cs ->
  exists u, normalize fuel ops (F sort utf32_append_from_utf32ne fuel ops) b e out = Ok (zlen u, out ++ u) /\
    count_occ Z.eq_dec u s = count_occ Z.eq_dec cs s.
Proof.
  intros F listed sort s ops b e cs fuel out FO SO S. destruct (C127_safe_symbols F listed s cs FO S) as (Y & O).
  intros D Hf CF. apply (C127_count F listed); auto. exact (proj1 Y).
Qed.
Print Assumptions C127_quotes_are_kept.

(** ** Fields.  No field begins with a codepoint that attaches to what stands before it, none ends with a Prepend. *)
Definition fields_apart (fs : list (list Z)) : Prop := forall f, In f fs ->
  (forall c t, f = c :: t -> ~ has_gcb c G_EXTEND /\ ~ has_gcb c G_ZWJ /\ ~ has_gcb c G_SPACINGMARK) /\
  (forall t c, f = t ++ [c] -> ~ has_gcb c G_PREPEND).
Lemma ascii_other s : printable_ascii s -> gcb_of s = G_OTHER.
Proof.
  intros P. assert (Q : forallb (fun i => match gcb_of (Z.of_nat i + 0x20) with G_OTHER => true | _ => false end) (List.seq 0 95) = true) by (vm_compute; reflexivity).
  rewrite forallb_forall in Q. specialize (Q (Z.to_nat (s - 0x20)) ltac:(apply in_seq; unfold printable_ascii in P; lia)).
  rewrite Z2Nat.id in Q by (unfold printable_ascii in P; lia). replace (s - 0x20 + 0x20) with s in Q by lia. destruct (gcb_of s); try discriminate. reflexivity.
Qed.
Lemma not_gcb c v : ~ has_gcb c v -> gcb_of c <> v.
Proof. intros H E. apply H, gcb_spec. exact E. Qed.
Lemma brk_field_end s f : printable_ascii s -> (forall t c, f = t ++ [c] -> ~ has_gcb c G_PREPEND) -> f = [] \/ brk (last f 0) s = true.
Proof.
  intros P H. destruct f as [|a f]; [auto|]. right. assert (NE : a :: f <> []) by discriminate. destruct (exists_last NE) as (t & c & E). rewrite E in *.
  rewrite last_last. specialize (H t c eq_refl). apply not_gcb in H. unfold brk. rewrite (ascii_other s P). destruct (gcb_of c); cbn; congruence.
Qed.
Lemma brk_field_start s f : printable_ascii s -> (forall c t, f = c :: t -> ~ has_gcb c G_EXTEND /\ ~ has_gcb c G_ZWJ /\ ~ has_gcb c G_SPACINGMARK) ->
  f = [] \/ brk s (hd 0 f) = true.
Proof.
  intros P H. destruct f as [|c t]; [auto|]. right. cbn [hd]. destruct (H c t eq_refl) as (A & B & C). apply not_gcb in A, B, C.
  unfold brk. rewrite (ascii_other s P). destruct (gcb_of c); cbn; congruence.
Qed.
Lemma norm_fields F listed k full sort s fs : form_data F listed k full -> std_sort_ok sort -> printable_ascii s -> fields_apart fs ->
  flat_map (norm_grapheme k full sort) (seg (joined s fs)) = joined s (map (fun f => flat_map (norm_grapheme k full sort) (seg f)) fs).
Proof.
  intros FD SO P. induction fs as [|f r IH]; intros A; [reflexivity|]. destruct r as [|m r]; [reflexivity|]. cbn [map]. rewrite !joined_cons.
  pose proof (norm_field F listed k full sort FD SO s f (joined s (m :: r)) P) as Q. cbv zeta in Q. rewrite Q.
  - rewrite IH by (intros x I; apply A; right; exact I). reflexivity.
  - apply brk_field_end; [exact P|]. apply (A f). left. reflexivity.
  - destruct m as [|c m].
    + destruct r as [|m r]; [auto|]. right. rewrite joined_cons. cbn [app hd]. unfold brk. rewrite (ascii_other s P). reflexivity.
    + right. destruct (brk_field_start s (c :: m) P (proj1 (A (c :: m) (or_intror (or_introl eq_refl))))) as [X|X]; [discriminate|].
      destruct r as [|m' r]; [exact X|]. rewrite joined_cons. exact X.
Qed.
(** A text of fields, with any printable ASCII character between them, is normalized field by field; and these are the fields of the
    output if nothing in the text decomposes into the separator. *)
Theorem C127_field_by_field : forall F listed sort s ops b e fs fuel out,
  form_of F listed -> std_sort_ok sort -> printable_ascii s -> fields_apart fs ->
  delimited_text ops b e (joined s fs) -> (length (joined s fs) < fuel)%nat -> count_fits listed (joined s fs) ->
  exists us, normalize fuel ops (F sort utf32_append_from_utf32ne fuel ops) b e out = Ok (zlen (joined s us), out ++ joined s us) /\
    Forall2 (form_alone F sort) fs us /\
    (lines_of s (joined s fs) fs -> only_itself listed s (joined s fs) -> lines_of s (joined s us) us).
Proof.
  intros F listed sort s ops b e fs fuel out FO SO P A D Hf CF. destruct (form_data_of F listed FO) as (k & full & FD).
  set (N := fun l => flat_map (norm_grapheme k full sort) (seg l)). exists (map N fs). split; [|split].
  - rewrite (run_any32 F listed k full sort ops b e _ fuel out FD SO D Hf CF), (norm_fields F listed k full sort s fs FD SO P A). reflexivity.
  - assert (Q : forall l, In l fs -> form_alone F sort l (N l)).
    { intros l I. unfold form_alone.
      apply (run_any32 F listed k full sort _ _ _ l (S (length l)) [] FD SO); [eapply delimited_string; constructor|lia|].
      apply (part_fits listed full s fs); [exact (data_listed F listed k full FD)|exact CF|exact I]. }
    clear - Q. induction fs as [|l r IH]; [constructor|]. cbn [map]. constructor; [apply Q; left; reflexivity|apply IH; intros x I; apply Q; right; exact I].
  - intros (NE & _ & FR) O. split; [destruct fs; [contradiction|discriminate]|]. split; [reflexivity|]. intros u I J. apply in_map_iff in I. destruct I as (l & <- & I).
    assert (O' : only_itself listed s l).
    { intros c d C. apply O. clear - I C. induction fs as [|x r IH]; [destruct I|]. destruct r as [|m r].
      - destruct I as [->|[]]. exact C.
      - rewrite joined_cons. apply in_or_app. destruct I as [->|I]; [left; exact C|right; right; exact (IH I)]. }
    apply (norm_no_new F listed k full sort FD SO s l P O') in J. exact (FR l I J).
Qed.
Print Assumptions C127_field_by_field.

(** The conditions are needed: the Greek question mark becomes a semicolon, so two fields come out of one; a field that begins with
    U+0338 loses the separator in front of it; a compatibility form makes a comma, a slash, ... *)
Theorem C127_conditions_needed :
  let form F t := normalize 5 (utf32_ops (string_buffer t)) (F gnu_sort utf32_append_from_utf32ne 5%nat (utf32_ops (string_buffer t))) 0 (zlen t) [] in
  form normalization_form_c [0x61; 0x37E; 0x62] = Ok (3, [0x61; 0x3B; 0x62]) /\ form normalization_form_d [0x61; 0x37E; 0x62] = Ok (3, [0x61; 0x3B; 0x62]) /\
  form normalization_form_c [0x61; 0x3D; 0x338; 0x62] = Ok (3, [0x61; 0x2260; 0x62]) /\
  form normalization_form_kc [0x2101] = Ok (3, [0x61; 0x2F; 0x73]) /\ form normalization_form_kc [0x1F101] = Ok (2, [0x30; 0x2C]).
Proof. cbv zeta. repeat split; vm_compute; reflexivity. Qed.
Print Assumptions C127_conditions_needed.

(** e with acute in two codepoints, nothing, z with caron, between commas. *)
Example C127_example :
  let fs := [[0x65; 0x301]; []; [0x7A; 0x30C]] in
  let cs := joined 0x2C fs in
  printable_ascii 0x2C /\ symbol 0x2C /\ fields_apart fs /\ lines_of 0x2C cs fs /\ only_itself listed_canonical 0x2C cs /\ safe_symbol 0x22 /\
  normalize 9 (utf32_ops (string_buffer cs)) (normalization_form_c gnu_sort utf32_append_from_utf32ne 9 (utf32_ops (string_buffer cs))) 0 6 []
  = Ok (4, [0xE9; 0x2C; 0x2C; 0x17E]) /\ form_alone normalization_form_c gnu_sort [0x7A; 0x30C] [0x17E].
Proof.
  cbv zeta. assert (S : symbol 0x2C) by (unfold symbol, printable_ascii, ascii_letter; lia).
  assert (G : forall c v, gcb_of c <> v -> ~ has_gcb c v) by (intros c v H E; apply H, gcb_spec; exact E).
  split; [exact (proj1 S)|]. split; [exact S|]. split.
  { intros f [<-|[<-|[<-|[]]]]; split.
    - intros c t E. injection E as <- _. repeat split; apply G; vm_compute; discriminate.
    - intros t c E. destruct t as [|? [|? [|? t]]]; cbn in E; try discriminate; injection E as <- <-; apply G; vm_compute; discriminate.
    - discriminate.
    - intros [|? t]; discriminate.
    - intros c t E. injection E as <- _. repeat split; apply G; vm_compute; discriminate.
    - intros t c E. destruct t as [|? [|? [|? t]]]; cbn in E; try discriminate; injection E as <- <-; apply G; vm_compute; discriminate. }
  split; [split; [discriminate|]; split; [reflexivity|]; intros l [<-|[<-|[<-|[]]]] I; cbn in I; intuition discriminate|].
  split; [intros c d _ X I; destruct (C127_canonical_sources 0x2C c d S X I) as [E|[(E & _)|(E & _)]]; [exact E|discriminate|discriminate]|].
  split; [unfold safe_symbol; lia|]. split; vm_compute; reflexivity.
Qed.
