(** * Proofs about decomposition and composition lookups *)
From Coq Require Import Sorting.Sorted.
From Verif Require Import Prelude DataTables UcdTables PropsModel TextModel UnicodeSpec PropsProofs
  DecompTables.

(** A resolver driven by such a table. *)
Definition table_resolver (data : list (list Z)) (c : Z) : res (option (list Z)) :=
  let* elem := bsearch (compare_value_to_row c) data in
  match elem with None => Ok None | Some it => Ok (Some (tl it)) end.
Definition closed_table keep (data : list (list Z)) : Prop :=
  adjacent row_lt data = true /\ forallb (row_ok keep) data = true /\ heads_listed keep (heads data) = true.

Lemma table_resolver_spec keep data c : closed_table keep data ->
  (exists d m, table_resolver data c = Ok (Some (d ++ [0])) /\ rel_of keep c m /\
     expands (rel_of keep) c d /\ d <> [] /\ Forall (fun x => 0 < x) d) \/
  (table_resolver data c = Ok None /\ forall l, ~ rel_of keep c l).
Proof.
  intros (S & R & Hd). unfold table_resolver.
  destruct (bsearch_correct _ _ (ordered_rows data c S)) as [(r & -> & I & E)|(-> & N)]; cbn [bind].
  - left. rewrite forallb_forall in R. specialize (R r I).
    destruct r as [|a r]; [discriminate|].
    apply Z.eqb_eq in E. rewrite compare_value_eq in E. cbn in E. apply Z.eqb_eq in E. subst a.
    destruct (row_ok_spec keep c r R) as (d & m & -> & ?). exists d, m. auto.
  - right. split; [reflexivity|]. intros l (t & I & K). unfold heads_listed in Hd.
    rewrite forallb_forall in Hd. specialize (Hd _ I). cbn [fst snd] in Hd. rewrite K in Hd. cbn in Hd.
    destruct (lookup (heads data) c) as [row|] eqn:L; [|discriminate].
    assert (F : Forall (fun row => 0 < row_at row 0) data).
    { apply Forall_forall. intros row' Hr. rewrite forallb_forall in R. specialize (R row' Hr).
      destruct row' as [|a r]; [discriminate|].
      destruct (row_ok_spec keep a r R) as (d & m & _ & (tg & J & _) & _). cbn [row_at nth].
      pose proof ucd_decomposition_pos as P. rewrite Forall_forall in P. exact (P _ J). }
    apply lookup_some in L; [|exact F]. destruct L as [Hr E].
    apply (N row Hr). apply Z.eqb_eq. rewrite compare_value_eq. apply Z.eqb_eq. assumption.
Qed.

Lemma canonical_table : closed_table keep_canonical canonical_decomposition_mapping_data.
Proof. exact (conj canonical_sorted (conj canonical_rows_ok canonical_heads)). Qed.
Lemma compat_table : closed_table keep_compat compatibility_and_canonical_decomposition_mapping_data.
Proof. exact (conj compat_sorted (conj compat_rows_ok compat_heads)). Qed.

(** The expansion as a total function. *)
Definition table_full (data : list (list Z)) (c : Z) : list Z :=
  match table_resolver data c with Ok (Some r) => removelast r | _ => [c] end.
Definition full_canonical (c : Z) : list Z := table_full canonical_decomposition_mapping_data c.
Definition full_compat (c : Z) : list Z :=
  table_full compatibility_and_canonical_decomposition_mapping_data c.

Lemma removelast_snoc {A} (l : list A) x : removelast (l ++ [x]) = l.
Proof. rewrite removelast_app by discriminate. cbn. apply app_nil_r. Qed.
Lemma table_full_expands keep data c : closed_table keep data ->
  expands (rel_of keep) c (table_full data c).
Proof.
  intros T. unfold table_full.
  destruct (table_resolver_spec keep data c T) as [(d & m & -> & _ & E & _)|(-> & N)].
  - rewrite removelast_snoc. assumption.
  - apply expands_none. assumption.
Qed.
Lemma zero_scan_row d : Forall (fun x => 0 < x) d -> zero_scan (d ++ [0]) = Ok d.
Proof.
  induction 1 as [|x d Hx _ IH]; [reflexivity|]. cbn [app zero_scan].
  destruct (Z.eqb_spec x 0); [lia|]. rewrite IH. reflexivity.
Qed.
Lemma table_decomposition keep data c out : closed_table keep data ->
  codepoint_decomposition (table_resolver data) c out
  = Ok (zlen (table_full data c), out ++ table_full data c).
Proof.
  intros T. unfold codepoint_decomposition, table_full.
  destruct (table_resolver_spec keep data c T) as [(d & m & -> & _ & _ & _ & P)|(-> & N)]; cbn [bind].
  - rewrite zero_scan_row by assumption. cbn [bind]. rewrite removelast_snoc. reflexivity.
  - reflexivity.
Qed.
Lemma table_full_ne keep data c : closed_table keep data -> table_full data c <> [].
Proof.
  intros T. unfold table_full.
  destruct (table_resolver_spec keep data c T) as [(d & m & -> & _ & _ & NE & _)|(-> & N)].
  - rewrite removelast_snoc. assumption.
  - discriminate.
Qed.
Lemma table_full_fix keep data c : closed_table keep data ->
  forall x, In x (table_full data c) -> table_full data x = [x].
Proof.
  intros T x Hx.
  pose proof (proj1 (expands_unmapped (rel_of keep)) _ _ (table_full_expands keep data c T) x) as U.
  pose proof (table_full_expands keep data x T) as E. inversion E as [|? l ? M]; subst; [congruence|].
  exfalso. eapply U; eassumption.
Qed.

Lemma canonical_decomposition_eq c out :
  canonical_decomposition c out = Ok (zlen (full_canonical c), out ++ full_canonical c).
Proof. apply (table_decomposition keep_canonical _ _ _ canonical_table). Qed.
Lemma compat_decomposition_eq c out :
  compatibility_and_canonical_decomposition c out = Ok (zlen (full_compat c), out ++ full_compat c).
Proof. apply (table_decomposition keep_compat _ _ _ compat_table). Qed.
Lemma full_canonical_expands c : expands listed_canonical c (full_canonical c).
Proof.
  apply (proj1 (expands_equiv _ _ rel_canonical)). apply table_full_expands. exact canonical_table.
Qed.
Lemma full_compat_expands c : expands listed_compat c (full_compat c).
Proof.
  apply (proj1 (expands_equiv _ _ rel_compat)). apply table_full_expands. exact compat_table.
Qed.
Lemma full_canonical_ne c : full_canonical c <> [].
Proof. apply (table_full_ne _ _ _ canonical_table). Qed.
Lemma full_compat_ne c : full_compat c <> [].
Proof. apply (table_full_ne _ _ _ compat_table). Qed.
Lemma full_canonical_fix c x : In x (full_canonical c) -> full_canonical x = [x].
Proof. apply (table_full_fix _ _ _ canonical_table). Qed.
Lemma full_compat_fix c x : In x (full_compat c) -> full_compat x = [x].
Proof. apply (table_full_fix _ _ _ compat_table). Qed.
Lemma listed_canonical_functional : functional listed_canonical.
Proof. intros c l l' H H'. apply rel_canonical in H, H'. eapply rel_of_functional; eassumption. Qed.
Lemma listed_compat_functional : functional listed_compat.
Proof. intros c l l' H H'. apply rel_compat in H, H'. eapply rel_of_functional; eassumption. Qed.
Lemma full_canonical_unique c d : expands listed_canonical c d -> d = full_canonical c.
Proof. intros H. eapply (proj1 (expands_fun _ listed_canonical_functional)); [eassumption|apply full_canonical_expands]. Qed.
Lemma full_compat_unique c d : expands listed_compat c d -> d = full_compat c.
Proof. intros H. eapply (proj1 (expands_fun _ listed_compat_functional)); [eassumption|apply full_compat_expands]. Qed.
Lemma expands_all_canonical cs : expands_all listed_canonical cs (flat_map full_canonical cs).
Proof. induction cs; cbn [flat_map]; constructor; [apply full_canonical_expands|assumption]. Qed.
Lemma expands_all_compat cs : expands_all listed_compat cs (flat_map full_compat cs).
Proof. induction cs; cbn [flat_map]; constructor; [apply full_compat_expands|assumption]. Qed.

(** C30, C32 as stated *)
Lemma canonical_resolve_spec c :
  (forall m, listed_canonical c m -> exists d,
     canonical_decomposition_mapping_resolve c = Ok (Some (d ++ [0])) /\
     expands listed_canonical c d /\ d <> [] /\ ~ In 0 d /\
     (forall x m', In x d -> ~ listed_canonical x m')) /\
  ((forall m, ~ listed_canonical c m) -> canonical_decomposition_mapping_resolve c = Ok None).
Proof.
  change (canonical_decomposition_mapping_resolve c) with (table_resolver canonical_decomposition_mapping_data c).
  destruct (table_resolver_spec _ _ c canonical_table) as [(d & m & E & M & X & NE & P)|(E & N)]; rewrite E.
  - apply (proj1 (expands_equiv _ _ rel_canonical)) in X. split.
    + intros m' _. exists d. split; [reflexivity|]. split; [assumption|]. split; [assumption|]. split.
      * intros I. rewrite Forall_forall in P. specialize (P 0 I). lia.
      * intros x m0. apply (proj1 (expands_unmapped _) _ _ X).
    + intros N. exfalso. apply rel_canonical in M. exact (N _ M).
  - split; [|reflexivity]. intros m M. apply rel_canonical in M. exfalso. exact (N _ M).
Qed.
Lemma compat_resolve_spec c :
  (forall m, listed_compat c m -> exists d,
     compatibility_and_canonical_decomposition_mapping_resolve c = Ok (Some (d ++ [0])) /\
     expands listed_compat c d /\ d <> [] /\ ~ In 0 d /\
     (forall x m', In x d -> ~ listed_compat x m')) /\
  ((forall m, ~ listed_compat c m) -> compatibility_and_canonical_decomposition_mapping_resolve c = Ok None).
Proof.
  change (compatibility_and_canonical_decomposition_mapping_resolve c) with (table_resolver compatibility_and_canonical_decomposition_mapping_data c).
  destruct (table_resolver_spec _ _ c compat_table) as [(d & m & E & M & X & NE & P)|(E & N)]; rewrite E.
  - apply (proj1 (expands_equiv _ _ rel_compat)) in X. split.
    + intros m' _. exists d. split; [reflexivity|]. split; [assumption|]. split; [assumption|]. split.
      * intros I. rewrite Forall_forall in P. specialize (P 0 I). lia.
      * intros x m0. apply (proj1 (expands_unmapped _) _ _ X).
    + intros N. exfalso. apply rel_compat in M. exact (N _ M).
  - split; [|reflexivity]. intros m M. apply rel_compat in M. exfalso. exact (N _ M).
Qed.
(** The compatibility expansion of the canonical one is the compatibility expansion. *)
Lemma expands_all_split M cs1 : forall cs2 d, expands_all M (cs1 ++ cs2) d ->
  exists d1 d2, d = d1 ++ d2 /\ expands_all M cs1 d1 /\ expands_all M cs2 d2.
Proof.
  induction cs1 as [|c cs1 IH]; intros cs2 d H.
  - exists [], d. split; [reflexivity|]. split; [constructor|assumption].
  - cbn in H. inversion H as [|? ? dc ds E1 E2]; subst. destruct (IH _ _ E2) as (d1 & d2 & -> & A & B).
    exists (dc ++ d1), d2. rewrite app_assoc. repeat split; [constructor; assumption|assumption].
Qed.
Lemma expands_refine (M M' : Z -> list Z -> Prop) : (forall c l, M c l -> M' c l) ->
  (forall c d, expands M c d -> forall d', expands_all M' d d' -> expands M' c d') /\
  (forall cs d, expands_all M cs d -> forall d', expands_all M' d d' -> expands_all M' cs d').
Proof.
  intros S. apply expands_ind2.
  - intros c _ d' H. inversion H as [|? ? dc ds E1 E2]; subst. inversion E2; subst. rewrite app_nil_r. assumption.
  - intros c l d Ml _ IH d' H. eapply expands_map; [apply S; eassumption|auto].
  - intros d' H. assumption.
  - intros c cs d ds _ IH1 _ IH2 d' H. apply expands_all_split in H. destruct H as (d1 & d2 & -> & A & B).
    constructor; auto.
Qed.
Lemma compat_of_canonical c : flat_map full_compat (full_canonical c) = full_compat c.
Proof.
  apply full_compat_unique. eapply (proj1 (expands_refine listed_canonical listed_compat ltac:(left; assumption))).
  - apply full_canonical_expands.
  - apply expands_all_compat.
Qed.

(** ** Composition *)
Lemma compare_pair_eq a b r : (compare_pair_to_row a b r = 0) <-> row_at r 0 = a /\ row_at r 1 = b.
Proof.
  unfold compare_pair_to_row.
  destruct (Z.ltb_spec a (row_at r 0)); [lia|]. destruct (Z.gtb_spec a (row_at r 0)); [lia|].
  destruct (Z.ltb_spec b (row_at r 1)); [lia|]. destruct (Z.gtb_spec b (row_at r 1)); lia.
Qed.
Lemma comp_row_shape r : In r canonical_composition_mapping_data ->
  exists a b c, r = [a; b; c] /\ primary_composite a b c.
Proof.
  intros I. pose proof comp_rows_ok as H. rewrite forallb_forall in H. specialize (H r I).
  destruct r as [|a [|b [|c [|]]]]; try discriminate. exists a, b, c. split; [reflexivity|].
  unfold comp_row_ok in H. zbool. destruct (mapping_of keep_canonical c) as [m|] eqn:M; [|discriminate].
  apply mapping_of_some, rel_canonical in M.
  destruct m as [|x [|y [|]]]; try discriminate. zbool. subst x y.
  rewrite fast_ccc_eq in *.
  split; [assumption|]. split; [apply ccc_spec; assumption|]. split; [apply ccc_spec; assumption|].
  intros X. apply excluded_spec in X. apply negb_true_iff in H1. congruence.
Qed.
Lemma comp_rows_pos : Forall (fun row => 0 < row_at row 2) canonical_composition_mapping_data.
Proof.
  apply Forall_forall. intros r Hr. pose proof comp_rows_ok as H. rewrite forallb_forall in H. specialize (H r Hr).
  destruct r as [|a [|b [|c [|]]]]; try discriminate. unfold comp_row_ok in H. zbool. cbn. lia.
Qed.
Lemma comp_resolve a b : canonical_composition_mapping_resolve a b = Ok (comp a b).
Proof.
  unfold canonical_composition_mapping_resolve, composition_resolve_in. rewrite bsearch_find by (apply ordered_pairs, composition_sorted).
  cbn [bind]. unfold comp.
  destruct (find (fun r => compare_pair_to_row a b r =? 0) canonical_composition_mapping_data) as [r|] eqn:F; [|reflexivity].
  apply find_some in F. destruct F as [I _]. destruct (comp_row_shape r I) as (x & y & z & -> & _). reflexivity.
Qed.
Lemma comp_spec a b c : comp a b = Some c <-> primary_composite a b c.
Proof.
  unfold comp. assert (O := ordered_pairs _ a b composition_sorted). split.
  - destruct (find (fun r => compare_pair_to_row a b r =? 0) canonical_composition_mapping_data) as [r|] eqn:F; [|discriminate].
    apply find_some in F. destruct F as [I E]. apply Z.eqb_eq, compare_pair_eq in E.
    destruct (comp_row_shape r I) as (x & y & z & -> & P). cbn [row_at nth] in E. destruct E as [<- <-].
    cbn [row_at nth]. intros Q. injection Q as <-. assumption.
  - intros (L & K1 & K2 & X). pose proof comp_completeness as H. rewrite forallb_forall in H.
    specialize (H _ L). unfold comp_complete in H.
    apply ccc_spec in K1, K2. rewrite !fast_ccc_eq, K1, K2 in H. cbn [Z.eqb andb] in H.
    destruct (excluded c) eqn:Q; [apply excluded_spec in Q; contradiction|].
    cbn [negb] in H. unfold composite_tree in H.
    destruct (lookup (tree_of (fun row => row_at row 2) canonical_composition_mapping_data) c) as [row|] eqn:Lk; [|discriminate].
    apply lookup_some in Lk; [|exact comp_rows_pos]. destruct Lk as [Hr _].
    destruct row as [|x [|y [|z [|]]]]; try discriminate. zbool. subst x y z.
    assert (Z0 : compare_pair_to_row a b [a; b; c] = 0) by (apply compare_pair_eq; split; reflexivity).
    destruct (find (fun r => compare_pair_to_row a b r =? 0) canonical_composition_mapping_data) as [r|] eqn:F.
    + apply find_some in F. destruct F as [I E]. apply Z.eqb_eq in E.
      rewrite (ordered_unique _ _ r [a; b; c] O I Hr E Z0). reflexivity.
    + pose proof (find_none _ _ F _ Hr) as N. cbv beta in N. rewrite Z0 in N. discriminate.
Qed.
Lemma comp_full a b c : comp a b = Some c -> full_canonical c = full_canonical a ++ full_canonical b.
Proof.
  intros H. apply comp_spec in H. destruct H as (L & _). symmetry. apply full_canonical_unique.
  eapply expands_map; [eassumption|].
  rewrite <- (app_nil_r (full_canonical b)).
  constructor; [apply full_canonical_expands|]. constructor; [apply full_canonical_expands|constructor].
Qed.

(** ** Hangul *)
Lemma mapping_targets_not_hangul c t l x : In (c, t, l) ucd_decomposition -> In x l ->
  ~ hangul_syllable x /\ ~ hangul_syllable c.
Proof.
  assert (H : forallb (fun r => forallb (fun x => (x <? 44032) || (55204 <=? x)) (fst (fst r) :: snd r)) ucd_decomposition = true)
    by (vm_compute; reflexivity).
  rewrite forallb_forall in H. intros I Hx. specialize (H _ I). cbn [fst snd] in H. rewrite forallb_forall in H.
  pose proof (H x (or_intror Hx)) as H1. pose proof (H c (or_introl eq_refl)) as H2. cbv beta in H1, H2.
  unfold hangul_syllable, SBase. lia.
Qed.
Lemma expands_not_hangul (M : Z -> list Z -> Prop) : (forall c l x, M c l -> In x l -> ~ hangul_syllable x) ->
  (forall c d, expands M c d -> ~ hangul_syllable c -> forall x, In x d -> ~ hangul_syllable x) /\
  (forall cs d, expands_all M cs d -> (forall c, In c cs -> ~ hangul_syllable c) -> forall x, In x d -> ~ hangul_syllable x).
Proof.
  intros T. apply expands_ind2.
  - intros c _ N x [<-|[]]. assumption.
  - intros c l d Ml _ IH _. apply IH. intros x Hx. eapply T; eassumption.
  - intros _ x [].
  - intros c cs d ds _ IH1 _ IH2 N x H. apply in_app_or in H. destruct H.
    + apply IH1; [apply N; left; reflexivity|assumption].
    + apply IH2; [intros; apply N; right; assumption|assumption].
Qed.
Lemma full_canonical_standard c : ~ hangul_syllable c -> expands canonical_mapping c (full_canonical c).
Proof.
  intros N. pose proof (full_canonical_expands c) as E.
  apply (proj1 (expands_larger listed_canonical canonical_mapping ltac:(left; assumption)) c _ E).
  intros x l Hx [L|[Hg _]].
  - eapply (proj1 (expands_unmapped _)); eassumption.
  - assert (T : forall c l x, listed_canonical c l -> In x l -> ~ hangul_syllable x)
      by (intros c' l' x' L' I'; exact (proj1 (mapping_targets_not_hangul _ _ _ _ L' I'))).
    exact (proj1 (expands_not_hangul listed_canonical T) c _ E N x Hx Hg).
Qed.
Lemma canonical_mapping_functional : functional canonical_mapping.
Proof.
  intros c l l' [H|[H1 H2]] [H'|[H1' H2']].
  - eapply listed_canonical_functional; eassumption.
  - exfalso. destruct l as [|x l]; [|eapply (proj2 (mapping_targets_not_hangul _ _ _ x H (or_introl eq_refl))); assumption].
    assert (Q : forallb (fun r => negb (match snd r with [] => true | _ => false end)) ucd_decomposition = true)
      by (vm_compute; reflexivity).
    rewrite forallb_forall in Q. specialize (Q _ H). discriminate.
  - exfalso. destruct l' as [|x l']; [|eapply (proj2 (mapping_targets_not_hangul _ _ _ x H' (or_introl eq_refl))); assumption].
    assert (Q : forallb (fun r => negb (match snd r with [] => true | _ => false end)) ucd_decomposition = true)
      by (vm_compute; reflexivity).
    rewrite forallb_forall in Q. specialize (Q _ H'). discriminate.
  - cbv zeta in *. congruence.
Qed.
Lemma full_compat_standard_iff c :
  expands compatibility_mapping c (full_compat c) <->
  (forall x, In x (full_compat c) -> forall l, ~ compatibility_mapping x l).
Proof.
  split.
  - intros E x Hx l. eapply (proj1 (expands_unmapped _)); eassumption.
  - intros N. apply (proj1 (expands_larger listed_compat compatibility_mapping
      ltac:(intros ? ? [?|?]; left; eexists; eassumption)) c _ (full_compat_expands c)).
    intros x l Hx. apply N. assumption.
Qed.
Lemma hangul_not_standard c : hangul_syllable c -> ~ expands canonical_mapping c (full_canonical c).
Proof.
  intros Hs E. assert (F : full_canonical c = [c]).
  { symmetry. apply full_canonical_unique. apply expands_none. intros l L.
    destruct l as [|x l].
    - assert (Q : forallb (fun r => negb (match snd r with [] => true | _ => false end)) ucd_decomposition = true)
        by (vm_compute; reflexivity).
      rewrite forallb_forall in Q. specialize (Q _ L). discriminate.
    - eapply (proj2 (mapping_targets_not_hangul _ _ _ x L (or_introl eq_refl))); assumption. }
  rewrite F in E. pose proof (proj1 (expands_unmapped _) _ _ E c) as U.
  eapply U; [left; reflexivity|]. right. split; [assumption|reflexivity].
Qed.
