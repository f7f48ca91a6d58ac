(** * Properties C28-C36: character property lookups

    Read with UnicodeSpec.v, which defines [has_gcb], [has_ccc], [listed_canonical],
    [listed_compat], [canonical_mapping], [compatibility_mapping], [expands] and
    [primary_composite] from the Unicode Character Database tables. *)
From Verif Require Import Prelude DataTables UcdTables PropsModel TextModel UnicodeSpec PropsProofs
  DecompTables DecompProofs.

(** ** C28 *)
Theorem C28_grapheme_cluster_break_lookup : forall c v,
  grapheme_cluster_break_resolve c = Ok v <-> has_gcb c v.
Proof. exact gcb_resolve_spec. Qed.
Print Assumptions C28_grapheme_cluster_break_lookup.
(** It is total: a value is always found, without undefined behaviour. *)
Theorem C28_lookup_total : forall c, exists v, grapheme_cluster_break_resolve c = Ok v.
Proof. intros c. eexists. apply gcb_resolve. Qed.
Print Assumptions C28_lookup_total.
Example C28_example : grapheme_cluster_break_resolve 0xD = Ok G_CR /\
  grapheme_cluster_break_resolve 0x1F1E6 = Ok G_REGIONAL_INDICATOR /\
  grapheme_cluster_break_resolve 0x61 = Ok G_OTHER /\
  grapheme_cluster_break_resolve (-1) = Ok G_OTHER.
Proof. repeat split; vm_compute; reflexivity. Qed.

(** ** C29 *)
Theorem C29_combining_class_lookup : forall c k,
  canonical_combining_class_resolve c = Ok k <-> has_ccc c k.
Proof. exact ccc_resolve_spec. Qed.
Print Assumptions C29_combining_class_lookup.
Theorem C29_lookup_total : forall c, exists k, canonical_combining_class_resolve c = Ok k.
Proof. intros c. eexists. apply ccc_resolve. Qed.
Print Assumptions C29_lookup_total.
Example C29_example : canonical_combining_class_resolve 0x301 = Ok 230 /\
  canonical_combining_class_resolve 0x41 = Ok 0.
Proof. repeat split; vm_compute; reflexivity. Qed.

(** ** C30 *)
Theorem C30_canonical_decomposition_lookup : forall c,
  (forall m, listed_canonical c m -> exists d,
     canonical_decomposition_mapping_resolve c = Ok (Some (d ++ [0])) /\
     expands listed_canonical c d /\ d <> [] /\ ~ In 0 d /\
     (forall x m', In x d -> ~ listed_canonical x m')) /\
  ((forall m, ~ listed_canonical c m) -> canonical_decomposition_mapping_resolve c = Ok None).
Proof. exact canonical_resolve_spec. Qed.
Print Assumptions C30_canonical_decomposition_lookup.
(** [expands] determines the result: there is only one complete expansion. *)
Theorem C30_expansion_unique : forall c d d',
  expands listed_canonical c d -> expands listed_canonical c d' -> d = d'.
Proof. intros c d d' H H'. rewrite (full_canonical_unique c d H), (full_canonical_unique c d' H'). reflexivity. Qed.
Print Assumptions C30_expansion_unique.
Example C30_example : canonical_decomposition_mapping_resolve 0x1E69 = Ok (Some [0x73; 0x323; 0x307; 0]).
Proof. vm_compute. reflexivity. Qed.

(** ** C31.  False for Hangul syllables: they have no row in the table, while the
    standard decomposes U+AC01 into U+1100 U+1161 U+11A8. *)
Theorem C31_canonical_decomposition_standard_refuted :
  canonical_decomposition 0xAC01 [] = Ok (1, [0xAC01]) /\
  expands canonical_mapping 0xAC01 [0x1100; 0x1161; 0x11A8] /\
  ~ expands canonical_mapping 0xAC01 [0xAC01].
Proof.
  assert (H : hangul_syllable 0xAC01) by (unfold hangul_syllable, SBase; lia).
  assert (F : full_canonical 0xAC01 = [0xAC01]) by (vm_compute; reflexivity).
  assert (J : forall x, x < 0xAC00 -> full_canonical x = [x] -> expands canonical_mapping x [x]).
  { intros x Hx E. rewrite <- E. apply full_canonical_standard. unfold hangul_syllable, SBase. lia. }
  split; [rewrite canonical_decomposition_eq, F; reflexivity|]. split.
  - apply (expands_map _ _ [0xAC00; 0x11A8]); [right; split; [assumption|reflexivity]|].
    apply (expands_cons _ 0xAC00 [0x11A8] [0x1100; 0x1161] [0x11A8]).
    + apply (expands_map _ _ [0x1100; 0x1161]);
        [right; split; [unfold hangul_syllable, SBase; lia|reflexivity]|].
      apply (expands_cons _ 0x1100 [0x1161] [0x1100] [0x1161]); [apply J; [lia|vm_compute; reflexivity]|].
      apply (expands_cons _ 0x1161 [] [0x1161] []); [apply J; [lia|vm_compute; reflexivity]|constructor].
    + apply (expands_cons _ 0x11A8 [] [0x11A8] []); [apply J; [lia|vm_compute; reflexivity]|constructor].
  - rewrite <- F. apply hangul_not_standard. assumption.
Qed.
Print Assumptions C31_canonical_decomposition_standard_refuted.
(** It follows the standard exactly for the codepoints that are not Hangul syllables. *)
Theorem C31_canonical_decomposition_standard_iff_partial : forall c out,
  exists d, canonical_decomposition c out = Ok (zlen d, out ++ d) /\
    (expands canonical_mapping c d <-> ~ hangul_syllable c).
Proof.
  intros c out. exists (full_canonical c). split; [apply canonical_decomposition_eq|]. split.
  - intros E H. exact (hangul_not_standard c H E).
  - apply full_canonical_standard.
Qed.
Print Assumptions C31_canonical_decomposition_standard_iff_partial.
Example C31_example : (* a mapping of a mapping *)
  canonical_decomposition 0x1E69 [0x7A] = Ok (3, [0x7A; 0x73; 0x323; 0x307]) /\ ~ hangul_syllable 0x1E69.
Proof. split; [vm_compute; reflexivity|]. unfold hangul_syllable, SBase. lia. Qed.

(** ** C32 *)
Theorem C32_compatibility_decomposition_lookup : forall c,
  (forall m, listed_compat c m -> exists d,
     compatibility_and_canonical_decomposition_mapping_resolve c = Ok (Some (d ++ [0])) /\
     expands listed_compat c d /\ d <> [] /\ ~ In 0 d /\
     (forall x m', In x d -> ~ listed_compat x m')) /\
  ((forall m, ~ listed_compat c m) -> compatibility_and_canonical_decomposition_mapping_resolve c = Ok None).
Proof. exact compat_resolve_spec. Qed.
Print Assumptions C32_compatibility_decomposition_lookup.
Theorem C32_expands_the_canonical_one : forall c, exists d k,
  canonical_decomposition c [] = Ok (zlen d, d) /\
  compatibility_and_canonical_decomposition c [] = Ok (zlen k, k) /\
  expands_all listed_compat d k.
Proof.
  intros c. exists (full_canonical c), (full_compat c).
  split; [apply canonical_decomposition_eq|]. split; [apply compat_decomposition_eq|].
  rewrite <- compat_of_canonical. apply expands_all_compat.
Qed.
Print Assumptions C32_expands_the_canonical_one.
Theorem C32_expansion_unique : forall c d d',
  expands listed_compat c d -> expands listed_compat c d' -> d = d'.
Proof. intros c d d' H H'. rewrite (full_compat_unique c d H), (full_compat_unique c d' H'). reflexivity. Qed.
Print Assumptions C32_expansion_unique.
Example C32_example : (* U+FB05 LONG S T *)
  compatibility_and_canonical_decomposition_mapping_resolve 0xFB05 = Ok (Some [0x73; 0x74; 0]).
Proof. vm_compute. reflexivity. Qed.

(** ** C33.  False: mappings with a tag other than <compat> are dropped, e.g. the
    <wide> mapping of U+FF21 and the <noBreak> mapping of U+00A0. *)
Theorem C33_compatibility_decomposition_standard_refuted :
  (compatibility_and_canonical_decomposition 0xFF21 [] = Ok (1, [0xFF21]) /\
   compatibility_mapping 0xFF21 [0x41]) /\
  (compatibility_and_canonical_decomposition 0xA0 [] = Ok (1, [0xA0]) /\
   compatibility_mapping 0xA0 [0x20]).
Proof.
  repeat split; try (vm_compute; reflexivity); left.
  - exists Tag_wide. apply (included_incl (fun a b => (fst (fst a) =? fst (fst b)) &&
      match snd (fst a), snd (fst b) with Tag_wide, Tag_wide => true | _, _ => false end &&
      match snd a, snd b with [x], [y] => x =? y | _, _ => false end) [(0xFF21, Tag_wide, [0x41])]).
    + intros [[c t] l] [[c' t'] l'] H. cbn in H. zbool.
      destruct t, t'; try discriminate. destruct l as [|x [|]]; try discriminate.
      destruct l' as [|y [|]]; try discriminate. zbool. congruence.
    + vm_compute. reflexivity.
    + left. reflexivity.
  - exists Tag_noBreak. apply (included_incl (fun a b => (fst (fst a) =? fst (fst b)) &&
      match snd (fst a), snd (fst b) with Tag_noBreak, Tag_noBreak => true | _, _ => false end &&
      match snd a, snd b with [x], [y] => x =? y | _, _ => false end) [(0xA0, Tag_noBreak, [0x20])]).
    + intros [[c t] l] [[c' t'] l'] H. cbn in H. zbool.
      destruct t, t'; try discriminate. destruct l as [|x [|]]; try discriminate.
      destruct l' as [|y [|]]; try discriminate. zbool. congruence.
    + vm_compute. reflexivity.
    + left. reflexivity.
Qed.
Print Assumptions C33_compatibility_decomposition_standard_refuted.
(** The result is the standard's compatibility decomposition exactly when nothing in
    it has a mapping (with whatever tag) left. *)
Theorem C33_compatibility_decomposition_standard_iff_partial : forall c out,
  exists d, compatibility_and_canonical_decomposition c out = Ok (zlen d, out ++ d) /\
    (expands compatibility_mapping c d <->
     forall x m, In x d -> ~ compatibility_mapping x m).
Proof.
  intros c out. exists (full_compat c). split; [apply compat_decomposition_eq|].
  rewrite full_compat_standard_iff. split; intros H; intros; apply H; assumption.
Qed.
Print Assumptions C33_compatibility_decomposition_standard_iff_partial.
Example C33_example : (* U+01C4: a <compat> mapping, and a canonical one in it *)
  compatibility_and_canonical_decomposition 0x1C4 [] = Ok (3, [0x44; 0x5A; 0x30C]).
Proof. vm_compute. reflexivity. Qed.

(** ** C34 *)
Theorem C34_composition_lookup : forall a b c,
  canonical_composition_mapping_resolve a b = Ok (Some c) <-> primary_composite a b c.
Proof.
  intros a b c. rewrite comp_resolve, <- comp_spec.
  split; [intros H; injection H; auto|intros ->; reflexivity].
Qed.
Print Assumptions C34_composition_lookup.
Theorem C34_lookup_false_otherwise : forall a b,
  canonical_composition_mapping_resolve a b = Ok None <-> (forall c, ~ primary_composite a b c).
Proof.
  intros a b. rewrite comp_resolve. split.
  - intros H c P. apply comp_spec in P. congruence.
  - intros N. destruct (comp a b) as [c|] eqn:E; [|reflexivity]. exfalso. apply (N c), comp_spec, E.
Qed.
Print Assumptions C34_lookup_false_otherwise.
Theorem C34_composite_unique : forall a b c c',
  primary_composite a b c -> primary_composite a b c' -> c = c'.
Proof. intros a b c c' H H'. apply comp_spec in H, H'. congruence. Qed.
Print Assumptions C34_composite_unique.
Example C34_example : canonical_composition_mapping_resolve 0x41 0x308 = Ok (Some 0xC4) /\
  canonical_composition_mapping_resolve 0x915 0x93C = Ok None. (* U+0958 is excluded *)
Proof. split; vm_compute; reflexivity. Qed.

(** ** C35, pairs (texts: Properties_Normalize.v) *)
Theorem C35_composition_inverse : forall a b c da db dc,
  canonical_composition_mapping_resolve a b = Ok (Some c) ->
  canonical_decomposition a [] = Ok (zlen da, da) ->
  canonical_decomposition b [] = Ok (zlen db, db) ->
  canonical_decomposition c [] = Ok (zlen dc, dc) ->
  dc = da ++ db.
Proof.
  intros a b c da db dc. rewrite comp_resolve, !canonical_decomposition_eq. cbn [app].
  assert (J : forall (x y : Z) (u v : list Z), Ok (x, u) = Ok (y, v) -> v = u) by congruence.
  intros H Ha Hb Hc. apply J in Ha, Hb, Hc. subst. apply comp_full. congruence.
Qed.
Print Assumptions C35_composition_inverse.
Example C35_example : canonical_composition_mapping_resolve 0x1E63 0x307 = Ok (Some 0x1E69) /\
  canonical_decomposition 0x1E63 [] = Ok (2, [0x73; 0x323]).
Proof. split; vm_compute; reflexivity. Qed.

(** ** C36 *)
Theorem C36_strict_weak_order : exists lt : Z -> Z -> bool,
  (forall a b, canonical_combining_order a b = Ok (lt a b)) /\
  (forall a, lt a a = false) /\
  (forall a b, lt a b = true -> lt b a = false) /\
  (forall a b c, lt a b = true -> lt b c = true -> lt a c = true) /\
  (forall a b c, lt a b = false -> lt b a = false -> lt b c = false -> lt c b = false ->
     lt a c = false /\ lt c a = false) /\
  (forall a b, lt a b = true <-> exists k l, has_ccc a k /\ has_ccc b l /\ k < l).
Proof.
  exists (fun a b => ccc a <? ccc b).
  split; [intros; unfold canonical_combining_order; rewrite !ccc_resolve; reflexivity|].
  split; [intros; lia|]. split; [intros; lia|]. split; [intros; lia|]. split; [intros; lia|].
  intros a b. split.
  - intros H. exists (ccc a), (ccc b). repeat split; try apply has_ccc_total. lia.
  - intros (k & l & Hk & Hl & L). apply ccc_spec in Hk, Hl. lia.
Qed.
Print Assumptions C36_strict_weak_order.
Example C36_example : canonical_combining_order 0x327 0x301 = Ok true.
Proof. vm_compute. reflexivity. Qed.
