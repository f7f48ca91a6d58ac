(** * Property C121: the lookups do not depend on the C library

    Reading guide.  LibcModel.v: [c_bsearch bs] says that [bs] is a bsearch as the C standard wants it, no more; [.._resolve_with bs]
    are the lookups in a program linked with [bs].  All other theorems are about the lookups with glibc's bsearch (PropsModel.v). *)
From Verif Require Import Prelude DataTables PropsModel PropsProofs DecompTables LibcModel.
Require Import ZifyBool ZifyNat.

(** A table that is [ordered] is ordered as bsearch requires. *)
Lemma ordered_c_ordered {R} (cmp : R -> Z) base : ordered cmp base -> c_ordered cmp base.
Proof.
  induction base as [|r t IH]; intros O; [exists [], [], []; repeat split; intros ? []|].
  assert (Ot : ordered cmp t) by (intros i j r1 r2 L H1 H2; apply (O (S i) (S j) r1 r2 ltac:(lia)); assumption).
  destruct (IH Ot) as (l & e & g & E & L & Q & G).
  assert (After : cmp r <= 0 -> forall x, In x t -> cmp x < 0).
  { intros C x X. apply In_nth_error in X. destruct X as [i Hi]. exact (O 0%nat (S i) r x ltac:(lia) eq_refl Hi C). }
  destruct (Z_gt_dec (cmp r) 0) as [C|C].
  - exists (r :: l), e, g. split; [cbn; rewrite E; reflexivity|]. split; [intros x [<-|X]; [lia|auto]|]. split; assumption.
  - destruct (Z.eq_dec (cmp r) 0) as [Z0|Z0].
    + exists [], [r], t. repeat split; [intros ? []|intros x [<-|[]]; exact Z0|apply After; lia].
    + exists [], [], (r :: t). repeat split; [intros ? []|intros ? []|]. intros x [<-|X]; [lia|]. apply After; [lia|exact X].
Qed.
Lemma lookup_same bs {R} (cmp : R -> Z) base : c_bsearch bs -> ordered cmp base -> bs R cmp base = bsearch cmp base.
Proof.
  intros B O. destruct (B R cmp base (ordered_c_ordered _ _ O)) as (f & -> & F). destruct (bsearch_correct cmp base O) as [(r & -> & I & E)|(-> & N)].
  - destruct f as [r'|]; [|destruct (F r I E)]. destruct F as (I' & E'). rewrite (ordered_unique cmp base r r' O) by assumption. reflexivity.
  - destruct f as [r'|]; [|reflexivity]. destruct F as (I' & E'). destruct (N r' I' E').
Qed.

(** ** The tables are arrays that bsearch may be called with, whatever the codepoints looked up. *)
Theorem C121_tables_meet_the_contract : forall c a b,
  c_ordered (compare_value_to_row c) canonical_combining_class_data /\
  c_ordered (compare_value_to_row c) canonical_decomposition_mapping_data /\
  c_ordered (compare_value_to_row c) compatibility_and_canonical_decomposition_mapping_data /\
  c_ordered (compare_pair_to_row a b) canonical_composition_mapping_data /\
  c_ordered (compare_value_to_range c) grapheme_cluster_break_data.
Proof.
  intros c a b. repeat split; apply ordered_c_ordered.
  - apply ordered_rows, ccc_data_sorted.
  - apply ordered_rows, canonical_sorted.
  - apply ordered_rows. vm_compute. reflexivity.
  - apply ordered_pairs, composition_sorted.
  - apply ordered_ranges; [exact gcb_data_wf|exact gcb_data_sorted].
Qed.
Print Assumptions C121_tables_meet_the_contract.

(** ** With every bsearch the C standard allows, every lookup of every codepoint (any int) gives the same. *)
Theorem C121_lookups : forall bs, c_bsearch bs -> forall c a b,
  class_resolve_with bs c = canonical_combining_class_resolve c /\
  canonical_resolve_with bs c = canonical_decomposition_mapping_resolve c /\
  compatibility_resolve_with bs c = compatibility_and_canonical_decomposition_mapping_resolve c /\
  composition_resolve_with bs a b = canonical_composition_mapping_resolve a b /\
  break_resolve_with bs c = grapheme_cluster_break_resolve c.
Proof.
  intros bs B c a b. unfold canonical_resolve_with, compatibility_resolve_with, class_resolve_with, mapping_resolve_with, composition_resolve_with, break_resolve_with.
  rewrite !(lookup_same bs _ _ B); [repeat split; reflexivity| | | | |].
  - apply ordered_ranges; [exact gcb_data_wf|exact gcb_data_sorted].
  - apply ordered_pairs, composition_sorted.
  - apply ordered_rows. vm_compute. reflexivity.
  - apply ordered_rows, canonical_sorted.
  - apply ordered_rows, ccc_data_sorted.
Qed.
Print Assumptions C121_lookups.

(** ** Such bsearch functions exist: glibc's, musl's, and a scan. *)
Lemma ordered_of_c {R} (cmp : R -> Z) base : c_ordered cmp base -> forall i r, nth_error base i = Some r ->
  (cmp r < 0 -> forall j x, (i < j)%nat -> nth_error base j = Some x -> cmp x < 0) /\
  (cmp r > 0 -> forall j x, (j < i)%nat -> nth_error base j = Some x -> cmp x > 0).
Proof.
  intros (l & e & g & -> & L & Q & G) i r Hi.
  assert (P : forall k x, nth_error (l ++ e ++ g) k = Some x ->
     ((k < length l)%nat /\ cmp x > 0) \/ ((length l <= k < length l + length e)%nat /\ cmp x = 0) \/ ((length l + length e <= k)%nat /\ cmp x < 0)).
  { intros k x Hk. destruct (Nat.lt_ge_cases k (length l)) as [A|A]; [rewrite nth_error_app1 in Hk by lia; left; split; [lia|]; eapply L, nth_error_In, Hk|].
    rewrite nth_error_app2 in Hk by lia. destruct (Nat.lt_ge_cases (k - length l) (length e)) as [A'|A'].
    - rewrite nth_error_app1 in Hk by lia. right; left; split; [lia|]. eapply Q, nth_error_In, Hk.
    - rewrite nth_error_app2 in Hk by lia. right; right; split; [lia|]. eapply G, nth_error_In, Hk. }
  split; intros C j x Hj Hx; pose proof (P i r Hi) as A; pose proof (P j x Hx) as B; lia.
Qed.
Theorem C121_glibc : c_bsearch glibc_bsearch.
Proof.
  intros R cmp base O. unfold glibc_bsearch, bsearch.
  assert (H : forall fuel l u, (u - l < fuel)%nat -> (u <= length base)%nat -> (forall i r, nth_error base i = Some r -> cmp r = 0 -> (l <= i < u)%nat) ->
    exists f, bsearch_loop fuel cmp base l u = Ok f /\ match f with Some r => In r base /\ cmp r = 0 | None => forall r, In r base -> cmp r <> 0 end).
  { induction fuel as [|fuel IH]; intros l u Hf Hu W; [lia|]. cbn [bsearch_loop]. destruct (Nat.ltb_spec l u) as [L|L].
    - pose proof (Nat.div2_odd (l + u)) as D. set (m := Nat.div2 (l + u)) in *.
      assert (Hm : (l <= m < u)%nat) by (destruct (Nat.odd (l + u)); cbn in D; lia).
      destruct (nth_error base m) as [r|] eqn:E; [|apply nth_error_None in E; lia]. destruct (ordered_of_c cmp base O m r E) as (U1 & U2). cbv zeta.
      destruct (Z.ltb_spec (cmp r) 0) as [C|C]; [|destruct (Z.gtb_spec (cmp r) 0) as [C'|C']].
      + apply IH; [lia|lia|]. intros i x Hi X. specialize (W i x Hi X). destruct (Nat.lt_trichotomy i m) as [?|[->|A]]; [lia| |].
        * rewrite E in Hi. injection Hi as <-. lia.
        * pose proof (U1 C i x A Hi). lia.
      + apply IH; [lia|lia|]. intros i x Hi X. specialize (W i x Hi X). destruct (Nat.lt_trichotomy i m) as [A|[->|A]]; [|  |lia].
        * pose proof (U2 ltac:(lia) i x A Hi). lia.
        * rewrite E in Hi. injection Hi as <-. lia.
      + exists (Some r). split; [reflexivity|]. split; [eapply nth_error_In, E|lia].
    - exists None. split; [reflexivity|]. intros r I X. apply In_nth_error in I. destruct I as [i Hi]. specialize (W i r Hi X). lia. }
  apply H; [lia|lia|]. intros i r Hi _. assert (nth_error base i <> None) by congruence. apply nth_error_Some in H0. lia.
Qed.
Print Assumptions C121_glibc.
Lemma nth_skipn {A} k : forall (l : list A) i, nth_error (skipn k l) i = nth_error l (k + i).
Proof. induction k as [|k IH]; intros l i; [reflexivity|]. destruct l; [destruct i; reflexivity|]. cbn [skipn plus nth_error]. apply IH. Qed.
Theorem C121_musl : c_bsearch musl_bsearch.
Proof.
  intros R cmp base0 O0. unfold musl_bsearch.
  assert (H : forall fuel base nel, (nel < fuel)%nat -> (nel <= length base)%nat -> c_ordered cmp base ->
     (forall i r, nth_error base i = Some r -> cmp r = 0 -> (i < nel)%nat) ->
    exists f, musl_loop fuel cmp base nel = Ok f /\ match f with Some r => In r base /\ cmp r = 0 | None => forall r, In r base -> cmp r <> 0 end).
  { induction fuel as [|fuel IH]; intros base nel Hf Hu O W; [lia|]. cbn [musl_loop]. destruct nel as [|n].
    - exists None. split; [reflexivity|]. intros r I X. apply In_nth_error in I. destruct I as [i Hi]. specialize (W i r Hi X). lia.
    - pose proof (Nat.div2_odd (S n)) as D. set (m := Nat.div2 (S n)) in *. assert (Hm : (m < S n)%nat) by (unfold Nat.b2n in D; destruct (Nat.odd (S n)); lia).
      destruct (nth_error base m) as [r|] eqn:E; [|apply nth_error_None in E; lia]. destruct (ordered_of_c cmp base O m r E) as (U1 & U2).
      destruct (Z.ltb_spec (cmp r) 0) as [C|C]; [|destruct (Z.gtb_spec (cmp r) 0) as [C'|C']].
      + apply IH; [lia|lia|exact O|]. intros i x Hi X. specialize (W i x Hi X). destruct (Nat.lt_trichotomy i m) as [?|[->|A]]; [lia| |].
        * rewrite E in Hi. injection Hi as <-. lia.
        * pose proof (U1 C i x A Hi). lia.
      + assert (K : forall x, In x base -> cmp x = 0 -> In x (skipn (S m) base)).
        { intros x I X. apply In_nth_error in I. destruct I as [i Hi]. assert (Lt : (m < i)%nat).
          { destruct (Nat.lt_trichotomy i m) as [A|[->|A]]; [|rewrite E in Hi; injection Hi as <-; lia|lia]. pose proof (U2 ltac:(lia) i x A Hi). lia. }
          apply (nth_error_In _ (i - S m)). rewrite nth_skipn. replace (S m + (i - S m))%nat with i by lia. exact Hi. }
        destruct (IH (skipn (S m) base) (S n - (m + 1))%nat) as (f & E' & F).
        * lia.
        * rewrite skipn_length. lia.
        * destruct O as (l & e & g & EQ & L & Q & G). exists (skipn (S m) l), (skipn (S m - length l) e), (skipn (S m - length l - length e) g).
          split; [rewrite EQ, !skipn_app; reflexivity|]. assert (Sk : forall k (t : list R) x, In x (skipn k t) -> In x t).
          { intros k t x I. rewrite <- (firstn_skipn k t). apply in_or_app. right. exact I. }
          split; [|split]; intros x I; [apply L|apply Q|apply G]; eapply Sk, I.
        * intros i x Hi X. assert (In x (skipn (S m) base)) by (eapply nth_error_In, Hi).
          assert (Hb : nth_error base (S m + i) = Some x) by (rewrite <- nth_skipn; exact Hi).
          specialize (W _ _ Hb X). lia.
        * exists f. split; [exact E'|]. destruct f as [x|]; [destruct F as (F1 & F2); split; [|exact F2]|intros x I X; exact (F x (K x I X) X)].
          rewrite <- (firstn_skipn (S m) base). apply in_or_app. right. exact F1.
      + exists (Some r). split; [reflexivity|]. split; [eapply nth_error_In, E|lia]. }
  apply H; [lia|lia|exact O0|]. intros i r Hi _. assert (nth_error base0 i <> None) by congruence. apply nth_error_Some in H0. lia.
Qed.
Print Assumptions C121_musl.
Theorem C121_scan : c_bsearch scan_bsearch.
Proof.
  intros R cmp base _. exists (find (fun r => cmp r =? 0) base). split; [reflexivity|]. destruct (find _ base) as [r|] eqn:F.
  - apply find_some in F. destruct F as (I & E). split; [exact I|lia].
  - intros r I E. pose proof (find_none _ _ F r I) as N. cbv beta in N. lia.
Qed.
Print Assumptions C121_scan.
Example C121_example :
  canonical_resolve_with musl_bsearch 0xE9 = Ok (Some [0x65; 0x301; 0]) /\ break_resolve_with musl_bsearch 0x301 = Ok G_EXTEND /\
  composition_resolve_with scan_bsearch 0x65 0x301 = Ok (Some 0xE9) /\ class_resolve_with musl_bsearch 0x301 = Ok 230 /\
  class_resolve_with scan_bsearch (-5) = Ok 0.
Proof. repeat split; vm_compute; reflexivity. Qed.
