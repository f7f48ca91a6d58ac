(** * The tables in the repository are what the generators produce *)
From Coq Require Import Ascii String Permutation Sorting.Sorted FMapPositive.
From Verif Require Import Prelude DataTables UcdTables UnicodeSpec GenModel GenSpec PropsModel PropsProofs
  DecompTables DecompProofs GenText GenProofs GenComp GenBreak.

(** ** Sorted tables with the same rows are equal *)
Lemma sorted_same {R} (lt : R -> R -> Prop) (l m : list R) :
  (forall x y, lt x y -> lt y x -> False) ->
  StronglySorted lt l -> StronglySorted lt m -> (forall r, In r l <-> In r m) -> l = m.
Proof.
  intros A Sl. revert m. induction Sl as [|x l Sl IH Fx]; intros m Sm E.
  - destruct m as [|y m]; [reflexivity|]. exfalso. apply (proj2 (E y)). left. reflexivity.
  - destruct Sm as [|y m Sm Fy]; [exfalso; apply (proj1 (E x)); left; reflexivity|].
    assert (x = y) as ->.
    { destruct (proj1 (E x) (or_introl eq_refl)) as [|H]; [congruence|].
      destruct (proj2 (E y) (or_introl eq_refl)) as [|H']; [assumption|].
      exfalso. rewrite Forall_forall in *. apply (A x y); auto. }
    f_equal. apply IH; [assumption|]. rewrite Forall_forall in *.
    assert (I : forall r, lt y r -> y <> r) by (intros r H ->; eapply A; eassumption).
    intros r. split; intros H.
    + destruct (proj1 (E r) (or_intror H)) as [<-|]; [|assumption]. exfalso. apply (I y); auto.
    + destruct (proj2 (E r) (or_intror H)) as [<-|]; [|assumption]. exfalso. apply (I y); auto.
Qed.
Lemma rows_same (l m : list (list Z)) :
  StronglySorted (fun a b => row_at a 0 < row_at b 0) l -> StronglySorted (fun a b => row_at a 0 < row_at b 0) m ->
  (forall r, In r l <-> In r m) -> l = m.
Proof. apply sorted_same. intros x y. lia. Qed.
Lemma adjacent_rows l : adjacent row_lt l = true -> StronglySorted (fun a b => row_at a 0 < row_at b 0) l.
Proof.
  intros H. apply adjacent_sorted in H.
  - eapply sorted_impl; [|exact H]. intros a b Q. apply Z.ltb_lt. exact Q.
  - unfold row_lt. intros x y z A B. zbool. apply Z.ltb_lt. lia.
Qed.

(** ** The key order does not matter *)
Lemma class_any_order file ord ord' : file_ok file -> some_order ord -> some_order ord' ->
  generate_class ord (map line_of file) = generate_class ord' (map line_of file).
Proof.
  intros W O O'. destruct (class_rows ord file O W) as [S R]. destruct (class_rows ord' file O' W) as [S' R'].
  apply rows_same; [assumption..|]. intros r. rewrite R, R'. reflexivity.
Qed.
Lemma mapping_any_order compat file ord ord' fuel fuel' table table' : file_ok file -> some_order ord -> some_order ord' ->
  generate_mapping compat fuel ord (map line_of file) = Ok table ->
  generate_mapping compat fuel' ord' (map line_of file) = Ok table' -> table = table'.
Proof.
  intros W O O' G G'.
  destruct (mapping_rows compat ord file O W fuel table G) as [S R].
  destruct (mapping_rows compat ord' file O' W fuel' table' G') as [S' R'].
  apply rows_same; [assumption..|]. intros r. rewrite R, R'. reflexivity.
Qed.
Lemma pair_lt_asym x y : pair_lt x y = true -> pair_lt y x = true -> False.
Proof. unfold pair_lt. intros A B. zbool; lia. Qed.
Lemma composition_any_order file excl ord ord' : file_ok file -> pairs_ok file -> (forall x, In x excl -> exclusion_ok x) ->
  some_order ord -> some_order ord' ->
  generate_composition ord (map line_of file) (map exclusion_text excl) =
  generate_composition ord' (map line_of file) (map exclusion_text excl).
Proof.
  intros W U X O O'. destruct (composition_rows ord file excl O W U X) as [S R].
  destruct (composition_rows ord' file excl O' W U X) as [S' R'].
  eapply sorted_same; [exact pair_lt_asym|eassumption..|]. intros r. rewrite R, R'. reflexivity.
Qed.

(** No two codepoints of Unicode 9.0 have the same pair as canonical mapping. *)
Definition pair_key (a b : Z) : Z := 1 + a * 0x200000 + b.
Definition pair_tree : PositiveMap.t (Z * dtag * list Z) :=
  tree_of (fun r => match r with (_, Canonical, [a; b]) => pair_key a b | _ => 1 end) ucd_decomposition.
Definition owner (a b : Z) : Z := match lookup pair_tree (pair_key a b) with Some r => fst (fst r) | None => 0 end.
Lemma pair_owner a b c : listed_canonical c [a; b] -> c = owner a b.
Proof.
  assert (B : forallb (fun r => match r with (c, Canonical, [a; b]) => c =? owner a b | _ => true end) ucd_decomposition = true)
    by (vm_cast_no_check (eq_refl true)).
  rewrite forallb_forall in B. intros H. specialize (B _ H). cbn beta iota in B. apply Z.eqb_eq. exact B.
Qed.

(** ** Files with the contents of Unicode 9.0 *)
Section Unicode9.
  Variables (file : list entry).
  Hypothesis (H9 : is_unicode_9 file).
  Lemma file_9_ok : file_ok file.
  Proof. apply H9. Qed.
  Lemma file_9_class c k : file_class file c k <-> has_ccc c k.
  Proof.
    destruct H9 as (W & K & _). unfold file_class, has_ccc. split.
    - intros [(e & I & C & Q)|[N ->]].
      + destruct (Z.eq_dec k 0) as [->|NZ]; [|left; apply K; eauto].
        right. split; [|reflexivity]. intros k' H. apply K in H. destruct H as (NZ & e' & I' & C' & Q').
        rewrite (file_unique file e' e W I' I) in Q' by congruence. congruence.
      + right. split; [|reflexivity]. intros k' H. apply K in H. destruct H as (_ & e & I & C & _). eapply N; eassumption.
    - intros [H|[N ->]].
      + apply K in H. left. tauto.
      + destruct (existsb (fun e => e_code e =? c) file) eqn:X.
        * apply existsb_exists in X. destruct X as (e & I & X). apply Z.eqb_eq in X.
          left. exists e. repeat split; [assumption..|]. destruct (Z.eq_dec (e_class e) 0) as [|NZ]; [assumption|].
          exfalso. apply (N (e_class e)). apply K. eauto.
        * right. split; [|reflexivity]. intros e I Q.
          assert (existsb (fun e => e_code e =? c) file = true); [|congruence].
          apply existsb_exists. exists e. split; [assumption|apply Z.eqb_eq; assumption].
  Qed.
  Lemma file_9_canonical c l : file_canonical file c l <-> listed_canonical c l.
  Proof. destruct H9 as (_ & _ & D). unfold listed_canonical. rewrite D. reflexivity. Qed.
  Lemma file_9_compat c l : file_compat file c l <-> listed_compat c l.
  Proof.
    destruct H9 as (_ & _ & D). unfold listed_compat. rewrite !D. unfold file_compat. split.
    - intros (e & I & C & [E|E]); [left|right]; eauto.
    - intros [(e & I & C & E)|(e & I & C & E)]; exists e; auto.
  Qed.
  Lemma shipped_class ord : some_order ord -> generate_class ord (map line_of file) = canonical_combining_class_data.
  Proof.
    intros O. destruct (class_rows ord file O file_9_ok) as [S R]. apply rows_same; [assumption|apply adjacent_rows, ccc_data_sorted|].
    intros r. rewrite R, <- ccc_data_ucd, in_map_iff. destruct H9 as (_ & K & _). split.
    - intros (e & I & NZ & ->). exists (e_code e, e_class e). split; [reflexivity|]. apply K. eauto.
    - intros ([c k] & <- & I). apply K in I. destruct I as (NZ & e & I & <- & <-). exists e. auto.
  Qed.
  Lemma closed_rows keep data : closed_table keep data -> forall r, In r data <->
    exists c l D, rel_of keep c l /\ expands (rel_of keep) c D /\ r = c :: D ++ [0].
  Proof.
    intros T. assert (T0 := T). destruct T as (S & R & Hd). rewrite forallb_forall in R. intros r. split.
    - intros I. specialize (R r I). destruct r as [|c r]; [discriminate|].
      apply row_ok_spec in R. destruct R as (d & m & -> & M & E & _). eauto 6.
    - intros (c & l & D & M & E & ->).
      destruct (table_resolver_spec keep data c T0) as [(d & m & G & _ & E' & _)|(_ & N)]; [|exfalso; eapply N; eassumption].
      rewrite (proj1 (expands_fun _ (rel_of_functional keep)) c D E d E').
      unfold table_resolver in G.
      destruct (bsearch_correct _ _ (ordered_rows data c S)) as [(r & Q & I & C)|(Q & _)]; rewrite Q in G; [|discriminate].
      cbn [bind] in G. assert (R' := R r I). destruct r as [|c' r]; [discriminate|].
      injection G as G. unfold compare_value_to_row in C. cbn [row_at nth] in C.
      destruct (Z.ltb_spec c c'); [lia|]. destruct (Z.gtb_spec c c'); [lia|].
      replace c with c' by lia. rewrite <- G. exact I.
  Qed.
  Lemma shipped_mapping compat keep data ord : some_order ord -> closed_table keep data ->
    (forall c l, file_mapping compat file c l <-> rel_of keep c l) ->
    exists N, forall fuel, (N <= fuel)%nat -> generate_mapping compat fuel ord (map line_of file) = Ok data.
  Proof.
    intros O T E. destruct (mapping_terminates compat ord file O file_9_ok) as (N & table & G).
    - intros c. exists (table_full data c).
      apply (proj1 (expands_equiv _ _ (fun c l => iff_sym (E c l)))). apply table_full_expands. assumption.
    - exists N. intros fuel F. rewrite (G fuel F). f_equal.
      destruct (mapping_rows compat ord file O file_9_ok fuel table (G fuel F)) as [S R].
      apply rows_same; [assumption|apply adjacent_rows, T|]. intros r. rewrite R, (closed_rows keep data T). split.
      + intros (c & l & D & Ml & X & ->). exists c, l, D. split; [apply E; assumption|]. split; [|reflexivity].
        apply (proj1 (expands_equiv _ _ E)). assumption.
      + intros (c & l & D & Ml & X & ->). exists c, l, D. split; [apply E; assumption|]. split; [|reflexivity].
        apply (proj1 (expands_equiv _ _ (fun c l => iff_sym (E c l)))). assumption.
  Qed.
  Lemma shipped_canonical ord : some_order ord -> exists N, forall fuel, (N <= fuel)%nat ->
    generate_mapping false fuel ord (map line_of file) = Ok canonical_decomposition_mapping_data.
  Proof.
    intros O. eapply shipped_mapping; [assumption|exact canonical_table|]. intros c l. cbn [file_mapping].
    rewrite file_9_canonical, rel_canonical. reflexivity.
  Qed.
  Lemma shipped_compat ord : some_order ord -> exists N, forall fuel, (N <= fuel)%nat ->
    generate_mapping true fuel ord (map line_of file) = Ok compatibility_and_canonical_decomposition_mapping_data.
  Proof.
    intros O. eapply shipped_mapping; [assumption|exact compat_table|]. intros c l. cbn [file_mapping].
    rewrite file_9_compat, rel_compat. reflexivity.
  Qed.
  Lemma file_9_pairs : pairs_ok file.
  Proof.
    split.
    - intros c l H. apply file_9_canonical in H. unfold listed_canonical in H.
      assert (B : forallb (fun r => match snd (fst r) with Canonical => (length (snd r) <=? 2)%nat | _ => true end) ucd_decomposition = true)
        by (vm_cast_no_check (eq_refl true)).
      rewrite forallb_forall in B. specialize (B _ H). cbn [fst snd] in B. apply Nat.leb_le. assumption.
    - intros a b c c' H _ H' _. apply file_9_canonical in H, H'.
      apply pair_owner in H, H'. congruence.
  Qed.
  Variable excl : list exclusion.
  Hypothesis (X9 : is_exclusions_9 excl).
  Lemma not_single_9 : not_single_space excl = excl.
  Proof.
    destruct X9 as [X _]. clear X9. unfold not_single_space. induction excl as [|x l IH]; [reflexivity|]. cbn [filter].
    rewrite (proj2 (X x (or_introl eq_refl))). cbn [negb]. f_equal. apply IH. intros y Y. apply X. right. assumption.
  Qed.
  Lemma shipped_composition ord : some_order ord ->
    generate_composition ord (map line_of file) (map exclusion_text excl) = canonical_composition_mapping_data.
  Proof.
    intros O. destruct (composition_rows ord file excl O file_9_ok file_9_pairs (fun x I => proj1 (proj1 X9 x I))) as [S R].
    eapply sorted_same; [exact pair_lt_asym|exact S| |].
    - apply adjacent_sorted; [|exact composition_sorted]. unfold pair_lt. intros x y z A B. zbool; apply orb_true_iff;
        try (left; lia); right; apply andb_true_intro; split; lia.
    - intros r. rewrite R, not_single_9. unfold file_primary. split.
      + intros (a & b & c & (K & C0 & A0 & N) & ->).
        assert (P : primary_composite a b c).
        { repeat split; [apply file_9_canonical; assumption|apply file_9_class; assumption..|].
          intros I. apply N, X9, I. }
        apply comp_spec in P. unfold comp in P.
        destruct (find _ _) as [r|] eqn:F; [|discriminate]. apply find_some in F. destruct F as [I E].
        destruct (comp_row_shape r I) as (x & y & z & -> & _). apply Z.eqb_eq, compare_pair_zero in E.
        destruct E as [<- <-]. injection P as <-. exact I.
      + intros I. destruct (comp_row_shape r I) as (a & b & c & -> & (K & C0 & A0 & N)). exists a, b, c.
        split; [|reflexivity]. repeat split; [apply file_9_canonical; assumption|apply file_9_class; assumption..|].
        intros H. apply N, X9, H.
  Qed.
End Unicode9.

(** ** GraphemeBreakProperty.txt *)
Lemma disjoint_perm l m : Permutation l m -> disjoint l -> disjoint m.
Proof.
  induction 1 as [|[[lo hi] v] l m P IH|[[lo hi] v] [[lo' hi'] v'] l|l m k _ IH1 _ IH2]; intros D.
  - exact I.
  - destruct D as [D1 D2]. split; [|auto]. intros lo' hi' v' H. eapply D1. eapply Permutation_in; [apply Permutation_sym; eassumption|eassumption].
  - destruct D as [D1 [D2 D3]]. split; [|split; [|assumption]].
    + intros a b w [H|H]; [injection H as <- <- <-; specialize (D1 _ _ _ (or_introl eq_refl)); tauto|eapply D2; eassumption].
    + intros a b w H. eapply D1. right. eassumption.
  - auto.
Qed.
Fixpoint disjointb (ranges : list (Z * Z * gcb)) : bool :=
  match ranges with
  | [] => true
  | (lo, hi, _) :: rs => forallb (fun r => (hi <? fst (fst r)) || (snd (fst r) <? lo)) rs && disjointb rs
  end.
Lemma disjointb_spec l : disjointb l = true -> disjoint l.
Proof.
  induction l as [|[[lo hi] v] l IH]; [exact (fun _ => I)|]. cbn [disjointb]. intros H. apply andb_prop in H. destruct H as [H1 H2].
  split; [|auto]. intros lo' hi' v' J. rewrite forallb_forall in H1. specialize (H1 _ J). cbn [fst snd] in H1. zbool; lia.
Qed.
Lemma ucd_breaks_disjoint : disjoint ucd_grapheme_break.
Proof. apply disjointb_spec. vm_cast_no_check (eq_refl true). Qed.
Lemma ucd_breaks_valid : Forall valid ucd_grapheme_break.
Proof.
  apply Forall_forall. intros [[lo hi] v] J. apply gcb_data_ucd in J. apply gcb_data_wf in J. exact J.
Qed.
Lemma gcb_data_by_start : StronglySorted (fun a b => by_start a b = true) grapheme_cluster_break_data.
Proof.
  apply adjacent_sorted; [unfold by_start; intros; lia|]. vm_cast_no_check (eq_refl true).
Qed.
Lemma break_any_order l m : disjoint l -> Forall valid l -> Permutation l m -> sort_by by_start l = sort_by by_start m.
Proof.
  intros D V P. eapply (sorted_same (fun a b => by_start a b = true)).
  - unfold by_start. intros x y. lia.
  - apply sorted_ranges; assumption.
  - apply sorted_ranges; [eapply disjoint_perm; eassumption|]. rewrite Forall_forall in *. intros r H. apply V.
    eapply Permutation_in; [apply Permutation_sym; eassumption|assumption].
  - intros r. assert (Q : Permutation (sort_by by_start l) (sort_by by_start m)).
    { eapply Permutation_trans; [apply Permutation_sym, sort_perm|]. eapply Permutation_trans; [exact P|apply sort_perm]. }
    split; intros H; (eapply Permutation_in; [|exact H]); [assumption|apply Permutation_sym; assumption].
Qed.
Lemma shipped_break xs lines : is_breaks_9 xs lines -> generate_break lines = Some grapheme_cluster_break_data.
Proof.
  intros (F & O & P). rewrite (generate_break_rows xs lines F O). f_equal.
  rewrite <- (break_any_order ucd_grapheme_break _ ucd_breaks_disjoint ucd_breaks_valid (Permutation_sym P)).
  eapply (sorted_same (fun a b => by_start a b = true)).
  - unfold by_start. intros x y. lia.
  - apply sorted_ranges; [exact ucd_breaks_disjoint|exact ucd_breaks_valid].
  - exact gcb_data_by_start.
  - intros r. rewrite gcb_data_ucd. split; intros H; (eapply Permutation_in; [|exact H]); [apply Permutation_sym|]; apply sort_perm.
Qed.

(** ** Such files exist *)
Definition sample_entry (r : Z * dtag * list Z) : entry :=
  Entry (fst (fst r)) [] [] (fast_ccc (fst (fst r))) [] (Some (tag_text (snd (fst r)), snd r)) [].
Definition class_entry (r : Z * Z) : entry := Entry (fst r) [] [] (snd r) [] None [].
Definition unmapped (r : Z * Z) : bool := match lookup decomposition_tree (fst r) with Some _ => false | None => true end.
Definition unicode_9_sample : list entry :=
  map sample_entry ucd_decomposition ++ map class_entry (filter unmapped ucd_ccc).
Lemma sorted_keys_nodup {R} (key : R -> Z) l : StronglySorted (fun a b => key a < key b) l -> NoDup (map key l).
Proof.
  induction 1 as [|x l S IH F]; [constructor|]. cbn [map]. constructor; [|assumption].
  intros H. apply in_map_iff in H. destruct H as (y & E & I). rewrite Forall_forall in F. specialize (F y I). lia.
Qed.
Lemma nodup_append {A} (l m : list A) : NoDup l -> NoDup m -> (forall x, In x l -> ~ In x m) -> NoDup (l ++ m).
Proof.
  induction 1 as [|x l N Nl IH]; intros M D; [assumption|]. cbn [app]. constructor.
  - intros H. apply in_app_or in H. destruct H as [H|H]; [contradiction|]. apply (D x); [left; reflexivity|assumption].
  - apply IH; [assumption|]. intros y Y. apply D. right. assumption.
Qed.
Lemma sorted_filter {A} (P : A -> A -> Prop) (p : A -> bool) l : StronglySorted P l -> StronglySorted P (filter p l).
Proof.
  induction 1 as [|x l S IH F]; [constructor|]. cbn [filter]. destruct (p x); [|assumption].
  constructor; [assumption|]. rewrite Forall_forall in *. intros y Y. apply filter_In in Y. apply F. tauto.
Qed.
Lemma tag_text_inj t t' : tag_text t = tag_text t' -> t = t'.
Proof. destruct t, t'; cbn; intros H; try reflexivity; discriminate. Qed.
Lemma ucd_mapping_values c t l : In (c, t, l) ucd_decomposition -> l <> [] /\ forall x, In x l -> 0 <= x.
Proof.
  assert (B : forallb (fun r => match snd r with [] => false | _ => forallb (fun x => 0 <=? x) (snd r) end) ucd_decomposition = true)
    by (vm_cast_no_check (eq_refl true)).
  rewrite forallb_forall in B. intros H. specialize (B _ H). cbn [snd] in B. destruct l as [|y l]; [discriminate|].
  split; [discriminate|]. rewrite forallb_forall in B. intros x X. specialize (B x X). lia.
Qed.
Lemma ucd_class_values c k : In (c, k) ucd_ccc -> 0 < k.
Proof.
  assert (B : forallb (fun r : Z * Z => 0 <? snd r) ucd_ccc = true) by (vm_cast_no_check (eq_refl true)).
  rewrite forallb_forall in B. intros H. specialize (B _ H). cbn [snd] in B. lia.
Qed.
Lemma has_ccc_nonneg c k : has_ccc c k -> 0 <= k.
Proof. intros [H|[_ ->]]; [apply ucd_class_values in H|]; lia. Qed.
Lemma tag_chars tag t : tag_text tag = Some t -> ~ In ";"%char t /\ ~ In ">"%char t.
Proof. destruct tag; cbn; intros H; try discriminate; injection H as <-; split; intros J; repeat destruct J as [J|J]; try discriminate; destruct J. Qed.
Lemma unmapped_spec c k : unmapped (c, k) = true <-> forall t l, ~ In (c, t, l) ucd_decomposition.
Proof.
  unfold unmapped, decomposition_tree. cbn [fst]. destruct (lookup _ c) as [[[a t] l]|] eqn:L; split; intros H; try discriminate; try reflexivity.
  - apply lookup_some in L; [|exact ucd_decomposition_pos]. cbn [fst snd] in L. destruct L as [J ->]. exfalso. eapply H. eassumption.
  - intros t l J. eapply (lookup_none _ _ _ ucd_decomposition_pos L); [eassumption|reflexivity].
Qed.
Lemma unicode_9_sample_ok : is_unicode_9 unicode_9_sample.
Proof.
  assert (In1 : forall e, In e unicode_9_sample <->
    (exists c t l, In (c, t, l) ucd_decomposition /\ e = sample_entry (c, t, l)) \/
    (exists c k, In (c, k) ucd_ccc /\ unmapped (c, k) = true /\ e = class_entry (c, k))).
  { intros e. unfold unicode_9_sample. rewrite in_app_iff, !in_map_iff. split.
    - intros [([[c t] l] & <- & J)|([c k] & <- & J)]; [left; exists c, t, l; split; [exact J|reflexivity]|]. destruct (proj1 (filter_In unmapped (c, k) ucd_ccc) J) as [J' U]. right. exists c, k. split; [exact J'|]. split; [exact U|reflexivity].
    - intros [(c & t & l & J & ->)|(c & k & J & U & ->)]; [left|right]; eexists; (split; [reflexivity|]); [assumption|].
      exact (proj2 (filter_In unmapped (c, k) ucd_ccc) (conj J U)). }
  assert (HC : forall c, has_ccc c (fast_ccc c)) by (intros c; rewrite fast_ccc_eq; apply has_ccc_total).
  assert (W : file_ok unicode_9_sample).
  { split.
    - intros e H. apply In1 in H. destruct H as [(c & t & l & J & ->)|(c & k & J & _ & ->)]; unfold entry_ok; cbn [e_code e_class e_mapping e_name e_category e_bidi e_rest sample_entry class_entry fst snd].
      + pose proof (proj1 (Forall_forall _ _) ucd_decomposition_pos _ J) as P. cbn [fst snd] in P.
        split; [lia|]. split; [eapply has_ccc_nonneg, HC|]. split.
        * intros f [<-|[<-|[<-|[]]]]; intros [].
        * intros tag m E. injection E as <- <-. destruct (ucd_mapping_values _ _ _ J) as [N V].
          split; [assumption|]. split; [assumption|]. intros s. apply tag_chars.
      + pose proof (proj1 (Forall_forall _ _) ucd_ccc_pos _ J) as P. cbn [fst snd] in P. pose proof (ucd_class_values _ _ J) as P'.
        split; [lia|]. split; [lia|]. split; [|discriminate]. intros f [<-|[<-|[<-|[]]]]; intros [].
    - unfold unicode_9_sample. rewrite map_app, !map_map. cbn [e_code sample_entry class_entry].
      apply nodup_append.
      + apply sorted_keys_nodup. pose proof ucd_decomposition_sorted as S. apply adjacent_sorted in S.
        * eapply sorted_impl; [|exact S]. intros a b H. apply Z.ltb_lt. exact H.
        * intros x y z A B. cbv beta in *. lia.
      + apply (sorted_keys_nodup (fun r : Z * Z => fst r)). apply sorted_filter.
        assert (S : adjacent (fun a b : Z * Z => fst a <? fst b) ucd_ccc = true) by (vm_cast_no_check (eq_refl true)).
        apply adjacent_sorted in S; [eapply sorted_impl; [|exact S]; intros a b H; apply Z.ltb_lt; exact H|].
        intros x y z A B. cbv beta in *. lia.
      + intros c H H'. destruct (proj1 (in_map_iff _ _ _) H) as ([[a t] l] & <- & J). destruct (proj1 (in_map_iff _ _ _) H') as ([b k] & E & J'). clear H H'.
        cbn [fst snd] in E. subst b. destruct (proj1 (filter_In unmapped (a, k) ucd_ccc) J') as [_ U].
        apply (proj1 (unmapped_spec a k) U t l). assumption. }
  split; [assumption|]. split.
  - intros c k. split.
    + intros J. split; [pose proof (ucd_class_values _ _ J); lia|].
      destruct (unmapped (c, k)) eqn:U.
      * exists (class_entry (c, k)). split; [apply In1; right; exists c, k; split; [exact J|split; [exact U|reflexivity]]|split; reflexivity].
      * unfold unmapped in U. cbn [fst] in U. destruct (lookup decomposition_tree c) as [[[a t] l]|] eqn:L; [|discriminate].
        apply lookup_some in L; [|exact ucd_decomposition_pos]. cbn [fst snd] in L. destruct L as [D ->].
        exists (sample_entry (c, t, l)). split; [apply In1; left; exists c, t, l; split; [exact D|reflexivity]|]. split; [reflexivity|].
        cbn [e_class sample_entry fst]. rewrite fast_ccc_eq. apply ccc_spec. left. assumption.
    + intros (NZ & e & H & C & K). apply In1 in H. destruct H as [(c' & t & l & J & ->)|(c' & k' & J & _ & ->)]; cbn [e_code e_class e_mapping sample_entry class_entry fst snd] in C, K; subst.
      * destruct (HC c) as [H|[_ H]]; [assumption|contradiction].
      * assumption.
  - intros c t l. split.
    + intros J. exists (sample_entry (c, t, l)). split; [apply In1; left; exists c, t, l; split; [exact J|reflexivity]|]. split; reflexivity.
    + intros (e & H & C & K). apply In1 in H. destruct H as [(c' & t' & l' & J & ->)|(c' & k' & J & _ & ->)]; cbn [e_code e_class e_mapping sample_entry class_entry fst snd] in C, K; [|discriminate].
      subst c'. injection K as K <-. apply tag_text_inj in K. subst. assumption.
Qed.
Definition exclusions_9_sample : list exclusion :=
  map (fun c => Excluded c 4 []) ucd_composition_exclusions.
Lemma exclusions_9_sample_ok : is_exclusions_9 exclusions_9_sample.
Proof.
  split.
  - intros x H. destruct (proj1 (in_map_iff _ _ _) H) as (c & <- & J). cbn [exclusion_ok single_space]. split; [|reflexivity].
    pose proof (proj1 (Forall_forall _ _) exclusion_pos _ J) as P. cbn beta in P. lia.
  - intros c. unfold listed_exclusion, exclusions_9_sample. split.
    + intros [(n & t & H)|H]; destruct (proj1 (in_map_iff _ _ _) H) as (c' & E & J); [|discriminate]. injection E as <-. assumption.
    + intros J. left. exists 4%nat, []. apply in_map_iff. exists c. split; [reflexivity|exact J].
Qed.
Lemma named v : v <> G_OTHER -> exists name, In (v, name) break_names.
Proof. intros N. destruct v; try contradiction; eexists; cbn; intuition reflexivity. Qed.
Lemma breaks_9_sample : exists xs lines, is_breaks_9 xs lines.
Proof.
  set (xs := map (fun r : Z * Z * gcb => let '(lo, hi, v) := r in BreakRange lo hi 1 v []) ucd_grapheme_break).
  assert (L : exists lines, Forall2 break_line_says xs lines).
  { assert (B : forallb (fun r : Z * Z * gcb => match snd r with G_OTHER => false | _ => true end) ucd_grapheme_break = true) by (vm_cast_no_check (eq_refl true)).
    subst xs. induction ucd_grapheme_break as [|[[lo hi] v] l IH]; [exists []; constructor|].
    cbn [forallb snd] in B. apply andb_prop in B. destruct B as [B1 B2]. destruct (IH B2) as [lines F].
    destruct (named v) as [name J].
    { intros ->. discriminate. }
    eexists (_ :: lines). cbn [map]. constructor; [|assumption]. apply (says_range lo hi 1 v name). assumption. }
  destruct L as [lines F]. exists xs, lines. split; [assumption|]. split.
  - apply Forall_forall. intros x H. destruct (proj1 (in_map_iff _ _ _) H) as ([[lo hi] v] & <- & J). cbn [break_line_ok].
    assert (B : forallb (fun r : Z * Z * gcb => 0 <=? fst (fst r)) ucd_grapheme_break = true) by (vm_cast_no_check (eq_refl true)).
    rewrite forallb_forall in B. specialize (B _ J). cbn [fst snd] in B. pose proof (gcb_data_wf _ _ _ (proj2 (gcb_data_ucd _) J)). lia.
  - subst xs. clear F. induction ucd_grapheme_break as [|[[lo hi] v] l IH]; [constructor|]. cbn. constructor. assumption.
Qed.
