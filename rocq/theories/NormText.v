(** * Proofs: normalization of texts, in the terms of the specification *)
From Coq Require Import Permutation Sorted Relations.
From Verif Require Import Prelude DataTables UcdTables PropsModel Utf8Model TextModel Utf8Spec UnicodeSpec GraphemeSpec TextSpec NormSpec
  PropsProofs LawfulProofs DecompTables DecompProofs GraphemeProofs Uax29Proofs GraphemeText FilterSpec FilterProofs OrderProofs ComposeProofs
  NormData HangulProofs NormProofs NfcProofs NormForms EncodeProofs EncodeText NormUtf8.
Require Import ZifyBool ZifyNat.

Lemma text_of ops b e cs : delimited_text ops b e cs ->
  exists c pos inside, text_in ops b e cs c pos inside /\ (cs = [] \/ pairwise_boundary cs c).
Proof.
  intros [pos S|c pos V B].
  - destruct (string_text _ _ _ _ _ S) as (pos' & inside & T & _). exists 0, pos', inside. split; [assumption|apply boundary_nul].
  - destruct (view_text _ _ _ _ _ _ V) as (pos' & inside & T & _). exists c, pos', inside. auto.
Qed.
Lemma sort_kept_eq sort l : std_sort_ok sort -> order_kept l (sort l) -> sort l = isort l.
Proof.
  intros S K. apply sorted_class_unique; [apply (std_sort_classes sort); assumption|apply isort_sorted|]. intros k. rewrite isort_class.
  apply order_kept_eq. assumption.
Qed.
Lemma std_length sort l : std_sort_ok sort -> length (sort l) = length l.
Proof. intros S. symmetry. apply Permutation_length. apply S. Qed.

Section Glue.
Context (listed : Z -> list Z -> Prop) (full : Z -> list Z) (dec : Z -> list Z -> res (Z * list Z)).
Context (Hdec : forall c out, dec c out = Ok (zlen (full c), out ++ full c)).
Context (LF : forall cs f, expands_all listed cs f <-> f = flat_map full cs).
Context (sort : list Z -> list Z) (SO : std_sort_ok sort).
Context (ops : cp_ops) (b e : Z) (cs : list Z) (D : delimited_text ops b e cs).
Context (fuel : nat) (Hf : (length cs < fuel)%nat) (CF : count_fits listed cs).

Definition d_pieces : list (list Z) := map (fun g => sort (flat_map full g)) (seg cs).
Definition c_pieces : list (list Z) := map compose d_pieces.
Lemma fits : zlen (flat_map full cs) <= int_max.
Proof. destruct CF as (f & E & H). apply LF in E. subst f. unfold zlen, int_max. change (2 ^ 31 - 1) with 2147483647 in H. exact H. Qed.
Lemma d_pieces_perm : Permutation (flat_map full cs) (concat d_pieces).
Proof.
  unfold d_pieces. rewrite <- (seg_concat cs), flat_map_concat, seg_concat. induction (seg cs) as [|g gs IH]; [constructor|].
  cbn [flat_map map concat]. apply Permutation_app; [apply SO|assumption].
Qed.
Lemma run_d append_out out :
  (forall out, append_out out [] = Ok out) ->
  (forall out l r, append_out out (l ++ r) = let* o := append_out out l in append_out o r) ->
  normalize fuel ops (form_decomposed sort append_out fuel ops dec) b e out
  = let* o := append_out out (concat d_pieces) in Ok (zlen (concat d_pieces), o).
Proof.
  intros A1 A2. destruct (text_of _ _ _ _ D) as (c & pos & inside & T & B).
  rewrite (normalize_decomposed_res ops b e cs c pos inside T B append_out A1 A2 dec full Hdec sort out fuel Hf fits).
  unfold d_pieces at 1. rewrite <- flat_map_concat_map. unfold zlen. rewrite (Permutation_length d_pieces_perm). reflexivity.
Qed.
Lemma run_c append_out out :
  (forall out, append_out out [] = Ok out) ->
  (forall out l r, append_out out (l ++ r) = let* o := append_out out l in append_out o r) ->
  normalize fuel ops (form_composed sort append_out fuel ops dec) b e out
  = let* o := append_out out (concat c_pieces) in Ok (zlen (concat c_pieces), o).
Proof.
  intros A1 A2. destruct (text_of _ _ _ _ D) as (c & pos & inside & T & B).
  rewrite (normalize_composed_res ops b e cs c pos inside T B append_out A1 A2 dec full Hdec sort out fuel Hf fits)
    by (intros; apply std_length; assumption).
  unfold c_pieces, d_pieces. rewrite map_map, <- flat_map_concat_map. reflexivity.
Qed.
Lemma run_d32 out : normalize fuel ops (form_decomposed sort utf32_append_from_utf32ne fuel ops dec) b e out
  = Ok (zlen (concat d_pieces), out ++ concat d_pieces).
Proof. rewrite run_d; [reflexivity|apply utf32_append_nil|apply utf32_append_app]. Qed.
Lemma run_c32 out : normalize fuel ops (form_composed sort utf32_append_from_utf32ne fuel ops dec) b e out
  = Ok (zlen (concat c_pieces), out ++ concat c_pieces).
Proof. rewrite run_c; [reflexivity|apply utf32_append_nil|apply utf32_append_app]. Qed.
Lemma run_d8 out : normalize fuel ops (form_decomposed sort utf8_append_from_utf32ne fuel ops dec) b e out
  = let* o := utf8_append_from_utf32ne out (concat d_pieces) in Ok (zlen (concat d_pieces), o).
Proof. apply run_d; [apply utf8_append_nil|intros; apply utf8_append_app]. Qed.
Lemma run_c8 out : normalize fuel ops (form_composed sort utf8_append_from_utf32ne fuel ops dec) b e out
  = let* o := utf8_append_from_utf32ne out (concat c_pieces) in Ok (zlen (concat c_pieces), o).
Proof. apply run_c; [apply utf8_append_nil|intros; apply utf8_append_app]. Qed.

Lemma d_pieces_ok : Forall2 (decomposed_grapheme listed) (seg cs) d_pieces.
Proof.
  unfold d_pieces. induction (seg cs) as [|g gs IH]; [constructor|]. cbn [map]. constructor; [|assumption].
  destruct (proj1 (std_sort_classes sort) SO (flat_map full g)) as [P S]. split; [|split].
  - exists (flat_map full g). split; [apply LF; reflexivity|assumption].
  - assumption.
  - intros x m Hx. eapply Permutation_in in Hx; [|symmetry; exact P].
    apply (proj2 (expands_unmapped listed) g (flat_map full g)); [apply LF; reflexivity|assumption].
Qed.
Context (full_fix : forall c x, In x (full c) -> full x = [x]).
Context (full_compose : forall l, flat_map full (compose l) = flat_map full l).
Lemma d_piece_fix g : flat_map full (sort (flat_map full g)) = sort (flat_map full g).
Proof.
  apply flat_map_id. intros x Hx. eapply Permutation_in in Hx; [|symmetry; apply SO].
  apply in_flat_map in Hx. destruct Hx as (y & _ & Hx). eauto.
Qed.
Lemma c_pieces_ok : Forall2 (composed_grapheme listed) d_pieces c_pieces.
Proof.
  unfold c_pieces, d_pieces. induction (seg cs) as [|g gs IH]; [constructor|]. cbn [map]. constructor; [|assumption].
  split; [apply compose_greedy|]. apply LF. rewrite full_compose, d_piece_fix. reflexivity.
Qed.
(** With ties kept. *)
Lemma d_pieces_eq : ties_kept sort listed (seg cs) -> concat d_pieces = form_d_of full cs.
Proof.
  intros K. unfold d_pieces, form_d_of, pieces. rewrite map_map. f_equal. apply map_ext_in. intros g I.
  apply sort_kept_eq; [assumption|]. apply (K g); [assumption|apply LF; reflexivity].
Qed.
Lemma c_pieces_eq : ties_kept sort listed (seg cs) -> concat c_pieces = form_c_of full cs.
Proof.
  intros K. unfold c_pieces, d_pieces, form_c_of, pieces. rewrite !map_map. f_equal. apply map_ext_in. intros g I.
  f_equal. apply sort_kept_eq; [assumption|]. apply (K g); [assumption|apply LF; reflexivity].
Qed.
End Glue.
Lemma marks_last_listed listed full gs : (forall cs f, expands_all listed cs f <-> f = flat_map full cs) ->
  (graphemes_marks_last listed gs <-> forall g, In g gs -> marks_last (flat_map full g)).
Proof.
  intros LF. unfold graphemes_marks_last. split.
  - intros H g I. apply (H g _ I). apply LF. reflexivity.
  - intros H g f I E. apply LF in E. subst f. auto.
Qed.
Lemma canonical_listed cs f : expands_all listed_canonical cs f <-> f = flat_map full_canonical cs.
Proof.
  split; [|intros ->; apply expands_all_canonical]. intros H.
  exact (proj2 (expands_fun _ listed_canonical_functional) _ _ H _ (expands_all_canonical cs)).
Qed.
Lemma compat_listed cs f : expands_all listed_compat cs f <-> f = flat_map full_compat cs.
Proof.
  split; [|intros ->; apply expands_all_compat]. intros H.
  exact (proj2 (expands_fun _ listed_compat_functional) _ _ H _ (expands_all_compat cs)).
Qed.

(** ** Against the standard, for any allowed sort *)
Section Standard.
Context (full : Z -> list Z) (M : Z -> list Z -> Prop).
Context (full_ne : forall c, full c <> []).
Context (full_head : forall c x t, full c = x :: t -> glue x -> joiner c).
Context (full_control : forall c, control c -> full c = [c]).
Context (M_canonical : forall c m, canonical_mapping c m -> M c m).
Context (full_expands : forall cs, settled_text full M cs -> forall f, expands_all M cs f <-> f = flat_map jamo (flat_map full cs)).
Context (sort : list Z -> list Z) (SO : std_sort_ok sort).
Lemma d_pieces_standard_iff cs : nf M cs (concat (d_pieces full sort cs)) <->
  (forall x m, In x (flat_map full cs) -> ~ M x m) /\
  (forall g, In g (seg cs) -> marks_last (flat_map full g) /\ order_kept (flat_map full g) (sort (flat_map full g))).
Proof.
  pose proof (d_pieces_perm full sort SO cs) as P.
  assert (MH : forall s, hangul_syllable s -> exists m, M s m).
  { intros s Hs. eexists. apply M_canonical. right. split; [assumption|reflexivity]. }
  split.
  - intros N. assert (U : forall x m, In x (flat_map full cs) -> ~ M x m).
    { intros x m I Mx. destruct N as (f & E & O). apply canonical_order_eq in O.
      assert (J : In x f).
      { eapply Permutation_in; [symmetry; apply corder_perm|]. rewrite <- O. eapply Permutation_in; [exact P|assumption]. }
      exact (proj2 (expands_unmapped M) cs f E x m J Mx). }
    split; [assumption|]. assert (S : settled_text full M cs) by (intros x m I _; apply U; assumption).
    assert (NS : forall s, In s (flat_map full cs) -> ~ hangul_syllable s).
    { intros s I Hs. destruct (MH s Hs) as (m & Hm). exact (U s m I Hm). }
    apply (nf_eq full M full_expands cs _ S) in N. rewrite flat_map_id in N.
    2:{ intros x Hx. apply jamo_other. destruct (is_syllable x) eqn:X; [|reflexivity]. exfalso. apply (NS x); [|apply is_syllable_spec; assumption].
        eapply Permutation_in; [symmetry; apply corder_perm|assumption]. }
    rewrite (order_pieces full full_ne full_head full_control) in N.
    assert (DP : d_pieces full sort cs = map sort (pieces full cs)) by (unfold d_pieces, pieces; rewrite map_map; reflexivity).
    rewrite DP in N. intros g I.
    assert (Q : sort (flat_map full g) = corder (flat_map full g)).
    { refine (concat_same_length _ _ _ _ N (flat_map full g) _).
      - intros l. rewrite std_length by assumption. rewrite corder_length. reflexivity.
      - apply in_map. assumption. }
    assert (SF : starters_first (flat_map full g)).
    { apply mask_starters_first. rewrite <- corder_mask, <- Q. apply mask_starters_first, sorted_starters_first, (proj1 (std_sort_classes sort) SO). }
    split; [apply marks_last_iff; assumption|]. rewrite Q, <- (sort_is_order _ SF). apply isort_stable.
  - intros [U H]. assert (E : concat (d_pieces full sort cs) = form_d_of full cs).
    { unfold d_pieces, form_d_of, pieces. rewrite map_map. f_equal. apply map_ext_in. intros g I. apply sort_kept_eq; [assumption|].
      apply H. assumption. }
    rewrite E. apply form_d_standard_iff; try assumption. split; [intros x m I _; apply U; assumption|]. split; [|intros g I; apply H; assumption].
    intros s I Hs. destruct (MH s Hs) as (m & Hm). exact (U s m I Hm).
Qed.
End Standard.
Lemma syllable_in_full_iff cs s : hangul_syllable s -> (In s (flat_map full_canonical cs) <-> In s cs).
Proof.
  intros S. apply is_syllable_spec in S. split.
  - intros I. apply in_flat_map in I. destruct I as (c & I & H). destruct (is_syllable c) eqn:X.
    + rewrite syllable_full in H by (apply syllable_hangulish; assumption). destruct H as [->|[]]. assumption.
    + pose proof (full_not_syllable c s X H). congruence.
  - intros I. apply full_syllable_in; assumption.
Qed.
Lemma unmapped_canonical_iff cs : (forall x m, In x (flat_map full_canonical cs) -> ~ canonical_mapping x m) <->
  (forall s, In s cs -> ~ hangul_syllable s).
Proof.
  split.
  - intros H s I S. apply (syllable_in_full_iff cs s S) in I. eapply H; [exact I|]. right. split; [assumption|reflexivity].
  - intros H x m I C. assert (NS : ~ hangul_syllable x).
    { intros S. apply (syllable_in_full_iff cs x S) in I. exact (H x I S). }
    exact (canonical_settled cs x m I NS C).
Qed.
Lemma nfd_nf cs d : nfd cs d <-> nf canonical_mapping cs d.
Proof. reflexivity. Qed.
Lemma nfkd_nf cs d : nfkd cs d <-> nf compatibility_mapping cs d.
Proof. reflexivity. Qed.

(** ** Everything stays within Unicode *)
Definition in_unicode (rows : list (list Z)) : bool := forallb (forallb (fun x => (0 <=? x) && (x <=? 0x10FFFF))) rows.
Lemma canonical_in_unicode : in_unicode canonical_decomposition_mapping_data = true.
Proof. vm_cast_no_check (eq_refl true). Qed.
Lemma compat_in_unicode : in_unicode compatibility_and_canonical_decomposition_mapping_data = true.
Proof. vm_cast_no_check (eq_refl true). Qed.
Lemma composition_in_unicode : in_unicode canonical_composition_mapping_data = true.
Proof. vm_cast_no_check (eq_refl true). Qed.
Lemma row_in_unicode rows r x : in_unicode rows = true -> In r rows -> In x r -> unicode_codepoint x.
Proof.
  intros U I Hx. unfold in_unicode in U. rewrite forallb_forall in U. specialize (U _ I). rewrite forallb_forall in U.
  specialize (U x Hx). unfold unicode_codepoint. lia.
Qed.
Lemma table_unicode keep data c x : closed_table keep data -> in_unicode data = true ->
  unicode_codepoint c -> In x (table_full data c) -> unicode_codepoint x.
Proof.
  intros T U Hc Hx. destruct (table_full_row keep data c T) as [F|I].
  - rewrite F in Hx. destruct Hx as [<-|[]]. assumption.
  - eapply (row_in_unicode _ _ x U I). right. apply in_or_app. left. assumption.
Qed.
Lemma composeF_unicode t : forall a, unicode_codepoint a -> Forall unicode_codepoint t -> Forall unicode_codepoint (composeF a t).
Proof.
  induction t as [|y t IH]; intros a Ha F; cbn [composeF]; [constructor; [exact Ha|constructor]|].
  inversion F as [|? ? Hy F']; subst. destruct (comp a y) as [z|] eqn:E.
  - apply IH; [|assumption]. apply comp_row in E. apply (row_in_unicode _ _ z composition_in_unicode E). right. right. left. reflexivity.
  - constructor; [assumption|]. apply IH; assumption.
Qed.
Lemma compose_unicode l : Forall unicode_codepoint l -> Forall unicode_codepoint (compose l).
Proof. destruct l as [|a t]; [auto|]. intros F. inversion F; subst. apply composeF_unicode; assumption. Qed.
Lemma Forall_concat {A} (P : A -> Prop) ls : (forall l, In l ls -> Forall P l) -> Forall P (concat ls).
Proof.
  induction ls as [|l ls IH]; intros H; [constructor|]. cbn [concat]. apply Forall_app. split; [apply H; left; reflexivity|].
  apply IH. intros. apply H. right. assumption.
Qed.
Section Unicode.
Context (full : Z -> list Z) (FU : forall c x, unicode_codepoint c -> In x (full c) -> unicode_codepoint x).
Context (sort : list Z -> list Z) (SO : std_sort_ok sort).
Lemma d_piece_unicode g : Forall unicode_codepoint g -> Forall unicode_codepoint (sort (flat_map full g)).
Proof.
  intros F. rewrite Forall_forall in *. intros x Hx. eapply Permutation_in in Hx; [|symmetry; apply SO].
  apply in_flat_map in Hx. destruct Hx as (y & I & Hx). eauto.
Qed.
Lemma seg_unicode cs g : Forall unicode_codepoint cs -> In g (seg cs) -> Forall unicode_codepoint g.
Proof.
  intros F I. rewrite Forall_forall in *. intros x Hx. apply F. rewrite <- (seg_concat cs). apply in_concat. eauto.
Qed.
Lemma d_pieces_unicode cs : Forall unicode_codepoint cs -> Forall unicode_codepoint (concat (d_pieces full sort cs)).
Proof.
  intros F. apply Forall_concat. intros l I. unfold d_pieces in I. apply in_map_iff in I. destruct I as (g & <- & I).
  apply d_piece_unicode. eapply seg_unicode; eassumption.
Qed.
Lemma c_pieces_unicode cs : Forall unicode_codepoint cs -> Forall unicode_codepoint (concat (c_pieces full sort cs)).
Proof.
  intros F. apply Forall_concat. intros l I. unfold c_pieces, d_pieces in I. rewrite map_map in I. apply in_map_iff in I.
  destruct I as (g & <- & I). apply compose_unicode, d_piece_unicode. eapply seg_unicode; eassumption.
Qed.
End Unicode.
Lemma canonical_unicode c x : unicode_codepoint c -> In x (full_canonical c) -> unicode_codepoint x.
Proof. exact (table_unicode _ _ c x canonical_table canonical_in_unicode). Qed.
Lemma compat_unicode c x : unicode_codepoint c -> In x (full_compat c) -> unicode_codepoint x.
Proof. exact (table_unicode _ _ c x compat_table compat_in_unicode). Qed.
Lemma unicode_text_iff out d : Forall unicode_codepoint d ->
  (utf8_append_from_utf32ne out d = Ok (out ++ utf8_text d) <->
   forall c, In c d -> 1 <= c <= 0x7FF \/ 0x2000 <= c <= 0xFFFF \/ 0x80000 <= c <= 0x10FFFF).
Proof.
  intros F. rewrite append_text_iff.
  2:{ eapply Forall_impl; [|exact F]. unfold unicode_codepoint, codepoint31. intros. change (2 ^ 31) with 2147483648. lia. }
  rewrite Forall_forall. rewrite Forall_forall in F. split; intros H c I; specialize (H c I); specialize (F c I);
    unfold sized_ok, unicode_codepoint in *; lia.
Qed.
