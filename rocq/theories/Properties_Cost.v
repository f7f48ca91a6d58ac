(** * Property C114: the work of grapheme iteration and normalization is linear in the text

    CostModel.v counts the operations on codepoint iterators of the text ( ==, !=, *, ++, -- ), each as one:
    [normalize_c fuel ops op b e out = Ok (r, k)] says the client's call
    [filter(s.grapheme_begin(), s.grapheme_end(), out, op)] ends with [r] after [k] of them.
    [form_of_c F listed Fc]: [F] is one of the four forms, [Fc] the same with the count. *)
From Coq Require Import Permutation Sorted Relations.
From Verif Require Import Prelude DataTables UcdTables PropsModel Utf8Model TextModel StdSortModel Utf8Spec UnicodeSpec GraphemeSpec TextSpec NormSpec FilterSpec
  PropsProofs LawfulProofs DecompTables DecompProofs GraphemeProofs Uax29Proofs GraphemeText FilterProofs OrderProofs ComposeProofs NormProofs NormText NormUtf8
  TextsProofs CostModel CostProofs Properties_Graphemes Properties_Normalize Properties_Sort Properties_Texts.
Require Import ZifyBool ZifyNat.

Inductive form_of_c : ((list Z -> list Z) -> (list Z -> list Z -> res (list Z)) -> nat -> cp_ops -> Z * Z -> list Z -> res (Z * list Z)) ->
  (Z -> list Z -> Prop) ->
  ((list Z -> list Z) -> (list Z -> list Z -> res (list Z)) -> nat -> cp_ops -> Z * Z -> list Z -> counted (Z * list Z)) -> Prop :=
| form_c_d : form_of_c normalization_form_d listed_canonical normalization_form_d_c
| form_c_kd : form_of_c normalization_form_kd listed_compat normalization_form_kd_c
| form_c_c : form_of_c normalization_form_c listed_canonical normalization_form_c_c
| form_c_kc : form_of_c normalization_form_kc listed_compat normalization_form_kc_c.

Lemma erase_form F listed Fc sort append fuel ops p out : form_of_c F listed Fc ->
  erase (Fc sort append fuel ops p out) = F sort append fuel ops p out.
Proof. intros []; (apply erase_decomposed || apply erase_composed). Qed.

(** The counted functions are those of the model, with a count: on any text, valid or not, whatever happens. *)
Theorem C114_counts_are_of_the_model : forall F listed Fc sort append ops b e fuel out,
  form_of_c F listed Fc ->
  erase (normalize_c fuel ops (Fc sort append fuel ops) b e out) = normalize fuel ops (F sort append fuel ops) b e out.
Proof. intros. apply erase_normalize. intros. eapply erase_form. eassumption. Qed.
Print Assumptions C114_counts_are_of_the_model.

(** Normalizing a text of [length cs] codepoints in [length gs] graphemes takes exactly 10 operations for each
    codepoint, 5 for each grapheme, and 8. *)
Theorem C114_normalization_count : forall F listed Fc sort append ops b e cs gs fuel out r,
  form_of_c F listed Fc -> delimited_text ops b e cs -> segments pairwise_boundary cs gs -> (length cs < fuel)%nat ->
  normalize fuel ops (F sort append fuel ops) b e out = Ok r ->
  normalize_c fuel ops (Fc sort append fuel ops) b e out =
    Ok (r, match cs with [] => 5%nat | _ => (10 * length cs + 5 * length gs + 8)%nat end).
Proof.
  intros F listed Fc sort append ops b e cs gs fuel out r FC D S Hf R. apply seg_eq in S. subst gs.
  destruct (text_of _ _ _ _ D) as (c & pos & inside & T & B).
  rewrite (normalize_cost ops b e cs c pos inside T B (Fc sort append fuel ops) (F sort append fuel ops) 3 1 fuel out r); try assumption.
  - destruct cs; reflexivity.
  - intros. eapply erase_form. eassumption.
  - intros p q i j out0 r0 k Hij Hp Hq H. pose proof (ti_lawful _ _ _ _ _ _ _ T) as L. pose proof (text_n cs c) as Hn. destruct FC.
    + eapply (decomposed_cost ops (cs ++ [c]) pos inside L (length cs) Hn); eassumption.
    + eapply (decomposed_cost ops (cs ++ [c]) pos inside L (length cs) Hn); eassumption.
    + eapply (composed_cost ops (cs ++ [c]) pos inside L (length cs) Hn); eassumption.
    + eapply (composed_cost ops (cs ++ [c]) pos inside L (length cs) Hn); eassumption.
Qed.
Print Assumptions C114_normalization_count.

Theorem C114_normalization_is_linear : forall F listed Fc sort append ops b e cs fuel out r,
  form_of_c F listed Fc -> delimited_text ops b e cs -> (length cs < fuel)%nat ->
  normalize fuel ops (F sort append fuel ops) b e out = Ok r ->
  exists k, normalize_c fuel ops (Fc sort append fuel ops) b e out = Ok (r, k) /\ (k <= 15 * length cs + 8)%nat.
Proof.
  intros F listed Fc sort append ops b e cs fuel out r FC D Hf R.
  eexists. split; [apply (C114_normalization_count F listed Fc sort append ops b e cs (seg cs) fuel out r FC D (seg_segments cs) Hf R)|].
  pose proof (seg_length cs). destruct cs; lia.
Qed.
Print Assumptions C114_normalization_is_linear.

(** To a UTF-32 output it does succeed, with any sort that keeps the standard's promise. *)
Theorem C114_normalization_to_utf32_is_linear : forall F listed Fc sort ops b e cs fuel out,
  form_of_c F listed Fc -> std_sort_ok sort -> delimited_text ops b e cs -> (length cs < fuel)%nat -> count_fits listed cs ->
  exists r k, normalize_c fuel ops (Fc sort utf32_append_from_utf32ne fuel ops) b e out = Ok (r, k) /\ (k <= 15 * length cs + 8)%nat.
Proof.
  intros F listed Fc sort ops b e cs fuel out FC SO D Hf CF.
  assert (FD : exists k full, form_data F listed k full) by (destruct FC; eexists _, _; constructor). destruct FD as (kf & full & FD).
  pose proof (run_any32 F listed kf full sort ops b e cs fuel out FD SO D Hf CF) as R. cbv zeta in R.
  destruct (C114_normalization_is_linear _ _ _ _ _ _ _ _ _ _ _ _ FC D Hf R) as (k & E & K). eexists _, k. split; eassumption.
Qed.
Print Assumptions C114_normalization_to_utf32_is_linear.

(** The loop over the graphemes alone: an operation that does not touch the text (counting graphemes, say). *)
Theorem C114_grapheme_loop_count : forall operation ops b e cs gs fuel out r,
  delimited_text ops b e cs -> segments pairwise_boundary cs gs -> (length cs < fuel)%nat ->
  normalize fuel ops operation b e out = Ok r ->
  normalize_c fuel ops (fun p o => free (operation p o)) b e out =
    Ok (r, match cs with [] => 5%nat | _ => (7 * length cs + 4 * length gs + 8)%nat end).
Proof.
  intros operation ops b e cs gs fuel out r D S Hf R. apply seg_eq in S. subst gs. destruct (text_of _ _ _ _ D) as (c & pos & inside & T & B).
  rewrite (normalize_cost ops b e cs c pos inside T B (fun p o => free (operation p o)) operation 0 0 fuel out r); try assumption.
  - destruct cs; reflexivity.
  - intros. apply erase_free.
  - intros p q i j out0 r0 k Hij Hp Hq H. apply free_ok in H. lia.
Qed.
Print Assumptions C114_grapheme_loop_count.

Lemma on_stands ops b e cs c pos inside (T : text_in ops b e cs c pos inside) g a : (a < length (seg cs))%nat ->
  on (cs ++ [c]) pos (length cs) e g (length (concat (firstn a (seg cs)))) ->
  stands (cs ++ [c]) inside (length cs) e g (length (concat (firstn a (seg cs)))) (length (concat (firstn (Datatypes.S a) (seg cs)))).
Proof.
  intros Ha O. pose proof (ti_lawful _ _ _ _ _ _ _ T) as L. pose proof (text_n cs c) as Hn.
  pose proof (is_end_next (cs ++ [c]) (length cs) Hn e cs a ltac:(symmetry; apply text_sub) Ha) as J.
  destruct (on_at ops (cs ++ [c]) pos inside L (length cs) Hn e (text_e ops b e cs c pos inside T) g _ O) as (j & A & J1 & J2).
  pose proof J as ((P1 & P2) & _).
  assert (j = length (concat (firstn (Datatypes.S a) (seg cs)))) by (eapply is_end_unique; [exact Hn|apply J1; lia|exact J]). subst j.
  destruct A as [W Q E Le]. destruct O as (_ & E' & _). split; [exact W|]. split; [exact Q|]. split; [exact E'|]. split; [lia|]. intros; exact J.
Qed.
Lemma prefix_mono (gs : list (list Z)) a d : (length (concat (firstn a gs)) <= length (concat (firstn (a + d) gs)))%nat.
Proof.
  revert a. induction gs as [|g gs IH]; intros a; [rewrite !firstn_nil; lia|]. destruct a as [|a]; [cbn; lia|].
  cbn [firstn plus concat]. rewrite !app_length. specialize (IH a). lia.
Qed.
Lemma prefix_next (gs : list (list Z)) a g : nth_error gs a = Some g ->
  length (concat (firstn (Datatypes.S a) gs)) = (length (concat (firstn a gs)) + length g)%nat.
Proof.
  revert a. induction gs as [|h gs IH]; intros [|a] E; try discriminate; [injection E as ->; cbn; rewrite app_nil_r; lia|].
  cbn [nth_error] in E. specialize (IH a E). change (firstn (Datatypes.S (Datatypes.S a)) (h :: gs)) with (h :: firstn (Datatypes.S a) gs).
  cbn [concat firstn] in *. rewrite !app_length. lia.
Qed.

(** Comparing two iterators with == that stand on different graphemes costs the product of their lengths:
    each codepoint of the one is looked for in the other. *)
Theorem C114_comparison_is_quadratic : forall ops b e cs fuel gs a a' g g' i i',
  delimited_text ops b e cs -> (length cs < fuel)%nat -> segments pairwise_boundary cs gs ->
  nth_error gs a = Some g -> nth_error gs a' = Some g' ->
  nth_grapheme fuel ops b e a = Ok i -> nth_grapheme fuel ops b e a' = Ok i' ->
  gi_eq_c fuel ops i i' =
    if (a =? a')%nat then Ok (true, 3%nat) else Ok (false, length g * (3 * length g' + 4) + 2)%nat.
Proof.
  intros ops b e cs fuel gs a a' g g' i i' D Hf S G G' I I'. apply seg_eq in S. subst gs.
  destruct (text_of _ _ _ _ D) as (c & pos & inside & T & B). pose proof (ti_lawful _ _ _ _ _ _ _ T) as L. pose proof (text_n cs c) as Hn.
  assert (Ha : (a < length (seg cs))%nat) by (apply nth_error_Some; congruence).
  assert (Ha' : (a' < length (seg cs))%nat) by (apply nth_error_Some; congruence).
  destruct (text_iter ops b e cs c pos inside T fuel a ltac:(lia) ltac:(lia)) as (x & y & X & Y & O).
  unfold nth_grapheme in I. rewrite X in I. cbn [bind] in I. rewrite Y in I. injection I as ->.
  destruct (text_iter ops b e cs c pos inside T fuel a' ltac:(lia) ltac:(lia)) as (x' & y' & X' & Y' & O').
  unfold nth_grapheme in I'. rewrite X' in I'. cbn [bind] in I'. rewrite Y' in I'. injection I' as ->. clear X Y X' Y' x x'.
  pose proof (on_stands _ _ _ _ _ _ _ T i a Ha O) as St. pose proof (on_stands _ _ _ _ _ _ _ T i' a' Ha' O') as St'.
  pose proof (prefix_next _ _ _ G) as N. pose proof (prefix_next _ _ _ G') as N'.
  destruct (Nat.eqb_spec a a') as [<-|Ne].
  - destruct St as (W & Q & E & Le & Lt). destruct St' as (W' & Q' & E' & _). unfold gi_eq_c.
    assert (g <> []). { destruct (seg_segments cs) as (_ & NE & _). intros ->. apply NE. eapply nth_error_In; eassumption. }
    assert (0 < length g)%nat by (destruct g; [congruence|cbn; lia]).
    rewrite E, (lw_eq _ _ _ _ L (length (concat (firstn a (seg cs)))) (length cs) (g_where i) e) by (try assumption; try exact (text_e _ _ _ _ _ _ _ T); lia).
    destruct (Nat.eqb_spec (length (concat (firstn a (seg cs)))) (length cs)); [lia|]. cbn [one cbind cret].
    destruct fuel as [|f]; [lia|]. cbn [gi_eq_loop_c]. rewrite (lw_eq _ _ _ _ L (length (concat (firstn a (seg cs)))) (length (concat (firstn (Datatypes.S a) (seg cs)))) (g_where i) (g_eog i)) by (assumption || lia).
    destruct (Nat.eqb_spec (length (concat (firstn a (seg cs)))) (length (concat (firstn (Datatypes.S a) (seg cs))))); [lia|]. cbn [one cbind].
    unfold gi_eq_cp_c. rewrite (lw_eq _ _ _ _ L (length (concat (firstn a (seg cs)))) (length (concat (firstn a (seg cs)))) (g_where i') (g_where i)) by (assumption || lia). rewrite Nat.eqb_refl. reflexivity.
  - rewrite (eq_cost ops (cs ++ [c]) pos inside L (length cs) Hn e (text_e ops b e cs c pos inside T) fuel i _ _ i' _ _ St St').
    + replace (length (concat (firstn (Datatypes.S a) (seg cs))) - length (concat (firstn a (seg cs))))%nat with (length g) by lia.
      replace (length (concat (firstn (Datatypes.S a') (seg cs))) - length (concat (firstn a' (seg cs))))%nat with (length g') by lia. reflexivity.
    + pose proof St as (_ & _ & _ & Le & Lt).
      assert (g <> []). { destruct (seg_segments cs) as (_ & NE & _). intros ->. apply NE. eapply nth_error_In; eassumption. }
      assert (0 < length g)%nat by (destruct g; [congruence|cbn; lia]). lia.
    + destruct (Nat.lt_ge_cases a a') as [H|H].
      * left. replace a' with (Datatypes.S a + (a' - Datatypes.S a))%nat by lia. apply prefix_mono.
      * right. split; [replace a with (Datatypes.S a' + (a - Datatypes.S a'))%nat by lia; apply prefix_mono|].
        assert (g' <> []). { destruct (seg_segments cs) as (_ & NE & _). intros ->. apply NE. eapply nth_error_In; eassumption. }
        assert (0 < length g')%nat by (destruct g'; [congruence|cbn; lia]).
        pose proof (prefix_mono (seg cs) (Datatypes.S a') (a - Datatypes.S a')) as P.
        replace (Datatypes.S a' + (a - Datatypes.S a'))%nat with a in P by lia. lia.
    + assumption.
Qed.
Print Assumptions C114_comparison_is_quadratic.

Fixpoint zalgo (n : nat) : list Z := match n with O => [] | Datatypes.S n => 0x301 :: zalgo n end.
(** Two graphemes of 21 codepoints, comparing them: 1409 operations; normalizing the whole text: 438. *)
Example C114_example :
  let cs := 0x61 :: zalgo 20 ++ 0x62 :: zalgo 20 in let ops := utf32_ops (string_buffer cs) in
  delimited_text ops 0 42 cs /\ segments pairwise_boundary cs [0x61 :: zalgo 20; 0x62 :: zalgo 20] /\
  (let* i := nth_grapheme 100 ops 0 42 0 in let* i' := nth_grapheme 100 ops 0 42 1 in gi_eq_c 100 ops i i') = Ok (false, 1409%nat) /\
  (let* i := nth_grapheme 100 ops 0 42 0 in gi_eq_c 100 ops i i) = Ok (true, 3%nat) /\
  exists out, normalize_c 100 ops (normalization_form_c_c isort utf32_append_from_utf32ne 100 ops) 0 42 [] = Ok (41, out, 438%nat).
Proof.
  cbv zeta. split; [eapply delimited_string; constructor|]. split; [replace [0x61 :: zalgo 20; 0x62 :: zalgo 20] with (seg (0x61 :: zalgo 20 ++ 0x62 :: zalgo 20)) by (vm_compute; reflexivity); apply seg_segments|].
  split; [vm_compute; reflexivity|]. split; [vm_compute; reflexivity|]. eexists. vm_compute. reflexivity.
Qed.
