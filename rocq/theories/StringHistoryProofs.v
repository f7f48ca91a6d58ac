(** * Proofs: histories of string operations *)
From Verif Require Import Prelude DataTables PropsModel Utf8Model TextModel HistoryModel StringHistoryModel Utf8Spec UnicodeSpec GraphemeSpec NormSpec TextSpec
  HistorySpec StringHistorySpec Utf8Proofs LawfulProofs EncodeProofs EncodeText EncodeMore AppendProofs BoundsProofs SequenceProofs GraphemeProofs Uax29Proofs GraphemeText DecompProofs NormProofs NormUtf8 FilterProofs NormText HistoryProofs.
Require Import ZifyBool ZifyNat.

(** What form [f] of the library makes of the text, in a utf32ne_string.
    [named f F listed]: form [f] is the function [F], which maps by [listed]. *)
Inductive named : form_name ->
  ((list Z -> list Z) -> (list Z -> list Z -> res (list Z)) -> nat -> cp_ops -> Z * Z -> list Z -> res (Z * list Z)) ->
  (Z -> list Z -> Prop) -> Prop :=
| named_d : named FormD normalization_form_d listed_canonical
| named_kd : named FormKD normalization_form_kd listed_compat
| named_c : named FormC normalization_form_c listed_canonical
| named_kc : named FormKC normalization_form_kc listed_compat.
Definition library_form (sort : list Z -> list Z) (f : form_name) (cs d : list Z) : Prop :=
  exists F listed n, named f F listed /\ count_fits listed cs /\
    let ops := utf32_ops (string_buffer cs) in let fuel := S (length cs) in
    normalize fuel ops (F sort utf32_append_from_utf32ne fuel ops) 0 (zlen cs) [] = Ok (n, d).

Section Strings.
Context (utf8 : nat -> bool) (sort : list Z -> list Z) (SO : std_sort_ok sort).
Notation form := (library_form sort).
Definition native (r : nat) (cs : list Z) : list Z := if utf8 r then utf8_text cs else cs.
Definition good (T : nat -> list Z) : Prop := forall r, Forall (writable utf8 r) (T r).
Definition stored (T : nat -> list Z) (S : store) : Prop := forall r, S r = native r (T r).

Lemma writable_unicode r c : writable utf8 r c -> unicode_codepoint c.
Proof. unfold writable, encodable, unicode_codepoint. destruct (utf8 r); lia. Qed.
Lemma writable_31 r cs : Forall (writable utf8 r) cs -> Forall codepoint31 cs.
Proof.
  intros F. eapply Forall_impl; [|exact F]. intros c W. apply writable_unicode in W. unfold unicode_codepoint, codepoint31 in *. change (2 ^ 31) with 2147483648. lia.
Qed.
Lemma append_ok r out l : Forall (writable utf8 r) l -> append_utf32ne utf8 r out l = Ok (out ++ native r l).
Proof.
  intros F. unfold append_utf32ne, native. destruct (utf8 r) eqn:E; [|reflexivity].
  apply append_unicode_ok. rewrite Forall_forall in F. intros c I. specialize (F c I). unfold writable in F. rewrite E in F. exact F.
Qed.
Lemma native_app r a b : native r (a ++ b) = native r a ++ native r b.
Proof. unfold native. destruct (utf8 r); [|reflexivity]. unfold utf8_text. apply flat_map_app. Qed.
Lemma stored_set T S r cs s : stored T S -> s = native r cs -> stored (set T r cs) (set S r s).
Proof. intros H -> q. unfold set. destruct (Nat.eqb_spec q r) as [->|]; [reflexivity|apply H]. Qed.
Lemma good_set T r cs : good T -> Forall (writable utf8 r) cs -> good (set T r cs).
Proof. intros H F q. unfold set. destruct (Nat.eqb_spec q r) as [->|]; [assumption|apply H]. Qed.
Lemma in_memory T S q : good T -> stored T S -> exists pos, string_in_memory (string_ops utf8 S q) 0 (zlen (S q)) (T q) pos.
Proof.
  intros G H. unfold string_ops. rewrite (H q). unfold native. destruct (utf8 q) eqn:E.
  - eexists. apply utf8_string. exact (writable_31 q _ (G q)).
  - eexists. apply utf32_string.
Qed.
Lemma sub_text cs : sub (cs ++ [0]) 0 (length cs) = cs.
Proof. exact (sub_all [] cs [0]). Qed.
Lemma show_ok T S q fuel : good T -> stored T S -> (length (T q) < fuel)%nat ->
  iterate_codepoints_for fuel (string_ops utf8 S q) 0 (zlen (S q)) = Ok (T q).
Proof.
  intros G H Hf. destruct (in_memory T S q G H) as (pos & M). destruct (string_text _ _ _ _ _ M) as (pos' & inside & X & _).
  pose proof (ti_lawful _ _ _ _ _ _ _ X) as L.
  rewrite (iterate_for_lawful _ _ _ _ L (length (T q)) 0%nat (length (T q)) 0 (zlen (S q)) fuel); [rewrite sub_text; reflexivity|lia|rewrite app_length; cbn [length]; lia| | |assumption].
  - pose proof (lw_pos _ _ _ _ L 0%nat) as P. rewrite <- (ti_begin _ _ _ _ _ _ _ X) in P. apply P. rewrite app_length. cbn [length]. lia.
  - exact (text_e _ _ _ _ _ _ _ X).
Qed.
Lemma graphemes_ok' T S q fuel : good T -> stored T S -> (length (T q) < fuel)%nat ->
  graphemes fuel (string_ops utf8 S q) 0 (zlen (S q)) = Ok (seg (T q)).
Proof.
  intros G H Hf. destruct (in_memory T S q G H) as (pos & M). destruct (string_text _ _ _ _ _ M) as (pos' & inside & X & _).
  apply (text_graphemes _ _ _ (T q) 0 pos' inside X); [apply boundary_after_or, boundary_nul|assumption].
Qed.
Lemma forward_ok ops cs pos inside : lawful ops cs pos inside -> forall i j p, (j + i < length cs)%nat -> inside j p ->
  (i = 0%nat -> p = pos j) -> forward ops i p = Ok (pos (j + i)%nat).
Proof.
  intros L. induction i as [|i IH]; intros j p H I E; cbn [forward].
  - rewrite E by reflexivity. rewrite Nat.add_0_r. reflexivity.
  - rewrite (lw_inc _ _ _ _ L j) by (try lia; assumption). cbn [bind]. rewrite (IH (S j)); [|lia|apply (lw_pos _ _ _ _ L); lia|reflexivity].
    f_equal. f_equal. lia.
Qed.
Lemma split_nth {A} (l : list A) : forall i x, nth_error l i = Some x -> l = firstn i l ++ x :: skipn (S i) l.
Proof.
  induction l as [|y l IH]; intros [|i] x E; try discriminate; [injection E as ->; reflexivity|]. cbn [firstn skipn app]. f_equal. apply IH. exact E.
Qed.
Lemma upd_middle (A : list Z) x B v : upd (A ++ x :: B) (length A) v = A ++ v :: B.
Proof. induction A as [|a A IH]; [reflexivity|]. cbn [length app upd]. f_equal. exact IH. Qed.
Lemma sized_of r c : utf8 r = true -> writable utf8 r c -> sized_ok c.
Proof. unfold writable, encodable, sized_ok. intros ->. lia. Qed.
Lemma assign_ok T S r i c old : good T -> stored T S -> nth_error (T r) i = Some old -> writable utf8 r c ->
  (utf8 r = true -> zlen (utf8_encode c) = zlen (utf8_encode old)) ->
  (let* p := forward (string_ops utf8 S r) i 0 in
   if utf8 r then let* '(mem, _) := it_assign (S r ++ [0]) p c in Ok mem else wr (S r ++ [0]) p c)
  = Ok (native r (replaced (T r) i c) ++ [0]) /\ length (S r) = length (native r (replaced (T r) i c)).
Proof.
  intros G H N W EL. assert (I : (i < length (T r))%nat) by (apply nth_error_Some; congruence).
  pose proof (split_nth _ _ _ N) as SP. unfold string_ops. rewrite (H r). pose proof (writable_31 r _ (G r)) as F31.
  unfold native. destruct (utf8 r) eqn:U.
  - destruct (string_inside _ _ _ _ _ (utf8_string (T r) F31)) as (pos' & inside & X & P & _). pose proof (ti_lawful _ _ _ _ _ _ _ X) as L.
    unfold string_buffer in L, X. pose proof (ti_begin _ _ _ _ _ _ _ X) as B0.
    rewrite (forward_ok _ _ _ _ L i 0%nat 0); [|rewrite app_length; cbn [length]; lia| |intros _; exact B0].
    2: { pose proof (lw_pos _ _ _ _ L 0%nat) as Q. rewrite <- B0 in Q. apply Q. rewrite app_length. cbn [length]. lia. }
    cbn [bind Nat.add]. rewrite P by lia.
    assert (E : utf8_text (T r) ++ [0] = utf8_text (firstn i (T r)) ++ utf8_encode old ++ utf8_text (skipn (Datatypes.S i) (T r)) ++ [0]).
    { rewrite SP at 1. unfold utf8_text. rewrite flat_map_app. cbn [flat_map]. rewrite <- !app_assoc. reflexivity. }
    rewrite E. assert (O31 : codepoint31 old) by (rewrite Forall_forall in F31; apply F31; apply nth_error_In with i; assumption).
    destruct (replace_step (utf8_text (firstn i (T r))) old c (utf8_text (skipn (Datatypes.S i) (T r)) ++ [0]) O31 (sized_of r c U W) (EL eq_refl)) as (_ & q & A & _).
    rewrite A. cbn [bind].
    assert (E' : utf8_text (replaced (T r) i c) = utf8_text (firstn i (T r)) ++ utf8_encode c ++ utf8_text (skipn (Datatypes.S i) (T r))).
    { unfold replaced, utf8_text. rewrite flat_map_app. reflexivity. }
    rewrite E'. split; [rewrite <- !app_assoc; reflexivity|].
    assert (LE := f_equal (@length Z) E). repeat rewrite app_length in LE. repeat rewrite app_length. cbn [length] in LE. pose proof (EL eq_refl) as ZZ. unfold zlen in ZZ. lia.
  - pose proof (utf32_string_text (T r)) as X. pose proof (ti_lawful _ _ _ _ _ _ _ X) as L. unfold string_buffer in L.
    rewrite (forward_ok _ _ _ _ L i 0%nat 0); [|rewrite app_length; cbn [length]; lia|reflexivity|intros _; reflexivity].
    cbn [bind]. unfold wr. replace ((0 <=? _) && _) with true.
    2: { symmetry. apply andb_true_intro. unfold zlen. rewrite app_length. cbn [length]. lia. }
    split.
    + f_equal. assert (E : T r ++ [0] = firstn i (T r) ++ old :: skipn (Datatypes.S i) (T r) ++ [0]) by (rewrite SP at 1; rewrite <- app_assoc; reflexivity).
      rewrite E. match goal with |- upd _ ?k _ = _ => replace k with (length (firstn i (T r))) by (rewrite firstn_length; lia) end.
      rewrite upd_middle. unfold replaced. rewrite <- app_assoc. reflexivity.
    + unfold replaced. rewrite SP at 1. rewrite !app_length. reflexivity.
Qed.
Lemma form_ok f r out cs d ops b e fuel : delimited_text ops b e cs -> (length cs < fuel)%nat -> form f cs d -> Forall (writable utf8 r) d ->
  exists n, normalize fuel ops (form_function f sort (append_utf32ne utf8 r) fuel ops) b e out = Ok (n, out ++ native r d).
Proof.
  intros D Hf (F & listed & n & NM & CF & E) W. pose proof (append_ok r out d W) as A.
  assert (D32 : delimited_text (utf32_ops (string_buffer cs)) 0 (zlen cs) cs) by (eapply delimited_string; constructor).
  assert (N1 : forall o, append_utf32ne utf8 r o [] = Ok o) by (intros o; rewrite append_ok by constructor; unfold native; destruct (utf8 r); cbn; rewrite app_nil_r; reflexivity).
  assert (N2 : forall o l m, append_utf32ne utf8 r o (l ++ m) = let* o := append_utf32ne utf8 r o l in append_utf32ne utf8 r o m).
  { intros o l m. unfold append_utf32ne. destruct (utf8 r); [apply utf8_append_app|apply utf32_append_app]. }
  exists n. cbv zeta in E. destruct NM; cbn [form_function] in *;
    unfold normalization_form_d, normalization_form_kd, normalization_form_c, normalization_form_kc in *.
  - rewrite (run_d32 _ _ _ canonical_decomposition_eq canonical_listed sort SO _ _ _ _ D32 (S (length cs)) ltac:(lia) CF []) in E. injection E as <- <-. cbn [app] in *.
    rewrite (run_d _ _ _ canonical_decomposition_eq canonical_listed sort SO _ _ _ _ D fuel Hf CF _ out N1 N2), A. reflexivity.
  - rewrite (run_d32 _ _ _ compat_decomposition_eq compat_listed sort SO _ _ _ _ D32 (S (length cs)) ltac:(lia) CF []) in E. injection E as <- <-. cbn [app] in *.
    rewrite (run_d _ _ _ compat_decomposition_eq compat_listed sort SO _ _ _ _ D fuel Hf CF _ out N1 N2), A. reflexivity.
  - rewrite (run_c32 _ _ _ canonical_decomposition_eq canonical_listed sort SO _ _ _ _ D32 (S (length cs)) ltac:(lia) CF []) in E. injection E as <- <-. cbn [app] in *.
    rewrite (run_c _ _ _ canonical_decomposition_eq canonical_listed sort SO _ _ _ _ D fuel Hf CF _ out N1 N2), A. reflexivity.
  - rewrite (run_c32 _ _ _ compat_decomposition_eq compat_listed sort SO _ _ _ _ D32 (S (length cs)) ltac:(lia) CF []) in E. injection E as <- <-. cbn [app] in *.
    rewrite (run_c _ _ _ compat_decomposition_eq compat_listed sort SO _ _ _ _ D fuel Hf CF _ out N1 N2), A. reflexivity.
Qed.
Lemma Forall_part {A} (P : A -> Prop) l i j : Forall P l -> Forall P (firstn j (skipn i l)).
Proof.
  rewrite !Forall_forall. intros H x I. apply H. rewrite <- (firstn_skipn i l). apply in_or_app. right.
  rewrite <- (firstn_skipn j (skipn i l)). apply in_or_app. left. assumption.
Qed.
Lemma step_good x T o T' : string_step utf8 form x T o T' -> good T -> good T'.
Proof.
  intros ST G. assert (W : forall r q, utf8 r = utf8 q -> forall l, Forall (writable utf8 q) l -> Forall (writable utf8 r) l).
  { intros r q E l F. eapply Forall_impl; [|exact F]. unfold writable. rewrite E. auto. }
  destruct ST; try assumption; apply good_set; try assumption; try (apply Forall_app; split; [apply G|]); try assumption.
  - constructor.
  - apply Forall_part. apply W with q; [assumption|apply G].
  - apply W with q; [assumption|]. pose proof (G q) as GQ. destruct H0 as (E & _). rewrite <- E in GQ.
    rewrite Forall_forall in *. intros c I. apply GQ. apply in_concat in I. destruct I as (g & I & J). apply in_concat. exists g. split; [|assumption].
    rewrite <- (firstn_skipn a gs). apply in_or_app. right. rewrite <- (firstn_skipn (k - a) (skipn a gs)). apply in_or_app. left. assumption.
  - pose proof (G q) as GQ. eapply Forall_impl; [|exact GQ]. intros c X. apply writable_unicode in X. unfold writable. rewrite H. assumption.
  - unfold replaced. pose proof (G r) as GR. rewrite Forall_forall in GR. apply Forall_app. split; [|constructor; [assumption|]]; apply Forall_forall; intros x I; apply GR.
    + rewrite <- (firstn_skipn i (T r)). apply in_or_app. left. assumption.
    + rewrite <- (firstn_skipn (S i) (T r)). apply in_or_app. right. assumption.
Qed.
Lemma belongs_within q cs i p : utf8 q = true -> belongs utf8 q cs i p ->
  zlen (utf8_text (firstn i (cs ++ [0]))) <= p < zlen (utf8_text (firstn (S i) (cs ++ [0]))) /\ (i <= length cs)%nat.
Proof.
  unfold belongs. intros ->. intros (A & [(I & B)|(-> & ->)]).
  - rewrite !firstn_app. replace (i - length cs)%nat with 0%nat by lia. replace (S i - length cs)%nat with 0%nat by lia. rewrite !firstn_O, !app_nil_r. lia.
  - replace (S (length cs)) with (length (cs ++ [0])) by (rewrite app_length; cbn; lia). rewrite firstn_all, firstn_app, Nat.sub_diag, firstn_all.
    cbn [firstn]. rewrite app_nil_r. unfold utf8_text. rewrite flat_map_app. unfold zlen. rewrite app_length. cbn. lia.
Qed.
Lemma execute_string_ok x T o T' : string_step utf8 form x T o T' -> good T ->
  exists N, forall S fuel, stored T S -> (N <= fuel)%nat -> exists S', execute_string sort fuel utf8 x S = Ok (o, S') /\ stored T' S'.
Proof.
  intros P G. destruct P.
  - exists 0%nat. intros S fuel H _. eexists. split; [reflexivity|]. apply stored_set; [assumption|]. unfold native. destruct (utf8 r); reflexivity.
  - exists 0%nat. intros S fuel X _. cbn [execute_string]. rewrite append_ok by assumption. eexists. split; [reflexivity|].
    apply stored_set; [assumption|]. rewrite (X r), native_app. reflexivity.
  - exists 0%nat. intros S fuel X _. cbn [execute_string]. rewrite (X q), (X r). unfold native. rewrite H. destruct (utf8 q) eqn:U.
    + destruct (belongs_within q _ _ _ U H1) as (W1 & L1). destruct (belongs_within q _ _ _ U H2) as (W2 & L2).
      pose proof (append_whole_codepoints (T q) i j p p' (utf8_text (T r)) (writable_31 q _ (G q)) ltac:(lia) W1 W2) as A. unfold string_buffer in A. rewrite A. cbn [bind].
      eexists. split; [reflexivity|]. apply stored_set; [assumption|]. rewrite native_app. unfold native. rewrite H. reflexivity.
    + unfold belongs in H1, H2. rewrite U in H1, H2. destruct H1 as (-> & L1), H2 as (-> & L2). unfold utf32_append.
      pose proof (utf32_slice (T q) i j ltac:(lia)) as A. unfold string_buffer in A. change (Z.of_nat i) with (0 + Z.of_nat i). change (Z.of_nat j) with (0 + Z.of_nat j).
      rewrite A. cbn [bind]. eexists. split; [reflexivity|]. apply stored_set; [assumption|]. unfold native. rewrite H. reflexivity.
  - exists (S (length (T q))). intros S fuel X Hf. cbn [execute_string]. apply seg_eq in H0. subst gs.
    destruct (utf8 r) eqn:U.
    + destruct (in_memory T S q G X) as (pos & M). destruct (string_text _ _ _ _ _ M) as (pos' & inside & Y & _).
      destruct (final_nth _ _ _ (T q) 0 pos' inside Y fuel a ltac:(lia) ltac:(lia)) as (ga & -> & Ga).
      destruct (final_nth _ _ _ (T q) 0 pos' inside Y fuel k ltac:(lia) ltac:(lia)) as (gk & -> & Gk). cbn [bind].
      unfold utf8_append_graphemes, gi_deref. cbn [fst]. unfold string_ops in Y. rewrite <- H in Y.
      rewrite (text_as_chars _ _ _ (T q) 0 pos' inside Y fuel a k ga gk (S r) ltac:(lia) H1 Ga Gk). cbn [bind].
      eexists. split; [reflexivity|]. apply stored_set; [assumption|]. rewrite native_app, <- (X r). f_equal. unfold native. rewrite U.
      apply map_u8_ascii; [|apply H2; reflexivity].
      pose proof (writable_31 q _ (G q)) as F. rewrite <- (seg_concat (T q)) in F. rewrite Forall_forall in *. intros c I. apply F.
      apply in_concat in I. destruct I as (g & I & J). apply in_concat. exists g. split; [|assumption].
      rewrite <- (firstn_skipn a (seg (T q))). apply in_or_app. right. rewrite <- (firstn_skipn (k - a) (skipn a (seg (T q)))). apply in_or_app. left. assumption.
    + assert (EQ : S q = T q) by (rewrite (X q); unfold native; rewrite <- H; reflexivity). unfold string_ops. rewrite <- H, EQ.
      pose proof (utf32_string_text (T q)) as Y. unfold string_buffer in Y.
      destruct (final_nth _ _ _ (T q) 0 _ _ Y fuel a ltac:(lia) ltac:(lia)) as (ga & -> & (Wa & _ & La & _)).
      destruct (final_nth _ _ _ (T q) 0 _ _ Y fuel k ltac:(lia) ltac:(lia)) as (gk & -> & (Wk & _ & Lk & _)). cbn [bind].
      unfold utf32_append_graphemes, gi_deref. cbn [fst]. rewrite Wa, Wk.
      assert (LE : (length (concat (firstn a (seg (T q)))) <= length (concat (firstn k (seg (T q)))))%nat).
      { rewrite <- (firstn_skipn a (firstn k (seg (T q)))), firstn_firstn, Nat.min_l, concat_app, app_length by lia. lia. }
      pose proof (utf32_slice (T q) _ _ (conj LE Lk)) as A. unfold string_buffer in A. rewrite A. cbn [bind]. rewrite seg_range by lia.
      eexists. split; [reflexivity|]. apply stored_set; [assumption|]. rewrite native_app, <- (X r). f_equal. unfold native. rewrite U. reflexivity.
  - exists 0%nat. intros S fuel X _. cbn [execute_string]. rewrite (X q). unfold native at 1. rewrite H. rewrite append_ok by assumption. eexists. split; [reflexivity|].
    apply stored_set; [assumption|]. rewrite (X r), native_app. reflexivity.
  - exists (S (length (T q))). intros S fuel X Hf. cbn [execute_string]. rewrite (show_ok T S q fuel G X) by lia. cbn [bind]. eexists. split; [reflexivity|].
    apply stored_set; [assumption|]. rewrite (X r). unfold native. rewrite H. reflexivity.
  - exists (S (length (T q))). intros S fuel X Hf. cbn [execute_string]. destruct (in_memory T S q G X) as (pos & M).
    destruct (form_ok f r (S r) (T q) d (string_ops utf8 S q) 0 (zlen (S q)) fuel (delimited_string _ _ _ _ pos M) ltac:(lia) H0 H1) as (n & ->). cbn [bind].
    eexists. split; [reflexivity|]. apply stored_set; [assumption|]. rewrite (X r), native_app. reflexivity.
  - exists 0%nat. intros S fuel X _. cbn [execute_string]. destruct (assign_ok T S r i c old G X H H0 H1) as (A & L).
    destruct (forward (string_ops utf8 S r) i 0) as [p| |]; cbn [bind] in *; try discriminate. rewrite A. cbn [bind]. eexists. split; [reflexivity|].
    apply stored_set; [assumption|]. rewrite L, firstn_app, Nat.sub_diag, firstn_all. cbn [firstn]. apply app_nil_r.
  - exists (S (length (T r))). intros S fuel X Hf. cbn [execute_string]. rewrite (show_ok T S r fuel G X) by lia. cbn [bind]. eexists. split; [reflexivity|assumption].
  - exists (S (length (T r))). intros S fuel X Hf. cbn [execute_string]. rewrite (graphemes_ok' T S r fuel G X) by lia. cbn [bind].
    apply seg_eq in H. subst gs. eexists. split; [reflexivity|assumption].
  - exists 0%nat. intros S fuel X _. cbn [execute_string]. rewrite (X r). unfold native. rewrite H.
    pose proof (check_accepts_valid (T r) (writable_31 r _ (G r))) as C. cbv zeta in C. unfold string_buffer in C. rewrite C. cbn [bind]. eexists. split; [reflexivity|assumption].
Qed.
Lemma run_strings_ok T xs os T' : string_history utf8 form T xs os T' -> good T ->
  exists N, forall S fuel, stored T S -> (N <= fuel)%nat -> exists S', run_strings sort fuel utf8 xs S = Ok (os, S') /\ stored T' S'.
Proof.
  intros H. induction H as [T|T T' T'' x xs o os P H IH]; intros G.
  - exists 0%nat. intros S fuel X _. exists S. split; [reflexivity|assumption].
  - destruct (execute_string_ok _ _ _ _ P G) as (N & A). destruct (IH (step_good _ _ _ _ P G)) as (M & B). exists (Nat.max N M). intros S fuel X Hf.
    cbn [run_strings]. destruct (A S fuel X ltac:(lia)) as (S' & -> & X'). cbn [bind]. destruct (B S' fuel X' ltac:(lia)) as (S'' & -> & X''). cbn [bind]. eauto.
Qed.
End Strings.
