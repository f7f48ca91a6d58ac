(** * Property C130: splitting a UTF-8 text at a separator

    [lines_of], [joined] (LinesSpec.v): the pieces of a text between the separators.  [split] (EditModel.v): the loop of find and substr with which a
    client splits the octets. *)
From Verif Require Import Prelude Utf8Model TextModel StdSortModel Utf8Spec UnicodeSpec TextSpec NormSpec Utf8Proofs AlgoModel AlgoSpec NativeModel NativeProofs EditModel LinesSpec LinesProofs
  Properties_Algorithms Properties_Native Properties_Edit Properties_Normalize Properties_Sort Properties_Texts Properties_Forms Properties_Pipeline Properties_Keep Properties_Lines Properties_Fields.
Require Import ZifyBool ZifyNat.

Lemma substr_codepoints cs i j : (i <= j)%nat ->
  string_substr (utf8_text cs) (octet_at cs i) (octet_at cs j - octet_at cs i) = Some (utf8_text (firstn (j - i) (skipn i cs))).
Proof. intros I. exact (proj2 (proj2 (proj2 (proj2 (C129_edit cs [] i j I))))). Qed.
Lemma substr_rest cs i : string_substr (utf8_text cs) (octet_at cs i) (zlen (utf8_text cs)) = Some (utf8_text (skipn i cs)).
Proof.
  unfold string_substr. pose proof (octet_at_zlen cs i). pose proof (octet_at_le cs 0 i ltac:(lia)). destruct (Z.ltb_spec (zlen (utf8_text cs)) (octet_at cs i)); [lia|].
  rewrite (proj2 (cut_text cs i)). f_equal. apply firstn_all2. unfold limit.
  assert (Q : zlen (utf8_text cs) = octet_at cs i + zlen (utf8_text (skipn i cs))).
  { rewrite <- (firstn_skipn i cs) at 1. rewrite text_app. unfold octet_at, zlen. rewrite app_length. lia. }
  unfold zlen in *. destruct (Z.ltb_spec (Z.of_nat (length (utf8_text cs))) (Z.of_nat (length (utf8_text cs)) - octet_at cs i)); lia.
Qed.
Lemma find_behind done f c rest : Forall codepoint31 (done ++ f ++ c :: rest) -> ~ In c f ->
  string_find (S (S (length (utf8_text (done ++ f ++ c :: rest))))) (utf8_text (done ++ f ++ c :: rest)) (utf8_text [c]) (octet_at (done ++ f ++ c :: rest) (length done))
  = Ok (Some (octet_at (done ++ f ++ c :: rest) (length done + length f))).
Proof.
  set (cs := done ++ f ++ c :: rest). intros C N.
  assert (Cc : Forall codepoint31 [c]) by (constructor; [|constructor]; rewrite Forall_forall in C; apply C; unfold cs; rewrite !in_app_iff; cbn; auto).
  assert (O : occurs_at cs [c] (length done + length f)).
  { exists (done ++ f), rest. unfold cs. rewrite <- app_assoc, app_length. auto. }
  destruct (C128_find cs [c] (octet_at cs (length done)) (S (S (length (utf8_text cs)))) C Cc ltac:(discriminate) ltac:(lia) (proj1 (octet_at_le cs (length done) (length done) (le_n _))))
    as [(k & E & G & Ok' & M)|(_ & M)].
  - rewrite E. f_equal. f_equal. f_equal. assert (K : (length done <= k)%nat).
    { destruct (Nat.le_gt_cases (length done) k) as [Q|Q]; [exact Q|]. pose proof (octet_at_less cs k (length done) C ltac:(unfold cs; rewrite app_length; lia)). lia. }
    destruct (Nat.lt_trichotomy k (length done + length f)) as [Q|[Q|Q]]; [|exact Q|].
    + exfalso. apply N. apply occurs_after in Ok'; [|exact K]. destruct Ok' as (x & y & Q' & L).
      assert (X : nth_error (f ++ c :: rest) (k - length done) = Some c) by (rewrite Q', <- L, nth_error_app2, Nat.sub_diag by lia; reflexivity).
      rewrite nth_error_app1 in X by lia. apply nth_error_In in X. exact X.
    + exfalso. apply (M _ Q); [|exact O]. apply octet_at_le. lia.
  - exfalso. apply (M (length done + length f)%nat); [|exact O]. apply octet_at_le. lia.
Qed.
Lemma find_no_more done f c : Forall codepoint31 (done ++ f) -> codepoint31 c -> ~ In c f ->
  string_find (S (S (length (utf8_text (done ++ f))))) (utf8_text (done ++ f)) (utf8_text [c]) (octet_at (done ++ f) (length done)) = Ok None.
Proof.
  intros C Cc N. destruct (C128_find (done ++ f) [c] (octet_at (done ++ f) (length done)) (S (S (length (utf8_text (done ++ f))))) C (Forall_cons _ Cc (Forall_nil _)) ltac:(discriminate) ltac:(lia)
    (proj1 (octet_at_le _ (length done) (length done) (le_n _)))) as [(k & E & G & O & M)|(E & _)]; [|exact E].
  exfalso. assert (K : (length done <= k)%nat).
  { destruct (Nat.le_gt_cases (length done) k) as [Q|Q]; [exact Q|]. pose proof (octet_at_less (done ++ f) k (length done) C ltac:(rewrite app_length; lia)). lia. }
  apply occurs_after in O; [|exact K]. destruct O as (x & y & -> & L). apply N. rewrite in_app_iff. cbn. auto.
Qed.
Lemma split_from c fs : codepoint31 c -> fs <> [] -> (forall f, In f fs -> ~ In c f) -> forall done v fuel, Forall codepoint31 (done ++ joined c fs) -> (length fs <= fuel)%nat ->
  split fuel (utf8_text (done ++ joined c fs)) (utf8_text [c]) (octet_at (done ++ joined c fs) (length done)) v = Ok (Some (v ++ map utf8_text fs)).
Proof.
  intros Cc. induction fs as [|f r IH]; [contradiction|]. intros _ N done v fuel C Hf. destruct fuel as [|fuel]; [cbn in Hf; lia|]. cbn [split]. destruct r as [|m r].
  - cbn [joined map] in *. rewrite (find_no_more done f c C Cc (N f (or_introl eq_refl))). cbn [bind]. rewrite substr_rest, skipn_app, skipn_all, Nat.sub_diag. reflexivity.
  - rewrite joined_cons in *. rewrite (find_behind done f c _ C (N f (or_introl eq_refl))). cbn [bind]. rewrite substr_codepoints by lia.
    rewrite skipn_app, skipn_all, Nat.sub_diag. cbn [app skipn]. replace (length done + length f - length done)%nat with (length f) by lia.
    rewrite firstn_app, firstn_all, Nat.sub_diag. cbn [firstn]. rewrite app_nil_r.
    replace (octet_at (done ++ f ++ c :: joined c (m :: r)) (length done + length f) + zlen (utf8_text [c]))
      with (octet_at ((done ++ f ++ [c]) ++ joined c (m :: r)) (length (done ++ f ++ [c]))).
    2: { rewrite octet_at_app. replace (done ++ f ++ c :: joined c (m :: r)) with ((done ++ f) ++ c :: joined c (m :: r)) by (rewrite <- app_assoc; reflexivity).
         rewrite <- app_length, octet_at_app, !text_app. unfold zlen. rewrite !app_length. lia. }
    replace (done ++ f ++ c :: joined c (m :: r)) with ((done ++ f ++ [c]) ++ joined c (m :: r)) in C |- * by (rewrite <- !app_assoc; reflexivity).
    rewrite IH; [cbn [map]; rewrite <- app_assoc; reflexivity|discriminate|intros x I; apply N; right; exact I|exact C|cbn [length] in *; lia].
Qed.
(** The loop gives the pieces of the text, each as UTF-8. *)
Theorem C130_split : forall cs c fs fuel, Forall codepoint31 cs -> codepoint31 c -> lines_of c cs fs -> (length fs <= fuel)%nat ->
  split fuel (utf8_text cs) (utf8_text [c]) 0 [] = Ok (Some (map utf8_text fs)).
Proof.
  intros cs c fs fuel C Cc (NE & -> & N) Hf. pose proof (split_from c fs Cc NE N [] [] fuel C Hf) as X. cbn [app length] in X. exact X.
Qed.
Print Assumptions C130_split.
(** There are such pieces, and only one list of them; joining them with the octets of the separator gives the string back. *)
Fixpoint joined_octets (s : list Z) (ls : list (list Z)) : list Z :=
  match ls with
  | [] => []
  | [l] => l
  | l :: rest => l ++ s ++ joined_octets s rest
  end.
Theorem C130_split_and_join : forall cs c fuel, Forall codepoint31 cs -> codepoint31 c -> (S (length cs) <= fuel)%nat ->
  exists fs, lines_of c cs fs /\ (forall fs', lines_of c cs fs' -> fs' = fs) /\
    split fuel (utf8_text cs) (utf8_text [c]) 0 [] = Ok (Some (map utf8_text fs)) /\
    joined_octets (utf8_text [c]) (map utf8_text fs) = utf8_text cs.
Proof.
  intros cs c fuel C Cc Hf. destruct (lines_exist c cs) as (fs & L). exists fs. split; [exact L|]. split; [intros fs' L'; exact (lines_unique c cs fs' fs L' L)|].
  destruct L as (NE & -> & N). split.
  - apply C130_split; [exact C|exact Cc|split; auto|]. assert (Q : (length fs <= S (length (joined c fs)))%nat); [|lia].
    clear - NE. induction fs as [|f r IH]; [contradiction|]. destruct r as [|m r]; [cbn [length]; lia|]. rewrite joined_cons, app_length. specialize (IH ltac:(discriminate)). cbn [length] in *. lia.
  - clear. induction fs as [|f r IH]; [reflexivity|]. destruct r as [|m r]; [reflexivity|]. rewrite joined_cons, text_app. cbn [map] in *.
    change (utf8_text (c :: joined c (m :: r))) with (utf8_text ([c] ++ joined c (m :: r))). rewrite text_app, <- IH. reflexivity.
Qed.
Print Assumptions C130_split_and_join.
(** With C127: a text of fields is normalized in UTF-8 and then split into the forms of its fields, if the encoder handles the output (C19). *)
Theorem C130_split_after_normalization : forall F listed sort s fs fuel fuel',
  form_of F listed -> std_sort_ok sort -> printable_ascii s -> fields_apart fs -> lines_of s (joined s fs) fs -> only_itself listed s (joined s fs) ->
  Forall unicode_codepoint (joined s fs) -> (length (joined s fs) < fuel)%nat -> (length fs <= fuel')%nat -> count_fits listed (joined s fs) ->
  exists us, Forall2 (form_alone F sort) fs us /\
    (Forall encodable (joined s us) ->
     normalize_utf8 F sort fuel (utf8_text (joined s fs)) = Ok (zlen (joined s us), utf8_text (joined s us)) /\
     split fuel' (utf8_text (joined s us)) (utf8_text [s]) 0 [] = Ok (Some (map utf8_text us))).
Proof.
  intros F listed sort s fs fuel fuel' FO SO P A L O U Hf Hf' CF.
  assert (D32 : delimited_text (utf32_ops (string_buffer (joined s fs))) 0 (zlen (joined s fs)) (joined s fs)) by (eapply delimited_string; constructor).
  destruct (C127_field_by_field F listed sort s _ _ _ fs fuel [] FO SO P A D32 Hf CF) as (us & E & R & K). exists us. split; [exact R|]. intros Enc. split.
  - destruct (C52_utf8_agrees_iff_partial F listed sort (joined s fs) fuel [] FO SO U Hf CF) as (n & d & E' & I). rewrite E in E'. cbn [app] in E'. injection E' as <- <-.
    unfold normalize_utf8. apply I. intros c C. rewrite Forall_forall in Enc. exact (Enc c C).
  - apply C130_split; [exact (encodable_31 _ Enc)|unfold codepoint31, printable_ascii in *; change (2 ^ 31) with 2147483648; lia|exact (K L O)|].
    assert (Q : length fs = length us) by (clear - R; induction R; cbn [length]; congruence). lia.
Qed.
Print Assumptions C130_split_after_normalization.
(** Octets of other than shortest encodings are not split where their codepoints are. *)
Theorem C130_condition_needed : split 5 [0x61; 0xC0; 0xAC; 0x62] (utf8_text [0x2C]) 0 [] = Ok (Some [[0x61; 0xC0; 0xAC; 0x62]]) /\
  iterate_codepoints_for 5 (utf8_ops (string_buffer [0x61; 0xC0; 0xAC; 0x62])) 0 4 = Ok [0x61; 0x2C; 0x62].
Proof. split; vm_compute; reflexivity. Qed.
Print Assumptions C130_condition_needed.
(** "é,,€," at commas. *)
Example C130_example :
  let cs := [0xE9; 0x2C; 0x2C; 0x20AC; 0x2C] in
  lines_of 0x2C cs [[0xE9]; []; [0x20AC]; []] /\
  split 4 (utf8_text cs) (utf8_text [0x2C]) 0 [] = Ok (Some [[0xC3; 0xA9]; []; [0xE2; 0x82; 0xAC]; []]) /\
  normalize_utf8 normalization_form_c gnu_sort 6 (utf8_text (joined 0x2C [[0x65; 0x301]; [0x20AC]])) = Ok (3, utf8_text [0xE9; 0x2C; 0x20AC]) /\
  split 4 (utf8_text [0xE9; 0x2C; 0x20AC]) (utf8_text [0x2C]) 0 [] = Ok (Some [utf8_text [0xE9]; utf8_text [0x20AC]]) /\ Forall encodable [0xE9; 0x2C; 0x20AC].
Proof.
  cbv zeta. split; [|split; [vm_compute; reflexivity|split; [vm_compute; reflexivity|split; [vm_compute; reflexivity|repeat constructor; unfold encodable; lia]]]]. split; [discriminate|]. split; [reflexivity|]. intros f [<-|[<-|[<-|[<-|[]]]]] I; cbn in I; intuition discriminate.
Qed.
