(** * Property C125: how many octets a normalized text takes in UTF-8

    [utf8_text] (Utf8Spec.v): the UTF-8 encoding; [encodable], [normalize_utf8] (Properties_Pipeline.v): the codepoints the library
    encodes right, and a UTF-8 string normalized into an empty one. *)
From Coq Require Import Permutation Sorted Relations.
From Verif Require Import Prelude DataTables UcdTables PropsModel Utf8Model TextModel StdSortModel Utf8Spec UnicodeSpec GraphemeSpec TextSpec NormSpec
  PropsProofs LawfulProofs DecompTables DecompProofs GraphemeProofs Uax29Proofs GraphemeText OrderProofs ComposeProofs NormData NormProofs HangulProofs NfcProofs NormText
  Utf8Proofs EncodeProofs TextsProofs Properties_Iteration Properties_Graphemes Properties_Normalize Properties_Sort Properties_Texts Properties_Keep Properties_Pipeline.
Require Import ZifyBool ZifyNat.

Definition octets (l : list Z) : Z := zlen (utf8_text l).
Lemma octets_app x y : octets (x ++ y) = octets x + octets y.
Proof. unfold octets, utf8_text. rewrite flat_map_app, zlen_app. reflexivity. Qed.
Lemma octets_cons c y : octets (c :: y) = octets [c] + octets y.
Proof. exact (octets_app [c] y). Qed.
Lemma octets_perm x y : Permutation x y -> octets x = octets y.
Proof.
  induction 1 as [|c x y _ IH|c d x|x y z _ IH1 _ IH2]; [reflexivity| | |lia].
  - rewrite (octets_cons c x), (octets_cons c y). lia.
  - rewrite (octets_cons d (c :: x)), (octets_cons c x), (octets_cons c (d :: x)), (octets_cons d x). lia.
Qed.
Definition row_octets (k : Z) (row : list Z) : bool := match row with c :: t => octets (removelast t) <=? k * octets [c] | [] => true end.
Lemma canonical_row_octets : forallb (row_octets 3) canonical_decomposition_mapping_data = true.
Proof. vm_cast_no_check (eq_refl true). Qed.
Lemma compat_row_octets : forallb (row_octets 6) compatibility_and_canonical_decomposition_mapping_data = true.
Proof. vm_cast_no_check (eq_refl true). Qed.
Definition composite_octets (r : list Z) : bool := match r with [a; b; c] => octets [c] <=? octets [a] + octets [b] | _ => false end.
Lemma composites_octets : forallb composite_octets canonical_composition_mapping_data = true.
Proof. vm_cast_no_check (eq_refl true). Qed.
Lemma full_octets keep data k c : closed_table keep data -> forallb (row_octets k) data = true -> 1 <= k -> octets (table_full data c) <= k * octets [c].
Proof.
  intros T L K. pose proof (zlen_nonneg (utf8_text [c])) as N. fold (octets [c]) in N.
  destruct (table_full_row keep data c T) as [->|I]; [nia|]. rewrite forallb_forall in L. specialize (L _ I). unfold row_octets in L.
  rewrite removelast_snoc in L. lia.
Qed.
Lemma flat_octets (f : Z -> list Z) k l : (forall c, octets (f c) <= k * octets [c]) -> octets (flat_map f l) <= k * octets l.
Proof.
  intros H. induction l as [|c l IH]; [cbn; lia|]. cbn [flat_map]. rewrite octets_app, (octets_cons c l). specialize (H c). lia.
Qed.
Lemma composeF_octets t : forall a, octets (composeF a t) <= octets (a :: t).
Proof.
  induction t as [|b t IH]; intros a; cbn [composeF]; [lia|]. rewrite (octets_cons a (b :: t)), (octets_cons b t).
  destruct (comp a b) as [c|] eqn:E.
  - apply comp_row in E. pose proof composites_octets as Q. rewrite forallb_forall in Q. specialize (Q _ E). cbn [composite_octets] in Q.
    specialize (IH c). rewrite (octets_cons c t) in IH. lia.
  - rewrite (octets_cons a (composeF b t)). specialize (IH b). rewrite (octets_cons b t) in IH. lia.
Qed.
Lemma norm_octets F listed kd full sort k : form_data F listed kd full -> std_sort_ok sort -> (forall c, octets (full c) <= k * octets [c]) ->
  forall gs, octets (flat_map (norm_grapheme kd full sort) gs) <= k * octets (concat gs).
Proof.
  intros FD SO H. induction gs as [|g gs IH]; [cbn; lia|]. cbn [flat_map concat]. rewrite !octets_app.
  assert (X : octets (sort (flat_map full g)) <= k * octets g).
  { rewrite <- (octets_perm _ _ (proj1 (SO (flat_map full g)))). apply flat_octets. exact H. }
  assert (Y : octets (norm_grapheme kd full sort g) <= octets (sort (flat_map full g))).
  { unfold norm_grapheme. destruct kd; [|lia]. destruct (sort (flat_map full g)) as [|a t]; [cbn; lia|]. apply composeF_octets. }
  lia.
Qed.

(** A form makes of any text at most [k] times as many octets of UTF-8. *)
Inductive octet_growth : ((list Z -> list Z) -> (list Z -> list Z -> res (list Z)) -> nat -> cp_ops -> Z * Z -> list Z -> res (Z * list Z)) ->
  (Z -> list Z -> Prop) -> Z -> Prop :=
| octets_d : octet_growth normalization_form_d listed_canonical 3
| octets_c : octet_growth normalization_form_c listed_canonical 3
| octets_kd : octet_growth normalization_form_kd listed_compat 6
| octets_kc : octet_growth normalization_form_kc listed_compat 6.
Lemma growth_data F listed k : octet_growth F listed k -> exists kd full, form_data F listed kd full /\ forall c, octets (full c) <= k * octets [c].
Proof.
  intros []; eexists _, _; (split; [constructor|]); intros c;
    first [exact (full_octets _ _ 3 c canonical_table canonical_row_octets ltac:(lia))|exact (full_octets _ _ 6 c compat_table compat_row_octets ltac:(lia))].
Qed.
Theorem C125_octets_of_the_form : forall F listed k sort ops b e cs fuel out,
  octet_growth F listed k -> std_sort_ok sort -> delimited_text ops b e cs -> (length cs < fuel)%nat -> count_fits listed cs ->
  exists u, normalize fuel ops (F sort utf32_append_from_utf32ne fuel ops) b e out = Ok (zlen u, out ++ u) /\
    zlen (utf8_text u) <= k * zlen (utf8_text cs).
Proof.
  intros F listed k sort ops b e cs fuel out G SO D Hf CF. destruct (growth_data F listed k G) as (kd & full & FD & H).
  eexists. split; [exact (run_any32 F listed kd full sort ops b e cs fuel out FD SO D Hf CF)|].
  pose proof (norm_octets F listed kd full sort k FD SO H (seg cs)) as X. rewrite seg_concat in X. exact X.
Qed.
Print Assumptions C125_octets_of_the_form.
(** So a UTF-8 string normalized into a UTF-8 string (all of whose codepoints the library encodes right) grows at most so much. *)
Theorem C125_utf8_string : forall F listed k sort cs fuel u,
  octet_growth F listed k -> std_sort_ok sort -> Forall unicode_codepoint cs -> (length cs < fuel)%nat -> count_fits listed cs ->
  form_alone F sort cs u -> Forall encodable u ->
  exists s, normalize_utf8 F sort fuel (utf8_text cs) = Ok (zlen u, s) /\ zlen s <= k * zlen (utf8_text cs).
Proof.
  intros F listed k sort cs fuel u G SO UC Hf CF A EN.
  assert (FO : form_of F listed) by (destruct G; constructor).
  assert (D : delimited_text (utf32_ops (string_buffer cs)) 0 (zlen cs) cs) by exact (delimited_string _ _ _ _ _ (utf32_string cs)).
  destruct (C125_octets_of_the_form F listed k sort _ _ _ cs (S (length cs)) [] G SO D (Nat.lt_succ_diag_r _) CF) as (u' & R & B). cbn [app] in R.
  unfold form_alone in A. rewrite A in R. injection R as _ <-.
  assert (C31 : Forall codepoint31 cs) by (eapply Forall_impl; [|exact UC]; unfold unicode_codepoint, codepoint31; intros; lia).
  destruct (form_data_of F listed FO) as (kd & full & FD).
  exists (utf8_text u). split; [|exact B]. unfold normalize_utf8.
  rewrite (run_any32 F listed kd full sort _ _ _ cs (S (length cs)) [] FD SO D (Nat.lt_succ_diag_r _) CF) in A. cbn [app] in A. injection A as _ A.
  rewrite (run_any F listed kd full sort _ _ _ _ cs fuel [] FD SO utf8_output (delimited_string _ _ _ _ _ (utf8_string cs C31)) Hf CF). rewrite A.
  rewrite append_from_utf32ne_ok; [reflexivity|]. eapply Forall_impl; [|exact EN]. unfold encodable, sized_ok. intros; lia.
Qed.
Print Assumptions C125_utf8_string.
(** Composing never takes more octets: form C not more than D, KC not more than KD. *)
Theorem C125_composed_is_not_longer : forall Fd Fc sort ops b e cs fuel listed,
  (Fd, Fc) = (normalization_form_d, normalization_form_c) /\ listed = listed_canonical \/
  (Fd, Fc) = (normalization_form_kd, normalization_form_kc) /\ listed = listed_compat ->
  std_sort_ok sort -> delimited_text ops b e cs -> (length cs < fuel)%nat -> count_fits listed cs ->
  exists d c, normalize fuel ops (Fd sort utf32_append_from_utf32ne fuel ops) b e [] = Ok (zlen d, d) /\
    normalize fuel ops (Fc sort utf32_append_from_utf32ne fuel ops) b e [] = Ok (zlen c, c) /\
    zlen (utf8_text c) <= zlen (utf8_text d).
Proof.
  intros Fd Fc sort ops b e cs fuel listed H SO D Hf CF.
  assert (X : exists full, form_data Fd listed false full /\ form_data Fc listed true full)
    by (destruct H as [[E ->]|[E ->]]; injection E as -> ->; eexists; split; constructor).
  destruct X as (full & FD & FC). eexists _, _.
  split; [exact (run_any32 Fd listed false full sort ops b e cs fuel [] FD SO D Hf CF)|].
  split; [exact (run_any32 Fc listed true full sort ops b e cs fuel [] FC SO D Hf CF)|]. cbn [app].
  induction (seg cs) as [|g gs IH]; [cbn; lia|]. cbn [flat_map]. fold (octets (norm_grapheme true full sort g ++ flat_map (norm_grapheme true full sort) gs)).
  fold (octets (norm_grapheme false full sort g ++ flat_map (norm_grapheme false full sort) gs)). rewrite !octets_app.
  assert (Y : octets (norm_grapheme true full sort g) <= octets (norm_grapheme false full sort g)).
  { unfold norm_grapheme. destruct (sort (flat_map full g)) as [|a t]; [cbn; lia|]. apply composeF_octets. }
  unfold octets in *. lia.
Qed.
Print Assumptions C125_composed_is_not_longer.

(** 3 is attained, in form C by U+1D160; 5 is not enough for KD and KC (U+321D). *)
Theorem C125_factors_needed :
  let form F t := normalize 4 (utf32_ops (string_buffer t)) (F gnu_sort utf32_append_from_utf32ne 4%nat (utf32_ops (string_buffer t))) 0 (zlen t) [] in
  form normalization_form_d [0x390] = Ok (3, [0x3B9; 0x308; 0x301]) /\ zlen (utf8_text [0x3B9; 0x308; 0x301]) = 3 * zlen (utf8_text [0x390]) /\
  form normalization_form_c [0x1D160] = Ok (3, [0x1D158; 0x1D165; 0x1D16E]) /\ zlen (utf8_text [0x1D158; 0x1D165; 0x1D16E]) = 3 * zlen (utf8_text [0x1D160]) /\
  form normalization_form_kd [0x321D] = form normalization_form_kc [0x321D] /\
  exists u, form normalization_form_kc [0x321D] = Ok (zlen u, u) /\ 5 * zlen (utf8_text [0x321D]) < zlen (utf8_text u).
Proof.
  cbv zeta. split; [vm_compute; reflexivity|]. split; [vm_compute; reflexivity|]. split; [vm_compute; reflexivity|]. split; [vm_compute; reflexivity|].
  split; [vm_compute; reflexivity|]. exists [40; 4363; 4457; 4364; 4453; 4523; 41]. split; [vm_compute; reflexivity|]. vm_compute. reflexivity.
Qed.
Print Assumptions C125_factors_needed.
Example C125_example : (* the hypotheses of C125_utf8_string *)
  form_alone normalization_form_d gnu_sort [0x390; 0x61] [0x3B9; 0x308; 0x301; 0x61] /\ Forall encodable [0x3B9; 0x308; 0x301; 0x61] /\
  normalize_utf8 normalization_form_d gnu_sort 3 (utf8_text [0x390; 0x61]) = Ok (4, [0xCE; 0xB9; 0xCC; 0x88; 0xCC; 0x81; 0x61]).
Proof. split; [vm_compute; reflexivity|]. split; [repeat constructor; unfold encodable; lia|vm_compute; reflexivity]. Qed.
