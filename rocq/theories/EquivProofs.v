(** * Equivalence by the listed mappings is equality of the ordered full decomposition *)
From Coq Require Import Permutation Sorted Relations.
From Verif Require Import Prelude DataTables UcdTables PropsModel Utf8Model TextModel Utf8Spec UnicodeSpec GraphemeSpec TextSpec NormSpec FilterSpec
  PropsProofs LawfulProofs DecompTables DecompProofs GraphemeProofs Uax29Proofs GraphemeText FilterProofs OrderProofs ComposeProofs
  NormData HangulProofs NormProofs NfcProofs NormForms EncodeProofs EncodeText NormUtf8 NormText StdSortModel StdSortProofs
  Properties_Normalize Properties_Sort TextsProofs Properties_Texts FormsProofs.
Require Import ZifyBool ZifyNat.

Section By.
Context (listed : Z -> list Z -> Prop) (full : Z -> list Z).
Context (listed_full : forall cs f, expands_all listed cs f <-> f = flat_map full cs).
Context (exchange_f : forall l l', exchange l l' -> corder (flat_map full l) = corder (flat_map full l')).
Lemma by_app x y l l' : equivalent_by listed l l' -> equivalent_by listed (x ++ l ++ y) (x ++ l' ++ y).
Proof.
  induction 1 as [l l' S| |? ? _ IH|? ? ? _ IH1 _ IH2]; [|apply rst_refl|apply rst_sym; assumption|eapply rst_trans; eassumption].
  apply rst_step. destruct S as [a c m b M|? ? [p u v q i j A B H]].
  - repeat rewrite <- app_assoc. cbn [app]. rewrite (app_assoc x a). rewrite (app_assoc x a). apply by_map. assumption.
  - apply by_exchange. repeat rewrite <- app_assoc. cbn [app]. rewrite !(app_assoc x p). econstructor; eassumption.
Qed.
Lemma expands_by : (forall c d, expands listed c d -> equivalent_by listed [c] d) /\
  (forall cs d, expands_all listed cs d -> equivalent_by listed cs d).
Proof.
  apply expands_ind2.
  - intros. apply rst_refl.
  - intros c l d M _ IH. eapply rst_trans; [|exact IH]. apply rst_step. pose proof (by_map listed [] c l [] M) as E.
    cbn [app] in E. rewrite app_nil_r in E. exact E.
  - apply rst_refl.
  - intros c cs d ds _ IH1 _ IH2. eapply rst_trans.
    + pose proof (by_app [] cs _ _ IH1) as E. cbn [app] in E. exact E.
    + pose proof (by_app d [] _ _ IH2) as E. rewrite !app_nil_r in E. exact E.
Qed.
Lemma order_by l : equivalent_by listed l (corder l).
Proof.
  pose proof (corder_steps l) as O. induction O; [apply rst_step, by_exchange; assumption|apply rst_refl|eapply rst_trans; eassumption].
Qed.
Lemma reduced_by l : equivalent_by listed l (corder (flat_map full l)).
Proof. eapply rst_trans; [apply expands_by, listed_full; reflexivity|apply order_by]. Qed.
Lemma step_full l l' : step_by listed l l' -> corder (flat_map full l) = corder (flat_map full l').
Proof.
  intros [x c m y M|l0 l1 X]; [|apply exchange_f; exact X].
  assert (E : full c = flat_map full m).
  { assert (A : expands_all listed [c] (flat_map full m ++ [])).
    { constructor; [|constructor]. eapply expands_map; [exact M|]. apply listed_full. reflexivity. }
    apply listed_full in A. cbn [flat_map] in A. rewrite !app_nil_r in A. symmetry. exact A. }
  rewrite !flat_map_app. cbn [flat_map]. rewrite E. reflexivity.
Qed.
Lemma by_eq l l' : equivalent_by listed l l' <-> corder (flat_map full l) = corder (flat_map full l').
Proof.
  split.
  - induction 1; [apply step_full; assumption|reflexivity|symmetry; assumption|congruence].
  - intros E. eapply rst_trans; [apply reduced_by|]. rewrite E. apply rst_sym, reduced_by.
Qed.
End By.
Lemma data_by F listed k full : form_data F listed k full ->
  forall l l', equivalent_by listed l l' <-> corder (flat_map full l) = corder (flat_map full l').
Proof.
  intros FD. apply by_eq; [exact (data_listed _ _ _ _ FD)|]. destruct FD; first [exact exchange_full|exact exchange_compat].
Qed.
Lemma data_ordered F listed k full : form_data F listed k full ->
  forall cs, form_d_of full cs = corder (flat_map full cs) <-> graphemes_marks_last listed (seg cs).
Proof.
  intros FD cs.
  assert (A : form_d_of full cs = corder (flat_map full cs) <-> forall g, In g (seg cs) -> starters_first (flat_map full g)).
  { destruct FD; first [apply (form_d_ordered_iff full_canonical full_canonical_ne canonical_head canonical_control)
      |apply (form_d_ordered_iff full_compat full_compat_ne compat_head compat_control)]. }
  rewrite A. unfold graphemes_marks_last. split.
  - intros H g f I E. apply (data_listed _ _ _ _ FD) in E. subst f. apply marks_last_iff. auto.
  - intros H g I. apply marks_last_iff. apply (H g _ I). apply (data_listed _ _ _ _ FD). reflexivity.
Qed.
(** Equality of two outputs of a form is equality of the decomposed forms. *)
Lemma data_forms_eq F listed k full : form_data F listed k full -> forall cs cs',
  (if k then form_c_of full cs else form_d_of full cs) = (if k then form_c_of full cs' else form_d_of full cs') <->
  form_d_of full cs = form_d_of full cs'.
Proof.
  intros FD cs cs'.
  assert (X : (forall c, form_c_of full c = compose (form_d_of full c)) /\ (forall c, flat_map full (form_c_of full c) = form_d_of full c)).
  { destruct FD; split; first [apply (form_c_eq _ full_canonical_ne canonical_head canonical_control)
    |apply (form_c_full _ full_canonical_ne canonical_head canonical_control full_canonical_fix canonical_compose)
    |apply (form_c_eq _ full_compat_ne compat_head compat_control)
    |apply (form_c_full _ full_compat_ne compat_head compat_control full_compat_fix compat_compose)]. }
  destruct X as [Q1 Q2]. destruct k; [|reflexivity]. split; intros E.
  - rewrite <- (Q2 cs), <- (Q2 cs'), E. reflexivity.
  - rewrite (Q1 cs), (Q1 cs'), E. reflexivity.
Qed.
(** Without syllables the listed canonical mappings are all there are. *)
Lemma no_syllable_standard cs : (forall s, In s cs -> ~ hangul_syllable s) -> flat_map full_standard cs = flat_map full_canonical cs.
Proof.
  intros N. rewrite full_standard_all. apply flat_map_id. intros x Hx. apply jamo_other. apply in_flat_map in Hx. destruct Hx as (c & I & Hx).
  apply (full_not_syllable c x); [|assumption]. destruct (is_syllable c) eqn:S; [|reflexivity]. exfalso.
  apply is_syllable_spec in S. exact (N c I S).
Qed.
Lemma by_canonical_iff l l' : (forall s, In s l \/ In s l' -> ~ hangul_syllable s) ->
  (canonically_equivalent l l' <-> equivalent_by listed_canonical l l').
Proof.
  intros N. rewrite equivalent_eq, (data_by _ _ _ _ fd_d).
  rewrite !no_syllable_standard; [reflexivity| |]; intros s I; apply N; tauto.
Qed.
Lemma by_canonical l l' : equivalent_by listed_canonical l l' -> canonically_equivalent l l'.
Proof.
  rewrite equivalent_eq, (data_by _ _ _ _ fd_d), !full_standard_all, !corder_jamo. congruence.
Qed.
