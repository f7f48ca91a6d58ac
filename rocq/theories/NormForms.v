(** * Proofs: the four forms against the standard's, idempotence, equivalence *)
From Coq Require Import Permutation Sorted Relations.
From Verif Require Import Prelude DataTables UcdTables PropsModel Utf8Model TextModel Utf8Spec UnicodeSpec GraphemeSpec TextSpec NormSpec
  PropsProofs LawfulProofs DecompTables DecompProofs GraphemeProofs Uax29Proofs GraphemeText FilterSpec FilterProofs OrderProofs ComposeProofs
  NormData HangulProofs NormProofs NfcProofs.
Require Import ZifyBool ZifyNat.

(** ** Instances *)
Lemma canonical_plain c x : In x (full_canonical c) -> plain x.
Proof. apply full_canonical_fix. Qed.
Lemma canonical_settled cs : settled_text full_canonical canonical_mapping cs.
Proof.
  intros x m Hx NS [L|[S _]]; [|exact (NS S)]. apply in_flat_map in Hx. destruct Hx as (c & _ & Hx).
  exact (proj1 (expands_unmapped _) _ _ (full_canonical_expands c) x m Hx L).
Qed.
Lemma canonical_text_expands cs : settled_text full_canonical canonical_mapping cs ->
  forall f, expands_all canonical_mapping cs f <-> f = flat_map jamo (flat_map full_canonical cs).
Proof. intros _ f. rewrite standard_unique, full_standard_all. reflexivity. Qed.

Lemma compat_plain c x : In x (full_compat c) -> plain x.
Proof.
  intros H. symmetry. apply full_canonical_unique. apply expands_none. intros l L.
  exact (proj1 (expands_unmapped _) _ _ (full_compat_expands c) x l H (or_introl L)).
Qed.
Lemma compatibility_of_canonical c m : canonical_mapping c m -> compatibility_mapping c m.
Proof. intros [L|H]; [left; eexists; exact L|right; exact H]. Qed.
Lemma compatibility_functional : functional compatibility_mapping.
Proof.
  intros c l l' [[t H]|H] [[t' H']|H'].
  - destruct (ucd_decomposition_unique _ _ _ _ _ H H') as [_ E]. exact E.
  - exfalso. destruct H' as [S _]. apply is_syllable_spec in S. exact (hangulish_unlisted c t l (syllable_hangulish c S) H).
  - exfalso. destruct H as [S _]. apply is_syllable_spec in S. exact (hangulish_unlisted c t' l' (syllable_hangulish c S) H').
  - eapply canonical_mapping_functional; right; eassumption.
Qed.
Lemma compatibility_jamo c : is_syllable c = true -> expands compatibility_mapping c (jamo c).
Proof.
  intros S. apply (proj1 (expands_larger _ _ compatibility_of_canonical) c (jamo c) (expands_jamo c S)).
  intros x l Hx [[t L]|[S' _]]; pose proof (jamo_all c S) as F; rewrite Forall_forall in F; destruct (F x Hx) as [A B].
  - exact (hangulish_unlisted x t l A L).
  - apply is_syllable_spec in S'. congruence.
Qed.
Lemma compat_text_expands cs : settled_text full_compat compatibility_mapping cs ->
  forall f, expands_all compatibility_mapping cs f <-> f = flat_map jamo (flat_map full_compat cs).
Proof.
  intros S. assert (E : expands_all compatibility_mapping cs (flat_map jamo (flat_map full_compat cs))).
  { eapply (proj2 (expands_refine listed_compat compatibility_mapping ltac:(intros ? ? [?|?]; left; eexists; eassumption))).
    - apply expands_all_compat.
    - assert (A : forall l, (forall x, In x l -> In x (flat_map full_compat cs)) -> expands_all compatibility_mapping l (flat_map jamo l)).
      { induction l as [|x l IH]; intros H; cbn [flat_map]; [constructor|]. constructor; [|apply IH; intros; apply H; right; assumption].
        destruct (is_syllable x) eqn:X; [apply compatibility_jamo; assumption|]. rewrite jamo_other by assumption.
        apply expands_none. intros m. apply S; [apply H; left; reflexivity|]. intros Y. apply is_syllable_spec in Y. congruence. }
      apply A. auto. }
  intros f. split; [|intros ->; assumption]. intros H.
  exact (proj2 (expands_fun _ compatibility_functional) _ _ H _ E).
Qed.

Lemma canonical_compose l : flat_map full_canonical (compose l) = flat_map full_canonical l.
Proof. apply compose_full. Qed.
Lemma compat_all l : flat_map full_compat (flat_map full_canonical l) = flat_map full_compat l.
Proof. rewrite flat_map_flat_map. apply flat_map_ext. apply compat_of_canonical. Qed.
Lemma compat_compose l : flat_map full_compat (compose l) = flat_map full_compat l.
Proof. rewrite <- compat_all, compose_full, compat_all. reflexivity. Qed.

(** ** Second pass *)
Section Again.
Context (full : Z -> list Z).
Context (full_ne : forall c, full c <> []).
Context (full_head : forall c x t, full c = x :: t -> glue x -> joiner c).
Context (full_control : forall c, control c -> full c = [c]).
Context (full_fix : forall c x, In x (full c) -> full x = [x]).
Context (full_compose : forall l, flat_map full (compose l) = flat_map full l).
Lemma form_d_fix cs : flat_map full (form_d_of full cs) = form_d_of full cs.
Proof.
  apply flat_map_id. intros x Hx. eapply Permutation_in in Hx; [|symmetry; apply form_d_perm].
  apply in_flat_map in Hx. destruct Hx as (c & _ & Hx). eauto.
Qed.
Lemma form_c_full cs : flat_map full (form_c_of full cs) = form_d_of full cs.
Proof. rewrite form_c_eq by assumption. rewrite full_compose. apply form_d_fix. Qed.
Lemma form_d_self cs : corder (form_d_of full cs) = form_d_of full cs.
Proof. apply form_d_order_self; assumption. Qed.
Lemma form_d_again_iff cs : let u := form_d_of full cs in
  form_d_of full u = u <-> forall g, In g (seg u) -> marks_last (flat_map full g).
Proof.
  cbv zeta. pose proof (form_d_ordered_iff full full_ne full_head full_control (form_d_of full cs)) as H.
  rewrite form_d_fix, form_d_self in H. rewrite H. split; intros X g I; apply marks_last_iff; apply X; assumption.
Qed.
Lemma form_c_again_iff cs : let u := form_c_of full cs in
  form_c_of full u = u <-> forall g, In g (seg u) -> marks_last (flat_map full g).
Proof.
  cbv zeta. set (u := form_c_of full cs).
  assert (A : form_c_of full u = u <-> form_d_of full u = form_d_of full cs).
  { split; intros E.
    - rewrite <- (form_c_full u), E. apply form_c_full.
    - unfold u at 2. rewrite !form_c_eq by assumption. rewrite E. reflexivity. }
  rewrite A. pose proof (form_d_ordered_iff full full_ne full_head full_control u) as H.
  unfold u in H at 2. rewrite form_c_full, form_d_self in H. rewrite H.
  split; intros X g I; apply marks_last_iff; apply X; assumption.
Qed.
End Again.

(** ** Canonical equivalence is equality of NFD *)
Lemma equiv_app x y l l' : canonically_equivalent l l' -> canonically_equivalent (x ++ l ++ y) (x ++ l' ++ y).
Proof.
  induction 1 as [l l' S| |? ? _ IH|? ? ? _ IH1 _ IH2]; [|apply rst_refl|apply rst_sym; assumption|eapply rst_trans; eassumption].
  apply rst_step. destruct S as [a c m b M|? ? [p u v q i j A B H]].
  - repeat rewrite <- app_assoc. cbn [app]. rewrite (app_assoc x a). rewrite (app_assoc x a). apply eq_map. assumption.
  - apply eq_exchange. repeat rewrite <- app_assoc. cbn [app]. rewrite !(app_assoc x p). econstructor; eassumption.
Qed.
Lemma expands_equivalent : (forall c d, expands canonical_mapping c d -> canonically_equivalent [c] d) /\
  (forall cs d, expands_all canonical_mapping cs d -> canonically_equivalent cs d).
Proof.
  apply expands_ind2.
  - intros. apply rst_refl.
  - intros c l d M _ IH. eapply rst_trans; [|exact IH]. apply rst_step. pose proof (eq_map [] c l [] M) as E.
    cbn [app] in E. rewrite app_nil_r in E. exact E.
  - apply rst_refl.
  - intros c cs d ds _ IH1 _ IH2. eapply rst_trans.
    + pose proof (equiv_app [] cs _ _ IH1) as E. cbn [app] in E. exact E.
    + pose proof (equiv_app d [] _ _ IH2) as E. rewrite !app_nil_r in E. exact E.
Qed.
Lemma nfd_equivalent cs d : nfd cs d -> canonically_equivalent cs d.
Proof.
  intros (f & E & O & _). eapply rst_trans; [apply expands_equivalent; exact E|]. clear E.
  induction O; [apply rst_step, eq_exchange; assumption|apply rst_refl|eapply rst_trans; eassumption].
Qed.
Lemma nfd_exists cs : exists d, nfd cs d.
Proof. eexists. apply nfd_eq. reflexivity. Qed.
Lemma equivalent_iff l l' : canonically_equivalent l l' <-> exists d, nfd l d /\ nfd l' d.
Proof.
  split.
  - intros E. destruct (nfd_exists l) as [d N]. exists d. split; [assumption|]. apply (equivalent_nfd l l' E). assumption.
  - intros (d & N & N'). eapply rst_trans; [apply nfd_equivalent; eassumption|]. apply rst_sym, nfd_equivalent. assumption.
Qed.
Lemma equivalent_eq l l' : canonically_equivalent l l' <-> corder (flat_map full_standard l) = corder (flat_map full_standard l').
Proof.
  rewrite equivalent_iff, !full_standard_all, !corder_jamo. split.
  - intros (d & N & N'). apply nfd_eq in N, N'. congruence.
  - intros E. exists (flat_map jamo (corder (flat_map full_canonical l))). split; apply nfd_eq; [reflexivity|assumption].
Qed.
Lemma form_d_equivalent_iff cs : canonically_equivalent cs (form_d_of full_canonical cs) <->
  forall g, In g (seg cs) -> marks_last (flat_map full_canonical g).
Proof.
  rewrite <- (same_jamo_iff full_canonical full_canonical_ne canonical_head canonical_control).
  rewrite equivalent_eq, !full_standard_all, !corder_jamo.
  rewrite (form_d_fix full_canonical full_canonical_fix).
  rewrite (form_d_self full_canonical full_canonical_ne canonical_head canonical_control).
  split; intros E; symmetry; exact E.
Qed.
Lemma form_c_equivalent_iff cs : canonically_equivalent cs (form_c_of full_canonical cs) <->
  forall g, In g (seg cs) -> marks_last (flat_map full_canonical g).
Proof.
  rewrite <- (same_jamo_iff full_canonical full_canonical_ne canonical_head canonical_control).
  rewrite equivalent_eq, (form_c_decomposed full_canonical full_canonical_ne canonical_head canonical_control canonical_plain).
  rewrite !full_standard_all, !corder_jamo. split; intros E; symmetry; exact E.
Qed.
