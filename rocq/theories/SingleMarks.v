(** * Proofs: texts with no two marks in a row; texts of low codepoints *)
From Coq Require Import Permutation Sorted Relations.
From Verif Require Import Prelude DataTables UcdTables PropsModel Utf8Model TextModel Utf8Spec UnicodeSpec GraphemeSpec TextSpec NormSpec
  PropsProofs DecompTables DecompProofs GraphemeProofs Uax29Proofs GraphemeText OrderProofs ComposeProofs NormData NormProofs HangulProofs NfcProofs NormText LocalMarks.
Require Import ZifyBool ZifyNat.

(** Composing neighbours keeps every relation between neighbours that composites have with
    everything. *)
Lemma composeF_adj (P : Z -> Z -> Prop) : (forall p q c x, comp p q = Some c -> P c x /\ P x c) ->
  forall t a, adj P (a :: t) -> adj P (composeF a t).
Proof.
  intros Q. induction t as [|b t IH]; intros a H; cbn [composeF]; [exact I|].
  change (P a b /\ adj P (b :: t)) in H. destruct H as (H & T). destruct (comp a b) as [c|] eqn:E.
  - apply IH. destruct t as [|d t]; [exact I|]. split; [exact (proj1 (Q _ _ _ _ E))|exact (proj2 T)].
  - specialize (IH b T). destruct (composeF_head t b) as (y & ys & R & Y). rewrite R in *. split; [|exact IH].
    destruct Y as [->|(p & q & Y)]; [exact H|]. exact (proj2 (Q _ _ _ _ Y)).
Qed.
Lemma compose_adj P l : (forall p q c x, comp p q = Some c -> P c x /\ P x c) -> adj P l -> adj P (compose l).
Proof. intros Q H. destruct l as [|a t]; [exact I|]. apply composeF_adj; assumption. Qed.

Definition lone_pair (a b : Z) : Prop := ccc a = 0 \/ ccc b = 0.
Definition unjoined_pair (a b : Z) : Prop := forall s, ~ hangul_mapping s [a; b].
Lemma lone_composed l : adj lone_pair l -> adj lone_pair (compose l).
Proof. apply compose_adj. intros p q c x E. apply comp_starters in E. unfold lone_pair. tauto. Qed.
Lemma unjoined_composed l : adj unjoined_pair l -> adj unjoined_pair (compose l).
Proof.
  apply compose_adj. intros p q c x E. apply comp_not_hangulish in E. destruct E as (_ & _ & E).
  split; intros s H; apply hangul_pair in H; destruct H as (A & B & _); congruence.
Qed.
Lemma lone_fully_composed l : adj lone_pair l -> adj unjoined_pair l -> fully_composed (compose l).
Proof.
  intros L U x a mid c y d E B C. apply lone_composed in L. apply unjoined_composed in U.
  rewrite adj_iff in L, U. destruct mid as [|m ms] using rev_ind.
  - cbn [app] in E. destruct C as [C|C]; [|exact (U x a c y E d C)].
    apply comp_spec in C. rewrite (compose_adjacent l x a c y E) in C. discriminate.
  - clear IHms. assert (N : ccc c <> 0 /\ ccc m <> 0).
    { split; intros Z; apply B, blocked_iff; exists m.
      - split; [apply in_or_app; right; left; reflexivity|]. right. pose proof (ccc_nonneg m). lia.
      - split; [apply in_or_app; right; left; reflexivity|left; assumption]. }
    destruct N as (N & N'). destruct (L (x ++ a :: ms) m c y) as [Z|Z]; [|exact (N' Z)|exact (N Z)].
    rewrite E, <- !app_assoc. reflexivity.
Qed.
Lemma lone_ordered l : adj lone_pair l -> orderedb l = true.
Proof.
  induction l as [|a [|b t] IH]; intros H; [reflexivity|reflexivity|]. change (okpair a b && orderedb (b :: t) = true).
  destruct H as (H & T). rewrite (IH T), andb_true_r. unfold okpair. destruct H as [H|H].
  - pose proof (ccc_nonneg b). rewrite H. destruct (ccc b =? 0); [reflexivity|]. cbn [orb]. apply Z.leb_le. assumption.
  - rewrite H. reflexivity.
Qed.

(** ** Codepoints below U+0300 *)
Definition low (n : Z) (c : Z) : Prop := 0 <= c < n.
Definition lows (n : Z) : list Z := map Z.of_nat (seq 0 (Z.to_nat n)).
Lemma in_lows n c : low n c -> In c (lows n).
Proof.
  unfold low. intros H. unfold lows. apply in_map_iff. exists (Z.to_nat c). split; [lia|]. apply in_seq. lia.
Qed.
Lemma low_sweep n (f : Z -> bool) : forallb f (lows n) = true -> forall c, low n c -> f c = true.
Proof. intros H c L. rewrite forallb_forall in H. apply H, in_lows. assumption. Qed.
Definition low_class (c : Z) : bool :=
  match gcb_of c with G_CR => c =? 13 | G_LF => c =? 10 | G_CONTROL | G_OTHER => true | _ => false end.
Lemma low_classes c : low 0x300 c -> low_class c = true.
Proof. apply low_sweep. vm_cast_no_check (eq_refl true). Qed.
Lemma low_brk a b : low 0x300 a -> low 0x300 b -> brk a b = false -> a = 13 /\ b = 10.
Proof.
  intros A B. apply low_classes in A, B. unfold low_class in A, B. unfold brk.
  destruct (gcb_of a); try discriminate A; destruct (gcb_of b); try discriminate B; try (intros X; discriminate X).
  intros _. split; apply Z.eqb_eq; assumption.
Qed.
Lemma low_seg cs g : Forall (low 0x300) cs -> In g (seg cs) -> (exists c, In c cs /\ g = [c]) \/ g = [13; 10].
Proof.
  intros F I. assert (G : forall x, In x g -> In x cs).
  { intros x X. rewrite <- (seg_concat cs). apply in_concat. exists g. auto. }
  rewrite Forall_forall in F. pose proof (seg_inside cs g) as Q.
  destruct g as [|a [|b r]].
  - pose proof (seg_nonempty cs) as N. rewrite Forall_forall in N. destruct (N [] I). reflexivity.
  - left. exists a. split; [apply G; left|]; reflexivity.
  - right. destruct (low_brk a b) as (-> & ->); [apply F, G; left; reflexivity|apply F, G; right; left; reflexivity|apply (Q [] a b r I); reflexivity|].
    destruct r as [|c r]; [reflexivity|]. destruct (low_brk 10 c) as (X & _); [| |apply (Q [13] 10 c r I); reflexivity|discriminate X].
    + apply F, G. right. left. reflexivity.
    + apply F, G. right. right. left. reflexivity.
Qed.
Lemma low_not_second l c : low 0x300 c -> comp l c = None.
Proof.
  intros L. destruct (comp l c) as [d|] eqn:E; [|reflexivity]. exfalso. apply comp_row in E.
  assert (H : forallb (fun r => 0x300 <=? row_at r 1) canonical_composition_mapping_data = true) by (vm_cast_no_check (eq_refl true)).
  rewrite forallb_forall in H. specialize (H _ E). cbv beta in H. apply Z.leb_le in H. change (row_at [l; c; d] 1) with c in H. destruct L as (_ & L).
  apply (Z.lt_irrefl c). eapply Z.lt_le_trans; eassumption.
Qed.
Lemma low_hangulish c : low 0x300 c -> hangulish c = false.
Proof. intros H. pose proof (low_sweep 0x300 (fun c => negb (hangulish c)) ltac:(vm_compute; reflexivity) c H) as X. cbv beta in X. apply negb_true_iff in X. exact X. Qed.
Lemma low_fully_composed cs : Forall (low 0x300) cs -> fully_composed cs.
Proof.
  intros F x l mid c y d -> _ C. rewrite Forall_forall in F. assert (L : low 0x300 c).
  { apply F. apply in_or_app. right. right. apply in_or_app. right. left. reflexivity. }
  apply composes_cases in C. destruct C as [C|(_ & B & _)]; [rewrite low_not_second in C by assumption; discriminate|].
  rewrite low_hangulish in B by assumption. discriminate.
Qed.
Lemma low_ccc c : low 0x300 c -> ccc c = 0.
Proof. intros L. apply Z.eqb_eq. revert L. apply (low_sweep 0x300 (fun c => ccc c =? 0)). vm_cast_no_check (eq_refl true). Qed.
Definition is_self (full : Z -> list Z) (c : Z) : bool := match full c with [d] => d =? c | _ => false end.
Lemma self_eq full c : is_self full c = true -> full c = [c].
Proof. unfold is_self. destruct (full c) as [|d [|]]; try discriminate. intros H. apply Z.eqb_eq in H. subst. reflexivity. Qed.
Lemma low_canonical c : low 0xC0 c -> full_canonical c = [c].
Proof. intros L. apply self_eq. revert L. apply low_sweep. vm_cast_no_check (eq_refl true). Qed.
Lemma low_compat c : low 0xA0 c -> full_compat c = [c].
Proof. intros L. apply self_eq. revert L. apply low_sweep. vm_cast_no_check (eq_refl true). Qed.
Lemma low_unmapped c m : low 0xA0 c -> ~ compatibility_mapping c m.
Proof.
  intros L [(t & H)|(H & _)].
  - assert (Q : forallb (fun r => 0xA0 <=? fst (fst r)) ucd_decomposition = true) by (vm_cast_no_check (eq_refl true)).
    rewrite forallb_forall in Q. specialize (Q _ H). cbv beta in Q. apply Z.leb_le in Q. change (fst (fst (c, t, m))) with c in Q. destruct L as (_ & L).
    apply (Z.lt_irrefl c). eapply Z.lt_le_trans; eassumption.
  - unfold hangul_syllable, low, SBase in *. destruct H as (H & _). destruct L as (_ & L). 
    assert (X : 44032 < 160) by (eapply Z.le_lt_trans; eassumption). discriminate X.
Qed.
(** The composed form of one codepoint is the codepoint. *)
Lemma low_one c : low 0x300 c -> compose (isort (full_canonical c)) = [c].
Proof.
  intros L. apply (self_eq (fun c => compose (isort (full_canonical c)))). revert L. apply low_sweep. vm_cast_no_check (eq_refl true).
Qed.
Lemma low_mono n m c : n <= m -> low n c -> low m c.
Proof. unfold low. lia. Qed.
