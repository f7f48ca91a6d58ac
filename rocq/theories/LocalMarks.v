(** * Proofs: graphemes with marks last, tested on neighbours *)
From Coq Require Import Permutation Sorted Relations.
From Verif Require Import Prelude DataTables UcdTables PropsModel Utf8Model TextModel Utf8Spec UnicodeSpec GraphemeSpec TextSpec NormSpec
  PropsProofs DecompTables DecompProofs GraphemeProofs Uax29Proofs GraphemeText OrderProofs NormData NormProofs NfcProofs NormText.
Require Import ZifyBool ZifyNat.

Lemma sf_cons a l : starters_first (a :: l) <-> starters_first l /\ (ccc a <> 0 -> Forall (fun b => ccc b <> 0) l).
Proof.
  unfold starters_first. split.
  - intros H. split.
    + intros x c y b z ->. apply (H (a :: x) c y b z). reflexivity.
    + intros A. apply Forall_forall. intros b I. apply in_split in I. destruct I as (y & z & ->). apply (H [] a y b z); [reflexivity|assumption].
  - intros (H & F) x c y b z E. destruct x as [|d x]; cbn [app] in E; injection E as -> ->.
    + intros A. specialize (F A). rewrite Forall_forall in F. apply F. apply in_or_app. right. left. reflexivity.
    + apply (H x c y b z). reflexivity.
Qed.
Lemma sf_app l r : starters_first (l ++ r) <->
  starters_first l /\ starters_first r /\ (Exists (fun a => ccc a <> 0) l -> Forall (fun b => ccc b <> 0) r).
Proof.
  induction l as [|a l IH]; cbn [app].
  - split; [intros H|tauto]. split; [intros x ? y b z E; destruct x; discriminate|]. split; [assumption|]. intros X. inversion X.
  - rewrite !sf_cons, IH, Forall_app. split.
    + intros ((A & B & C) & D). split; [split; [assumption|intros X; apply D; assumption]|]. split; [assumption|].
      intros X. inversion X; subst; [apply D; assumption|apply C; assumption].
    + intros ((A & B) & C & D). split; [|intros X; split; [apply B; assumption|apply D; left; assumption]].
      split; [assumption|]. split; [assumption|]. intros X. apply D. right. assumption.
Qed.
Lemma sf_all l x : starters_first (x :: l) -> ccc x <> 0 -> Forall (fun b => ccc b <> 0) (x :: l).
Proof. intros H X. constructor; [assumption|]. apply sf_cons in H. apply H. assumption. Qed.
Lemma sf_last l x : starters_first (l ++ [x]) -> Exists (fun a => ccc a <> 0) (l ++ [x]) -> ccc x <> 0.
Proof.
  intros H X. apply sf_app in H. destruct H as (_ & _ & H). apply Exists_app in X. destruct X as [X|X].
  - specialize (H X). inversion H; assumption.
  - inversion X as [? ? A|? ? A]; subst; [assumption|inversion A].
Qed.
(** Two lists that have their marks last: neighbours decide. *)
Lemma sf_join l a b r : starters_first (l ++ [a]) -> starters_first (b :: r) ->
  (starters_first ((l ++ [a]) ++ b :: r) <-> (ccc a <> 0 -> ccc b <> 0)).
Proof.
  intros H1 H2. rewrite sf_app. split.
  - intros (_ & _ & H) A. assert (X : Exists (fun a => ccc a <> 0) (l ++ [a])) by (apply Exists_app; right; constructor; assumption).
    specialize (H X). inversion H; assumption.
  - intros H. split; [assumption|]. split; [assumption|]. intros X. apply sf_all; [assumption|]. apply H. apply (sf_last l); assumption.
Qed.

(** All neighbours are related. *)
Fixpoint adj (P : Z -> Z -> Prop) (l : list Z) : Prop :=
  match l with a :: ((b :: _) as t) => P a b /\ adj P t | _ => True end.
Lemma adj_iff P l : adj P l <-> forall x a b y, l = x ++ a :: b :: y -> P a b.
Proof.
  induction l as [|a [|b t] IH].
  - split; [intros _ [|? x] ? ? ? E; discriminate|reflexivity].
  - split; [intros _ [|? [|? x]] ? ? ? E; discriminate|reflexivity].
  - change (adj P (a :: b :: t)) with (P a b /\ adj P (b :: t)). rewrite IH. split.
    + intros (A & B) [|c x] a' b' y E; cbn [app] in E; [injection E as -> -> ->; assumption|]. injection E as -> E. apply (B x a' b' y). assumption.
    + intros H. split; [apply (H [] a b t); reflexivity|]. intros x a' b' y E. apply (H (a :: x) a' b' y). rewrite E. reflexivity.
Qed.
Lemma adj_ext P Q l : (forall a b, P a b <-> Q a b) -> (adj P l <-> adj Q l).
Proof. intros H. rewrite !adj_iff. split; intros X x a b y E; apply H; eapply X; eassumption. Qed.

Section Full.
Context (full : Z -> list Z) (full_ne : forall c, full c <> []) (full_sf : forall c, starters_first (full c)).
Definition hands_over (a b : Z) : Prop := ccc (last (full a) 0) <> 0 -> ccc (hd 0 (full b)) <> 0.
Lemma full_shape c : exists l x, full c = l ++ [x] /\ last (full c) 0 = x.
Proof. destruct (exists_last (full_ne c)) as (l & x & E). exists l, x. rewrite E. split; [reflexivity|]. apply last_last. Qed.
Lemma sf_grapheme g : starters_first (flat_map full g) <-> adj hands_over g.
Proof.
  induction g as [|a [|b t] IH].
  - split; [reflexivity|]. intros _ x ? y z ? E. destruct x; discriminate.
  - cbn [flat_map adj]. rewrite app_nil_r. split; [reflexivity|]. intros _. apply full_sf.
  - change (flat_map full (a :: b :: t)) with (full a ++ flat_map full (b :: t)). change (adj hands_over (a :: b :: t)) with (hands_over a b /\ adj hands_over (b :: t)).
    rewrite <- IH. unfold hands_over. destruct (full_shape a) as (l & x & Ea & La). rewrite La, Ea.
    destruct (full b) as [|y r] eqn:Eb; [destruct (full_ne b Eb)|]. cbn [flat_map hd]. rewrite Eb. cbn [app].
    assert (SA : starters_first (l ++ [x])) by (rewrite <- Ea; apply full_sf). split.
    + intros H. assert (H' := H). rewrite <- app_assoc in H'. apply sf_app in H. destruct H as (_ & H & _). split; [|assumption].
      apply (sf_join l x y (r ++ flat_map full t) SA H). rewrite <- app_assoc. exact H'.
    + intros (A & B). apply (sf_join l x y (r ++ flat_map full t) SA B). assumption.
Qed.
Lemma adj_seg P cs : (forall g, In g (seg cs) -> adj P g) <-> adj (fun a b => brk a b = true \/ P a b) cs.
Proof.
  induction cs as [|a [|b t] IH].
  - split; [reflexivity|intros _ g []].
  - split; [reflexivity|]. intros _ g [<-|[]]. exact I.
  - change (adj (fun a b => brk a b = true \/ P a b) (a :: b :: t)) with ((brk a b = true \/ P a b) /\ adj (fun a b => brk a b = true \/ P a b) (b :: t)).
    rewrite <- IH, seg_cons2. destruct (seg_cons b t) as (g & gs & E). rewrite E. destruct (brk a b).
    + split; [intros H; split; [left; reflexivity|]; intros x X; apply H; right; assumption|]. intros (_ & H) x [<-|X]; [exact I|apply H; assumption].
    + split.
      * intros H. specialize (H (a :: b :: g) (or_introl eq_refl)) as X. destruct X as (X & Y). split; [right; assumption|].
        intros x [<-|Q]; [exact Y|]. apply H. right. assumption.
      * intros ([X|X] & H); [discriminate|]. intros x [<-|Q]; [|apply H; right; assumption]. split; [assumption|]. apply (H (b :: g)). left. reflexivity.
Qed.
Lemma local_marks cs : (forall g, In g (seg cs) -> marks_last (flat_map full g)) <-> adj (fun a b => brk a b = true \/ hands_over a b) cs.
Proof.
  rewrite <- adj_seg. split; intros H g I; [apply sf_grapheme, marks_last_iff|apply marks_last_iff, sf_grapheme]; apply H; assumption.
Qed.
End Full.

(** ** The tables: every expansion has its marks last *)
Fixpoint sfb (l : list Z) : bool :=
  match l with a :: t => ((ccc a =? 0) || forallb (fun b => negb (ccc b =? 0)) t) && sfb t | [] => true end.
Lemma sfb_ok l : sfb l = true -> starters_first l.
Proof.
  induction l as [|a l IH]; [intros _ x ? y z ? E; destruct x; discriminate|]. cbn [sfb]. intros H. apply andb_prop in H. destruct H as (A & B).
  apply sf_cons. split; [apply IH; assumption|]. intros X. apply Bool.orb_prop in A. destruct A as [A|A]; [lia|].
  rewrite forallb_forall in A. apply Forall_forall. intros b I. specialize (A b I). lia.
Qed.
Lemma canonical_rows_sf : forallb (fun r => sfb (removelast (tl r))) canonical_decomposition_mapping_data = true.
Proof. vm_cast_no_check (eq_refl true). Qed.
Lemma compat_rows_sf : forallb (fun r => sfb (removelast (tl r))) compatibility_and_canonical_decomposition_mapping_data = true.
Proof. vm_cast_no_check (eq_refl true). Qed.
Lemma table_sf keep data c : closed_table keep data -> forallb (fun r => sfb (removelast (tl r))) data = true -> starters_first (table_full data c).
Proof.
  intros T H. destruct (table_full_row keep data c T) as [E|I].
  - rewrite E. intros [|? [|? x]] ? [|? y] ? ? X; discriminate.
  - rewrite forallb_forall in H. specialize (H _ I). cbn [tl] in H. rewrite removelast_snoc in H. apply sfb_ok. assumption.
Qed.
Lemma canonical_sf c : starters_first (full_canonical c).
Proof. exact (table_sf _ _ c canonical_table canonical_rows_sf). Qed.
Lemma compat_sf c : starters_first (full_compat c).
Proof. exact (table_sf _ _ c compat_table compat_rows_sf). Qed.

(** ** Codepoints that end with a mark: classes Extend, SpacingMark, Other *)
Definition marked_class (v : gcb) : bool := match v with G_EXTEND | G_SPACINGMARK | G_OTHER => true | _ => false end.
Lemma ccc_classes : forallb (fun p => (snd p =? 0) || marked_class (gcb_of (fst p))) ucd_ccc = true.
Proof. vm_cast_no_check (eq_refl true). Qed.
Definition row_marked (r : list Z) : bool := (ccc (last (removelast (tl r)) 0) =? 0) || marked_class (gcb_of (hd 0 r)).
Lemma canonical_rows_marked : forallb row_marked canonical_decomposition_mapping_data = true.
Proof. vm_cast_no_check (eq_refl true). Qed.
Lemma compat_rows_marked : forallb row_marked compatibility_and_canonical_decomposition_mapping_data = true.
Proof. vm_cast_no_check (eq_refl true). Qed.
Lemma table_marked keep data c : closed_table keep data -> forallb row_marked data = true ->
  ccc (last (table_full data c) 0) <> 0 -> marked_class (gcb_of c) = true.
Proof.
  intros T H N. destruct (table_full_row keep data c T) as [E|I].
  - rewrite E in N. cbn [last] in N. unfold ccc in N. destruct (find (fun p => fst p =? c) ucd_ccc) as [p|] eqn:F; [|destruct (N eq_refl)].
    apply find_some in F. destruct F as (I & F). pose proof ccc_classes as C. rewrite forallb_forall in C. specialize (C p I).
    apply Bool.orb_prop in C. destruct C as [C|C]; [lia|]. replace c with (fst p) by lia. assumption.
  - rewrite forallb_forall in H. specialize (H _ I). unfold row_marked in H. cbn [tl hd] in H. rewrite removelast_snoc in H.
    apply Bool.orb_prop in H. destruct H as [H|H]; [lia|assumption].
Qed.
Definition attaches (va vb : gcb) : bool :=
  match vb with G_EXTEND | G_ZWJ | G_SPACINGMARK => true | G_E_MODIFIER => gcb_eqb va G_EXTEND | _ => false end.
Lemma marked_boundary va vb : marked_class va = true -> boundary_chain va vb = negb (attaches va vb).
Proof. destruct va; try discriminate; intros _; destruct vb; reflexivity. Qed.
Lemma local_marks_classes full cs : (forall c, full c <> []) -> (forall c, starters_first (full c)) ->
  (forall c, ccc (last (full c) 0) <> 0 -> marked_class (gcb_of c) = true) ->
  (forall g, In g (seg cs) -> marks_last (flat_map full g)) <->
  forall x a b y, cs = x ++ a :: b :: y -> ccc (last (full a) 0) <> 0 -> ccc (hd 0 (full b)) = 0 -> attaches (gcb_of a) (gcb_of b) = false.
Proof.
  intros NE SF MC. rewrite (local_marks full NE SF), adj_iff. split; intros H x a b y E.
  - intros A B. destruct (H x a b y E) as [X|X]; [|destruct (X A B)].
    unfold brk in X. rewrite (marked_boundary _ _ (MC a A)) in X. destruct (attaches _ _); [discriminate|reflexivity].
  - unfold hands_over. destruct (Z.eq_dec (ccc (last (full a) 0)) 0) as [A|A]; [right; intros X; destruct (X A)|].
    destruct (Z.eq_dec (ccc (hd 0 (full b))) 0) as [B|B]; [|right; intros _; exact B]. left. unfold brk. rewrite (marked_boundary _ _ (MC a A)), (H x a b y E A B). reflexivity.
Qed.
