(** * The octets of UTF-8 texts: order and substrings *)
From Verif Require Import Prelude Utf8Model TextModel Utf8Spec Utf8Proofs LawfulProofs IterProofs AlgoSpec.
Require Import ZifyBool ZifyNat.

Lemma lex_irrefl a : ~ lex_less a a.
Proof. induction a as [|x a IH]; cbn; [tauto|]. intros [H|[_ H]]; [lia|auto]. Qed.
Lemma lex_trans a : forall b c, lex_less a b -> lex_less b c -> lex_less a c.
Proof.
  induction a as [|x a IH]; intros [|y b] [|z c]; cbn; try tauto. intros [H|[-> H]] [K|[-> K]]; try (left; lia).
  right. split; [reflexivity|]. exact (IH b c H K).
Qed.
Lemma lex_total a : forall b, a <> b -> lex_less a b \/ lex_less b a.
Proof.
  induction a as [|x a IH]; intros [|y b] N; cbn; try tauto. destruct (Z.lt_trichotomy x y) as [H|[->|H]]; [tauto| |tauto].
  destruct (IH b) as [H|H]; [congruence|left|right]; right; auto.
Qed.
Lemma lex_common l : forall x y, lex_less (l ++ x) (l ++ y) <-> lex_less x y.
Proof. induction l as [|a l IH]; intros x y; cbn [app lex_less]; [reflexivity|]. rewrite IH. split; [intros [H|[_ H]]; [lia|assumption]|auto]. Qed.

(** Lead octet and [k] continuation octets. *)
Fixpoint enc (k : nat) (base c : Z) : list Z :=
  match k with O => [base + c] | S k => enc k base (c / 64) ++ [128 + c mod 64] end.
Lemma enc_less k base : forall c d x y, c < d -> lex_less (enc k base c ++ x) (enc k base d ++ y).
Proof.
  induction k as [|k IH]; intros c d x y H; cbn [enc].
  - cbn. left. lia.
  - rewrite <- !app_assoc. destruct (Z.eq_dec (c / 64) (d / 64)) as [E|N].
    + rewrite E. apply lex_common. cbn [app lex_less]. left. pose proof (Z.div_mod c 64 ltac:(lia)). pose proof (Z.div_mod d 64 ltac:(lia)). lia.
    + apply IH. pose proof (Z.div_le_mono c d 64 ltac:(lia) ltac:(lia)). lia.
Qed.
Lemma encode_enc c : utf8_encode c =
  if c <? 0x80 then enc 0 0 c
  else if c <? 0x800 then enc 1 192 c
  else if c <? 0x10000 then enc 2 224 c
  else if c <? 0x200000 then enc 3 240 c
  else if c <? 0x4000000 then enc 4 248 c
  else enc 5 252 c.
Proof.
  unfold utf8_encode, cont, enc. rewrite !Z.div_div by lia. cbn [app]. rewrite Z.div_1_r. reflexivity.
Qed.
Lemma enc_lead k base : forall c, exists t, enc k base c = base + c / 64 ^ Z.of_nat k :: t.
Proof.
  induction k as [|k IH]; intros c; cbn [enc].
  - exists []. rewrite Z.div_1_r. reflexivity.
  - destruct (IH (c / 64)) as [t E]. rewrite E. eexists. cbn [app]. do 2 f_equal.
    rewrite Z.div_div by lia. f_equal. rewrite Nat2Z.inj_succ, Z.pow_succ_r by lia. reflexivity.
Qed.
Lemma encode_less c d x y : codepoint31 c -> codepoint31 d -> c < d -> lex_less (utf8_encode c ++ x) (utf8_encode d ++ y).
Proof.
  unfold codepoint31. intros C D H. rewrite !encode_enc.
  assert (W : forall k k' base base', base + c / 64 ^ Z.of_nat k < base' + d / 64 ^ Z.of_nat k' ->
    lex_less (enc k base c ++ x) (enc k' base' d ++ y)).
  { intros k k' base base' Q. destruct (enc_lead k base c) as [t ->]. destruct (enc_lead k' base' d) as [t' ->]. cbn. left. assumption. }
  change (2 ^ 31) with 2147483648 in *.
  destruct (Z.ltb_spec c 0x80); [|destruct (Z.ltb_spec c 0x800); [|destruct (Z.ltb_spec c 0x10000); [|destruct (Z.ltb_spec c 0x200000); [|destruct (Z.ltb_spec c 0x4000000)]]]];
  (destruct (Z.ltb_spec d 0x80); [|destruct (Z.ltb_spec d 0x800); [|destruct (Z.ltb_spec d 0x10000); [|destruct (Z.ltb_spec d 0x200000); [|destruct (Z.ltb_spec d 0x4000000)]]]]);
  try lia; try (apply enc_less; assumption); apply W; cbn [Z.of_nat Pos.of_succ_nat Pos.succ];
  repeat match goal with |- context[64 ^ ?k] => let v := eval vm_compute in (64 ^ k) in change (64 ^ k) with v end;
  Z.to_euclidean_division_equations; lia.
Qed.
Lemma encode_prefix_free c d x y : codepoint31 c -> codepoint31 d -> utf8_encode c ++ x = utf8_encode d ++ y -> c = d /\ x = y.
Proof.
  intros C D E. destruct (Z.lt_trichotomy c d) as [H|[->|H]].
  - exfalso. pose proof (encode_less c d x y C D H) as Q. rewrite E in Q. exact (lex_irrefl _ Q).
  - split; [reflexivity|]. exact (app_inv_head _ _ _ E).
  - exfalso. pose proof (encode_less d c y x D C H) as Q. rewrite E in Q. exact (lex_irrefl _ Q).
Qed.
Lemma encode_cons c : exists h t, utf8_encode c = h :: t.
Proof.
  unfold utf8_encode. repeat match goal with |- context[if ?b then _ else _] => destruct b end; eexists _, _; reflexivity.
Qed.

Lemma text_order a : forall b, Forall codepoint31 a -> Forall codepoint31 b ->
  lex_less (utf8_text a) (utf8_text b) <-> lex_less a b.
Proof.
  induction a as [|c a IH]; intros [|d b] FA FB.
  - reflexivity.
  - unfold utf8_text. cbn [flat_map]. destruct (encode_cons d) as (h & t & ->). cbn. tauto.
  - unfold utf8_text. cbn [flat_map]. destruct (encode_cons c) as (h & t & ->). cbn. tauto.
  - inversion FA as [|? ? C FA']; subst. inversion FB as [|? ? D FB']; subst.
    unfold utf8_text. cbn [flat_map]. fold (utf8_text a) (utf8_text b). cbn [lex_less].
    destruct (Z.lt_trichotomy c d) as [H|[->|H]].
    + split; [tauto|]. intros _. apply encode_less; assumption.
    + rewrite lex_common, IH by assumption. split; [auto|]. intros [H|[_ H]]; [lia|assumption].
    + split; [|intros [Q|[Q _]]; lia]. intros Q. exfalso. apply (lex_irrefl (utf8_encode c ++ utf8_text a)).
      apply (lex_trans _ (utf8_encode d ++ utf8_text b)); [assumption|]. apply encode_less; assumption.
Qed.
Lemma text_inj a : forall b, Forall codepoint31 a -> Forall codepoint31 b -> utf8_text a = utf8_text b -> a = b.
Proof.
  intros b FA FB E. destruct (list_eq_dec Z.eq_dec a b) as [Q|N]; [assumption|exfalso].
  destruct (lex_total a b N) as [H|H].
  - apply (text_order a b FA FB) in H. rewrite E in H. exact (lex_irrefl _ H).
  - apply (text_order b a FB FA) in H. rewrite E in H. exact (lex_irrefl _ H).
Qed.

(** ** Substrings *)
Lemma cut_at_lead t : forall a o r, Forall codepoint31 t -> utf8_text t = a ++ o :: r -> ~ continuation_octet o ->
  exists x y, t = x ++ y /\ a = utf8_text x /\ o :: r = utf8_text y.
Proof.
  induction t as [|c t IH]; intros a o r F E O.
  - destruct a; discriminate.
  - inversion F as [|? ? C F']; subst. destruct a as [|h a].
    + exists [], (c :: t). split; [reflexivity|]. split; [reflexivity|]. symmetry. exact E.
    + unfold utf8_text in E. cbn [flat_map] in E. fold (utf8_text t) in E.
      destruct (encode_shape c C) as (lead & tail & S & _ & _ & _ & T).
      destruct (Nat.lt_ge_cases (length (h :: a)) (length (utf8_encode c))) as [Hl|Hl].
      * exfalso. apply O. rewrite S in E, Hl. cbn [app length] in E, Hl. injection E as -> E.
        rewrite Forall_forall in T. apply T.
        assert (N : nth_error (tail ++ utf8_text t) (length a) = Some o).
        { rewrite E. rewrite nth_error_app2 by lia. rewrite Nat.sub_diag. reflexivity. }
        rewrite nth_error_app1 in N by lia. exact (nth_error_In _ _ N).
      * assert (Q : exists a', h :: a = utf8_encode c ++ a').
        { exists (skipn (length (utf8_encode c)) (h :: a)). rewrite <- (firstn_skipn (length (utf8_encode c)) (h :: a)) at 1. f_equal.
          assert (W := f_equal (firstn (length (utf8_encode c))) E). rewrite firstn_app, firstn_all, Nat.sub_diag in W.
          cbn [firstn] in W. rewrite app_nil_r in W. rewrite W at 2. rewrite firstn_app.
          replace (length (utf8_encode c) - length (h :: a))%nat with 0%nat by lia. cbn [firstn]. rewrite app_nil_r. reflexivity. }
        destruct Q as [a' Q]. rewrite Q, <- app_assoc in E. apply app_inv_head in E.
        destruct (IH a' o r F' E O) as (x & y & -> & -> & Y). exists (c :: x), y. split; [reflexivity|]. split; [|exact Y].
        exact Q.
Qed.
Lemma text_prefix p : forall t b, Forall codepoint31 p -> Forall codepoint31 t -> utf8_text t = utf8_text p ++ b ->
  exists z, t = p ++ z /\ b = utf8_text z.
Proof.
  induction p as [|c p IH]; intros t b FP FT E.
  - exists t. split; [reflexivity|]. symmetry. exact E.
  - inversion FP as [|? ? C FP']; subst. unfold utf8_text in E at 2. cbn [flat_map] in E. fold (utf8_text p) in E. rewrite <- app_assoc in E.
    destruct t as [|d t]; [destruct (encode_cons c) as (h & l & Q); rewrite Q in E; discriminate|].
    inversion FT as [|? ? D FT']; subst. unfold utf8_text in E at 1. cbn [flat_map] in E. fold (utf8_text t) in E.
    destruct (encode_prefix_free d c _ _ D C E) as [-> E']. destruct (IH t b FP' FT' E') as (z & -> & ->).
    exists z. split; reflexivity.
Qed.
Lemma text_substring t p a b : Forall codepoint31 t -> Forall codepoint31 p -> p <> [] ->
  utf8_text t = a ++ utf8_text p ++ b <-> exists x y, t = x ++ p ++ y /\ a = utf8_text x /\ b = utf8_text y.
Proof.
  intros FT FP N. split.
  - intros E. destruct p as [|c p]; [contradiction|]. inversion FP as [|? ? C _]; subst.
    destruct (encode_shape c C) as (lead & tail & S & _ & _ & O & _).
    assert (E' : utf8_text t = a ++ lead :: (tail ++ utf8_text p ++ b)).
    { rewrite E. unfold utf8_text at 1. cbn [flat_map]. rewrite S. cbn [app]. rewrite <- app_assoc. reflexivity. }
    destruct (cut_at_lead t a lead _ FT E' O) as (x & y & -> & -> & Y). apply Forall_app in FT. destruct FT as [FX FY].
    destruct (text_prefix (c :: p) y b FP FY) as (z & -> & ->).
    { rewrite <- Y. unfold utf8_text at 2. cbn [flat_map]. rewrite S. cbn [app]. rewrite <- app_assoc. reflexivity. }
    exists x, z. repeat split; reflexivity.
  - intros (x & y & -> & -> & ->). rewrite !utf8_text_app. reflexivity.
Qed.
