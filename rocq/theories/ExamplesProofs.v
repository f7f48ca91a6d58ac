(** * Proofs: the example programs *)
From Verif Require Import Prelude DataTables PropsModel Utf8Model TextModel ExamplesModel Utf8Spec UnicodeSpec GraphemeSpec TextSpec ExamplesSpec.
Require Import ZifyBool ZifyNat.

Lemma strlen_ok s rest : ~ In 0 s -> strlen (s ++ 0 :: rest) = Ok (zlen s).
Proof.
  induction s as [|x s IH]; intros N; [reflexivity|]. cbn [app strlen]. destruct (Z.eqb_spec x 0) as [->|]; [destruct N; left; reflexivity|].
  rewrite IH by (intros I; apply N; right; assumption). cbn [bind]. unfold zlen. cbn [length]. f_equal. lia.
Qed.
Lemma encode_no_nul c : 1 <= c < 2 ^ 31 -> ~ In 0 (utf8_encode c).
Proof.
  intros H. change (2 ^ 31) with 2147483648 in H.
  assert (K : forall k, 128 <= cont c k) by (intros k; unfold cont; pose proof (Z.mod_pos_bound (c / 2 ^ k) 64 ltac:(lia)); lia).
  assert (D : forall k, 0 <= c / 2 ^ k).
  { intros k. destruct (Z.le_gt_cases 0 k); [apply Z.div_pos; [lia|apply Z.pow_pos_nonneg; lia]|]. rewrite Z.pow_neg_r by assumption. destruct c; cbn; lia. }
  unfold utf8_encode. repeat match goal with |- context [if ?a <? ?b then _ else _] => destruct (Z.ltb_spec a b) end; cbn [In]; intros I;
    repeat (destruct I as [I|I]; [try lia;
      match type of I with cont _ ?k = _ => pose proof (K k); lia | context [c / 2 ^ ?k] => pose proof (D k); lia end|]); try contradiction.
Qed.
Lemma text_no_nul cs : Forall (fun c => 1 <= c < 2 ^ 31) cs -> ~ In 0 (utf8_text cs).
Proof.
  induction 1 as [|c cs H F IH]; [intros []|]. unfold utf8_text. cbn [flat_map]. intros I. apply in_app_or in I.
  destruct I as [I|I]; [apply (encode_no_nul c H I)|apply IH; exact I].
Qed.
Lemma c_text_strlen mem cs : c_text mem cs -> strlen mem = Ok (zlen (utf8_text cs)).
Proof. intros (F & rest & ->). apply strlen_ok. apply text_no_nul. assumption. Qed.
Lemma c_text_31 mem cs : c_text mem cs -> Forall codepoint31 cs.
Proof. intros (F & _). eapply Forall_impl; [|exact F]. unfold codepoint31. intros. lia. Qed.

(** ** Hexadecimal numbers *)
Lemma hex_digit_digit d : 0 <= d < 16 -> digit (hex_digit d) d.
Proof. intros H. unfold hex_digit. destruct (Z.ltb_spec d 10); constructor; lia. Qed.
Lemma hex_numeral n : forall v, 0 <= v < 16 ^ Z.of_nat n -> (0 < n)%nat -> numeral (hex_digits n v) v.
Proof.
  induction n as [|n IH]; intros v H N; [lia|]. cbn [hex_digits]. rewrite (Z.div_mod v 16) at 4 by lia.
  apply numeral_digit; [|apply hex_digit_digit; apply Z.mod_pos_bound; lia].
  destruct (Z.ltb_spec v 16).
  - rewrite Z.div_small by lia. constructor.
  - rewrite Nat2Z.inj_succ, Z.pow_succ_r in H by lia. destruct n as [|n]; [change (16 ^ Z.of_nat 0) with 1 in H; lia|].
    apply IH; [|lia]. split; [apply Z.div_pos; lia|apply Z.div_lt_upper_bound; lia].
Qed.
Lemma hex_first n : forall v, 0 < v < 16 ^ Z.of_nat n -> exists x l, hex_digits n v = x :: l /\ x <> 48.
Proof.
  induction n as [|n IH]; intros v H; [change (16 ^ Z.of_nat 0) with 1 in H; lia|]. cbn [hex_digits]. destruct (Z.ltb_spec v 16).
  - eexists _, _. split; [reflexivity|]. rewrite Z.mod_small by lia. unfold hex_digit. destruct (Z.ltb_spec v 10); lia.
  - rewrite Nat2Z.inj_succ, Z.pow_succ_r in H by lia. destruct (IH (v / 16)) as (x & l & -> & X).
    + split; [apply Z.div_str_pos; lia|apply Z.div_lt_upper_bound; lia].
    + eexists _, _. split; [reflexivity|exact X].
Qed.
Lemma numeral_zeros k l v : numeral l v -> numeral (repeat 48 k ++ l) v.
Proof.
  induction 1 as [|l v x d N IH D].
  - rewrite app_nil_r. induction k as [|k IH]; [constructor|]. replace (S k) with (k + 1)%nat by lia. rewrite repeat_app. cbn [repeat].
    change 0 with (16 * 0 + 0). apply numeral_digit; [assumption|]. change 48 with (48 + 0). constructor. lia.
  - rewrite app_assoc. constructor; assumption.
Qed.
Lemma printf_numeral v : 0 <= v < 2 ^ 64 -> six_digit_numeral (printf_06llx v) v.
Proof.
  intros H. unfold printf_06llx. rewrite Z.mod_small by assumption. set (l := hex_digits 16 v). 
  assert (N : numeral l v) by (apply hex_numeral; [exact H|lia]). split; [apply numeral_zeros; assumption|].
  rewrite app_length, repeat_length. destruct (Nat.leb_spec (length l) 6); [left; lia|]. right. split; [lia|].
  replace (6 - length l)%nat with 0%nat by lia. cbn [repeat app]. destruct (Z.eq_dec v 0) as [->|].
  - unfold l in *. vm_compute in H0. lia.
  - destruct (hex_first 16 v) as (x & r & E & X); [split; [lia|exact (proj2 H)]|]. unfold l. rewrite E. exact X.
Qed.
Lemma printed_ok after cs : Forall codepoint31 cs -> printed after cs (flat_map (fun c => printf_codepoint c ++ after) cs).
Proof.
  induction 1 as [|c cs H F IH]; [constructor|]. cbn [flat_map]. unfold printf_codepoint at 1. rewrite <- !app_assoc. constructor; [|assumption].
  apply printf_numeral. unfold codepoint31 in H. change (2 ^ 31) with 2147483648 in H. change (2 ^ 64) with 18446744073709551616. lia.
Qed.
Lemma printed_ok' cs : Forall codepoint31 cs -> printed [] cs (flat_map printf_codepoint cs).
Proof.
  intros F. pose proof (printed_ok [] cs F) as P. erewrite flat_map_ext in P; [exact P|]. intros a. apply app_nil_r.
Qed.
Lemma printed_graphemes_ok gs : Forall (Forall codepoint31) gs ->
  printed_graphemes gs (flat_map (fun g => [91] ++ flat_map printf_codepoint g ++ [32; 93]) gs).
Proof.
  induction 1 as [|g gs H F IH]; [constructor|]. cbn [flat_map]. rewrite <- !app_assoc. constructor; [apply printed_ok'; assumption|assumption].
Qed.

(** ** What was printed tells what was to be printed *)
Lemma digit_range x d : digit x d -> 48 <= x <= 57 \/ 97 <= x <= 102.
Proof. intros [d' H|d' H]; lia. Qed.
Lemma digit_fun x d d' : digit x d -> digit x d' -> d = d'.
Proof. intros H H'. inversion H; inversion H'; subst; lia. Qed.
Lemma numeral_digits l v : numeral l v -> Forall (fun x => 48 <= x <= 57 \/ 97 <= x <= 102) l.
Proof. induction 1 as [|l v x d N IH D]; [constructor|]. apply Forall_app. split; [assumption|]. constructor; [eapply digit_range; eassumption|constructor]. Qed.
Lemma numeral_fun l v : numeral l v -> forall v', numeral l v' -> v = v'.
Proof.
  induction 1 as [|l v x d N IH D]; intros v' N'; inversion N' as [E|l' w x' d' N1 D1 E]; subst.
  - reflexivity.
  - destruct l'; discriminate.
  - destruct l; discriminate.
  - apply app_inj_tail in E. destruct E as (-> & ->). rewrite (IH w N1), (digit_fun x d d' D D1). reflexivity.
Qed.
(** [z] does not go on with a digit. *)
Definition no_digit (z : list Z) : Prop := match z with [] => True | x :: _ => ~ (48 <= x <= 57 \/ 97 <= x <= 102) end.
Lemma digits_split l : forall l' z z', Forall (fun x => 48 <= x <= 57 \/ 97 <= x <= 102) l -> Forall (fun x => 48 <= x <= 57 \/ 97 <= x <= 102) l' ->
  no_digit z -> no_digit z' -> l ++ z = l' ++ z' -> l = l' /\ z = z'.
Proof.
  induction l as [|x l IH]; intros [|x' l'] z z' F F' N N' E; cbn [app] in E.
  - auto.
  - subst z. inversion F'. destruct N. assumption.
  - subst z'. inversion F. destruct N'. assumption.
  - injection E as -> E. inversion F; inversion F'; subst. destruct (IH l' z z') as (-> & ->); auto.
Qed.
(** What may follow a list of codepoints. *)
Definition closing (z : list Z) : Prop := z = [] \/ (exists r, z = 10 :: r) \/ exists r, z = 32 :: 93 :: r.
Lemma printed_split after cs t : after = [] \/ after = [32] -> printed after cs t -> forall cs' t' z z', printed after cs' t' ->
  closing z -> closing z' -> t ++ z = t' ++ z' -> cs = cs' /\ t = t' /\ z = z'.
Proof.
  intros A P. induction P as [|c cs d t (N & _) P IH]; intros cs' t' z z' P' Z Z' E; inversion P' as [|c' cs1 d' t1 (N' & _) P1]; subst.
  - auto.
  - exfalso. cbn [app] in E. destruct Z as [->|[(r & ->)|(r & ->)]]; discriminate.
  - exfalso. cbn [app] in E. destruct Z' as [->|[(r & ->)|(r & ->)]]; discriminate.
  - assert (ND : forall cs0 t0 z0, printed after cs0 t0 -> closing z0 -> no_digit (after ++ t0 ++ z0)).
    { intros cs0 t0 z0 P0 Z0. destruct A as [->| ->]; [|cbn; lia]. destruct P0; [|cbn; lia]. destruct Z0 as [->|[(r & ->)|(r & ->)]]; cbn; lia. }
    cbn [app] in E. injection E as E. rewrite <- !app_assoc in E.
    destruct (digits_split d d' _ _ (numeral_digits _ _ N) (numeral_digits _ _ N') (ND _ _ _ P Z) (ND _ _ _ P1 Z') E) as (-> & E').
    apply app_inv_head in E'. destruct (IH _ _ _ _ P1 Z Z' E') as (-> & -> & ->). rewrite (numeral_fun _ _ N _ N'). auto.
Qed.
Lemma printed_graphemes_split gs t : printed_graphemes gs t -> forall gs' t' r r', printed_graphemes gs' t' ->
  t ++ 10 :: r = t' ++ 10 :: r' -> gs = gs' /\ t = t' /\ r = r'.
Proof.
  induction 1 as [|g gs t u P H IH]; intros gs' t' r r' P' E; inversion P' as [|g' gs1 t1 u1 P1 H1]; subst; cbn [app] in E.
  - injection E as ->. auto.
  - discriminate.
  - discriminate.
  - injection E as E. rewrite <- !app_assoc in E.
    destruct (printed_split [] g t (or_introl eq_refl) P g' t1 _ _ P1 ltac:(right; right; eexists; reflexivity) ltac:(right; right; eexists; reflexivity) E) as (-> & -> & E').
    injection E' as E'. destruct (IH _ _ _ _ H1 E') as (-> & -> & ->). auto.
Qed.
Lemma lines_fun {A} (line : A -> list Z -> Prop) :
  (forall x t x' t' r r', line x t -> line x' t' -> t ++ 10 :: r = t' ++ 10 :: r' -> x = x' /\ r = r') ->
  forall xs t, lines line xs t -> forall xs', lines line xs' t -> xs = xs'.
Proof.
  intros H xs t L. induction L as [|x xs t u P L IH]; intros xs' L'; inversion L' as [E1 E2|x' xs1 t1 u1 P1 L1 E1 E2]; subst.
  - reflexivity.
  - destruct t1; discriminate.
  - destruct t; discriminate.
  - destruct (H x t x' t1 u u1 P P1) as (-> & ->); [symmetry; exact E2|]. f_equal. apply IH. assumption.
Qed.
Lemma printed_line after cs t cs' t' r r' : after = [] \/ after = [32] -> printed after cs t -> printed after cs' t' -> t ++ 10 :: r = t' ++ 10 :: r' ->
  cs = cs' /\ r = r'.
Proof.
  intros A P P' E. destruct (printed_split after cs t A P cs' t' _ _ P' ltac:(right; left; eexists; reflexivity) ltac:(right; left; eexists; reflexivity) E) as (-> & _ & E').
  injection E' as ->. auto.
Qed.

(** ** The loop over the arguments *)
Lemma arguments_lines {A} body (line : A -> list Z -> Prop) (ok : list Z -> A -> Prop) :
  (forall mem x, ok mem x -> exists t, body mem = Ok t /\ line x t) ->
  forall argv xs, Forall2 ok argv xs -> exists out, for_each_argument body argv = Ok out /\ lines line xs out.
Proof.
  intros H argv xs F. induction F as [|mem x argv xs O F IH]; [exists []; split; constructor|].
  destruct (H mem x O) as (t & E & L). destruct IH as (out & E' & L'). eexists. cbn [for_each_argument]. rewrite E, E'. cbn [bind]. split; [reflexivity|].
  constructor; assumption.
Qed.
