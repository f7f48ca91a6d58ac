(** * Proofs: the signedness of [char] does not matter *)
From Verif Require Import Prelude PropsModel Utf8Model TextModel Utf8Spec Utf8Proofs CharModel.
Require Import ZifyBool ZifyNat.

Lemma rd_byte mem p b : Forall is_byte mem -> rd mem p = Ok b -> is_byte b.
Proof.
  intros F. unfold rd. destruct (p <? 0); [discriminate|]. destruct (nth_error mem (Z.to_nat p)) as [v|] eqn:E; [|discriminate].
  intros [= <-]. apply nth_error_In in E. rewrite Forall_forall in F. auto.
Qed.
Lemma upd_bytes mem : forall n v, Forall is_byte mem -> is_byte v -> Forall is_byte (upd mem n v).
Proof. induction mem as [|x t IH]; intros [|n] v F V; cbn [upd]; inversion F; subst; constructor; auto. Qed.
Lemma wr_bytes mem p v mem' : Forall is_byte mem -> is_byte v -> wr mem p v = Ok mem' -> Forall is_byte mem'.
Proof. intros F V. unfold wr. destruct (_ && _); [|discriminate]. intros [= <-]. apply upd_bytes; assumption. Qed.
Lemma to_u8_byte v : is_byte (to_u8 v).
Proof. unfold is_byte, to_u8. pose proof (Z.mod_pos_bound v 256 ltac:(lia)). lia. Qed.
Lemma to_u8_small v : is_byte v -> to_u8 v = v.
Proof. unfold is_byte, to_u8. intros. apply Z.mod_small. lia. Qed.

Section Platform.
Context (s : bool).
Definition res_eqb' (x y : res Z) : bool :=
  match x, y with Ok a, Ok b => a =? b | _, _ => false end.
Lemma functions_sweep : forallb (fun b => Bool.eqb (is_7bit_character_on s b) (is_7bit_character b)
    && Bool.eqb (is_codepoint_continuation_on s b) (is_codepoint_continuation b)
    && Bool.eqb (is_codepoint_start_on s b) (is_codepoint_start b)
    && res_eqb' (codepoint_size_on s b) (codepoint_size b)
    && (negb (is_7bit_character b) || (char_value s b =? char_int b))) all_bytes = true.
Proof. destruct s; vm_compute; reflexivity. Qed.
Lemma functions b : is_byte b -> is_7bit_character_on s b = is_7bit_character b /\ is_codepoint_continuation_on s b = is_codepoint_continuation b /\
  is_codepoint_start_on s b = is_codepoint_start b /\ codepoint_size_on s b = codepoint_size b /\
  (is_7bit_character b = true -> char_value s b = char_int b).
Proof.
  intros B. pose proof (byte_sweep _ functions_sweep b B) as Q. cbv beta in Q. rewrite !andb_true_iff, !Bool.eqb_true_iff, orb_true_iff, negb_true_iff in Q.
  destruct Q as ((((A1 & A2) & A3) & A4) & A5). repeat split; try assumption.
  - unfold res_eqb' in A4. destruct (codepoint_size_on s b), (codepoint_size b); try discriminate. f_equal. lia.
  - intros T. destruct A5; [congruence|lia].
Qed.
Lemma land_low b m : is_byte b -> 0 <= m < 256 -> Z.land (char_value s b) m = Z.land (char_int b) m.
Proof.
  intros B M. assert (E : forall v, Z.land v m = Z.land (v mod 256) m).
  { intros v. replace m with (Z.land 255 m) by (rewrite Z.land_comm; change 255 with (Z.ones 8); rewrite Z.land_ones by lia; apply Z.mod_small; lia).
    rewrite !Z.land_assoc. f_equal. change 255 with (Z.ones 8). rewrite !Z.land_ones by lia. rewrite Z.mod_mod by lia. reflexivity. }
  rewrite (E (char_value s b)), (E (char_int b)). f_equal. unfold char_value, char_int. unfold is_byte in B.
  destruct s; [reflexivity|]. destruct (b <? 128); [reflexivity|]. replace (b - 256) with (b + -1 * 256) by lia. rewrite Z.mod_add by lia. reflexivity.
Qed.

Context (mem : list Z) (F : Forall is_byte mem).
Ltac octet p := let b := fresh "b" in let E := fresh "E" in
  destruct (rd mem p) as [b| |] eqn:E; cbn [bind]; try reflexivity;
  let B := fresh "B" in pose proof (rd_byte _ _ _ F E) as B;
  destruct (functions b B) as (? & ? & ? & ? & ?).
Lemma rewind_loop_same fuel : forall p r, rewind_loop_on s fuel mem p r = rewind_loop fuel mem p r.
Proof.
  induction fuel as [|fuel IH]; intros p r; [reflexivity|]. cbn [rewind_loop_on rewind_loop]. octet p. rewrite H0.
  destruct (is_codepoint_continuation b); [|reflexivity]. destruct (padd mem p (-1)); cbn [bind]; auto.
Qed.
Lemma rewind_same p : rewind_to_start_of_codepoint_on s mem p = rewind_to_start_of_codepoint mem p.
Proof. apply rewind_loop_same. Qed.
Lemma forward_same p : forward_one_codepoint_on s mem p = forward_one_codepoint mem p.
Proof.
  unfold forward_one_codepoint_on, forward_one_codepoint. rewrite rewind_same. destruct (rewind_to_start_of_codepoint mem p) as [[r q]| |]; cbn [bind]; try reflexivity.
  octet q. rewrite H2. reflexivity.
Qed.
Lemma backward_same p : rewind_one_codepoint_on s mem p = rewind_one_codepoint mem p.
Proof.
  unfold rewind_one_codepoint_on, rewind_one_codepoint. rewrite rewind_same. destruct (rewind_to_start_of_codepoint mem p) as [[r q]| |]; cbn [bind]; try reflexivity.
  destruct (padd mem q (-1)) as [q'| |]; cbn [bind]; try reflexivity. rewrite rewind_same. reflexivity.
Qed.
Lemma decode_same n : forall p v, decode_loop_on s n mem p v = decode_loop n mem p v.
Proof.
  induction n as [|n IH]; intros p v; [reflexivity|]. cbn [decode_loop_on decode_loop]. destruct (padd mem p 1) as [q| |]; cbn [bind]; try reflexivity.
  octet q. destruct (shl6 v) as [w| |]; cbn [bind]; try reflexivity. rewrite land_low by (assumption || lia). apply IH.
Qed.
Lemma current_same p : current_codepoint_on s mem p = current_codepoint mem p.
Proof.
  unfold current_codepoint_on, current_codepoint. octet p. rewrite H. destruct (is_7bit_character b) eqn:S7; [rewrite H3 by reflexivity; reflexivity|].
  rewrite rewind_same. destruct (rewind_to_start_of_codepoint mem p) as [[r q]| |]; cbn [bind]; try reflexivity.
  assert (T : forall c, is_byte c ->
    (let* size := codepoint_size_on s c in
     if 7 - size <? 0 then UB BadShift else
     let* v := decode_loop_on s (Z.to_nat (size - 1)) mem q (Z.land (char_value s c) (to_u8 (Z.lnot (Z.shiftl 255 (7 - size))))) in Ok (v, q)) =
    (let* size := codepoint_size c in
     if 7 - size <? 0 then UB BadShift else
     let* v := decode_loop (Z.to_nat (size - 1)) mem q (Z.land (char_int c) (to_u8 (Z.lnot (Z.shiftl 255 (7 - size))))) in Ok (v, q))).
  { intros c C. destruct (functions c C) as (_ & _ & _ & -> & _). destruct (codepoint_size c) as [z| |]; cbn [bind]; try reflexivity.
    destruct (7 - z <? 0); [reflexivity|]. rewrite decode_same. rewrite land_low; [reflexivity|exact C|]. pose proof (to_u8_byte (Z.lnot (Z.shiftl 255 (7 - z)))) as U. unfold is_byte in U. lia. }
  destruct r; cbn [bind]; [|exact (T b B)]. octet q. exact (T b0 B0).
Qed.
Lemma postinc_same p : it_postinc_on s mem p = it_postinc mem p.
Proof. unfold it_postinc_on, it_postinc, it_preinc. rewrite forward_same. reflexivity. Qed.
Lemma postdec_same p : it_postdec_on s mem p = it_postdec mem p.
Proof. unfold it_postdec_on, it_postdec, it_predec. rewrite backward_same. reflexivity. Qed.
Lemma eq_same p q : it_eq_on s mem p q = it_eq mem p q.
Proof.
  unfold it_eq_on, it_eq. rewrite rewind_same. destruct (rewind_to_start_of_codepoint mem p) as [[r c]| |]; cbn [bind]; try reflexivity.
  octet c. rewrite H2. reflexivity.
Qed.
Lemma proxy_read_same p : proxy_read_on s mem p = proxy_read mem p.
Proof. unfold proxy_read_on, proxy_read. rewrite current_same. reflexivity. Qed.

Lemma check_same n : forall b e w, check_loop_on s n mem b e w = check_loop n mem b e w.
Proof.
  induction n as [|n IH]; intros b e w; [reflexivity|]. cbn [check_loop_on check_loop]. destruct (e =? b); [reflexivity|].
  octet e. rewrite H2, H1. destruct (codepoint_size b0) as [z| |]; cbn [bind]; try reflexivity. destruct (_ && _); [reflexivity|].
  destruct (padd mem e (-1)); cbn [bind]; auto.
Qed.
Lemma bounds_check_same b e : bounds_check_on s mem b e = bounds_check mem b e.
Proof. unfold bounds_check_on, bounds_check. octet b. rewrite H0, check_same. reflexivity. Qed.
End Platform.

Lemma assign_loop_same n mem p v : assign_loop_on n mem p v = assign_loop n mem p v.
Proof. reflexivity. Qed.
Lemma proxy_assign_same mem p v : proxy_assign_on mem p v = proxy_assign mem p v.
Proof.
  unfold proxy_assign_on, proxy_assign. destruct (encoded_size v) as [z| |]; cbn [bind]; [|reflexivity|reflexivity].
  assert (L : to_char (Z.land v 255) = Z.land v 255).
  { unfold to_char, to_u8. change 255 with (Z.ones 8). rewrite Z.land_ones by lia. change (2 ^ 8) with 256. apply Z.mod_mod. lia. }
  rewrite L. destruct (z <=? 1); [reflexivity|]. cbv zeta. unfold to_char at 1. rewrite (to_u8_small (to_u8 _)) by apply to_u8_byte.
  reflexivity.
Qed.
Lemma assign_same s mem p v : Forall is_byte mem -> it_assign_on s mem p v = it_assign mem p v.
Proof.
  intros F. unfold it_assign_on, it_assign. rewrite (proxy_read_same s mem F). destruct (proxy_read mem p); cbn [bind]; try reflexivity. apply proxy_assign_same.
Qed.
Lemma assign_loop_bytes n : forall mem p v m q, Forall is_byte mem -> assign_loop n mem p v = Ok (m, q) -> Forall is_byte m.
Proof.
  induction n as [|n IH]; intros mem p v m q F; cbn [assign_loop]; [intros [= <- <-]; exact F|]. destruct (padd mem p 1) as [r| |]; cbn [bind]; try discriminate.
  destruct (wr mem r _) as [m'| |] eqn:E; cbn [bind]; try discriminate. intros Q. apply (IH m' r v m q); [|exact Q].
  eapply wr_bytes; [exact F| |exact E]. apply to_u8_byte.
Qed.
Lemma assign_bytes mem p v m q : Forall is_byte mem -> it_assign mem p v = Ok (m, q) -> Forall is_byte m.
Proof.
  intros F. unfold it_assign. destruct (proxy_read mem p); cbn [bind]; try discriminate. unfold proxy_assign.
  destruct (encoded_size v) as [z| |]; cbn [bind]; try discriminate. destruct (z <=? 1).
  - destruct (wr mem p _) as [m'| |] eqn:E; cbn [bind]; try discriminate. intros [= <- <-]. eapply wr_bytes; [exact F| |exact E].
    unfold is_byte. change 255 with (Z.ones 8). rewrite Z.land_ones by lia. change (2 ^ 8) with 256. pose proof (Z.mod_pos_bound v 256 ltac:(lia)). lia.
  - destruct (wr mem p _) as [m'| |] eqn:E; cbn [bind]; try discriminate. intros Q. apply (assign_loop_bytes _ _ _ _ _ _ (wr_bytes _ _ _ _ F (to_u8_byte _) E) Q).
Qed.
Lemma enforce_front_same s fuel : forall mem b r, Forall is_byte mem -> enforce_front_on s fuel mem b r = enforce_front fuel mem b r.
Proof.
  induction fuel as [|fuel IH]; intros mem b r F; [reflexivity|]. cbn [enforce_front_on enforce_front]. destruct (rd mem b) as [c| |] eqn:E; cbn [bind]; try reflexivity.
  destruct (functions s c (rd_byte _ _ _ F E)) as (_ & -> & _). destruct (is_codepoint_continuation c); [|reflexivity].
  destruct (wr mem b 63) as [m| |] eqn:W; cbn [bind]; try reflexivity. destruct (padd m b 1) as [b'| |]; cbn [bind]; try reflexivity.
  apply IH. eapply wr_bytes; [exact F| |exact W]. unfold is_byte. lia.
Qed.
Lemma enforce_front_bytes fuel : forall mem b r m b' r', Forall is_byte mem -> enforce_front fuel mem b r = Ok (m, b', r') -> Forall is_byte m.
Proof.
  induction fuel as [|fuel IH]; intros mem b r m b' r' F; [discriminate|]. cbn [enforce_front]. destruct (rd mem b) as [c| |] eqn:E; cbn [bind]; try discriminate.
  destruct (is_codepoint_continuation c); [|intros [= <- <- <-]; exact F].
  destruct (wr mem b 63) as [m1| |] eqn:W; cbn [bind]; try discriminate. destruct (padd m1 b 1) as [b1| |]; cbn [bind]; try discriminate.
  apply IH. eapply wr_bytes; [exact F| |exact W]. unfold is_byte. lia.
Qed.
Lemma enforce_back_same s n : forall mem b e w r, Forall is_byte mem -> enforce_back_on s n mem b e w r = enforce_back n mem b e w r.
Proof.
  induction n as [|n IH]; intros mem b e w r F; [reflexivity|]. cbn [enforce_back_on enforce_back]. destruct (e =? b); [reflexivity|].
  destruct (rd mem e) as [c| |] eqn:E; cbn [bind]; try reflexivity. destruct (functions s c (rd_byte _ _ _ F E)) as (_ & _ & -> & -> & _).
  destruct (codepoint_size c) as [z| |]; cbn [bind]; try reflexivity. destruct (_ && _).
  - destruct (wr mem e 63) as [m| |] eqn:W; cbn [bind]; try reflexivity. destruct (padd m e (-1)); cbn [bind]; try reflexivity.
    apply IH. eapply wr_bytes; [exact F| |exact W]. unfold is_byte. lia.
  - cbn [bind]. destruct (padd mem e (-1)); cbn [bind]; auto.
Qed.
Lemma enforce_same s mem b e : Forall is_byte mem -> bounds_enforce_on s mem b e = bounds_enforce mem b e.
Proof.
  intros F. unfold bounds_enforce_on, bounds_enforce. rewrite enforce_front_same by exact F.
  destruct (enforce_front _ mem b true) as [[[m b'] r]| |] eqn:E; cbn [bind]; try reflexivity. apply enforce_back_same. exact (enforce_front_bytes _ _ _ _ _ _ _ F E).
Qed.
Lemma encode_same s c : utf8_encode_one_on s c = utf8_encode_one c.
Proof.
  assert (F : Forall is_byte [0; 0; 0; 0; 0; 0]) by (repeat constructor; unfold is_byte; lia). unfold utf8_encode_one_on, utf8_encode_one. cbv zeta.
  rewrite (assign_same s _ _ _ F). destruct (it_assign _ 0 c) as [[m i]| |] eqn:E; cbn [bind]; try reflexivity.
  rewrite (forward_same s m (assign_bytes _ _ _ _ _ F E)). reflexivity.
Qed.
Lemma append_same s cps : forall out, utf8_append_from_utf32ne_on s out cps = utf8_append_from_utf32ne out cps.
Proof.
  induction cps as [|c t IH]; intros out; [reflexivity|]. cbn [utf8_append_from_utf32ne_on utf8_append_from_utf32ne]. rewrite encode_same.
  destruct (utf8_encode_one c); cbn [bind]; auto.
Qed.
Lemma write_same s cps : forall mem it, Forall is_byte mem -> write_codepoints_on s mem it cps = write_codepoints mem it cps.
Proof.
  induction cps as [|c t IH]; intros mem it F; [reflexivity|]. cbn [write_codepoints_on write_codepoints]. rewrite (assign_same s _ _ _ F).
  destruct (it_assign mem it c) as [[m i]| |] eqn:E; cbn [bind]; try reflexivity. pose proof (assign_bytes _ _ _ _ _ F E) as Fm.
  rewrite (forward_same s m Fm). unfold it_preinc. destruct (forward_one_codepoint m i); cbn [bind]; auto.
Qed.
Lemma utf8_append_same s out mem p q : Forall is_byte mem -> utf8_append_on s out mem p q = utf8_append out mem p q.
Proof.
  intros F. unfold utf8_append_on, utf8_append, utf8_native_const_iterator. rewrite !(rewind_same s mem F).
  destruct (rewind_to_start_of_codepoint mem p) as [[r p']| |]; cbn [bind]; try reflexivity.
  destruct (rewind_to_start_of_codepoint mem q) as [[r' q']| |]; cbn [bind]; reflexivity.
Qed.

(** ** The text layer computes the same with the same operations. *)
Record same_ops (o o' : cp_ops) : Prop := {
  so_deref : forall p, op_deref o p = op_deref o' p;
  so_inc : forall p, op_inc o p = op_inc o' p;
  so_postinc : forall p, op_postinc o p = op_postinc o' p;
  so_dec : forall p, op_dec o p = op_dec o' p;
  so_eq : forall p q, op_eq o p q = op_eq o' p q
}.
Lemma utf8_same_ops s mem : Forall is_byte mem -> same_ops (utf8_ops_on s mem) (utf8_ops mem).
Proof.
  intros F. constructor; intros; cbn [utf8_ops_on utf8_ops op_deref op_inc op_postinc op_dec op_eq].
  - apply current_same; exact F.
  - apply forward_same; exact F.
  - apply postinc_same; exact F.
  - apply backward_same; exact F.
  - apply eq_same; exact F.
Qed.
Lemma as_chars_same s mem fuel : forall p q out, Forall is_byte mem ->
  utf8_append_codepoints_as_chars_on s fuel mem p q out = utf8_append_codepoints_as_chars fuel (utf8_ops mem) p q out.
Proof.
  induction fuel as [|fuel IH]; intros p q out F; [reflexivity|]. cbn [utf8_append_codepoints_as_chars_on utf8_append_codepoints_as_chars].
  unfold op_neq. cbn [utf8_ops_on utf8_ops op_deref op_inc op_eq]. rewrite (eq_same s mem F). destruct (it_eq mem p q) as [e| |]; cbn [bind]; try reflexivity.
  destruct e; cbn [negb]; [reflexivity|]. rewrite (current_same s mem F). unfold it_deref. destruct (current_codepoint mem p) as [[c p']| |]; cbn [bind]; try reflexivity.
  rewrite (forward_same s mem F). unfold it_preinc. destruct (forward_one_codepoint mem p') as [p2| |]; cbn [bind]; try reflexivity. apply IH. exact F.
Qed.

Section Congruence.
Context (o o' : cp_ops) (S : same_ops o o').
Ltac st := first [ rewrite (so_deref _ _ S) | rewrite (so_inc _ _ S) | rewrite (so_postinc _ _ S) | rewrite (so_dec _ _ S) | rewrite (so_eq _ _ S) ].
Lemma neq_same p q : op_neq o p q = op_neq o' p q.
Proof. unfold op_neq. st. reflexivity. Qed.
Lemma step_same p : op_step o p = op_step o' p.
Proof. unfold op_step. st. reflexivity. Qed.
Ltac st2 := first [ st | rewrite neq_same | rewrite step_same ].
Ltac go2 IH := repeat (first [ reflexivity | st2 | rewrite IH
  | match goal with |- bind ?x _ = bind ?x _ => destruct x as [?| |]; cbn [bind]; try reflexivity end
  | match goal with |- (let '(_, _) := ?x in _) = _ => destruct x end
  | match goal with |- (if ?b then _ else _) = _ => destruct b end ]).
Lemma find_end_loop_same fuel : forall e a g, find_end_loop fuel o e a g = find_end_loop fuel o' e a g.
Proof. induction fuel as [|fuel IH]; intros; [reflexivity|]. cbn [find_end_loop]. go2 IH. Qed.
Lemma find_end_same fuel e g : find_end_of_grapheme fuel o e g = find_end_of_grapheme fuel o' e g.
Proof. unfold find_end_of_grapheme. go2 find_end_loop_same. Qed.
Lemma find_start_loop_same fuel : forall b a w, find_start_loop fuel o b a w = find_start_loop fuel o' b a w.
Proof. induction fuel as [|fuel IH]; intros; [reflexivity|]. cbn [find_start_loop]. go2 IH. Qed.
Lemma find_start_same fuel b w : find_start_of_grapheme fuel o b w = find_start_of_grapheme fuel o' b w.
Proof. unfold find_start_of_grapheme. go2 find_start_loop_same. Qed.
Lemma make2_same fuel b e : gi_make2 fuel o b e = gi_make2 fuel o' b e.
Proof. unfold gi_make2. rewrite find_end_same. reflexivity. Qed.
Lemma make3_same fuel b e w : gi_make3 fuel o b e w = gi_make3 fuel o' b e w.
Proof. unfold gi_make3. rewrite find_start_same. go2 find_end_same. Qed.
Lemma gi_inc_same fuel g : gi_inc fuel o g = gi_inc fuel o' g.
Proof. unfold gi_inc. rewrite find_end_same. reflexivity. Qed.
Lemma gi_step_same fuel g : gi_step fuel o g = gi_step fuel o' g.
Proof. unfold gi_step, gi_postinc. rewrite gi_inc_same. reflexivity. Qed.
Lemma gi_eq_cp_loop_same fuel : forall e c x, gi_eq_cp_loop fuel o e c x = gi_eq_cp_loop fuel o' e c x.
Proof. induction fuel as [|fuel IH]; intros; [reflexivity|]. cbn [gi_eq_cp_loop]. go2 IH. Qed.
Lemma gi_eq_cp_same fuel g x : gi_eq_cp fuel o g x = gi_eq_cp fuel o' g x.
Proof. unfold gi_eq_cp. go2 gi_eq_cp_loop_same. Qed.
Lemma gi_eq_loop_same fuel : forall e c x, gi_eq_loop fuel o e c x = gi_eq_loop fuel o' e c x.
Proof. induction fuel as [|fuel IH]; intros; [reflexivity|]. cbn [gi_eq_loop]. st. destruct (op_eq o' c e) as [[]| |]; cbn [bind]; try reflexivity. rewrite gi_eq_cp_same. go2 IH. Qed.
Lemma gi_eq_same fuel g x : gi_eq fuel o g x = gi_eq fuel o' g x.
Proof. unfold gi_eq. st. destruct (op_eq o' _ _) as [b| |]; cbn [bind]; try reflexivity. rewrite gi_eq_cp_same, gi_eq_loop_same. reflexivity. Qed.
Lemma gi_neq_same fuel g x : gi_neq fuel o g x = gi_neq fuel o' g x.
Proof. unfold gi_neq. rewrite gi_eq_same. reflexivity. Qed.
Lemma begin_same fuel b e : grapheme_begin fuel o b e = grapheme_begin fuel o' b e.
Proof. apply make2_same. Qed.
Lemma end_same fuel b e : grapheme_end fuel o b e = grapheme_end fuel o' b e.
Proof. apply make3_same. Qed.
Lemma loop_same fuel : forall p q, iterate_codepoints fuel o p q = iterate_codepoints fuel o' p q.
Proof. induction fuel as [|fuel IH]; intros; [reflexivity|]. cbn [iterate_codepoints]. go2 IH. Qed.
Lemma loop_for_same fuel : forall p q, iterate_codepoints_for fuel o p q = iterate_codepoints_for fuel o' p q.
Proof. induction fuel as [|fuel IH]; intros; [reflexivity|]. cbn [iterate_codepoints_for]. go2 IH. Qed.
Lemma loop_back_same fuel : forall p q, iterate_backwards fuel o p q = iterate_backwards fuel o' p q.
Proof. induction fuel as [|fuel IH]; intros; [reflexivity|]. cbn [iterate_backwards]. go2 IH. Qed.
Lemma iterate_graphemes_same fuel0 fuel : forall g e, iterate_graphemes fuel0 fuel o g e = iterate_graphemes fuel0 fuel o' g e.
Proof.
  induction fuel as [|fuel IH]; intros; [reflexivity|]. cbn [iterate_graphemes]. rewrite gi_neq_same. destruct (gi_neq fuel0 o' g e) as [[]| |]; cbn [bind]; try reflexivity.
  destruct (gi_deref g). rewrite loop_for_same, gi_step_same. go2 IH.
Qed.
Lemma graphemes_same fuel b e : graphemes fuel o b e = graphemes fuel o' b e.
Proof. unfold graphemes. rewrite begin_same, end_same. go2 iterate_graphemes_same. Qed.
Lemma filter_loop_same {It Elem Out} fuel neq neq' (deref deref' : It -> res (Elem * It)) inc inc' (op op' : Elem -> Out -> res (Z * Out)) :
  (forall a b, neq a b = neq' a b) -> (forall a, deref a = deref' a) -> (forall a, inc a = inc' a) -> (forall a b, op a b = op' a b) ->
  forall from to out c, filter_loop fuel neq deref inc op from to out c = filter_loop fuel neq' deref' inc' op' from to out c.
Proof.
  intros N D I P. induction fuel as [|fuel IH]; intros; [reflexivity|]. cbn [filter_loop]. rewrite N. destruct (neq' from to) as [[]| |]; cbn [bind]; try reflexivity.
  rewrite D. destruct (deref' from) as [[x y]| |]; cbn [bind]; try reflexivity. rewrite P. destruct (op' x out) as [[n out']| |]; cbn [bind]; try reflexivity.
  destruct (int_add c n); cbn [bind]; try reflexivity. rewrite I. destruct (inc' y); cbn [bind]; auto.
Qed.
Lemma decompose_same fuel dec g : decompose_grapheme fuel o dec g = decompose_grapheme fuel o' dec g.
Proof. apply filter_loop_same; intros; [apply neq_same|apply (so_deref _ _ S)|apply step_same|reflexivity]. Qed.
Lemma form_decomposed_same sort app app' fuel dec g out : (forall a b, app a b = app' a b) ->
  form_decomposed sort app fuel o dec g out = form_decomposed sort app' fuel o' dec g out.
Proof. intros A. unfold form_decomposed. rewrite decompose_same. destruct (decompose_grapheme fuel o' dec g) as [[n d]| |]; cbn [bind]; try reflexivity. rewrite A. reflexivity. Qed.
Lemma form_composed_same sort app app' fuel dec g out : (forall a b, app a b = app' a b) ->
  form_composed sort app fuel o dec g out = form_composed sort app' fuel o' dec g out.
Proof.
  intros A. unfold form_composed. rewrite decompose_same. destruct (decompose_grapheme fuel o' dec g) as [[n d]| |]; cbn [bind]; try reflexivity.
  destruct (canonical_composition _ 0) as [[[? ?] ?]| |]; cbn [bind]; try reflexivity. rewrite A. reflexivity.
Qed.
Lemma normalize_same fuel form form' b e out : (forall g x, form g x = form' g x) -> normalize fuel o form b e out = normalize fuel o' form' b e out.
Proof.
  intros P. unfold normalize. rewrite begin_same, end_same. destruct (grapheme_begin fuel o' b e); cbn [bind]; try reflexivity.
  destruct (grapheme_end fuel o' b e); cbn [bind]; try reflexivity. apply filter_loop_same; intros; [apply gi_neq_same|reflexivity|apply gi_step_same|apply P].
Qed.
Lemma advance_same fuel k : forall g, advance fuel o k g = advance fuel o' k g.
Proof. induction k as [|k IH]; intros; [reflexivity|]. cbn [advance]. rewrite gi_inc_same. go2 IH. Qed.
Lemma nth_grapheme_same fuel b e k : nth_grapheme fuel o b e k = nth_grapheme fuel o' b e k.
Proof. unfold nth_grapheme. rewrite begin_same. go2 advance_same. Qed.
End Congruence.
