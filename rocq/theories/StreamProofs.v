(** * Proofs: texts that arrive in pieces *)
From Coq Require Import Permutation Sorted Relations.
From Verif Require Import Prelude DataTables UcdTables PropsModel Utf8Model TextModel Utf8Spec UnicodeSpec GraphemeSpec TextSpec NormSpec FilterSpec
  Utf8Proofs BoundsProofs PropsProofs LawfulProofs DecompTables DecompProofs GraphemeProofs Uax29Proofs GraphemeText FilterProofs OrderProofs ComposeProofs
  NormData HangulProofs NormProofs NfcProofs NormForms EncodeProofs EncodeText NormUtf8 NormText Properties_Iteration Properties_Graphemes Properties_Normalize TextsProofs SubRange
  Properties_Parts StreamModel.
Require Import ZifyBool ZifyNat.

(** ** Only the last grapheme of a prefix is not final *)
Lemma seg_prefix x y : seg (x ++ y) = removelast (seg x) ++ seg (last (seg x) [] ++ y).
Proof.
  destruct x as [|a0 x0]; [reflexivity|]. assert (NE : seg (a0 :: x0) <> []) by (destruct (seg_cons a0 x0) as (g & gs & ->); discriminate).
  set (x := a0 :: x0) in *. destruct (exists_last NE) as (l & g & E). rewrite E, removelast_snoc, last_last.
  assert (EX : x = concat l ++ g) by (rewrite <- (seg_concat x), E, concat_app; cbn [concat]; rewrite app_nil_r; reflexivity).
  assert (NG : g <> []).
  { pose proof (seg_nonempty x) as Q. rewrite E in Q. apply Forall_app in Q. destruct Q as (_ & Q). inversion Q; assumption. }
  assert (SL : seg (concat l) = l) by (apply (seg_run x [] l [g]); exact E).
  rewrite EX, <- app_assoc, <- SL at 1. rewrite SL. rewrite <- SL at 2.
  apply seg_parts. destruct l as [|h l0]; [left; reflexivity|]. right. right. destruct g as [|c t]; [contradiction|]. exists c, (t ++ y). split; [reflexivity|].
  assert (NL : h :: l0 <> []) by discriminate. destruct (exists_last NL) as (l1 & h1 & E1). rewrite E1 in *.
  assert (NH : h1 <> []).
  { pose proof (seg_nonempty x) as Q. rewrite E in Q. rewrite !Forall_app in Q. destruct Q as ((_ & Q) & _). inversion Q; assumption. }
  destruct (exists_last NH) as (h2 & a & E2).
  assert (B : brk a c = true) by (apply (seg_between x l1 h1 (c :: t) [] h2 a c t); [rewrite E, <- app_assoc; reflexivity|exact E2|reflexivity]).
  rewrite concat_app. cbn [concat]. rewrite app_nil_r, E2, app_assoc. apply boundary_after; [destruct (concat l1 ++ h2); discriminate|].
  rewrite last_last. exact B.
Qed.
Lemma removelast_length {A} (l : list A) : removelast l = firstn (length l - 1) l.
Proof. rewrite (removelast_firstn_len l). f_equal. lia. Qed.

Section Form.
Context (F : (list Z -> list Z) -> (list Z -> list Z -> res (list Z)) -> nat -> cp_ops -> Z * Z -> list Z -> res (Z * list Z)).
Context (listed : Z -> list Z -> Prop) (k : bool) (full : Z -> list Z) (sort : list Z -> list Z) (append : list Z -> list Z -> res (list Z)).
Context (FO : form_of F listed) (FD : form_data F listed k full) (SO : std_sort_ok sort) (OE : output_encoding append).
Let N (gs : list (list Z)) : list Z := flat_map (norm_grapheme k full sort) gs.

Lemma parts_fit x y : count_fits listed (x ++ y) -> count_fits listed x /\ count_fits listed y.
Proof. apply (count_parts listed full). exact (data_listed F listed k full FD). Qed.
Lemma feed_eq fuel carry chunk out total : (2 * length (carry ++ chunk) < fuel)%nat -> count_fits listed (carry ++ chunk) ->
  let gs := seg (carry ++ chunk) in
  feed F sort append fuel carry chunk out total =
    let* o := append out (N (removelast gs)) in Ok (last gs [], o, total + zlen (N (removelast gs))).
Proof.
  intros Hf CF. cbv zeta. set (text := carry ++ chunk) in *. unfold feed. fold text.
  pose proof (utf32_string text) as SM.
  destruct (C39_graphemes_partition_the_text _ _ _ _ _ fuel SM ltac:(lia)) as (gs & G & S). rewrite G. cbn [bind].
  pose proof (seg_eq _ _ S) as E. subst gs. set (gs := seg text) in *.
  set (t := concat (firstn (length gs - 1 - 0) (skipn 0 gs))).
  assert (T : t = concat (removelast gs)) by (unfold t; rewrite removelast_length, Nat.sub_0_r; reflexivity).
  assert (X : exists z, text = t ++ z).
  { exists (concat (skipn (length gs - 1) gs)). rewrite <- (seg_concat text). fold gs. unfold t. rewrite Nat.sub_0_r. cbn [skipn].
    rewrite <- concat_app, firstn_skipn. reflexivity. }
  destruct X as (z & X).
  assert (CT : count_fits listed t) by (rewrite X in CF; exact (proj1 (parts_fit t z CF))).
  assert (LT : (length t <= length text)%nat) by (rewrite X, app_length; lia).
  assert (D : delimited_text (utf32_ops (string_buffer t)) 0 (zlen t) t) by (exact (delimited_string _ _ _ _ _ (utf32_string t))).
  destruct (C83_normalizing_some_graphemes F listed sort append _ 0 (zlen text) text gs 0 (length gs - 1)
    (utf32_ops (string_buffer t)) 0 (zlen t) fuel out FO SO OE (or_introl (ex_intro _ _ SM)) S ltac:(lia) D CT Hf) as (a & b & -> & -> & R).
  cbn [bind]. rewrite R, (run_any F listed k full sort append _ _ _ t fuel out FD SO OE D ltac:(lia) CT).
  assert (SR : seg t = removelast gs).
  { rewrite T. destruct (list_eq_dec (list_eq_dec Z.eq_dec) gs []) as [->|NE]; [reflexivity|].
    apply (seg_run text [] (removelast gs) [last gs []]). cbn [app]. fold gs. apply app_removelast_last. exact NE. }
  rewrite SR. fold (N (removelast gs)). destruct (append out (N (removelast gs))); reflexivity.
Qed.
Lemma stream_eq fuel chunks : forall carry out total, (2 * length (carry ++ concat chunks) < fuel)%nat -> count_fits listed (carry ++ concat chunks) ->
  let r := N (seg (carry ++ concat chunks)) in
  stream_codepoints F sort append fuel chunks carry out total = let* o := append out r in Ok (total + zlen r, o).
Proof.
  induction chunks as [|chunk rest IH]; intros carry out total Hf CF; cbv zeta.
  - cbn [concat] in *. rewrite app_nil_r in *. cbn [stream_codepoints]. cbv zeta.
    rewrite (run_any F listed k full sort append _ _ _ carry fuel out FD SO OE (delimited_string _ _ _ _ _ (utf32_string carry)) ltac:(lia) CF).
    fold (N (seg carry)). destruct (append out (N (seg carry))); reflexivity.
  - cbn [concat] in *. rewrite app_assoc in *. set (text := carry ++ chunk) in *. cbn [stream_codepoints].
    destruct (parts_fit _ _ CF) as (CT & _).
    rewrite (feed_eq fuel carry chunk out total) by (fold text; first [exact CT|rewrite app_length in Hf; lia]). fold text.
    assert (X : text = concat (removelast (seg text)) ++ last (seg text) []).
    { rewrite <- (seg_concat text) at 1. destruct (list_eq_dec (list_eq_dec Z.eq_dec) (seg text) []) as [->|NE]; [reflexivity|].
      rewrite (app_removelast_last [] NE) at 1. rewrite concat_app. cbn [concat]. rewrite app_nil_r. reflexivity. }
    assert (CR : count_fits listed (last (seg text) [] ++ concat rest)).
    { rewrite X in CF. rewrite <- app_assoc in CF. exact (proj2 (parts_fit _ _ CF)). }
    assert (LR : (length (last (seg text) []) <= length text)%nat) by (rewrite X at 2; rewrite app_length; lia).
    assert (NA : forall u v, N (u ++ v) = N u ++ N v) by (intros; unfold N; apply flat_map_app).
    rewrite (seg_prefix text (concat rest)), NA.
    rewrite (encoding_app append OE). destruct (append out (N (removelast (seg text)))) as [o|u|]; cbn [bind]; try reflexivity.
    rewrite (IH (last (seg text) []) o) by (first [exact CR|rewrite app_length in *; lia]). rewrite zlen_app.
    destruct (append o _); cbn [bind]; [f_equal; f_equal; lia|reflexivity|reflexivity].
Qed.
End Form.

(** ** Octets *)
Lemma encode_shape c : codepoint31 c -> exists lead tail, utf8_encode c = lead :: tail /\ chunk lead tail.
Proof. intros H. destruct (utf8_encode_chunk c H) as (l & t & E & C & _). eauto. Qed.
Lemma text_prefix cs : Forall codepoint31 cs -> forall s r, s ++ r = utf8_text cs ->
  (exists a b, cs = a ++ b /\ s = utf8_text a /\ r = utf8_text b) \/
  (exists a c b q q', cs = a ++ c :: b /\ s = utf8_text a ++ q /\ q <> [] /\ q' <> [] /\ q ++ q' = utf8_encode c).
Proof.
  induction 1 as [|c cs C FC IH]; intros s r E.
  - left. exists [], []. destruct s; [|discriminate]. cbn in E. subst r. auto.
  - cbn [utf8_text flat_map] in E. fold (utf8_text cs) in E.
    destruct (app_eq_app _ _ _ _ E) as (l & [(E1 & E2)|(E1 & E2)]).
    + destruct (IH l r (eq_sym E2)) as [(a & b & -> & -> & ->)|(a & d & b & q & q' & -> & -> & A)].
      * left. exists (c :: a), b. split; [reflexivity|]. split; [exact E1|reflexivity].
      * right. exists (c :: a), d, b, q, q'. split; [reflexivity|]. split; [|exact A]. rewrite E1. cbn [utf8_text flat_map]. rewrite <- app_assoc. reflexivity.
    + destruct s as [|s0 s].
      { left. exists [], (c :: cs). auto. }
      destruct l as [|l0 l].
      { left. exists [c], cs. split; [reflexivity|]. split; [|exact E2]. rewrite app_nil_r in E1. rewrite <- E1. cbn [utf8_text flat_map]. rewrite app_nil_r. reflexivity. }
      right. exists [], c, cs, (s0 :: s), (l0 :: l). repeat split; try discriminate. exact (eq_sym E1).
Qed.
(** With an ASCII character in front, check tells exactly whether a prefix of a UTF-8 text ends between codepoints. *)
Lemma check_prefix m cs s r : 0 <= m < 128 -> Forall codepoint31 cs -> s ++ r = utf8_text cs ->
  (exists a b, cs = a ++ b /\ s = utf8_text a /\ r = utf8_text b /\ bounds_check (string_buffer ([m] ++ s)) 0 (zlen ([m] ++ s)) = Ok true) \/
  bounds_check (string_buffer ([m] ++ s)) 0 (zlen ([m] ++ s)) = Ok false.
Proof.
  intros Hm FC E. assert (EM : [m] = utf8_text [m]).
  { cbn [utf8_text flat_map]. unfold utf8_encode. destruct (Z.ltb_spec m 128); [reflexivity|lia]. }
  assert (Cm : codepoint31 m) by (unfold codepoint31; lia).
  destruct (text_prefix cs FC s r E) as [(a & b & -> & -> & ->)|(a & c & b & q & q' & -> & -> & NQ & NQ' & EQ)].
  - left. exists a, b. repeat split. rewrite EM. unfold utf8_text. rewrite <- flat_map_app. apply check_accepts_valid.
    apply Forall_app in FC. constructor; [exact Cm|apply FC].
  - right. apply Forall_app in FC. destruct FC as (FA & FB). inversion FB as [|? ? Cc _]; subst.
    destruct (encode_shape c Cc) as (lead & tail & EL & [CB CL CX CT CN]).
    destruct q as [|q0 q]; [contradiction|]. rewrite EL in EQ. cbn [app] in EQ. injection EQ as -> <-.
    assert (W : zlen q' >= 1) by (destruct q'; [contradiction|unfold zlen; cbn [length]; lia]).
    rewrite zlen_app in CN. pose proof (announced_len_range lead) as AR.
    set (s := [m] ++ utf8_text a ++ lead :: q).
    assert (Z6 : announced_len lead <= 6) by (unfold announced_len; zcases; lia).
    assert (Hlead : 192 <= lead).
    { revert CN. unfold announced_len. destruct (Z.ltb_spec lead 192); [pose proof (zlen_nonneg q); lia|lia]. }
    assert (FS : Forall is_byte s).
    { unfold s. apply Forall_app. split; [constructor; [unfold is_byte; lia|constructor]|]. apply Forall_app. split; [apply upto_FD_byte, utf8_text_bytes; exact FA|].
      constructor; [exact CB|]. apply Forall_app in CT. eapply Forall_impl; [|exact (proj1 CT)]. intros x X. unfold continuation_octet, is_byte in *. lia. }
    destruct (check_string s FS) as (res & -> & H). f_equal. destruct res; [exfalso|reflexivity]. destruct (proj1 H eq_refl) as (_ & K).
    set (p := zlen ([m] ++ utf8_text a)).
    assert (Op : octet s p = lead).
    { unfold s, p, octet. rewrite app_assoc. rewrite app_nth2 by (unfold zlen; lia). replace (Z.to_nat _ - _)%nat with 0%nat by (unfold zlen; lia). reflexivity. }
    assert (Ls : zlen s = p + 1 + zlen q) by (unfold s, p; rewrite app_assoc, zlen_app, zlen_cons; lia).
    assert (Hp : 1 <= p) by (unfold p; rewrite zlen_app; pose proof (zlen_nonneg (utf8_text a)); change (zlen [m]) with 1; lia).
    pose proof (zlen_nonneg q).
    apply (K p); [lia|lia|]. unfold cut_short. rewrite Op. change (Z.of_nat (length s)) with (zlen s). lia.
Qed.
Section Octets.
Context (F : (list Z -> list Z) -> (list Z -> list Z -> res (list Z)) -> nat -> cp_ops -> Z * Z -> list Z -> res (Z * list Z)).
Context (sort : list Z -> list Z) (append : list Z -> list Z -> res (list Z)).
Lemma text_nil cs : Forall codepoint31 cs -> utf8_text cs = [] -> cs = [].
Proof.
  intros FC E. destruct cs as [|c cs]; [reflexivity|]. inversion FC as [|? ? C _]; subst.
  destruct (encode_shape c C) as (l & t & EL & _). cbn [utf8_text flat_map] in E. rewrite EL in E. discriminate.
Qed.
(** The pieces of codepoints that come out of the pieces of octets. *)
Lemma octets_codepoints fuel m chunks : 0 <= m < 128 -> forall pending cs, Forall codepoint31 cs -> (length cs < fuel)%nat ->
  pending ++ concat chunks = utf8_text cs -> (pending = [] \/ forall a, Forall codepoint31 a -> pending <> utf8_text a) ->
  exists ps, concat ps = cs /\ forall carry out total,
    stream_octets F sort append fuel [m] chunks pending carry out total = stream_codepoints F sort append fuel ps carry out total.
Proof.
  intros Hm. induction chunks as [|chunk rest IH]; intros pending cs FC Hf E I.
  - cbn [concat] in E. rewrite app_nil_r in E. destruct I as [->|I]; [|exfalso; exact (I cs FC E)].
    exists []. split; [symmetry; apply text_nil; auto|]. reflexivity.
  - cbn [concat] in E. rewrite app_assoc in E. destruct (check_prefix m cs _ _ Hm FC E) as [(a & b & EC & Ea & Eb & CK)|CK].
    + subst cs. apply Forall_app in FC. destruct FC as (FA & FB). rewrite app_length in Hf.
      destruct (IH [] b FB ltac:(lia) Eb (or_introl eq_refl)) as (ps & EP & R).
      exists (a :: ps). split; [cbn [concat]; rewrite EP; reflexivity|]. intros carry out total. cbn [stream_octets stream_codepoints].
      rewrite CK. cbn [bind]. rewrite Ea. destruct (C01_forward_iteration_string a fuel FA ltac:(lia)) as (-> & _). cbn [bind].
      destruct (feed F sort append fuel carry a out total) as [[[c' o'] t']|u|]; cbn [bind]; [apply R|reflexivity|reflexivity].
    + destruct (IH (pending ++ chunk) cs FC Hf E) as (ps & EP & R).
      { right. intros a FA Ea. assert (EM : [m] = utf8_text [m]).
        { cbn [utf8_text flat_map]. unfold utf8_encode. destruct (Z.ltb_spec m 128); [reflexivity|lia]. }
        assert (Q : bounds_check (string_buffer ([m] ++ (pending ++ chunk))) 0 (zlen ([m] ++ (pending ++ chunk))) = Ok true).
        { rewrite Ea, EM. unfold utf8_text. rewrite <- flat_map_app. apply check_accepts_valid. constructor; [unfold codepoint31; lia|exact FA]. }
        rewrite Q in CK. discriminate. }
      exists ps. split; [exact EP|]. intros carry out total. cbn [stream_octets]. rewrite CK. cbn [bind]. apply R.
Qed.
End Octets.
