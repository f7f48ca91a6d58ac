(** * Proofs: basic_encodedstring::append on UTF-8 *)
From Verif Require Import Prelude Utf8Model TextModel Utf8Spec Utf8Proofs LawfulProofs IterProofs BoundsProofs.
Require Import ZifyBool ZifyNat.

Lemma slice_app (A M B : list Z) : slice (A ++ M ++ B) (zlen A) (zlen A + zlen M) = M.
Proof.
  unfold slice. replace (zlen A + zlen M - zlen A) with (zlen M) by lia.
  unfold zlen. rewrite !Nat2Z.id, skipn_app, skipn_all, Nat.sub_diag. cbn [app skipn].
  rewrite firstn_app, firstn_all, Nat.sub_diag, app_nil_r. reflexivity.
Qed.
Lemma copy_range_app (A M B : list Z) :
  copy_range (A ++ M ++ B) (zlen A) (zlen A + zlen M) = Ok M.
Proof.
  unfold copy_range. rewrite slice_app.
  replace ((0 <=? zlen A) && (zlen A <=? zlen A + zlen M) && (zlen A + zlen M <=? zlen (A ++ M ++ B))) with true; [reflexivity|].
  rewrite !zlen_app. pose proof (zlen_nonneg A). pose proof (zlen_nonneg M). pose proof (zlen_nonneg B). lia.
Qed.
Lemma firstn_sub (cs : list Z) i j : (i <= j)%nat -> firstn j cs = firstn i cs ++ sub cs i j.
Proof. intros H. pose proof (sub_app cs 0 i j ltac:(lia)) as S. unfold sub in S at 1 2. cbn [skipn] in S.
  rewrite !Nat.sub_0_r in S. exact S. Qed.

Lemma native_inside pre cs post i p : Forall codepoint31 cs -> (i < length cs)%nat ->
  uinside (zlen pre) cs i p ->
  utf8_native_const_iterator (pre ++ utf8_text cs ++ post) p = Ok (upos (zlen pre) cs i).
Proof.
  intros F Hi Hin. destruct (nth_lt_some cs i Hi) as [c E].
  destruct (utf8_locate pre cs post i c p F E Hin) as (A & l & t & B & j & EM & _ & _ & C & _ & _ & LA & _ & -> & Hj).
  unfold utf8_native_const_iterator. rewrite EM.
  rewrite rewind_chunk by (try assumption; apply C). cbn [bind]. rewrite LA. reflexivity.
Qed.

Lemma append_lawful pre cs post i j p q out : Forall codepoint31 cs -> (i <= j < length cs)%nat ->
  uinside (zlen pre) cs i p -> uinside (zlen pre) cs j q ->
  utf8_append out (pre ++ utf8_text cs ++ post) p q = Ok (out ++ utf8_text (sub cs i j)).
Proof.
  intros F Hij Hp Hq. unfold utf8_append.
  rewrite (native_inside pre cs post i p) by (try assumption; lia). cbn [bind].
  rewrite (native_inside pre cs post j q) by (try assumption; lia). cbn [bind].
  unfold upos. rewrite (firstn_sub cs i j) by lia. rewrite utf8_text_app, zlen_app, Z.add_assoc.
  assert (EM : pre ++ utf8_text cs ++ post
     = (pre ++ utf8_text (firstn i cs)) ++ utf8_text (sub cs i j) ++ (utf8_text (skipn j cs) ++ post)).
  { rewrite <- (firstn_skipn j cs) at 1. rewrite (firstn_sub cs i j) by lia.
    rewrite !utf8_text_app, <- !app_assoc. reflexivity. }
  rewrite EM. rewrite <- (zlen_app pre). rewrite copy_range_app. reflexivity.
Qed.

(** C25 *)
Lemma append_whole_codepoints cs i j p q out :
  Forall codepoint31 cs ->
  let all := cs ++ [0] in
  let within k r := zlen (utf8_text (firstn k all)) <= r < zlen (utf8_text (firstn (S k) all)) in
  (i <= j <= length cs)%nat -> within i p -> within j q ->
  utf8_append out (string_buffer (utf8_text cs)) p q
  = Ok (out ++ utf8_text (firstn (j - i) (skipn i cs))).
Proof.
  intros F all within Hij Hp Hq. rewrite string_buffer_text.
  assert (FA : Forall codepoint31 (cs ++ [0])).
  { apply Forall_app. split; [assumption|]. constructor; [unfold codepoint31; lia|constructor]. }
  rewrite (append_lawful [] (cs ++ [0]) [] i j p q out FA).
  - do 3 f_equal. unfold sub. rewrite skipn_app, firstn_app.
    rewrite skipn_length. replace (j - i - (length cs - i))%nat with 0%nat by lia.
    cbn [firstn]. apply app_nil_r.
  - rewrite app_length. cbn. lia.
  - exact Hp.
  - exact Hq.
Qed.
Lemma append_truncates cs n :
  Forall codepoint31 cs -> 0 <= n <= zlen (utf8_text cs) ->
  exists k, (k <= length cs)%nat /\
    utf8_append [] (string_buffer (utf8_text cs)) 0 n = Ok (utf8_text (firstn k cs)) /\
    zlen (utf8_text (firstn k cs)) <= n /\
    ((k < length cs)%nat -> n < zlen (utf8_text (firstn (S k) cs))).
Proof.
  intros F Hn.
  assert (FA : Forall codepoint31 (cs ++ [0])).
  { apply Forall_app. split; [assumption|]. constructor; [unfold codepoint31; lia|constructor]. }
  assert (T : zlen (utf8_text (cs ++ [0])) = zlen (utf8_text cs) + 1)
    by (rewrite utf8_text_app, zlen_app; reflexivity).
  destruct (position_inside _ FA 0 n ltac:(lia)) as (k & Hk & Hin).
  rewrite app_length in Hk. cbn in Hk.
  assert (P : forall m, (m <= length cs)%nat -> firstn m (cs ++ [0]) = firstn m cs).
  { intros m Hm. rewrite firstn_app. replace (m - length cs)%nat with 0%nat by lia. apply app_nil_r. }
  assert (Hin' := Hin). unfold uinside, upos in Hin'. rewrite P in Hin' by lia.
  exists k. split; [lia|]. split; [|split].
  - rewrite string_buffer_text. rewrite (append_lawful [] (cs ++ [0]) [] 0 k 0 n [] FA).
    + cbn [app]. f_equal. f_equal. unfold sub. cbn [skipn]. rewrite Nat.sub_0_r. apply P. lia.
    + rewrite app_length. cbn. lia.
    + apply (uinside_start 0 cs 0 F). unfold codepoint31. lia.
    + exact Hin.
  - lia.
  - intros Hlt. rewrite P in Hin' by lia. lia.
Qed.
