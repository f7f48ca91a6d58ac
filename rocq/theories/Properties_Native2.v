(** * Property C128, continued: parts, prefixes and suffixes *)
From Verif Require Import Prelude Utf8Model TextModel Utf8Spec UnicodeSpec TextSpec Utf8Proofs AlgoModel AlgoSpec UtfOrder NativeModel NativeProofs EditModel NativeModel2
  Properties_Algorithms Properties_Native Properties_Edit.
Require Import ZifyBool ZifyNat.

(** Any octets: what compare(pos, n, t) says is what [C128_compare] says of the part cut out by substr(pos, n). *)
Theorem C128_compare_part : forall s pos n t, 0 <= pos -> 0 <= n ->
  (zlen s < pos /\ string_compare_part s pos n t = Ok None /\ string_substr s pos n = None) \/
  (exists r u, string_compare_part s pos n t = Ok (Some r) /\ string_substr s pos n = Some u /\ (r < 0 <-> lex_less u t) /\ (r = 0 <-> u = t)).
Proof.
  intros s pos n t Hp Hn. unfold string_compare_part, string_substr. destruct (Z.ltb_spec (zlen s) pos) as [L|L]; [left; auto|]. right.
  set (u := firstn (Z.to_nat (limit s pos n)) (skipn (Z.to_nat pos) s)).
  assert (Lim : 0 <= limit s pos n <= zlen s - pos) by (unfold limit; destruct (Z.ltb_spec n (zlen s - pos)); lia).
  assert (Lu : zlen u = limit s pos n) by (unfold u, zlen in *; rewrite firstn_length, skipn_length; lia).
  set (m := Nat.min (length u) (length t)).
  rewrite (compare_eq _ pos _ 0 _ (firstn m u) (firstn m t) (skipn m u ++ skipn (Z.to_nat (limit s pos n)) (skipn (Z.to_nat pos) s) ++ [0]) (skipn m t ++ [0])); try lia.
  - cbn [bind]. eexists _, u. split; [reflexivity|]. split; [reflexivity|].
    pose proof (min_split u t) as A. pose proof (min_equal u t) as B. cbv zeta in A, B. fold m in A, B. rewrite A, B, <- Lu.
    unfold zlen. destruct (Z.eqb_spec (lexz (firstn m u) (firstn m t)) 0) as [E|E]; [|lia]. rewrite E. unfold s_compare, int_max, int_min.
    destruct (Z.ltb_spec 2147483647 (Z.of_nat (length u) - Z.of_nat (length t))); [lia|].
    destruct (Z.ltb_spec (Z.of_nat (length u) - Z.of_nat (length t)) (-2147483648)); lia.
  - unfold zlen in *. rewrite firstn_length. lia.
  - unfold zlen in *. rewrite firstn_length. lia.
  - rewrite skipn_buffer by (unfold zlen in *; lia). rewrite (app_assoc (firstn m u)), firstn_skipn. unfold u. rewrite app_assoc, firstn_skipn. reflexivity.
  - cbn [Z.to_nat skipn]. unfold string_buffer. rewrite app_assoc, firstn_skipn. reflexivity.
Qed.
Print Assumptions C128_compare_part.

Lemma text_empty y : Forall codepoint31 y -> utf8_text y = [] -> y = [].
Proof. intros F E. destruct y as [|c y]; [reflexivity|]. pose proof (text_nonempty (c :: y) F ltac:(discriminate)). rewrite E in H. cbn in H. lia. Qed.
Theorem C128_starts_with : forall cs ds, Forall codepoint31 cs -> Forall codepoint31 ds ->
  exists r, string_starts_with (utf8_text cs) (utf8_text ds) = Ok (Some r) /\ (r = true <-> exists y, cs = ds ++ y).
Proof.
  intros cs ds C D. unfold string_starts_with.
  destruct (C128_compare_part (utf8_text cs) 0 (zlen (utf8_text ds)) (utf8_text ds) ltac:(lia) ltac:(unfold zlen; lia)) as [(X & _)|(r & u & -> & U & _ & R)].
  { unfold zlen in X. lia. }
  cbn [bind option_map]. eexists. split; [reflexivity|]. rewrite Z.eqb_eq, R. unfold string_substr in U. destruct (Z.ltb_spec (zlen (utf8_text cs)) 0); [unfold zlen in *; lia|].
  injection U as <-. change (Z.to_nat 0) with 0%nat. cbn [skipn]. set (k := Z.to_nat (limit (utf8_text cs) 0 (zlen (utf8_text ds)))). split.
  - intros E. destruct ds as [|d ds]; [exists cs; reflexivity|].
    assert (Q : utf8_text cs = [] ++ utf8_text (d :: ds) ++ skipn k (utf8_text cs)) by (cbn [app]; rewrite <- E; symmetry; apply firstn_skipn).
    apply (C95_octets cs (d :: ds) [] _ C D ltac:(discriminate)) in Q. destruct Q as (x & y & Ec & X & _). symmetry in X.
    apply text_empty in X; [|rewrite Ec in C; apply Forall_app in C; tauto]. subst x. exists y. exact Ec.
  - intros (y & ->). rewrite text_app. replace k with (length (utf8_text ds)); [rewrite firstn_app, Nat.sub_diag, firstn_all; apply app_nil_r|].
    unfold k, limit. rewrite text_app. unfold zlen. rewrite app_length. destruct (Z.ltb_spec (Z.of_nat (length (utf8_text ds))) (Z.of_nat (length (utf8_text ds) + length (utf8_text y)) - 0)); lia.
Qed.
Print Assumptions C128_starts_with.
Theorem C128_ends_with : forall cs ds, Forall codepoint31 cs -> Forall codepoint31 ds ->
  exists r, string_ends_with (utf8_text cs) (utf8_text ds) = Ok (Some r) /\ (r = true <-> exists x, cs = x ++ ds).
Proof.
  intros cs ds C D. unfold string_ends_with. destruct (Z.leb_spec (zlen (utf8_text ds)) (zlen (utf8_text cs))) as [L|L].
  - destruct (C128_compare_part (utf8_text cs) (zlen (utf8_text cs) - zlen (utf8_text ds)) (zlen (utf8_text ds)) (utf8_text ds) ltac:(lia) ltac:(unfold zlen; lia)) as [(X & _)|(r & u & -> & U & _ & R)].
    { unfold zlen in X. lia. }
    cbn [bind option_map]. eexists. split; [reflexivity|]. rewrite Z.eqb_eq, R. unfold string_substr in U.
    destruct (Z.ltb_spec (zlen (utf8_text cs)) (zlen (utf8_text cs) - zlen (utf8_text ds))); [unfold zlen in *; lia|]. injection U as <-.
    set (p := Z.to_nat (zlen (utf8_text cs) - zlen (utf8_text ds))). rewrite firstn_all2.
    2: { rewrite skipn_length. unfold p, limit, zlen in *. destruct (Z.ltb_spec (Z.of_nat (length (utf8_text ds))) (Z.of_nat (length (utf8_text cs)) - (Z.of_nat (length (utf8_text cs)) - Z.of_nat (length (utf8_text ds))))); lia. }
    split.
    + intros E. destruct ds as [|d ds]; [exists cs; symmetry; apply app_nil_r|].
      assert (Q : utf8_text cs = firstn p (utf8_text cs) ++ utf8_text (d :: ds) ++ []) by (rewrite app_nil_r, <- E; symmetry; apply firstn_skipn).
      apply (C95_octets cs (d :: ds) _ [] C D ltac:(discriminate)) in Q. destruct Q as (x & y & Ec & _ & Y). symmetry in Y.
      apply text_empty in Y; [|rewrite Ec in C; rewrite !Forall_app in C; tauto]. subst y. exists x. rewrite app_nil_r in Ec. exact Ec.
    + intros (x & ->). rewrite text_app. replace p with (length (utf8_text x)); [rewrite skipn_app, Nat.sub_diag, skipn_all; reflexivity|].
      unfold p. rewrite text_app. unfold zlen. rewrite app_length. lia.
  - eexists. split; [reflexivity|]. split; [discriminate|]. intros (x & ->). rewrite text_app in L. unfold zlen in L. rewrite app_length in L. lia.
Qed.
Print Assumptions C128_ends_with.
Example C128_prefix_example :
  let cs := [0xE9; 0x20AC; 0x7A] in
  string_starts_with (utf8_text cs) (utf8_text [0xE9; 0x20AC]) = Ok (Some true) /\ string_starts_with (utf8_text cs) (utf8_text [0x20AC]) = Ok (Some false) /\
  string_ends_with (utf8_text cs) (utf8_text [0x20AC; 0x7A]) = Ok (Some true) /\ string_ends_with (utf8_text cs) (utf8_text [0xE9]) = Ok (Some false) /\
  string_starts_with (utf8_text [0xE9]) (utf8_text cs) = Ok (Some false) /\ string_compare_part (utf8_text cs) 2 3 (utf8_text [0x20AC]) = Ok (Some 0) /\
  string_compare_part (utf8_text cs) 7 1 [] = Ok None.
Proof. repeat split; vm_compute; reflexivity. Qed.
