(** * What a C++ compiler reads from the generated headers *)
From Coq Require Import Ascii String Permutation Sorting.Sorted.
From Verif Require Import Prelude DataTables UnicodeSpec GenModel GenSpec CxxSpec GenHeaderModel GenText GenProofs GenComp GenBreak.

(** ** Words *)
Definition plain (c : ascii) : bool :=
  negb (white c) && negb (Ascii.eqb c "{") && negb (Ascii.eqb c "}") && negb (Ascii.eqb c ",").
Definition plain_word (w : list ascii) : Prop := w <> [] /\ forall c, In c w -> plain c = true.
Lemma tokens_word u w s : (forall c, In c w -> plain c = true) -> tokens u (w ++ s) = tokens (u ++ w) s.
Proof.
  revert u. induction w as [|c w IH]; intros u P; [rewrite app_nil_r; reflexivity|].
  cbn [app tokens]. assert (Pc := P c (or_introl eq_refl)). unfold plain in Pc.
  apply andb_prop in Pc. destruct Pc as [Pc P4]. apply andb_prop in Pc. destruct Pc as [Pc P3].
  apply andb_prop in Pc. destruct Pc as [P1 P2]. apply negb_true_iff in P1, P2, P3, P4.
  rewrite P1, P2, P3, P4, IH by (intros; apply P; right; assumption). rewrite <- app_assoc. reflexivity.
Qed.
Lemma so_far w : w <> [] -> word_so_far w = [Word w].
Proof. destruct w; [contradiction|reflexivity]. Qed.

(** ** Rows *)
Definition row_text (ws : list text) : text := lit "{ " ++ join_text (lit ", ") ws ++ lit " }".
Fixpoint row_tokens (ws : list text) : list token :=
  match ws with
  | [] => [Close]
  | [w] => [Word w; Close]
  | w :: ws => Word w :: Comma :: row_tokens ws
  end.
Definition row_ok (ws : list text) : Prop := ws <> [] /\ forall w, In w ws -> plain_word w.
Lemma tokens_values ws s : row_ok ws -> tokens [] (join_text (lit ", ") ws ++ lit " }" ++ s) = row_tokens ws ++ tokens [] s.
Proof.
  intros [N P]. induction ws as [|w ws IH]; [contradiction|]. assert (Pw := P w (or_introl eq_refl)). destruct Pw as [W Pw].
  destruct ws as [|w' ws].
  - cbn [join_text row_tokens]. rewrite tokens_word by assumption. cbn [app lit list_ascii_of_string].
    cbn [tokens]. cbn [white existsb Ascii.eqb Bool.eqb orb app]. rewrite so_far by assumption. reflexivity.
  - change (join_text (lit ", ") (w :: w' :: ws)) with (w ++ lit ", " ++ join_text (lit ", ") (w' :: ws)).
    rewrite <- !app_assoc. rewrite tokens_word by assumption. change (lit ", ") with [","; " "]%char. cbn [app].
    cbn [tokens]. change (white ",") with false. change (white " ") with true. cbn [Ascii.eqb Bool.eqb word_so_far app].
    change (Ascii.eqb "," "{") with false. change (Ascii.eqb "," "}") with false. change (Ascii.eqb "," ",") with true. cbn iota.
    rewrite so_far by assumption. cbn [app].
    change (row_tokens (w :: w' :: ws)) with (Word w :: Comma :: row_tokens (w' :: ws)). cbn [app]. f_equal. f_equal.
    apply IH; [discriminate|]. intros x X. apply P. right. exact X.
Qed.
Lemma tokens_row ws s : row_ok ws -> tokens [] (row_text ws ++ s) = Open :: row_tokens ws ++ tokens [] s.
Proof.
  intros R. unfold row_text. rewrite <- !app_assoc. change (lit "{ ") with ["{"; " "]%char. cbn [app tokens].
  change (white "{") with false. change (white " ") with true. change (Ascii.eqb "{" "{") with true. cbn [word_so_far app].
  f_equal. apply tokens_values. exact R.
Qed.
Lemma rows_values row ws ts : ws <> [] ->
  rows_of (BeforeValue row) (row_tokens ws ++ ts) = option_map (cons (row ++ ws)) (rows_of AfterRow ts).
Proof.
  revert row. induction ws as [|w ws IH]; intros row N; [contradiction|]. destruct ws as [|w' ws]; [reflexivity|].
  change (row_tokens (w :: w' :: ws)) with (Word w :: Comma :: row_tokens (w' :: ws)). cbn [app rows_of].
  rewrite IH by discriminate. rewrite <- app_assoc. reflexivity.
Qed.
Lemma rows_row ws s : row_ok ws ->
  rows_of BeforeRow (tokens [] (row_text ws ++ s)) = option_map (cons ws) (rows_of AfterRow (tokens [] s)).
Proof. intros R. rewrite tokens_row by assumption. cbn [rows_of]. rewrite rows_values by apply R. reflexivity. Qed.
(** Rows separated by commas. *)
Lemma header_rows rows : (forall r, In r rows -> row_ok r) ->
  initializer (join_text comma_newline (map row_text rows)) = Some rows.
Proof.
  unfold initializer. induction rows as [|r rows IH]; intros P; [reflexivity|].
  destruct rows as [|r' rows].
  - cbn [map join_text]. rewrite <- (app_nil_r (row_text r)), rows_row by (apply P; left; reflexivity). reflexivity.
  - change (join_text comma_newline (map row_text (r :: r' :: rows)))
      with (row_text r ++ comma_newline ++ join_text comma_newline (map row_text (r' :: rows))).
    rewrite rows_row by (apply P; left; reflexivity).
    change (tokens [] (comma_newline ++ join_text comma_newline (map row_text (r' :: rows))))
      with (Comma :: tokens [] (join_text comma_newline (map row_text (r' :: rows)))).
    cbn [rows_of]. rewrite IH by (intros; apply P; right; assumption). reflexivity.
Qed.
(** Rows each with a comma and a newline after it. *)
Lemma lines_rows rows : (forall r, In r rows -> row_ok r) ->
  initializer (flat_map (fun line => line ++ ["010"%char]) (map (fun r => row_text r ++ lit ",") rows)) = Some rows.
Proof.
  unfold initializer. induction rows as [|r rows IH]; intros P; [reflexivity|]. cbn [map flat_map].
  rewrite <- !app_assoc, rows_row by (apply P; left; reflexivity).
  match goal with |- context [tokens [] (lit "," ++ ["010"%char] ++ ?s)] =>
    change (tokens [] (lit "," ++ ["010"%char] ++ s)) with (Comma :: tokens [] s) end.
  cbn [rows_of]. rewrite IH by (intros; apply P; right; assumption). reflexivity.
Qed.

(** ** Numbers *)
Lemma print_digits_numeral f n acc : 0 <= n -> print_digits f n acc = numeral 10 f n ++ acc.
Proof.
  revert n acc. induction f as [|f IH]; intros n acc N; [reflexivity|]. cbn [print_digits numeral].
  assert (D : ascii_of_nat (Z.to_nat (48 + n mod 10)) = digit (n mod 10)).
  { unfold digit. destruct (Z.ltb_spec (n mod 10) 10); [reflexivity|]. pose proof (Z.mod_pos_bound n 10). lia. }
  rewrite D. destruct (Z.ltb_spec n 10); [reflexivity|].
  rewrite IH by (apply Z.div_pos; lia). rewrite <- app_assoc. reflexivity.
Qed.
Lemma print_number_dec n : 0 <= n -> print_number n = dec n.
Proof. intros N. unfold print_number, dec. rewrite print_digits_numeral by assumption. apply app_nil_r. Qed.
Definition decimal_digit (c : ascii) : Prop := exists d, 0 <= d < 10 /\ c = digit d.
Lemma dec_digits n c : 0 <= n -> In c (dec n) -> decimal_digit c.
Proof.
  intros N I. apply (numeral_spec 10) in I; [|lia|assumption|apply log2_fuel; assumption].
  destruct I as [(d & D & ->) L]. rewrite digit_value_digit in L by assumption. exists d. split; [lia|reflexivity].
Qed.
Lemma decimal_digit_facts c : decimal_digit c ->
  plain c = true /\ exists d, 0 <= d < 10 /\ digit_of c = Some d /\ digit_value c = d.
Proof.
  intros (d & D & ->).
  assert (C : d = 0 \/ d = 1 \/ d = 2 \/ d = 3 \/ d = 4 \/ d = 5 \/ d = 6 \/ d = 7 \/ d = 8 \/ d = 9) by lia.
  split; [|exists d; split; [assumption|]];
  repeat (destruct C as [->|C]; [vm_compute; repeat split; reflexivity|]); subst d; vm_compute; repeat split; reflexivity.
Qed.
Lemma literal_decimal acc s : (forall c, In c s -> decimal_digit c) -> literal_from 10 acc s = Some (number_from 10 acc s).
Proof.
  revert acc. induction s as [|c s IH]; intros acc P; [reflexivity|]. cbn [literal_from number_from].
  destruct (decimal_digit_facts c (P c (or_introl eq_refl))) as (_ & d & D & E & E'). rewrite E, E'.
  destruct (Z.ltb_spec d 10); [|lia]. apply IH. intros. apply P. right. assumption.
Qed.
(** The first digit is 0 in 0 only. *)
Lemma numeral_head f n : 0 < n -> n < 2 ^ Z.of_nat f -> exists d s, 1 <= d < 10 /\ numeral 10 f n = digit d :: s.
Proof.
  revert n. induction f as [|f IH]; intros n N U; [cbn in U; lia|]. cbn [numeral].
  destruct (Z.ltb_spec n 10).
  - exists (n mod 10), []. rewrite Z.mod_small by lia. split; [lia|reflexivity].
  - assert (B : 0 < n / 10 /\ n / 10 < 2 ^ Z.of_nat f).
    { rewrite Nat2Z.inj_succ, Z.pow_succ_r in U by lia. pose proof (Z.div_mod n 10). pose proof (Z.mod_pos_bound n 10).
      assert (1 <= 2 ^ Z.of_nat f) by (apply (Z.pow_le_mono_r 2 0); lia). lia. }
    destruct (IH (n / 10)) as (d & s & D & E); [tauto..|]. exists d, (s ++ [digit (n mod 10)]). rewrite E. auto.
Qed.
Lemma digit_nonzero d : 1 <= d < 10 -> Ascii.eqb (digit d) "0" = false.
Proof.
  intros D. assert (C : d = 1 \/ d = 2 \/ d = 3 \/ d = 4 \/ d = 5 \/ d = 6 \/ d = 7 \/ d = 8 \/ d = 9) by lia.
  repeat (destruct C as [->|C]; [reflexivity|]); subst d; reflexivity.
Qed.
Lemma int_literal_dec n : 0 <= n < 2 ^ 31 -> int_literal (dec n) = Some n.
Proof.
  intros N. destruct (Z.eq_dec n 0) as [->|Z0]; [reflexivity|].
  assert (V : literal_from 10 0 (dec n) = Some n).
  { rewrite literal_decimal by (intros c; apply dec_digits; lia). f_equal. apply (dec_value n). lia. }
  destruct (numeral_head (S (Z.to_nat (Z.log2 n))) n) as (d & s & D & E); [lia|apply log2_fuel; lia|].
  fold (dec n) in E. unfold int_literal. rewrite E in V |- *. rewrite digit_nonzero, V by assumption.
  destruct (Z.ltb_spec n (2 ^ 31)); [reflexivity|lia].
Qed.
Lemma dec_nonempty n : 0 <= n -> dec n <> [].
Proof. intros N. apply (numeral_spec 10); [lia|assumption|apply log2_fuel; assumption|discriminate]. Qed.
Lemma dec_plain n : 0 <= n -> plain_word (dec n).
Proof. intros N. split; [apply dec_nonempty; assumption|]. intros c I. apply decimal_digit_facts, (dec_digits n); assumption. Qed.
Lemma number_from_pos base acc s : 0 <= base -> 0 <= acc -> 0 <= number_from base acc s.
Proof.
  intros B. revert acc. induction s as [|c s IH]; intros acc A; cbn [number_from]; [assumption|].
  destruct (digit_value c <? base); [|assumption]. apply IH.
  assert (0 <= digit_value c) by (unfold digit_value; repeat match goal with |- context [if ?b then _ else _] => destruct b eqn:? end; lia).
  assert (0 <= acc * base) by (apply Z.mul_nonneg_nonneg; assumption). lia.
Qed.
Lemma hex_pos s : 0 <= hex s.
Proof. apply number_from_pos; lia. Qed.
Lemma all_some_map {A B C} (f : B -> option C) (g : A -> B) (h : A -> C) l : (forall x, In x l -> f (g x) = Some (h x)) ->
  all_some (map f (map g l)) = Some (map h l).
Proof.
  induction l as [|x l IH]; intros P; [reflexivity|]. cbn [map all_some]. rewrite P by (left; reflexivity).
  rewrite IH by (intros; apply P; right; assumption). reflexivity.
Qed.
Definition in_int (n : Z) : Prop := 0 <= n < 2 ^ 31.
Definition small_table (table : list (list Z)) : Prop := forall r n, In r table -> In n r -> in_int n.
(** The general form of the three scripts in Perl. *)
Lemma print_table {A} (keys : list A) (ws : A -> list Z) (line : A -> text) :
  (forall k, In k keys -> ws k <> []) -> (forall k n, In k keys -> In n (ws k) -> in_int n) ->
  (forall k, In k keys -> line k = row_text (map dec (ws k))) ->
  int_table (join_text comma_newline (map line keys)) = Some (map ws keys).
Proof.
  intros N B L. unfold int_table.
  rewrite (map_ext_in line (fun k => row_text (map dec (ws k))) keys L).
  rewrite <- (map_map (fun k => map dec (ws k)) row_text). rewrite header_rows.
  - apply all_some_map. intros k K. rewrite <- (map_id (ws k)) at 2. apply all_some_map.
    intros n I. apply int_literal_dec, (B k n K I).
  - intros r R. apply in_map_iff in R. destruct R as (k & <- & K). split.
    + specialize (N k K). destruct (ws k); [contradiction|discriminate].
    + intros w W. apply in_map_iff in W. destruct W as (n & <- & I). apply dec_plain, (B k n K I).
Qed.

(** ** canonical_combining_class_data.pl *)
Lemma class_header_reads ord file : some_order ord -> file_ok file ->
  (forall e, In e file -> e_class e <> 0 -> e_code e < 2 ^ 31 /\ e_class e < 2 ^ 31) ->
  int_table (class_header ord (map line_of file)) = Some (generate_class ord (map line_of file)).
Proof.
  intros Ho W B. unfold class_header, generate_class. fold (class_hash file).
  destruct (class_hash_spec file W) as [N G].
  assert (K : forall k, In k (hkeys (class_hash file)) -> exists e, (In e file /\ e_class e <> 0) /\ k = hex4 (e_code e) /\
    hget (class_hash file) k = Some (dec (e_class e))).
  { intros k H. apply hget_keys in H. destruct H as (v & H). assert (H0 := H). apply G in H.
    destruct H as (e & I & NZ & -> & ->). exists e. auto. }
  assert (P : forall k, In k (sort_by (fun a b => hex a <? hex b) (ord 0%nat (hkeys (class_hash file)))) -> In k (hkeys (class_hash file))).
  { intros k H. eapply Permutation_in; [|exact H]. apply Permutation_sym.
    eapply perm_trans; [apply (Ho 0%nat)|apply sort_perm]. }
  apply print_table.
  - discriminate.
  - intros k n H I. destruct (K k (P k H)) as (e & [J NZ] & -> & E). rewrite E in I.
    assert (OK := proj1 W e J). destruct OK as (C1 & C2 & _). destruct (B e J NZ) as [B1 B2].
    rewrite hex_hex4, dec_value in I by assumption. unfold in_int. destruct I as [<-|[<-|[]]]; lia.
  - intros k H. destruct (K k (P k H)) as (e & [J NZ] & -> & E). rewrite E.
    assert (OK := proj1 W e J). destruct OK as (C1 & C2 & _).
    rewrite hex_hex4, dec_value, print_number_dec by assumption. unfold row_text. cbn [map join_text]. rewrite <- !app_assoc. reflexivity.
Qed.

(** ** canonical_decomposition_mapping_data.pl and its compatibility variant *)
Lemma join_more ws : ws <> [] -> join_text (lit ", ") ws ++ lit ", 0 }" = join_text (lit ", ") (ws ++ [dec 0]) ++ lit " }".
Proof.
  intros N. induction ws as [|w ws IH]; [contradiction|]. destruct ws as [|w' ws].
  - cbn [join_text app]. rewrite <- !app_assoc. reflexivity.
  - change (join_text (lit ", ") (w :: w' :: ws)) with (w ++ lit ", " ++ join_text (lit ", ") (w' :: ws)).
    change ((w :: w' :: ws) ++ [dec 0]) with (w :: (w' :: ws) ++ [dec 0]).
    change (join_text (lit ", ") (w :: (w' :: ws) ++ [dec 0]))
      with (w ++ lit ", " ++ join_text (lit ", ") ((w' :: ws) ++ [dec 0])).
    rewrite <- !app_assoc, IH by discriminate. reflexivity.
Qed.
Lemma mapping_header_reads compat fuel ord lines table :
  generate_mapping compat fuel ord lines = Ok table ->
  (forall r, In r table -> (3 <= List.length r)%nat) -> small_table table ->
  exists header, mapping_header compat fuel ord lines = Ok header /\ int_table header = Some table.
Proof.
  unfold generate_mapping, mapping_header. intros H L B.
  destruct (expand_loop fuel ord 1 (fold_left (mapping_line compat) lines [])) as [d| |]; try discriminate.
  cbn [bind] in H |- *. injection H as <-. eexists. split; [reflexivity|]. apply print_table.
  - discriminate.
  - intros k n K I. eapply B; [|exact I]. apply (in_map (fun k => hex k :: map hex match hget d k with Some l => l | None => [] end ++ [0])). exact K.
  - intros k K. assert (Lk := L _ (in_map (fun k => hex k :: map hex match hget d k with Some l => l | None => [] end ++ [0]) _ _ K)).
    set (m := match hget d k with Some l => l | None => [] end) in *.
    assert (M : m <> []) by (intros E; rewrite E in Lk; cbn in Lk; lia).
    unfold row_text. cbn [map]. rewrite map_app, map_map. cbn [map].
    rewrite (map_ext (fun x => print_number (hex x)) (fun x => dec (hex x))) by (intros; apply print_number_dec, hex_pos).
    rewrite print_number_dec by apply hex_pos. f_equal.
    clearbody m. destruct m as [|x m]; [contradiction|]. rewrite join_more by discriminate.
    cbn [map app join_text]. rewrite <- !app_assoc. reflexivity.
Qed.
Lemma mapping_header_hangs compat fuel ord lines :
  generate_mapping compat fuel ord lines = OutOfFuel <-> mapping_header compat fuel ord lines = OutOfFuel.
Proof.
  unfold generate_mapping, mapping_header.
  destruct (expand_loop fuel ord 1 (fold_left (mapping_line compat) lines [])); cbn [bind]; split; congruence.
Qed.

(** ** canonical_composition_mapping_data.pl *)
Lemma composition_header_reads ord lines exclusions : small_table (generate_composition ord lines exclusions) ->
  int_table (composition_header ord lines exclusions) = Some (generate_composition ord lines exclusions).
Proof.
  unfold generate_composition, composition_header. destruct (fold_left composition_line lines ([], [])) as [ccc d]. cbv zeta.
  set (d' := fold_left _ _ d). intros B. apply print_table.
  - discriminate.
  - intros k n K I. eapply B; [|exact I]. apply in_map_iff. exists k. split; [reflexivity|exact K].
  - intros k K. unfold row_text. f_equal. f_equal. f_equal. cbn [map].
    rewrite !print_number_dec by apply hex_pos. destruct (hget d' k); reflexivity.
Qed.

(** ** grapheme_cluster_break_data.sh *)
Lemma insert_map {A B} (f : A -> B) lt lt' x l : (forall y, In y l -> lt' (f y) (f x) = lt y x) ->
  insert lt' (f x) (map f l) = map f (insert lt x l).
Proof.
  induction l as [|y l IH]; intros P; [reflexivity|]. cbn [insert map]. rewrite P by (left; reflexivity).
  destruct (lt y x); [|reflexivity]. cbn [map]. rewrite IH by (intros; apply P; right; assumption). reflexivity.
Qed.
Lemma sort_map {A B} (f : A -> B) lt lt' l : (forall x y, In x l -> In y l -> lt' (f x) (f y) = lt x y) ->
  sort_by lt' (map f l) = map f (sort_by lt l).
Proof.
  intros P. unfold sort_by. induction l as [|x l IH]; [reflexivity|]. cbn [map fold_right].
  rewrite IH by (intros; apply P; right; assumption). apply insert_map. intros y Y. apply P; [|left; reflexivity].
  right. eapply Permutation_in; [|exact Y]. apply Permutation_sym, (sort_perm lt l).
Qed.
Lemma enumerator_of name v : hget enumerators name = Some v ->
  enumerator (lit "grapheme_cluster_break::prop_value_type::" ++ name) = Some v /\
  plain_word (lit "grapheme_cluster_break::prop_value_type::" ++ name).
Proof.
  intros H.
  assert (C : forall (l : hash gcb) n (v : gcb), hget l n = Some v -> In (n, v) l).
  { clear. induction l as [|[k u] l IH]; intros n v; [discriminate|]. cbn [hget].
    destruct (text_eqb n k) eqn:E; [|right; apply IH; assumption].
    apply text_eqb_eq in E. intros H. injection H as ->. subst. left. reflexivity. }
  apply C in H. clear C.
  assert (A : forall p, In p enumerators ->
    enumerator (lit "grapheme_cluster_break::prop_value_type::" ++ fst p) = Some (snd p) /\
    forallb plain (lit "grapheme_cluster_break::prop_value_type::" ++ fst p) = true).
  { intros p P. unfold enumerators in P. cbn [In] in P.
    repeat (destruct P as [<-|P]; [split; vm_compute; reflexivity|]). destruct P. }
  destruct (A _ H) as [A1 A2]. cbn [fst snd] in A1, A2. split; [assumption|]. split; [discriminate|].
  apply forallb_forall. exact A2.
Qed.
Lemma number_then acc s c r : (forall x, In x s -> digit_value x < 10) -> 10 <= digit_value c ->
  number_from 10 acc (s ++ c :: r) = number_from 10 acc s.
Proof.
  intros P C. revert acc. induction s as [|x s IH]; intros acc; cbn [app number_from].
  - destruct (Z.ltb_spec (digit_value c) 10); [lia|reflexivity].
  - destruct (digit_value x <? 10); [|reflexivity]. apply IH. intros. apply P. right. assumption.
Qed.
Lemma sort_number_line n r : 0 <= n -> sort_number (lit "{ " ++ dec n ++ lit ", " ++ r) = n.
Proof.
  intros N. unfold sort_number. change (lit "{ ") with ["{"; " "]%char. cbn [app].
  cbn [drop_while]. change (is_blank "{") with false. cbn [drop_while negb]. change (is_blank "{") with false. cbn [negb].
  change (is_blank " ") with true. cbn [negb drop_while]. change (is_blank " ") with true. cbn iota.
  assert (E : drop_while is_blank (dec n ++ lit ", " ++ r) = dec n ++ lit ", " ++ r).
  { assert (D := fun c => dec_digits n c N). assert (NE := dec_nonempty n N).
    destruct (dec n) as [|c s]; [contradiction|]. cbn [app drop_while].
    destruct (decimal_digit_facts c (D c (or_introl eq_refl))) as (P & _).
    assert (Q : is_blank c = false).
    { unfold is_blank. destruct (Ascii.eqb_spec c " ") as [->|]; [discriminate P|].
      destruct (Ascii.eqb_spec c "009") as [->|]; [discriminate P|reflexivity]. }
    rewrite Q. reflexivity. }
  rewrite E. change (lit ", ") with [","; " "]%char. cbn [app]. unfold decimal.
  rewrite number_then; [apply (dec_value n N)| |vm_compute; discriminate].
  intros x X. destruct (decimal_digit_facts x (dec_digits n x N X)) as (_ & d & D & _ & ->). lia.
Qed.
Lemma break_header_reads lines table : generate_break lines = Some table ->
  (forall a b v, In (a, b, v) table -> in_int a /\ in_int b) ->
  range_table (break_header lines) = Some table.
Proof.
  unfold generate_break, break_header. set (L := List.filter starts_with_number lines). clearbody L. clear lines.
  intros H B.
  destruct (forallb (fun r => match r with Some _ => true | None => false end) (map range_row L)) eqn:F; [|discriminate].
  injection H as <-.
  set (row := fun l => match range_row l with Some r => r | None => (0, 0, G_OTHER) end).
  assert (R : forall l, In l L -> range_row l = Some (row l)).
  { intros l I. rewrite forallb_forall in F. specialize (F _ (in_map range_row _ _ I)). unfold row.
    destruct (range_row l); [reflexivity|discriminate]. }
  assert (E : flat_map (fun r : option (Z * Z * gcb) => match r with Some x => [x] | None => [] end) (map range_row L) = map row L).
  { clear F B. induction L as [|l L IH]; [reflexivity|]. cbn [map flat_map].
    rewrite (R l) by (left; reflexivity). rewrite IH by (intros; apply R; right; assumption). reflexivity. }
  rewrite E in *. clear E F.
  set (line := fun l => range_line (double_number l)).
  (** The words of a line. *)
  set (words := fun l => match range_match (double_number l) with
    | Some (s, e, name) => [dec (hex s); dec (hex e); lit "grapheme_cluster_break::prop_value_type::" ++ map upper name]
    | None => [] end).
  assert (Ws : forall l, In l L -> line l = row_text (words l) ++ lit "," /\ row_ok (words l) /\
    exists a b v, row l = (a, b, v) /\ words l = [dec a; dec b; nth 2 (words l) []] /\ 0 <= a /\ 0 <= b /\ enumerator (nth 2 (words l) []) = Some v).
  { intros l I. specialize (R l I). unfold range_row in R. unfold line, words, range_line.
    destruct (range_match (double_number l)) as [[[s e] name]|]; [|discriminate].
    destruct (hget enumerators (map upper name)) as [v|] eqn:V; [|discriminate]. injection R as R.
    destruct (enumerator_of _ _ V) as [EV PV]. rewrite !print_number_dec by apply hex_pos. split; [|split].
    - unfold row_text. rewrite <- !app_assoc. reflexivity.
    - split; [discriminate|]. intros w [<-|[<-|[<-|[]]]]; [apply dec_plain, hex_pos..|exact PV].
    - exists (hex s), (hex e), v. rewrite <- R. cbn [nth]. repeat split; try apply hex_pos. exact EV. }
  assert (Sn : forall l, In l L -> sort_number (line l) = fst (fst (row l))).
  { intros l I. destruct (Ws l I) as (-> & _ & a & b & v & -> & -> & A & _). cbn [fst]. unfold row_text.
    change (join_text (lit ", ") [dec a; dec b; nth 2 (words l) []]) with (dec a ++ lit ", " ++ (dec b ++ lit ", " ++ nth 2 (words l) [])).
    rewrite <- !app_assoc. apply sort_number_line. exact A. }
  set (before := fun a b => fst (fst (row a)) <? fst (fst (row b))).
  rewrite (sort_map line before) by (intros x y X Y; unfold before; rewrite !Sn by assumption; reflexivity).
  rewrite (sort_map row before) in * by reflexivity.
  set (K := sort_by before L) in *.
  assert (KL : forall l, In l K -> In l L).
  { intros l I. eapply Permutation_in; [|exact I]. apply Permutation_sym, sort_perm. }
  rewrite (map_ext_in line (fun l => row_text (words l) ++ lit ",") K) by (intros l I; apply Ws, KL, I).
  rewrite <- (map_map words (fun r => row_text r ++ lit ",")). unfold range_table. rewrite lines_rows.
  - apply all_some_map. intros l I. destruct (Ws l (KL l I)) as (_ & _ & a & b & v & Er & -> & A & Bp & V).
    rewrite Er. cbn [range_of nth] in *. destruct (B a b v) as [Ba Bb]; [rewrite <- Er; apply in_map; exact I|].
    rewrite !int_literal_dec by assumption. rewrite V. reflexivity.
  - intros r H. apply in_map_iff in H. destruct H as (l & <- & I). apply Ws, KL, I.
Qed.
