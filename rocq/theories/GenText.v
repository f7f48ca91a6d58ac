(** * Texts, numbers, hashes and sorting in the generators *)
From Coq Require Import Ascii String Permutation Sorting.Sorted.
From Verif Require Import Prelude DataTables GenModel GenSpec PropsModel PropsProofs.

Lemma text_eqb_eq a b : text_eqb a b = true <-> a = b.
Proof.
  revert b. induction a as [|x a IH]; intros [|y b]; cbn; split; intros H; try reflexivity; try discriminate.
  - apply andb_prop in H. destruct H as [E H]. apply Ascii.eqb_eq in E. apply IH in H. congruence.
  - injection H as -> ->. rewrite Ascii.eqb_refl. apply IH. reflexivity.
Qed.
Lemma text_eqb_refl a : text_eqb a a = true.
Proof. apply text_eqb_eq. reflexivity. Qed.
Lemma text_eqb_neq a b : text_eqb a b = false <-> a <> b.
Proof.
  split; intros H.
  - intros E. apply text_eqb_eq in E. congruence.
  - destruct (text_eqb a b) eqn:E; [apply text_eqb_eq in E; contradiction|reflexivity].
Qed.

(** ** Numbers *)
Lemma digit_cases (P : Z -> Prop) : P 0 -> P 1 -> P 2 -> P 3 -> P 4 -> P 5 -> P 6 -> P 7 -> P 8 -> P 9 ->
  P 10 -> P 11 -> P 12 -> P 13 -> P 14 -> P 15 -> forall d, 0 <= d < 16 -> P d.
Proof.
  intros. assert (C : d = 0 \/ d = 1 \/ d = 2 \/ d = 3 \/ d = 4 \/ d = 5 \/ d = 6 \/ d = 7 \/ d = 8 \/ d = 9 \/
    d = 10 \/ d = 11 \/ d = 12 \/ d = 13 \/ d = 14 \/ d = 15) by lia.
  repeat (destruct C as [->|C]; [assumption|]). subst. assumption.
Qed.
Lemma digit_value_digit d : 0 <= d < 16 -> digit_value (digit d) = d.
Proof. revert d. apply digit_cases; reflexivity. Qed.
Definition upper_digit (c : ascii) : Prop := exists d, 0 <= d < 16 /\ c = digit d.
Lemma upper_digit_class c : upper_digit c -> is_upper_hex c = true /\ is_hex c = true /\ is_space c = false.
Proof. intros (d & H & ->). revert d H. apply digit_cases; repeat split; reflexivity. Qed.
Lemma upper_digit_not c x : upper_digit c -> is_upper_hex x = false -> c <> x.
Proof. intros H N ->. apply upper_digit_class in H. destruct H. congruence. Qed.
Lemma is_upper_hex_digit c : is_upper_hex c = true -> upper_digit c.
Proof.
  unfold is_upper_hex, is_hex, digit_value. intros H. apply andb_prop in H. destruct H as [H L].
  exists (let n := Z.of_nat (nat_of_ascii c) in if n <? 60 then n - 48 else n - 55).
  assert (E : c = ascii_of_nat (nat_of_ascii c)) by (symmetry; apply ascii_nat_embedding).
  set (n := nat_of_ascii c) in *. clearbody n. subst c. unfold digit. cbv zeta.
  destruct (Z.leb_spec 48 (Z.of_nat n)); destruct (Z.leb_spec (Z.of_nat n) 57); cbn [andb] in H.
  - destruct (Z.ltb_spec (Z.of_nat n) 60); [|lia]. split; [lia|].
    destruct (Z.ltb_spec (Z.of_nat n - 48) 10); [|lia]. f_equal. lia.
  - destruct (Z.leb_spec 65 (Z.of_nat n)); destruct (Z.leb_spec (Z.of_nat n) 70); cbn [andb] in H; try lia.
    + destruct (Z.ltb_spec (Z.of_nat n) 60); [lia|]. split; [lia|].
      destruct (Z.ltb_spec (Z.of_nat n - 55) 10); [lia|]. f_equal. lia.
    + destruct (Z.leb_spec 97 (Z.of_nat n)); destruct (Z.leb_spec (Z.of_nat n) 102); cbn [andb] in H; try discriminate; lia.
  - destruct (Z.leb_spec 65 (Z.of_nat n)); cbn [andb] in H; [lia|].
    destruct (Z.leb_spec 97 (Z.of_nat n)); cbn [andb] in H; [lia|]. discriminate.
  - lia.
Qed.

Lemma number_from_app base acc s c : (forall x, In x s -> digit_value x < base) -> digit_value c < base ->
  number_from base acc (s ++ [c]) = number_from base acc s * base + digit_value c.
Proof.
  revert acc. induction s as [|x s IH]; intros acc F Hc; cbn [app number_from].
  - destruct (Z.ltb_spec (digit_value c) base); [reflexivity|lia].
  - assert (Hx := F x (or_introl eq_refl)). destruct (Z.ltb_spec (digit_value x) base); [|lia].
    apply IH; [|assumption]. intros. apply F. right. assumption.
Qed.
Lemma numeral_spec base : 2 <= base <= 16 -> forall fuel n, 0 <= n -> n < 2 ^ Z.of_nat fuel ->
  number_from base 0 (numeral base fuel n) = n /\
  (forall x, In x (numeral base fuel n) -> upper_digit x /\ digit_value x < base) /\
  (fuel <> O -> numeral base fuel n <> []).
Proof.
  intros B. induction fuel as [|fuel IH]; intros n N U.
  - cbn in U. assert (n = 0) as -> by lia. cbn. repeat split; try contradiction.
  - cbn [numeral]. assert (M : 0 <= n mod base < base) by (apply Z.mod_pos_bound; lia).
    assert (DV : digit_value (digit (n mod base)) = n mod base) by (apply digit_value_digit; lia).
    assert (UD : upper_digit (digit (n mod base))) by (exists (n mod base); split; [lia|reflexivity]).
    assert (IN : forall s, (forall x, In x s -> upper_digit x /\ digit_value x < base) ->
      forall x, In x (s ++ [digit (n mod base)]) -> upper_digit x /\ digit_value x < base).
    { intros s Hs x Hx. apply in_app_or in Hx. destruct Hx as [Hx|[<-|[]]]; [auto|]. rewrite DV. split; [assumption|lia]. }
    destruct (Z.ltb_spec n base) as [L|L].
    + repeat split.
      * cbn [app number_from]. rewrite DV. rewrite Z.mod_small by lia. destruct (Z.ltb_spec n base); lia.
      * apply (IN []) in H; [tauto|intros ? []].
      * apply (IN []) in H; [tauto|intros ? []].
      * intros _. discriminate.
    + rewrite Nat2Z.inj_succ, Z.pow_succ_r in U by lia.
      destruct (IH (n / base)) as (V & I & _).
      { apply Z.div_pos; lia. }
      { apply Z.div_lt_upper_bound; [lia|]. pose proof (Z.pow_pos_nonneg 2 (Z.of_nat fuel)). nia. }
      repeat split.
      * rewrite number_from_app; [|intros; apply I; assumption|lia]. rewrite V, DV.
        rewrite (Z.mul_comm (n / base)). symmetry. apply Z.div_mod. lia.
      * apply (IN _ I) in H; tauto.
      * apply (IN _ I) in H; tauto.
      * intros _ E. apply app_eq_nil in E. destruct E; discriminate.
Qed.
Lemma log2_fuel n : 0 <= n -> n < 2 ^ Z.of_nat (S (Z.to_nat (Z.log2 n))).
Proof.
  intros H. rewrite Nat2Z.inj_succ, Z2Nat.id by apply Z.log2_nonneg.
  destruct (Z.eq_dec n 0) as [->|]; [reflexivity|]. apply Z.log2_spec. lia.
Qed.
Lemma number_from_zeros base k s : 0 < base -> number_from base 0 (repeat "0"%char k ++ s) = number_from base 0 s.
Proof.
  intros B. induction k as [|k IH]; [reflexivity|]. cbn [repeat app number_from].
  change (digit_value "0"%char) with 0. destruct (Z.ltb_spec 0 base); [exact IH|lia].
Qed.
Lemma hex_hex4 n : 0 <= n -> hex (hex4 n) = n.
Proof.
  intros N. unfold hex, hex4. rewrite number_from_zeros by lia.
  apply numeral_spec; [lia|assumption|apply log2_fuel; assumption].
Qed.
Lemma hex4_digits n x : 0 <= n -> In x (hex4 n) -> upper_digit x.
Proof.
  intros N H. unfold hex4 in H. apply in_app_or in H. destruct H as [H|H].
  - apply repeat_spec in H. subst. exists 0. split; [lia|reflexivity].
  - apply (numeral_spec 16) in H; [tauto|lia|assumption|apply log2_fuel; assumption].
Qed.
Lemma hex4_cons n : exists c s, hex4 n = c :: s.
Proof.
  unfold hex4. destruct (numeral 16 _ n) as [|c s] eqn:E.
  - exists "0"%char, (repeat "0"%char 3). reflexivity.
  - destruct (repeat "0"%char _); cbn; eauto.
Qed.
Lemma hex4_nonempty n : hex4 n <> [].
Proof. destruct (hex4_cons n) as (c & s & E). congruence. Qed.
Lemma hex4_inj n m : 0 <= n -> 0 <= m -> hex4 n = hex4 m -> n = m.
Proof. intros N M E. rewrite <- (hex_hex4 n N), <- (hex_hex4 m M), E. reflexivity. Qed.
Lemma hex4_not n x : 0 <= n -> is_upper_hex x = false -> ~ In x (hex4 n).
Proof. intros N H I. apply hex4_digits in I; [|assumption]. apply upper_digit_class in I. destruct I. congruence. Qed.
Lemma hex4_length n : (4 <= List.length (hex4 n))%nat.
Proof. unfold hex4. rewrite app_length, repeat_length. lia. Qed.
Lemma hex4_truthy n : truthy (hex4 n) = true.
Proof.
  unfold truthy. pose proof (hex4_length n) as L. destruct (hex4 n) as [|a [|b s]]; cbn in L; try lia.
  cbn. rewrite andb_false_r. reflexivity.
Qed.
Lemma dec_value n : 0 <= n -> decimal (dec n) = n.
Proof. intros N. apply numeral_spec; [lia|assumption|apply log2_fuel; assumption]. Qed.
Lemma dec_not n x : 0 <= n -> is_upper_hex x = false -> ~ In x (dec n).
Proof.
  intros N H I. apply (numeral_spec 10) in I; [|lia|assumption|apply log2_fuel; assumption].
  destruct I as [I _]. apply upper_digit_class in I. destruct I. congruence.
Qed.
Lemma dec_truthy n : 0 <= n -> truthy (dec n) = negb (n =? 0).
Proof.
  intros N. unfold truthy. destruct (text_eqb (dec n) []) eqn:E.
  - apply text_eqb_eq in E. exfalso. revert E. apply (numeral_spec 10); [lia|assumption|apply log2_fuel; assumption|discriminate].
  - cbn [negb andb]. f_equal. destruct (Z.eqb_spec n 0) as [->|Z0]; [reflexivity|].
    apply text_eqb_neq. intros C. apply Z0. rewrite <- (dec_value n N), C. reflexivity.
Qed.

(** ** Splitting *)
Lemma fields_word runs sep a w : (forall x, In x w -> sep x = false) ->
  (w = [] -> runs && a = false) -> fields runs sep a w = [w].
Proof.
  intros F _. revert a. induction w as [|x w IH]; intros a; [reflexivity|]. cbn [fields].
  rewrite (F x (or_introl eq_refl)). rewrite IH; [reflexivity|]. intros. apply F. right. assumption.
Qed.
Lemma fields_app runs sep a w c s : (forall x, In x w -> sep x = false) -> sep c = true ->
  runs && a && match w with [] => true | _ => false end = false ->
  fields runs sep a (w ++ c :: s) = w :: fields runs sep true s.
Proof.
  intros F C. revert a. induction w as [|x w IH]; intros a H; cbn [app fields].
  - rewrite C. rewrite andb_true_r in H. rewrite H. reflexivity.
  - rewrite (F x (or_introl eq_refl)). rewrite IH; [reflexivity| |apply andb_false_iff; left; apply andb_false_r].
    intros. apply F. right. assumption.
Qed.
Lemma fields_join sep c a ws : ws <> [] -> (forall w x, In w ws -> In x w -> sep x = false) -> sep c = true ->
  fields false sep a (join [c] ws) = ws.
Proof.
  intros N F C. revert a. induction ws as [|w ws IH]; intros a; [contradiction|].
  destruct ws as [|w' ws].
  - cbn [join]. apply fields_word; [intros; eapply F; [left; reflexivity|eassumption]|reflexivity].
  - change (join [c] (w :: w' :: ws)) with (w ++ c :: join [c] (w' :: ws)).
    rewrite fields_app; [|intros; eapply F; [left; reflexivity|eassumption]|assumption|reflexivity].
    f_equal. apply IH; [discriminate|]. intros u x U X. eapply F; [right; eassumption|eassumption].
Qed.
Lemma fields_join_runs sep c a ws : ws <> [] -> (forall w, In w ws -> w <> []) ->
  (forall w x, In w ws -> In x w -> sep x = false) -> sep c = true ->
  fields true sep a (join [c] ws) = ws.
Proof.
  intros N E F C. revert a. induction ws as [|w ws IH]; intros a; [contradiction|].
  assert (Ew := E w (or_introl eq_refl)).
  destruct ws as [|w' ws].
  - cbn [join]. apply fields_word; [intros; eapply F; [left; reflexivity|eassumption]|contradiction].
  - change (join [c] (w :: w' :: ws)) with (w ++ c :: join [c] (w' :: ws)).
    rewrite fields_app; [|intros; eapply F; [left; reflexivity|eassumption]|assumption|destruct w; [contradiction|apply andb_false_r]].
    f_equal. apply IH; [discriminate| |].
    + intros. apply E. right. assumption.
    + intros u x U X. eapply F; [right; eassumption|eassumption].
Qed.
Lemma field_drop n l : field n (drop_trailing_empty l) = field n l.
Proof.
  unfold field. revert n. induction l as [|w l IH]; intros n; [reflexivity|]. cbn [drop_trailing_empty].
  destruct w as [|c w]; [destruct (drop_trailing_empty l) as [|u us] eqn:D|].
  - destruct n as [|n]; [reflexivity|]. cbn [nth]. rewrite <- IH. destruct n; reflexivity.
  - destruct n as [|n]; [reflexivity|]. cbn [nth]. apply IH.
  - destruct n as [|n]; [reflexivity|]. cbn [nth]. destruct (drop_trailing_empty l); apply IH.
Qed.
Lemma drop_nonempty l : (forall w, In w l -> w <> []) -> drop_trailing_empty l = l.
Proof.
  induction l as [|w l IH]; intros E; [reflexivity|]. cbn [drop_trailing_empty].
  rewrite IH by (intros; apply E; right; assumption).
  destruct w; [exfalso; apply (E []); [left|]; reflexivity|]. destruct l; reflexivity.
Qed.
Lemma split_spaces_hex4 l : l <> [] -> (forall c, In c l -> 0 <= c) ->
  split_spaces (join [" "%char] (map hex4 l)) = map hex4 l.
Proof.
  intros N P. unfold split_spaces.
  assert (NE : forall w, In w (map hex4 l) -> w <> []).
  { intros w H. apply in_map_iff in H. destruct H as (c & <- & _). apply hex4_nonempty. }
  rewrite fields_join_runs; [apply drop_nonempty; assumption| |assumption| |reflexivity].
  - intros E. apply map_eq_nil in E. contradiction.
  - intros w x H X. apply in_map_iff in H. destruct H as (c & <- & H).
    apply hex4_digits in X; [|apply P; assumption]. apply upper_digit_class in X. tauto.
Qed.

(** ** Hashes *)
Lemma hget_hset {V} (h : hash V) k v k' :
  hget (hset h k v) k' = if text_eqb k' k then Some v else hget h k'.
Proof.
  induction h as [|[a u] h IH]; cbn [hset hget].
  - destruct (text_eqb k' k); reflexivity.
  - destruct (text_eqb k a) eqn:E.
    + apply text_eqb_eq in E. subst a. cbn [hget]. destruct (text_eqb k' k); reflexivity.
    + cbn [hget]. rewrite IH. destruct (text_eqb k' a) eqn:E2; [|reflexivity].
      apply text_eqb_eq in E2. subst a. destruct (text_eqb k' k) eqn:E3; [|reflexivity].
      apply text_eqb_eq in E3. subst. rewrite text_eqb_refl in E. discriminate.
Qed.
Lemma hget_keys {V} (h : hash V) k : In k (hkeys h) <-> exists v, hget h k = Some v.
Proof.
  unfold hkeys. induction h as [|[a u] h IH]; cbn [map hget fst].
  - split; [intros []|intros (v & H); discriminate].
  - destruct (text_eqb k a) eqn:E.
    + apply text_eqb_eq in E. subst. split; [eauto|intros _; left; reflexivity].
    + apply text_eqb_neq in E. rewrite <- IH. split; [intros [H|H]; [congruence|assumption]|intros; right; assumption].
Qed.
Lemma hkeys_hset {V} (h : hash V) k v : hkeys (hset h k v) = if hexists h k then hkeys h else hkeys h ++ [k].
Proof.
  unfold hexists. induction h as [|[a u] h IH]; cbn [hset hget hkeys map fst].
  - reflexivity.
  - destruct (text_eqb k a) eqn:E; cbn [map fst]; [reflexivity|]. unfold hkeys in IH. rewrite IH.
    destruct (hget h k); reflexivity.
Qed.
Lemma nodup_hset {V} (h : hash V) k v : NoDup (hkeys h) -> NoDup (hkeys (hset h k v)).
Proof.
  intros N. rewrite hkeys_hset. unfold hexists. destruct (hget h k) eqn:E; [assumption|].
  assert (~ In k (hkeys h)). { intros H. apply hget_keys in H. destruct H. congruence. }
  apply Permutation_NoDup with (k :: hkeys h); [apply Permutation_cons_append|]. constructor; assumption.
Qed.
Lemma hget_hdelete {V} (h : hash V) k k' :
  hget (hdelete h k) k' = if text_eqb k' k then None else hget h k'.
Proof.
  unfold hdelete. induction h as [|[a u] h IH]; cbn [filter hget fst].
  - destruct (text_eqb k' k); reflexivity.
  - destruct (text_eqb k a) eqn:E; cbn [negb].
    + apply text_eqb_eq in E. subst a. rewrite IH. destruct (text_eqb k' k); reflexivity.
    + cbn [hget]. rewrite IH. destruct (text_eqb k' a) eqn:E2; [|reflexivity].
      apply text_eqb_eq in E2. subst a. destruct (text_eqb k' k) eqn:E3; [|reflexivity].
      apply text_eqb_eq in E3. subst. rewrite text_eqb_refl in E. discriminate.
Qed.
Lemma nodup_hdelete {V} (h : hash V) k : NoDup (hkeys h) -> NoDup (hkeys (hdelete h k)).
Proof.
  unfold hkeys, hdelete. induction h as [|[a u] h IH]; cbn [filter map fst]; [constructor|].
  intros N. inversion N as [|? ? A B]; subst. specialize (IH B).
  destruct (negb (text_eqb k a)); [|assumption]. cbn [map fst]. constructor; [|assumption].
  intros H. apply A. apply in_map_iff in H. destruct H as (p & <- & H). apply filter_In in H.
  apply in_map. tauto.
Qed.
(** Filling a hash from lines that set at most one key each. *)
Lemma fill_hash {A V} (step : hash V -> A -> hash V) (what : A -> option (text * V)) l :
  (forall h x, In x l -> step h x = match what x with Some (k, v) => hset h k v | None => h end) ->
  (forall x y k v w, In x l -> In y l -> what x = Some (k, v) -> what y = Some (k, w) -> v = w) ->
  forall h0, NoDup (hkeys h0) ->
  NoDup (hkeys (fold_left step l h0)) /\
  forall k v, hget (fold_left step l h0) k = Some v <->
    (exists x, In x l /\ what x = Some (k, v)) \/
    ((forall x w, In x l -> what x <> Some (k, w)) /\ hget h0 k = Some v).
Proof.
  intros S0. induction l as [|x l IH]; intros U h0 N; cbn [fold_left].
  - split; [assumption|]. intros k v. split; [intros H; right; split; [intros ? ? []|assumption]|].
    intros [(x & [] & _)|[_ H]]; assumption.
  - assert (S := fun h => S0 h x (or_introl eq_refl)).
    destruct (IH (fun h a Ha => S0 h a (or_intror Ha)) (fun a b k v w Ha Hb => U a b k v w (or_intror Ha) (or_intror Hb)) (step h0 x)) as [N' G].
    { rewrite S. destruct (what x) as [[? ?]|]; [apply nodup_hset|]; assumption. }
    split; [assumption|]. intros k v. rewrite G, S. split.
    + intros [(y & Y & W)|[Y W]]; [left; exists y; split; [right|]; assumption|].
      destruct (what x) as [[k' v']|] eqn:X.
      * rewrite hget_hset in W. destruct (text_eqb k k') eqn:E.
        -- apply text_eqb_eq in E. subst. injection W as <-. left. exists x. split; [left; reflexivity|assumption].
        -- right. split; [|assumption]. intros y w [<-|I]; [|apply Y; assumption].
           rewrite X. intros Q. injection Q as -> _. rewrite text_eqb_refl in E. discriminate.
      * right. split; [|assumption]. intros y w [<-|I]; [congruence|apply Y; assumption].
    + intros [(y & [<-|Y] & W)|[Y W]].
      * rewrite W. destruct (hget (fold_left step l (hset h0 k v)) k) as [v'|] eqn:F.
        -- rewrite S, W in G. rewrite G in F. destruct F as [(z & Z & Q)|[Z Q]].
           ++ left. exists z. split; [assumption|]. rewrite Q. rewrite (U z x k v' v); auto; [right|left]; auto.
           ++ right. split; [assumption|]. rewrite hget_hset, text_eqb_refl. reflexivity.
        -- right. split.
           ++ intros z w Z Q. assert (C : hget (fold_left step l (hset h0 k v)) k = Some w).
              { rewrite S, W in G. apply G. left. eauto. }
              congruence.
           ++ rewrite hget_hset, text_eqb_refl. reflexivity.
      * left. eauto.
      * right. split; [intros; apply Y; right; assumption|].
        destruct (what x) as [[k' v']|] eqn:X; [|assumption]. rewrite hget_hset.
        destruct (text_eqb k k') eqn:E; [|assumption]. apply text_eqb_eq in E. subst.
        exfalso. apply (Y x v' (or_introl eq_refl)). assumption.
Qed.

(** ** Sorting *)
Lemma insert_perm {A} lt (x : A) l : Permutation (x :: l) (insert lt x l).
Proof.
  induction l as [|y l IH]; [apply Permutation_refl|]. cbn. destruct (lt y x); [|apply Permutation_refl].
  eapply perm_trans; [apply perm_swap|]. apply perm_skip. assumption.
Qed.
Lemma sort_perm {A} lt (l : list A) : Permutation l (sort_by lt l).
Proof.
  induction l as [|x l IH]; [constructor|]. cbn. eapply perm_trans; [apply perm_skip, IH|apply insert_perm].
Qed.
Lemma sort_sorted {A} (P : A -> Prop) (lt : A -> A -> bool) :
  (forall x y z, lt x y = true -> lt y z = true -> lt x z = true) ->
  (forall x y, P x -> P y -> x <> y -> lt x y = false -> lt y x = true) ->
  forall l, Forall P l -> NoDup l -> StronglySorted (fun a b => lt a b = true) (sort_by lt l).
Proof.
  intros T C. induction l as [|x l IH]; intros F N; [constructor|]. cbn.
  inversion F as [|? ? Fx Fl]; inversion N as [|? ? Nx Nl]; subst. specialize (IH Fl Nl).
  assert (Q : forall y, In y (sort_by lt l) -> P y /\ y <> x).
  { intros y Hy. apply (Permutation_in _ (Permutation_sym (sort_perm lt l))) in Hy.
    rewrite Forall_forall in Fl. split; [auto|]. intros ->. contradiction. }
  fold (sort_by lt l). induction (sort_by lt l) as [|y m IHm]; cbn; [repeat constructor|].
  inversion IH as [|? ? Sm Fm]; subst. destruct (lt y x) eqn:E.
  - constructor; [apply IHm; [assumption|intros; apply Q; right; assumption]|].
    rewrite Forall_forall in *. intros z Hz.
    apply (Permutation_in _ (Permutation_sym (insert_perm lt x m))) in Hz. destruct Hz as [<-|Hz]; auto.
  - assert (xy : lt x y = true).
    { destruct (Q y (or_introl eq_refl)). apply C; auto. }
    constructor; [assumption|]. constructor; [assumption|].
    rewrite Forall_forall in *. intros z Hz. eapply T; [exact xy|auto].
Qed.
Lemma sorted_map {A B} (f : A -> B) (P : A -> A -> Prop) (Q : B -> B -> Prop) l :
  (forall a b, In a l -> In b l -> P a b -> Q (f a) (f b)) -> StronglySorted P l -> StronglySorted Q (map f l).
Proof.
  intros H S. induction S as [|x l S IH F]; [constructor|]. cbn. constructor.
  - apply IH. intros. apply H; [right|right|]; assumption.
  - rewrite Forall_forall in *. intros y Hy. apply in_map_iff in Hy. destruct Hy as (z & <- & Hz).
    apply H; [left; reflexivity|right; assumption|auto].
Qed.
Lemma sorted_impl {A} (P Q : A -> A -> Prop) l : (forall a b, P a b -> Q a b) -> StronglySorted P l -> StronglySorted Q l.
Proof.
  intros H S. induction S as [|x l S IH F]; [constructor|]. constructor; [assumption|].
  rewrite Forall_forall in *. auto.
Qed.
(** A strictly sorted list is determined by its elements. *)
Lemma sorted_unique {A} (P : A -> A -> Prop) l m :
  (forall x y, P x y -> P y x -> False) ->
  StronglySorted P l -> StronglySorted P m -> (forall x, In x l <-> In x m) -> l = m.
Proof.
  intros AS Sl. revert m. induction Sl as [|x l Sl IH Fl]; intros m Sm E.
  - destruct m as [|y m]; [reflexivity|]. exfalso. apply (E y). left. reflexivity.
  - destruct Sm as [|y m Sm Fm]; [exfalso; apply (E x); left; reflexivity|].
    rewrite Forall_forall in Fl, Fm.
    assert (x = y) as <-.
    { destruct (proj1 (E x) (or_introl eq_refl)) as [->|X]; [reflexivity|].
      destruct (proj2 (E y) (or_introl eq_refl)) as [->|Y]; [reflexivity|].
      exfalso. eapply AS; [apply Fl, Y|apply Fm, X]. }
    f_equal. apply IH; [assumption|]. intros z. split; intros Z.
    + destruct (proj1 (E z) (or_intror Z)) as [<-|Q]; [|assumption]. exfalso. eapply AS; apply Fl, Z.
    + destruct (proj2 (E z) (or_intror Z)) as [<-|Q]; [|assumption]. exfalso. eapply AS; apply Fm, Z.
Qed.

(** ** bsearch in a sorted table *)
Lemma ordered_rows' data key : StronglySorted (fun a b => row_at a 0 < row_at b 0) data ->
  ordered (compare_value_to_row key) data.
Proof.
  intros H i j r1 r2 L Hi Hj. pose proof (sorted_nth _ _ H i j r1 r2 L Hi Hj) as P. cbv beta in P.
  unfold compare_value_to_row.
  destruct (Z.ltb_spec key (row_at r1 0)); destruct (Z.gtb_spec key (row_at r1 0));
  destruct (Z.ltb_spec key (row_at r2 0)); destruct (Z.gtb_spec key (row_at r2 0)); lia.
Qed.
Lemma bsearch_rows data key : StronglySorted (fun a b => row_at a 0 < row_at b 0) data ->
  (exists r, bsearch (compare_value_to_row key) data = Ok (Some r) /\ In r data /\ row_at r 0 = key) \/
  (bsearch (compare_value_to_row key) data = Ok None /\ forall r, In r data -> row_at r 0 <> key).
Proof.
  intros S. destruct (bsearch_correct _ _ (ordered_rows' _ key S)) as [(r & E & I & C)|[E C]].
  - left. exists r. repeat split; try assumption. apply Z.eqb_eq. rewrite <- compare_value_eq. apply Z.eqb_eq. assumption.
  - right. split; [assumption|]. intros r I Q. apply (C r I). apply Z.eqb_eq. rewrite compare_value_eq. apply Z.eqb_eq. assumption.
Qed.
