(** * The generated composition table *)
From Coq Require Import Ascii String Permutation Sorting.Sorted.
From Verif Require Import Prelude DataTables UnicodeSpec GenModel GenSpec PropsModel PropsProofs DecompTables GenText GenProofs.

(** ** CompositionExclusions.txt *)
Lemma remove_comment_app s t : ~ In "#"%char s -> remove_comment (s ++ "#"%char :: t) = s.
Proof.
  induction s as [|x s IH]; intros N; cbn [app remove_comment].
  - reflexivity.
  - destruct (Ascii.eqb_spec x "#"%char) as [->|]; [exfalso; apply N; left; reflexivity|].
    rewrite IH; [reflexivity|]. intros H. apply N. right. assumption.
Qed.
Lemma remove_comment_none s : ~ In "#"%char s -> remove_comment s = s.
Proof.
  induction s as [|x s IH]; intros N; cbn [remove_comment]; [reflexivity|].
  destruct (Ascii.eqb_spec x "#"%char) as [->|]; [exfalso; apply N; left; reflexivity|].
  rewrite IH; [reflexivity|]. intros H. apply N. right. assumption.
Qed.
Lemma remove_after_space_word w s : (forall x, In x w -> is_space x = false) ->
  (s = [] \/ exists a b r, s = a :: b :: r /\ is_space a = true) ->
  remove_after_space (w ++ s) = w.
Proof.
  intros F C. induction w as [|x w IH]; cbn [app remove_after_space].
  - destruct C as [->|(a & b & r & -> & A)]; [reflexivity|]. cbn [remove_after_space]. rewrite A. reflexivity.
  - rewrite (F x (or_introl eq_refl)). cbn [andb]. rewrite IH; [reflexivity|]. intros. apply F. right. assumption.
Qed.
Definition excluded_code (x : exclusion) : option Z :=
  match x with Excluded c _ _ => Some c | ExcludedBare c => Some c | _ => None end.
Definition excluded_key (x : exclusion) : option text :=
  option_map (fun c => hex4 c ++ if single_space x then [" "%char] else []) (excluded_code x).
Lemma hex4_spaces c x : 0 <= c -> In x (hex4 c) -> is_space x = false.
Proof. intros C H. apply hex4_digits in H; [|assumption]. apply upper_digit_class in H. tauto. Qed.
Lemma remove_after_space_one w : (forall x, In x w -> is_space x = false) ->
  remove_after_space (w ++ [" "%char]) = w ++ [" "%char].
Proof.
  intros F. induction w as [|x w IH]; [reflexivity|]. cbn [app remove_after_space].
  rewrite (F x (or_introl eq_refl)). cbn [andb]. rewrite IH; [reflexivity|]. intros. apply F. right. assumption.
Qed.
Lemma hex4_space_truthy c : truthy (hex4 c ++ [" "%char]) = true.
Proof.
  unfold truthy. destruct (hex4 c) as [|x [|y s]]; [reflexivity| |]; cbn [app text_eqb negb andb];
    [destruct (Ascii.eqb x "0"); reflexivity|rewrite andb_false_r; reflexivity].
Qed.
Lemma exclusion_line_spec h x : exclusion_ok x ->
  exclusion_line h (exclusion_text x) =
  match option_map (fun k => (k, tt)) (excluded_key x) with Some (k, v) => hset h k v | None => h end.
Proof.
  intros O. unfold exclusion_line, excluded_key. destruct x as [c n t|c|t|]; cbn [exclusion_text excluded_code option_map].
  - rewrite app_assoc. cbn [app]. rewrite remove_comment_app.
    + destruct n as [|[|n]]; cbn [repeat single_space app].
      * rewrite remove_after_space_word; [rewrite app_nil_r, hex4_truthy; reflexivity|intros y Y; apply (hex4_spaces c); assumption|left; reflexivity].
      * rewrite remove_after_space_one by (intros y Y; apply (hex4_spaces c); assumption).
        rewrite hex4_space_truthy. reflexivity.
      * rewrite remove_after_space_word; [rewrite app_nil_r, hex4_truthy; reflexivity|intros y Y; apply (hex4_spaces c); assumption|].
        right. cbn. eauto 6.
    + intros H. apply in_app_or in H. destruct H as [H|H]; [revert H; apply hex4_not; [assumption|reflexivity]|].
      apply repeat_spec in H. discriminate.
  - rewrite remove_comment_none by (apply hex4_not; [exact O|reflexivity]).
    pose proof (remove_after_space_word (hex4 c) []) as R. cbn [single_space]. rewrite app_nil_r in *.
    rewrite R; [rewrite hex4_truthy; reflexivity|intros y Y; apply (hex4_spaces c); assumption|left; reflexivity].
  - reflexivity.
  - reflexivity.
Qed.
Lemma excluded_codes file c : listed_exclusion file c <-> exists x, In x file /\ excluded_code x = Some c.
Proof.
  unfold listed_exclusion. split.
  - intros [(n & t & H)|H]; eauto.
  - intros ([c' n t|c'|t|] & H & E); try discriminate; injection E as ->; eauto.
Qed.
Definition exclusion_hash (file : list exclusion) : hash unit := fold_left exclusion_line (map exclusion_text file) [].
Lemma exclusion_hash_spec file : (forall x, In x file -> exclusion_ok x) ->
  forall c, 0 <= c -> hexists (exclusion_hash file) (hex4 c) = true <-> listed_exclusion (not_single_space file) c.
Proof.
  intros O c C. unfold exclusion_hash. rewrite fold_left_map.
  destruct (fill_hash (fun h x => exclusion_line h (exclusion_text x))
    (fun x => option_map (fun k => (k, tt)) (excluded_key x)) file) with (h0 := @nil (text * unit)) as [_ G].
  - intros h x I. apply exclusion_line_spec, O, I.
  - intros x y k [] []. reflexivity.
  - constructor.
  - unfold hexists. rewrite excluded_codes. unfold not_single_space.
    set (h := fold_left _ _ _) in *. destruct (hget h (hex4 c)) as [[]|] eqn:E; (split; [|intros (x & I & X)]); try reflexivity; try discriminate.
    + intros _. apply G in E. destruct E as [(x & I & X)|[_ E]]; [|discriminate].
      exists x. unfold excluded_key in X. destruct (excluded_code x) as [c'|] eqn:Q; [|discriminate].
      cbn [option_map] in X. injection X as X.
      assert (C' : 0 <= c') by (specialize (O x I); destruct x; cbn in Q; try discriminate; injection Q as ->; exact O).
      destruct (single_space x) eqn:SS.
      * exfalso. assert (H : In " "%char (hex4 c)) by (rewrite <- X; apply in_or_app; right; left; reflexivity).
        apply hex4_spaces in H; [discriminate|assumption].
      * rewrite app_nil_r in X. apply hex4_inj in X; [|assumption..].
        split; [apply filter_In; rewrite SS; auto|congruence].
    + exfalso. assert (hget h (hex4 c) = Some tt); [|congruence]. apply G. left.
      apply filter_In in I. destruct I as [I SS]. apply negb_true_iff in SS. exists x. split; [assumption|].
      unfold excluded_key. rewrite X, SS. cbn [option_map]. rewrite app_nil_r. reflexivity.
Qed.

(** ** Pairs *)
Definition pair_text (a b : Z) : text := hex4 a ++ " "%char :: hex4 b.
Lemma take_while_app p w s : (forall x, In x w -> p x = true) ->
  match s with c :: _ => p c = false | [] => True end -> take_while p (w ++ s) = w.
Proof.
  intros F E. induction w as [|x w IH]; cbn [app take_while].
  - destruct s as [|c s]; [reflexivity|]. cbn. rewrite E. reflexivity.
  - rewrite (F x (or_introl eq_refl)), IH; [reflexivity|]. intros. apply F. right. assumption.
Qed.
Lemma drop_while_app p w s : (forall x, In x w -> p x = true) ->
  match s with c :: _ => p c = false | [] => True end -> drop_while p (w ++ s) = s.
Proof.
  intros F E. induction w as [|x w IH]; cbn [app drop_while].
  - destruct s as [|c s]; [reflexivity|]. cbn. rewrite E. reflexivity.
  - rewrite (F x (or_introl eq_refl)), IH; [reflexivity|]. intros. apply F. right. assumption.
Qed.
Lemma hex4_is_hex c x : 0 <= c -> In x (hex4 c) -> is_hex x = true.
Proof. intros C H. apply hex4_digits in H; [|assumption]. apply upper_digit_class in H. tauto. Qed.
Lemma hex4_start c : 0 <= c -> exists x s, hex4 c = x :: s /\ is_hex x = true.
Proof.
  intros C. destruct (hex4_cons c) as (x & s & E). exists x, s. split; [assumption|].
  apply (hex4_is_hex c); [assumption|]. rewrite E. left. reflexivity.
Qed.
Lemma two_numbers_pair a b : 0 <= a -> 0 <= b -> two_numbers (pair_text a b) = true.
Proof.
  intros A B. unfold two_numbers, pair_text. rewrite drop_while_app; [|intros x; apply hex4_is_hex; assumption|reflexivity].
  destruct (hex4_start a A) as (x & s & -> & X). destruct (hex4_start b B) as (y & t & -> & Y). cbn [app].
  rewrite X, Y. reflexivity.
Qed.
Lemma two_numbers_one a : 0 <= a -> two_numbers (hex4 a) = false.
Proof.
  intros A. unfold two_numbers. pose proof (drop_while_app is_hex (hex4 a) [] (fun x => hex4_is_hex a x A) Logic.I) as D.
  rewrite app_nil_r in D. rewrite D. apply andb_false_r.
Qed.
Lemma first_number_pair a b : 0 <= a -> first_number (pair_text a b) = a.
Proof.
  intros A. unfold first_number, pair_text. rewrite take_while_app; [apply hex_hex4; assumption|intros x; apply hex4_is_hex; assumption|reflexivity].
Qed.
Lemma second_number_pair a b : 0 <= a -> 0 <= b -> second_number (pair_text a b) = b.
Proof.
  intros A B. unfold pair_text. assert (S := fun x => hex4_spaces a x A).
  induction (hex4 a) as [|x w IH]; cbn [app second_number].
  - destruct (hex4_start b B) as (y & t & E & Y). rewrite E, Y. cbn [is_space andb].
    change (is_space " "%char) with true. cbn [andb]. rewrite <- E.
    pose proof (take_while_app is_hex (hex4 b) [] (fun x => hex4_is_hex b x B) Logic.I) as D.
    rewrite app_nil_r in D. rewrite D. apply hex_hex4. assumption.
  - rewrite (S x (or_introl eq_refl)). cbn [andb]. apply IH. intros. apply S. right. assumption.
Qed.
Lemma split_pair a b : 0 <= a -> 0 <= b -> split_char " " (pair_text a b) = [hex4 a; hex4 b].
Proof.
  intros A B. unfold split_char. change (pair_text a b) with (join [" "%char] [hex4 a; hex4 b]).
  rewrite fields_join; [|discriminate| |reflexivity].
  - apply drop_nonempty. intros w [<-|[<-|[]]]; apply hex4_nonempty.
  - intros w x H X. destruct (Ascii.eqb_spec " "%char x) as [<-|]; [|reflexivity]. exfalso.
    destruct H as [<-|[<-|[]]]; revert X; apply hex4_not; try assumption; reflexivity.
Qed.
Lemma pair_text_inj a b a' b' : 0 <= a -> 0 <= b -> 0 <= a' -> 0 <= b' ->
  pair_text a b = pair_text a' b' -> a = a' /\ b = b'.
Proof.
  intros A B A' B' E. split.
  - rewrite <- (first_number_pair a b A), <- (first_number_pair a' b' A'), E. reflexivity.
  - rewrite <- (second_number_pair a b A B), <- (second_number_pair a' b' A' B'), E. reflexivity.
Qed.

(** ** canonical_composition_mapping_data.pl *)
Lemma fold_pair {A B X} (f : A * B -> X -> A * B) (fa : A -> X -> A) (fb : B -> X -> B) l :
  (forall a b x, f (a, b) x = (fa a x, fb b x)) -> forall a b,
  fold_left f l (a, b) = (fold_left fa l a, fold_left fb l b).
Proof. intros E. induction l as [|x l IH]; intros a b; [reflexivity|]. cbn. rewrite E. apply IH. Qed.

Section Composition.
  Variables (ord : nat -> list text -> list text) (file : list entry) (exclusions : list exclusion).
  Hypotheses (Ho : some_order ord) (W : file_ok file) (U : pairs_ok file)
    (X : forall x, In x exclusions -> exclusion_ok x).
  Definition classes_line (ccc : hash text) (line : text) : hash text :=
    hset ccc (field 0 (split_char ";" line))
      (if truthy (field 3 (split_char ";" line)) then field 3 (split_char ";" line) else ["0"%char]).
  Definition pairs_line (d : hash text) (line : text) : hash text :=
    snd (composition_line ([], d) line).
  Definition classes := fold_left classes_line (map line_of file) [].
  Definition pairs := fold_left pairs_line (map line_of file) [].
  Lemma composition_hashes : fold_left composition_line (map line_of file) ([], []) = (classes, pairs).
  Proof. apply fold_pair. reflexivity. Qed.
  Lemma file_class_in e : In e file -> file_class file (e_code e) (e_class e).
  Proof. intros I. left. eauto. Qed.
  Lemma file_class_fun c k k' : file_class file c k -> file_class file c k' -> k = k'.
  Proof.
    intros [(e & I & C & <-)|[N ->]] [(e' & I' & C' & <-)|[N' ->]].
    - rewrite (file_unique file e e' W I I') by congruence. reflexivity.
    - exfalso. eapply N'; eassumption.
    - exfalso. eapply N; eassumption.
    - reflexivity.
  Qed.
  Lemma classes_spec c : 0 <= c -> file_class file c (match hget classes (hex4 c) with Some t => decimal t | None => 0 end).
  Proof.
    intros C. unfold classes. rewrite fold_left_map.
    destruct (fill_hash (fun h e => classes_line h (line_of e))
      (fun e => Some (hex4 (e_code e), dec (e_class e))) file) with (h0 := @nil (text * text)) as [_ G].
    - intros h e I. unfold classes_line. assert (OK := proj1 W e I). rewrite !line_fields by assumption. cbn [field nth].
      rewrite dec_truthy by apply OK. destruct (Z.eqb_spec (e_class e) 0) as [->|]; reflexivity.
    - intros x y k v w Hx Hy E E'. injection E as <- <-. injection E' as E <-.
      apply hex4_inj in E; [|apply (proj1 W y Hy)|apply (proj1 W x Hx)].
      rewrite (file_unique file y x W Hy Hx E). reflexivity.
    - constructor.
    - set (h := fold_left _ _ _) in *. destruct (hget h (hex4 c)) as [t|] eqn:E.
      + apply G in E. destruct E as [(e & I & E)|[_ E]]; [|discriminate]. injection E as E <-.
        apply hex4_inj in E; [|apply (proj1 W e I)|assumption]. subst c.
        rewrite dec_value by apply (proj1 W e I). apply file_class_in. assumption.
      + right. split; [|reflexivity]. intros e I <-.
        assert (hget h (hex4 (e_code e)) = Some (dec (e_class e))); [|congruence]. apply G. left. eauto.
  Qed.
  Definition pair_entry (e : entry) : option (text * text) :=
    match e_mapping e with
    | Some (None, [a; b]) => if e_class e =? 0 then Some (pair_text a b, hex4 (e_code e)) else None
    | _ => None
    end.
  Lemma pairs_line_spec h e : In e file ->
    pairs_line h (line_of e) = match pair_entry e with Some (k, v) => hset h k v | None => h end.
  Proof.
    intros I. assert (OK := proj1 W e I). unfold pairs_line, composition_line. rewrite !line_fields by assumption.
    cbn [field nth snd]. destruct OK as (C & K & _ & M). unfold pair_entry.
    destruct (e_mapping e) as [[tag l]|] eqn:EM; [|reflexivity]. destruct (M tag l eq_refl) as (N & P & _).
    destruct tag as [t|]; [reflexivity|]. cbn [mapping_text].
    assert (L : (List.length l <= 2)%nat) by (apply (proj1 U (e_code e)); exists e; auto).
    destruct l as [|a [|b [|? ?]]]; [contradiction| | |cbn in L; lia].
    - cbn [map join]. rewrite hex4_truthy. cbn [negb].
      assert (A : 0 <= a) by (apply P; left; reflexivity).
      destruct (tagged (hex4 a)); [reflexivity|]. rewrite two_numbers_one by assumption. reflexivity.
    - assert (A : 0 <= a) by (apply P; left; reflexivity).
      assert (B : 0 <= b) by (apply P; right; left; reflexivity).
      change (join [" "%char] (map hex4 [a; b])) with (pair_text a b).
      assert (T : truthy (pair_text a b) = true /\ tagged (pair_text a b) = false).
      { unfold pair_text. pose proof (hex4_length a) as La.
        assert (D := fun x => hex4_digits a x A).
        destruct (hex4 a) as [|x [|y s]]; cbn in La; try lia. cbn [app]. split.
        - unfold truthy. cbn [text_eqb]. rewrite andb_false_r. reflexivity.
        - cbn [tagged]. destruct (Ascii.eqb_spec x "<"%char) as [->|]; [|reflexivity].
          pose proof (D _ (or_introl eq_refl)) as Q. apply upper_digit_class in Q. destruct Q. discriminate. }
      destruct T as [-> ->]. rewrite two_numbers_pair, dec_value by assumption. cbn [negb].
      destruct (e_class e =? 0); reflexivity.
  Qed.
  Lemma pairs_spec : NoDup (hkeys pairs) /\
    forall k v, hget pairs k = Some v <->
      exists a b c, k = pair_text a b /\ v = hex4 c /\ file_canonical file c [a; b] /\ file_class file c 0.
  Proof.
    assert (PE : forall e k v, In e file -> pair_entry e = Some (k, v) <->
      exists a b, k = pair_text a b /\ v = hex4 (e_code e) /\ e_mapping e = Some (None, [a; b]) /\ e_class e = 0).
    { intros e k v I. unfold pair_entry. split.
      - destruct (e_mapping e) as [[[t|] [|a [|b [|? ?]]]]|]; try discriminate.
        destruct (Z.eqb_spec (e_class e) 0); [|discriminate]. intros E. injection E as <- <-. eauto 6.
      - intros (a & b & -> & -> & -> & ->). reflexivity. }
    unfold pairs. rewrite fold_left_map.
    destruct (fill_hash (fun h e => pairs_line h (line_of e)) pair_entry file) with (h0 := @nil (text * text)) as [N G].
    - intros h e I. apply pairs_line_spec. assumption.
    - intros x y k v w Hx Hy E E'. apply PE in E, E'; [|assumption..].
      destruct E as (a & b & -> & -> & E & K), E' as (a' & b' & Q & -> & E' & K').
      destruct (proj1 W x Hx) as (_ & _ & _ & Mx). destruct (Mx _ _ E) as (_ & Px & _).
      destruct (proj1 W y Hy) as (_ & _ & _ & My). destruct (My _ _ E') as (_ & Py & _).
      apply pair_text_inj in Q; try (apply Px; cbn; tauto); try (apply Py; cbn; tauto). destruct Q as [<- <-].
      f_equal. apply (proj2 U a b); [exists x; auto|rewrite <- K; apply file_class_in; assumption|
        exists y; auto|rewrite <- K'; apply file_class_in; assumption].
    - constructor.
    - split; [assumption|]. intros k v. rewrite G. split.
      + intros [(e & I & E)|[_ E]]; [|discriminate]. apply PE in E; [|assumption]. destruct E as (a & b & -> & -> & E & K).
        exists a, b, (e_code e). repeat split; [exists e; auto|rewrite <- K; apply file_class_in; assumption].
      + intros (a & b & c & -> & -> & (e & I & <- & E) & K). left. exists e. split; [assumption|].
        apply PE; [assumption|]. exists a, b. repeat split; [assumption|].
        eapply file_class_fun; [apply file_class_in; assumption|assumption].
  Qed.
  Lemma canonical_pos c l : file_canonical file c l -> 0 <= c /\ forall x, In x l -> 0 <= x.
  Proof.
    intros (e & I & <- & E). destruct (proj1 W e I) as (C & _ & _ & M). split; [assumption|].
    destruct (M _ _ E) as (_ & P & _). exact P.
  Qed.

  (** Removing the exclusions. *)
  Definition bad (k v : text) : bool :=
    negb (match hget classes (field 0 (split_char " " k)) with Some c => decimal c | None => 0 end =? 0) ||
    hexists (exclusion_hash exclusions) v.
  Lemma exclude_step d k k' : hget (exclude_key classes (exclusion_hash exclusions) d k) k' =
    match hget d k' with
    | Some v => if text_eqb k' k && bad k' v then None else Some v
    | None => None
    end.
  Proof.
    unfold exclude_key, bad.
    destruct (negb (match hget classes (field 0 (split_char " " k)) with Some c => decimal c | None => 0 end =? 0)) eqn:B.
    - rewrite hget_hdelete. destruct (text_eqb k' k) eqn:E.
      + apply text_eqb_eq in E. subst. rewrite B. destruct (hget d k); reflexivity.
      + cbn [andb]. destruct (hget d k'); reflexivity.
    - destruct (hget d k) as [c|] eqn:G.
      + destruct (hexists (exclusion_hash exclusions) c) eqn:Q.
        * rewrite hget_hdelete. destruct (text_eqb k' k) eqn:E.
          -- apply text_eqb_eq in E. subst. rewrite G, B, Q. reflexivity.
          -- cbn [andb]. destruct (hget d k'); reflexivity.
        * destruct (text_eqb k' k) eqn:E.
          -- apply text_eqb_eq in E. subst. rewrite G, B, Q. reflexivity.
          -- cbn [andb]. destruct (hget d k'); reflexivity.
      + destruct (text_eqb k' k) eqn:E.
        * apply text_eqb_eq in E. subst. rewrite G. reflexivity.
        * cbn [andb]. destruct (hget d k'); reflexivity.
  Qed.
  Lemma exclude_all ks : forall d k, hget (fold_left (exclude_key classes (exclusion_hash exclusions)) ks d) k =
    match hget d k with
    | Some v => if existsb (text_eqb k) ks && bad k v then None else Some v
    | None => None
    end.
  Proof.
    induction ks as [|k0 ks IH]; intros d k; cbn [fold_left existsb].
    - destruct (hget d k); reflexivity.
    - rewrite IH, exclude_step. destruct (hget d k) as [v|]; [|reflexivity].
      destruct (bad k v) eqn:B; destruct (text_eqb k k0), (existsb (text_eqb k) ks); cbn [andb orb];
        rewrite ?B; reflexivity.
  Qed.
  Lemma exclude_nodup ks : forall d, NoDup (hkeys d) -> NoDup (hkeys (fold_left (exclude_key classes (exclusion_hash exclusions)) ks d)).
  Proof.
    induction ks as [|k ks IH]; intros d N; [assumption|]. cbn. apply IH. unfold exclude_key.
    destruct (negb _); [apply nodup_hdelete; assumption|]. destruct (hget d k); [|assumption].
    destruct (hexists _ _); [apply nodup_hdelete|]; assumption.
  Qed.
  Definition kept_pairs := fold_left (exclude_key classes (exclusion_hash exclusions)) (ord 0 (hkeys pairs)) pairs.
  Lemma bad_spec a b c : file_canonical file c [a; b] ->
    bad (pair_text a b) (hex4 c) = false <-> file_class file a 0 /\ ~ listed_exclusion (not_single_space exclusions) c.
  Proof.
    intros H. destruct (canonical_pos _ _ H) as [C P].
    assert (A : 0 <= a) by (apply P; left; reflexivity). assert (B : 0 <= b) by (apply P; right; left; reflexivity).
    unfold bad. rewrite split_pair by assumption. cbn [field nth]. rewrite orb_false_iff.
    pose proof (classes_spec a A) as K. set (k := match hget classes (hex4 a) with Some c => decimal c | None => 0 end) in *.
    rewrite <- (exclusion_hash_spec exclusions X c C). rewrite not_true_iff_false.
    assert (E : negb (k =? 0) = false <-> file_class file a 0); [|rewrite E; reflexivity].
    destruct (Z.eqb_spec k 0) as [Q|Q]; cbn [negb]; split; intros R; try reflexivity; try discriminate.
    - rewrite <- Q. assumption.
    - exfalso. apply Q. eapply file_class_fun; eassumption.
  Qed.
  Lemma kept_spec k v : hget kept_pairs k = Some v <->
    exists a b c, k = pair_text a b /\ v = hex4 c /\ file_primary file (not_single_space exclusions) a b c.
  Proof.
    unfold kept_pairs. rewrite exclude_all. destruct pairs_spec as [N G]. unfold file_primary. split.
    - destruct (hget pairs k) as [v'|] eqn:E; [|discriminate].
      assert (In k (ord 0%nat (hkeys pairs))).
      { eapply Permutation_in; [apply Ho|]. apply hget_keys. eauto. }
      assert (EX : existsb (text_eqb k) (ord 0%nat (hkeys pairs)) = true).
      { apply existsb_exists. exists k. split; [assumption|apply text_eqb_refl]. }
      rewrite EX. cbn [andb]. destruct (bad k v') eqn:Bd; [discriminate|]. intros Q. injection Q as ->.
      apply G in E. destruct E as (a & b & c & -> & -> & K & Z0).
      apply (bad_spec a b c K) in Bd. exists a, b, c. tauto.
    - intros (a & b & c & -> & -> & K & Z0 & Ka & Nx).
      assert (E : hget pairs (pair_text a b) = Some (hex4 c)) by (apply G; eauto 8).
      rewrite E. rewrite (proj2 (bad_spec a b c K)) by tauto. rewrite andb_false_r. reflexivity.
  Qed.
  Lemma primary_pos a b c : file_primary file (not_single_space exclusions) a b c -> 0 <= a /\ 0 <= b /\ 0 <= c.
  Proof.
    intros (K & _). destruct (canonical_pos _ _ K) as [C P]. repeat split; [apply P; cbn; tauto..|assumption].
  Qed.
  Lemma primary_fun a b c c' : file_primary file (not_single_space exclusions) a b c -> file_primary file (not_single_space exclusions) a b c' -> c = c'.
  Proof. intros (K & Z0 & _) (K' & Z0' & _). apply (proj2 U a b); assumption. Qed.
  Let table := generate_composition ord (map line_of file) (map exclusion_text exclusions).
  Lemma composition_rows :
    StronglySorted (fun x y => pair_lt x y = true) table /\
    forall r, In r table <-> exists a b c, file_primary file (not_single_space exclusions) a b c /\ r = [a; b; c].
  Proof.
    unfold table, generate_composition. rewrite composition_hashes. fold (exclusion_hash exclusions). fold kept_pairs.
    assert (N : NoDup (hkeys kept_pairs)) by (apply exclude_nodup, pairs_spec).
    assert (K : forall k, In k (hkeys kept_pairs) -> exists a b c, k = pair_text a b /\ file_primary file (not_single_space exclusions) a b c /\
      hget kept_pairs k = Some (hex4 c)).
    { intros k H. apply hget_keys in H. destruct H as (v & H). assert (H0 := H). apply kept_spec in H.
      destruct H as (a & b & c & -> & -> & H). exists a, b, c. auto. }
    set (keys := sort_by pair_before (ord 1%nat (hkeys kept_pairs))).
    assert (P : Permutation (hkeys kept_pairs) keys) by (eapply perm_trans; [apply (Ho 1%nat)|apply sort_perm]).
    assert (S : StronglySorted (fun a b => pair_before a b = true) keys).
    { apply (sort_sorted (fun k => exists a b, k = pair_text a b /\ 0 <= a /\ 0 <= b)).
      - intros x y z. unfold pair_before. intros H1 H2. apply orb_true_iff. zbool; try (left; apply Z.ltb_lt; lia).
        right. apply andb_true_intro. split; [apply Z.eqb_eq|apply Z.ltb_lt]; lia.
      - intros x y (a & b & -> & A & B) (a' & b' & -> & A' & B') NE. unfold pair_before.
        rewrite !first_number_pair, !second_number_pair by assumption. intros L.
        assert (Q : a <> a' \/ b <> b') by (destruct (Z.eq_dec a a'), (Z.eq_dec b b'); subst; tauto).
        apply orb_false_iff in L. destruct L as [L1 L2]. apply orb_true_iff.
        destruct (Z.ltb_spec a a'); [discriminate|]. destruct (Z.eqb_spec a a') as [->|].
        + right. rewrite Z.eqb_refl. cbn [andb] in *. destruct (Z.ltb_spec b b'); [discriminate|]. apply Z.ltb_lt. lia.
        + left. apply Z.ltb_lt. lia.
      - apply Forall_forall. intros k H. apply (Permutation_in _ (Permutation_sym (Ho 1%nat _))) in H.
        destruct (K k H) as (a & b & c & -> & F & _). apply primary_pos in F. exists a, b. tauto.
      - eapply Permutation_NoDup; [apply Ho|assumption]. }
    assert (R : forall k a b c, k = pair_text a b -> file_primary file (not_single_space exclusions) a b c -> hget kept_pairs k = Some (hex4 c) ->
      (let f := split_char " " k in
       [hex (field 0 f); hex (field 1 f); match hget kept_pairs k with Some c => hex c | None => 0 end]) = [a; b; c]).
    { intros k a b c -> F E. apply primary_pos in F. rewrite E, split_pair by tauto. cbn [field nth].
      rewrite !hex_hex4 by tauto. reflexivity. }
    split.
    - eapply sorted_map; [|exact S]. intros x y Hx Hy L.
      apply (Permutation_in _ (Permutation_sym P)) in Hx, Hy.
      destruct (K x Hx) as (a & b & c & -> & F & E). destruct (K y Hy) as (a' & b' & c' & -> & F' & E').
      pose proof (R _ a b c eq_refl F E) as R1. pose proof (R _ a' b' c' eq_refl F' E') as R2.
      cbv beta zeta in R1, R2 |- *. rewrite R1, R2.
      apply primary_pos in F, F'. unfold pair_before in L. rewrite !first_number_pair, !second_number_pair in L by tauto.
      exact L.
    - intros r. rewrite in_map_iff. split.
      + intros (k & <- & H). apply (Permutation_in _ (Permutation_sym P)) in H. destruct (K k H) as (a & b & c & -> & F & E).
        exists a, b, c. split; [assumption|]. apply R; auto.
      + intros (a & b & c & F & ->). exists (pair_text a b).
        assert (E : hget kept_pairs (pair_text a b) = Some (hex4 c)) by (apply kept_spec; eauto 6).
        split; [apply R; auto|]. apply (Permutation_in _ P). apply hget_keys. eauto.
  Qed.
  Lemma ordered_pairs' data a b : StronglySorted (fun x y => pair_lt x y = true) data -> ordered (compare_pair_to_row a b) data.
  Proof.
    intros H i j r1 r2 L Hi Hj. pose proof (sorted_nth _ _ H i j r1 r2 L Hi Hj) as P. unfold pair_lt in P. cbv beta in P.
    unfold compare_pair_to_row.
    destruct (Z.ltb_spec a (row_at r1 0)); destruct (Z.gtb_spec a (row_at r1 0));
    destruct (Z.ltb_spec a (row_at r2 0)); destruct (Z.gtb_spec a (row_at r2 0));
    destruct (Z.ltb_spec b (row_at r1 1)); destruct (Z.gtb_spec b (row_at r1 1));
    destruct (Z.ltb_spec b (row_at r2 1)); destruct (Z.gtb_spec b (row_at r2 1)); zbool; lia.
  Qed.
  Lemma compare_pair_zero a b a' b' c : compare_pair_to_row a b [a'; b'; c] = 0 <-> a = a' /\ b = b'.
  Proof.
    unfold compare_pair_to_row. cbn [row_at nth].
    destruct (Z.ltb_spec a a'); destruct (Z.gtb_spec a a'); destruct (Z.ltb_spec b b'); destruct (Z.gtb_spec b b'); lia.
  Qed.
  Lemma composition_resolve_generated a b :
    (forall c, file_primary file (not_single_space exclusions) a b c -> composition_resolve_in table a b = Ok (Some c)) /\
    ((forall c, ~ file_primary file (not_single_space exclusions) a b c) -> composition_resolve_in table a b = Ok None).
  Proof.
    destruct composition_rows as [S R]. unfold composition_resolve_in.
    destruct (bsearch_correct _ _ (ordered_pairs' table a b S)) as [(r & E & I & C)|[E C]]; rewrite E; cbn [bind].
    - apply R in I. destruct I as (a' & b' & c' & F & ->). apply compare_pair_zero in C. destruct C as [<- <-].
      change (rd [a; b; c'] 2) with (Ok c'). cbn [bind]. split.
      + intros c Fc. rewrite (primary_fun a b c c' Fc F). reflexivity.
      + intros N. exfalso. eapply N; eassumption.
    - split; [|reflexivity]. intros c F. exfalso. apply (C [a; b; c]); [apply R; eauto|apply compare_pair_zero; auto].
  Qed.
End Composition.
