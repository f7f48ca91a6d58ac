(** * The generated tables *)
From Coq Require Import Ascii String Permutation Sorting.Sorted.
From Verif Require Import Prelude DataTables UnicodeSpec GenModel GenSpec PropsModel PropsProofs DecompTables GenText.

(** ** The fields of a line *)
Lemma join_not (x : ascii) sep ws : ~ In x sep -> (forall w, In w ws -> ~ In x w) -> ~ In x (join sep ws).
Proof.
  intros S. induction ws as [|w ws IH]; intros F; [intros []|].
  destruct ws as [|w' ws]; [apply F; left; reflexivity|].
  change (join sep (w :: w' :: ws)) with (w ++ sep ++ join sep (w' :: ws)).
  intros H. apply in_app_or in H. destruct H as [H|H]; [apply (F w); [left; reflexivity|assumption]|].
  apply in_app_or in H. destruct H as [H|H]; [contradiction|]. apply IH; [|assumption]. intros. apply F. right. assumption.
Qed.
Lemma numbers_not x l : (forall c, In c l -> 0 <= c) -> is_upper_hex x = false -> x <> " "%char ->
  ~ In x (join [" "%char] (map hex4 l)).
Proof.
  intros P H N. apply join_not; [intros [E|[]]; congruence|].
  intros w I. apply in_map_iff in I. destruct I as (c & <- & I). apply hex4_not; auto.
Qed.
Lemma mapping_text_not e : entry_ok e -> ~ In ";"%char (mapping_text (e_mapping e)).
Proof.
  intros (_ & _ & _ & M). destruct (e_mapping e) as [[tag l]|]; cbn [mapping_text]; [|intros []].
  destruct (M tag l eq_refl) as (_ & P & T).
  assert (J : ~ In ";"%char (join [" "%char] (map hex4 l))) by (apply numbers_not; [assumption|reflexivity|discriminate]).
  destruct tag as [t|]; [|exact J]. destruct (T t eq_refl) as [T1 _].
  intros H. cbn [app] in H. destruct H as [H|H]; [discriminate|].
  apply in_app_or in H. destruct H as [H|[H|[H|H]]]; [contradiction|discriminate|discriminate|contradiction].
Qed.
Lemma line_fields e n : entry_ok e -> field n (split_char ";" (line_of e)) =
  field n (hex4 (e_code e) :: e_name e :: e_category e :: dec (e_class e) :: e_bidi e ::
           mapping_text (e_mapping e) :: e_rest e).
Proof.
  intros O. pose proof (mapping_text_not e O) as MT. destruct O as (C & K & F & M).
  unfold split_char. rewrite field_drop. f_equal. unfold line_of. apply fields_join; [discriminate| |reflexivity].
  intros w x H X. destruct (Ascii.eqb_spec ";"%char x) as [<-|]; [|reflexivity]. exfalso.
  cbn [In] in H. destruct H as [<-|[<-|[<-|[<-|[<-|[<-|H]]]]]].
  - revert X. apply hex4_not; [assumption|reflexivity].
  - apply (F (e_name e)); [cbn; tauto|assumption].
  - apply (F (e_category e)); [cbn; tauto|assumption].
  - revert X. apply dec_not; [assumption|reflexivity].
  - apply (F (e_bidi e)); [cbn; tauto|assumption].
  - contradiction.
  - apply (F w); [cbn; tauto|assumption].
Qed.
Lemma fold_left_map {A B C} (f : C -> B -> C) (g : A -> B) l a :
  fold_left f (map g l) a = fold_left (fun a x => f a (g x)) l a.
Proof. revert a. induction l as [|x l IH]; intros a; [reflexivity|]. apply IH. Qed.
Lemma file_unique file e e' : file_ok file -> In e file -> In e' file -> e_code e = e_code e' -> e = e'.
Proof.
  intros [_ N]. induction file as [|x l IH]; [intros []|]. inversion N as [|? ? A B]; subst.
  intros [<-|H] [<-|H'] E; [reflexivity| | |apply IH; assumption]; exfalso; apply A.
  - rewrite E. apply in_map. assumption.
  - rewrite <- E. apply in_map. assumption.
Qed.

(** Sorted by the value of the key. *)
Lemma sort_keys ord n (keys : list text) : some_order ord -> NoDup keys ->
  (forall k, In k keys -> exists c, 0 <= c /\ k = hex4 c) ->
  StronglySorted (fun a b => hex a < hex b) (sort_by (fun a b => hex a <? hex b) (ord n keys)) /\
  forall k, In k (sort_by (fun a b => hex a <? hex b) (ord n keys)) <-> In k keys.
Proof.
  intros O N K.
  assert (P := perm_trans (O n keys) (sort_perm (fun a b => hex a <? hex b) (ord n keys))).
  split.
  - assert (S : StronglySorted (fun a b => (hex a <? hex b) = true) (sort_by (fun a b => hex a <? hex b) (ord n keys))).
    { apply (sort_sorted (fun k => exists c, 0 <= c /\ k = hex4 c)).
      - intros x y z. lia.
      - intros x y (c & Hc & ->) (d & Hd & ->) NE. rewrite !hex_hex4 by assumption. intros L.
        assert (c <> d) by congruence. lia.
      - apply Forall_forall. intros k Hk. apply K. eapply Permutation_in; [apply Permutation_sym, O|eassumption].
      - eapply Permutation_NoDup; [apply O|assumption]. }
    eapply sorted_impl; [|exact S]. intros a b H. apply Z.ltb_lt. exact H.
  - intros k. split; intros H; (eapply Permutation_in; [|eassumption]); [apply Permutation_sym|]; exact P.
Qed.

(** ** canonical_combining_class_data.pl *)
Section Class.
  Variables (ord : nat -> list text -> list text) (file : list entry).
  Hypotheses (Ho : some_order ord) (W : file_ok file).
  Definition class_hash : hash text := fold_left class_line (map line_of file) [].
  Lemma class_hash_spec : NoDup (hkeys class_hash) /\
    forall k v, hget class_hash k = Some v <->
      exists e, In e file /\ e_class e <> 0 /\ k = hex4 (e_code e) /\ v = dec (e_class e).
  Proof.
    unfold class_hash. rewrite fold_left_map.
    destruct (fill_hash (fun h e => class_line h (line_of e))
      (fun e => if e_class e =? 0 then None else Some (hex4 (e_code e), dec (e_class e))) file) with (h0 := @nil (text * text))
      as [N G].
    - intros h e I. assert (OK := proj1 W e I). unfold class_line. rewrite !line_fields by assumption.
      cbn [field nth]. rewrite dec_truthy by apply OK. destruct (e_class e =? 0); reflexivity.
    - intros x y k v w X Y. destruct (e_class x =? 0); [discriminate|]. destruct (e_class y =? 0); [discriminate|].
      intros E E'. injection E as <- <-. injection E' as E <-.
      apply hex4_inj in E; [|apply (proj1 W y Y)|apply (proj1 W x X)].
      rewrite (file_unique file y x W Y X E). reflexivity.
    - constructor.
    - split; [assumption|]. intros k v. rewrite G. split.
      + intros [(e & I & E)|[_ E]]; [|discriminate]. destruct (Z.eqb_spec (e_class e) 0) as [|NZ]; [discriminate|].
        injection E as <- <-. eauto.
      + intros (e & I & NZ & -> & ->). left. exists e. split; [assumption|].
        destruct (Z.eqb_spec (e_class e) 0); [contradiction|reflexivity].
  Qed.
  Lemma class_rows : StronglySorted (fun a b => row_at a 0 < row_at b 0) (generate_class ord (map line_of file)) /\
    forall r, In r (generate_class ord (map line_of file)) <->
      exists e, In e file /\ e_class e <> 0 /\ r = [e_code e; e_class e].
  Proof.
    unfold generate_class. fold class_hash. destruct class_hash_spec as [N G].
    assert (K : forall k, In k (hkeys class_hash) -> exists c, 0 <= c /\ k = hex4 c).
    { intros k H. apply hget_keys in H. destruct H as (v & H). apply G in H. destruct H as (e & I & _ & -> & _).
      exists (e_code e). split; [apply (proj1 W e I)|reflexivity]. }
    destruct (sort_keys ord 0%nat (hkeys class_hash) Ho N K) as [S P]. split.
    - eapply sorted_map; [|exact S]. intros a b _ _ H. exact H.
    - intros r. rewrite in_map_iff. split.
      + intros (k & <- & H). apply P in H. apply hget_keys in H. destruct H as (v & H). rewrite H.
        apply G in H. destruct H as (e & I & NZ & -> & ->). exists e.
        rewrite hex_hex4, dec_value by apply (proj1 W e I). auto.
      + intros (e & I & NZ & ->). exists (hex4 (e_code e)).
        assert (H : hget class_hash (hex4 (e_code e)) = Some (dec (e_class e))) by (apply G; eauto).
        rewrite H. rewrite hex_hex4, dec_value by apply (proj1 W e I). split; [reflexivity|].
        apply P. apply hget_keys. eauto.
  Qed.
  Lemma class_resolve_generated c k :
    class_resolve_in (generate_class ord (map line_of file)) c = Ok k <-> file_class file c k.
  Proof.
    destruct class_rows as [S R]. unfold class_resolve_in.
    destruct (bsearch_rows _ c S) as [(r & E & I & K)|[E K]]; rewrite E; cbn [bind].
    - apply R in I. destruct I as (e & I & NZ & ->). cbn [row_at nth] in K.
      change (rd [e_code e; e_class e] 1) with (Ok (e_class e)). unfold file_class. split.
      + intros H. injection H as <-. left. exists e. auto.
      + intros [(e' & I' & E' & <-)|[N _]]; [|exfalso; eapply N; eassumption].
        rewrite (file_unique file e e' W I I') by congruence. reflexivity.
    - split.
      + intros H. injection H as <-.
        destruct (existsb (fun e => e_code e =? c) file) eqn:X.
        * apply existsb_exists in X. destruct X as (e & I & X). apply Z.eqb_eq in X. left. exists e.
          repeat split; [assumption..|]. destruct (Z.eq_dec (e_class e) 0) as [|NZ]; [assumption|].
          exfalso. apply (K [e_code e; e_class e]); [apply R; eauto|exact X].
        * right. split; [|reflexivity]. intros e I Q.
          assert (existsb (fun e => e_code e =? c) file = true); [|congruence].
          apply existsb_exists. exists e. split; [assumption|apply Z.eqb_eq; assumption].
      + intros [(e & I & X & <-)|[_ ->]]; [|reflexivity].
        destruct (Z.eq_dec (e_class e) 0) as [->|NZ]; [reflexivity|].
        exfalso. apply (K [e_code e; e_class e]); [apply R; eauto|exact X].
  Qed.
End Class.

(** ** The decomposition mappings: reading the file *)
Definition kept (compat : bool) (e : entry) : option (list Z) :=
  match e_mapping e with
  | None => None
  | Some (None, l) => Some l
  | Some (Some t, l) => if compat && text_eqb t compat_tag then Some l else None
  end.
Definition file_mapping (compat : bool) (file : list entry) : Z -> list Z -> Prop :=
  if compat then file_compat file else file_canonical file.
Lemma kept_mapping compat file c l :
  file_mapping compat file c l <-> exists e, In e file /\ e_code e = c /\ kept compat e = Some l.
Proof.
  unfold file_mapping, kept, file_compat, file_canonical.
  destruct compat; split; intros (e & I & C & E); exists e; (split; [assumption|]; split; [assumption|]).
  - destruct E as [->| ->]; [reflexivity|]. rewrite text_eqb_refl. reflexivity.
  - destruct (e_mapping e) as [[[t|] m]|]; [|left; congruence|discriminate].
    cbn [andb] in E. destruct (text_eqb t compat_tag) eqn:T; [|discriminate].
    apply text_eqb_eq in T. right. congruence.
  - rewrite E. reflexivity.
  - destruct (e_mapping e) as [[[t|] m]|]; [discriminate|congruence|discriminate].
Qed.
Lemma strip_tag p t s : ~ In ">"%char t -> ~ In ">"%char p ->
  strip_prefix (p ++ [">"; " "]%char) (t ++ [">"; " "]%char ++ s) = if text_eqb t p then Some s else None.
Proof.
  revert t. induction p as [|x p IH]; intros t T P.
  - destruct t as [|y t]; [reflexivity|]. cbn [app strip_prefix text_eqb]. destruct (Ascii.eqb_spec ">"%char y) as [<-|]; [|reflexivity].
    exfalso. apply T. left. reflexivity.
  - destruct t as [|y t].
    + cbn [app strip_prefix text_eqb]. destruct (Ascii.eqb_spec x ">"%char) as [->|]; [|reflexivity]. exfalso. apply P. left. reflexivity.
    + cbn [app strip_prefix text_eqb]. rewrite (Ascii.eqb_sym y x). destruct (Ascii.eqb x y); [|reflexivity].
      apply IH; intros H; [apply T|apply P]; right; assumption.
Qed.
Lemma numbers_start l : l <> [] -> (forall c, In c l -> 0 <= c) ->
  exists a b s, join [" "%char] (map hex4 l) = a :: b :: s /\ upper_digit a.
Proof.
  intros N P. destruct l as [|c l]; [contradiction|]. assert (C := P c (or_introl eq_refl)).
  pose proof (hex4_length c) as L. destruct (hex4 c) as [|a [|b s]] eqn:E; cbn in L; try lia.
  assert (A : upper_digit a) by (apply (hex4_digits c); [assumption|rewrite E; left; reflexivity]).
  cbn [map]. destruct (map hex4 l) as [|w ws]; cbn [join]; rewrite E; cbn [app]; eauto.
Qed.
Lemma mapping_line_spec compat h e : entry_ok e ->
  mapping_line compat h (line_of e) =
  match option_map (fun l => (hex4 (e_code e), map hex4 l)) (kept compat e) with
  | Some (k, v) => hset h k v | None => h end.
Proof.
  intros O. unfold mapping_line. rewrite !line_fields by assumption. cbn [field nth].
  destruct O as (_ & _ & _ & M). unfold kept. destruct (e_mapping e) as [[tag l]|]; [|reflexivity].
  destruct (M tag l eq_refl) as (N & P & T).
  destruct (numbers_start l N P) as (a & b & s & E & A).
  assert (LT : Ascii.eqb a "<" = false).
  { destruct (Ascii.eqb_spec a "<"%char) as [->|]; [|reflexivity].
    apply upper_digit_class in A. destruct A as [A _]. discriminate A. }
  assert (SP := split_spaces_hex4 l N P).
  destruct tag as [t|]; cbn [mapping_text option_map].
  - destruct (T t eq_refl) as [_ T2].
    assert (TR : truthy (["<"%char] ++ t ++ [">"; " "]%char ++ join [" "%char] (map hex4 l)) = true) by reflexivity.
    rewrite TR. destruct compat; cbn [andb]; [|reflexivity].
    unfold remove_compat.
    change (lit "<compat> ") with ("<"%char :: compat_tag ++ [">"; " "]%char).
    change (["<"%char] ++ t ++ [">"; " "]%char ++ join [" "%char] (map hex4 l))
      with ("<"%char :: t ++ [">"; " "]%char ++ join [" "%char] (map hex4 l)).
    cbn [strip_prefix]. rewrite Ascii.eqb_refl.
    rewrite strip_tag; [|assumption|cbn; intuition discriminate].
    destruct (text_eqb t compat_tag); [|reflexivity].
    rewrite SP, E. cbn [tagged]. rewrite LT. reflexivity.
  - rewrite E in *.
    assert (TR : truthy (a :: b :: s) = true).
    { unfold truthy. cbn [text_eqb]. rewrite andb_false_r. reflexivity. }
    rewrite TR.
    assert (R : remove_compat (a :: b :: s) = a :: b :: s).
    { unfold remove_compat. change (lit "<compat> ") with ("<"%char :: lit "compat> "). cbn [strip_prefix].
      rewrite Ascii.eqb_sym, LT. reflexivity. }
    destruct compat; [rewrite R|]; cbn [tagged]; rewrite LT, SP; reflexivity.
Qed.

(** ** The expansion loop *)
Section Expand.
  Variable M : Z -> list Z -> Prop.
  Hypothesis Mf : functional M.
  Hypothesis Mpos : forall c l, M c l -> 0 <= c /\ Forall (fun x => 0 <= x) l.

  Fixpoint height (n : nat) (c : Z) : Prop :=
    match n with
    | O => forall l, ~ M c l
    | S n' => forall l, M c l -> Forall (height n') l
    end.
  Lemma height_mono n c : height n c -> height (S n) c.
  Proof.
    revert c. induction n as [|n IH]; intros c H l L; [exfalso; eapply H; eassumption|].
    apply H in L. eapply Forall_impl; [|exact L]. exact IH.
  Qed.
  Lemma height_le n m c : (n <= m)%nat -> height n c -> height m c.
  Proof. intros L H. induction L; [assumption|]. apply height_mono. assumption. Qed.
  Lemma expands_height : (forall c d, expands M c d -> exists n, height n c) /\
    (forall cs d, expands_all M cs d -> exists n, Forall (height n) cs).
  Proof.
    apply expands_ind2.
    - intros c N. exists O. exact N.
    - intros c l d L _ [n H]. exists (S n). intros l' L'. rewrite (Mf _ _ _ L' L). assumption.
    - exists O. constructor.
    - intros c cs d ds _ [n H] _ [m H']. exists (Nat.max n m). constructor.
      + eapply height_le; [|eassumption]. lia.
      + eapply Forall_impl; [|exact H']. intros x Hx. eapply height_le; [|exact Hx]. lia.
  Qed.

  Definition value (d : hash (list text)) (c : Z) (m : list Z) : Prop :=
    0 <= c /\ Forall (fun x => 0 <= x) m /\ hget d (hex4 c) = Some (map hex4 m).
  Record inv (d : hash (list text)) : Prop := {
    inv_nodup : NoDup (hkeys d);
    inv_form : forall k l, hget d k = Some l -> exists c m, k = hex4 c /\ l = map hex4 m /\ value d c m;
    inv_keys : forall c, 0 <= c -> (exists l, M c l) <-> hexists d (hex4 c) = true;
    inv_sound : forall c m D, value d c m -> expands_all M m D -> expands M c D;
    inv_height : forall n c m, value d c m -> height (S n) c -> Forall (height n) m
  }.

  Definition repl (d : hash (list text)) (x : Z) : list Z :=
    match hget d (hex4 x) with Some l => map hex l | None => [x] end.
  Lemma map_hex m : Forall (fun x => 0 <= x) m -> map hex (map hex4 m) = m.
  Proof.
    induction 1 as [|x m Hx _ IH]; [reflexivity|]. cbn [map]. rewrite hex_hex4, IH by assumption. reflexivity.
  Qed.
  Lemma repl_value d x m : value d x m -> repl d x = m.
  Proof. intros (_ & P & H). unfold repl. rewrite H. apply map_hex. assumption. Qed.
  Lemma repl_none d x : hexists d (hex4 x) = false -> repl d x = [x].
  Proof. unfold hexists, repl. destruct (hget d (hex4 x)); [discriminate|reflexivity]. Qed.
  Lemma map_hex4_inj m m' : Forall (fun x => 0 <= x) m -> Forall (fun x => 0 <= x) m' ->
    map hex4 m = map hex4 m' -> m = m'.
  Proof. intros P P' E. rewrite <- (map_hex m P), <- (map_hex m' P'), E. reflexivity. Qed.
  Lemma value_fun d c m m' : value d c m -> value d c m' -> m = m'.
  Proof. intros (_ & P & H) (_ & P' & H'). apply map_hex4_inj; [assumption..|]. congruence. Qed.
  Lemma repl_cases d x : inv d -> 0 <= x ->
    (exists m, value d x m /\ repl d x = m) \/
    (hexists d (hex4 x) = false /\ (forall l, ~ M x l) /\ repl d x = [x]).
  Proof.
    intros I X. destruct (hexists d (hex4 x)) eqn:E.
    - left. unfold hexists in E. destruct (hget d (hex4 x)) as [l|] eqn:G; [|discriminate].
      destruct (inv_form d I _ _ G) as (c & m & K & -> & V).
      assert (c = x) as -> by (apply hex4_inj; [apply V|assumption|auto]).
      exists m. split; [assumption|apply repl_value; assumption].
    - right. split; [reflexivity|]. split; [|apply repl_none; assumption].
      intros l H. assert (hexists d (hex4 x) = true) by (apply (inv_keys d I x X); eauto). congruence.
  Qed.
  Lemma flat_map_text d m : inv d -> Forall (fun x => 0 <= x) m ->
    flat_map (fun x => match hget d x with Some l => l | None => [x] end) (map hex4 m)
    = map hex4 (flat_map (repl d) m).
  Proof.
    intros I P. induction P as [|x m X P IH]; [reflexivity|]. cbn [map flat_map]. rewrite IH, map_app. f_equal.
    destruct (repl_cases d x I X) as [(l & V & ->)|(E & _ & ->)].
    - destruct V as (_ & _ & ->). reflexivity.
    - unfold hexists in E. destruct (hget d (hex4 x)); [discriminate|reflexivity].
  Qed.
  Lemma repl_pos d m : inv d -> Forall (fun x => 0 <= x) m -> Forall (fun x => 0 <= x) (flat_map (repl d) m).
  Proof.
    intros I P. induction P as [|x m X P IH]; [constructor|]. cbn. apply Forall_app. split; [|assumption].
    destruct (repl_cases d x I X) as [(l & V & ->)|(_ & _ & ->)]; [apply V|repeat constructor; assumption].
  Qed.
  Lemma expands_all_app_inv cs cs' D : expands_all M (cs ++ cs') D ->
    exists d d', D = d ++ d' /\ expands_all M cs d /\ expands_all M cs' d'.
  Proof.
    revert D. induction cs as [|c cs IH]; intros D H; cbn [app] in H.
    - exists [], D. repeat split; [constructor|assumption].
    - inversion H as [|? ? d1 ds E1 E2]; subst. destruct (IH _ E2) as (a & b & -> & Ha & Hb).
      exists (d1 ++ a), b. rewrite app_assoc. repeat split; [constructor; assumption|assumption].
  Qed.
  Lemma repl_sound d m D : inv d -> Forall (fun x => 0 <= x) m ->
    expands_all M (flat_map (repl d) m) D -> expands_all M m D.
  Proof.
    intros I P. revert D. induction P as [|x m X P IH]; intros D H; cbn in H; [assumption|].
    apply expands_all_app_inv in H. destruct H as (a & b & -> & Ha & Hb). constructor; [|auto].
    destruct (repl_cases d x I X) as [(l & V & E)|(_ & N & E)]; rewrite E in Ha.
    - eapply (inv_sound d I); eassumption.
    - inversion Ha as [|? ? u v A B]; subst. inversion B; subst. rewrite app_nil_r. assumption.
  Qed.
  Lemma repl_height d n m : inv d -> Forall (fun x => 0 <= x) m ->
    Forall (height (S n)) m -> Forall (height n) (flat_map (repl d) m).
  Proof.
    intros I P. induction P as [|x m X P IH]; intros H; [constructor|]. inversion H as [|? ? H1 H2]; subst.
    cbn. apply Forall_app. split; [|auto].
    destruct (repl_cases d x I X) as [(l & V & ->)|(_ & N & ->)].
    - eapply (inv_height d I); eassumption.
    - constructor; [|constructor]. apply (height_le O); [lia|exact N].
  Qed.
  Lemma repl_height_same d n m : inv d -> Forall (fun x => 0 <= x) m ->
    Forall (height n) m -> Forall (height n) (flat_map (repl d) m).
  Proof.
    intros I P H. destruct n as [|n].
    - assert (E : flat_map (repl d) m = m); [|rewrite E; assumption].
      clear -I P H. induction P as [|x m X P IH]; [reflexivity|]. inversion H as [|? ? H1 H2]; subst. cbn.
      rewrite (IH H2). destruct (repl_cases d x I X) as [(l & V & E)|(_ & N & ->)]; [|reflexivity].
      exfalso. destruct (proj2 (inv_keys d I x X)) as (l' & L'); [|exact (H1 l' L')].
      unfold hexists. destruct V as (_ & _ & ->). reflexivity.
    - eapply Forall_impl; [|apply (repl_height d n m I P H)]. intros c. apply height_mono.
  Qed.

  (** One round of the foreach loop. *)
  Lemma expand_key_value b d c m : inv d -> value d c m ->
    let d' := snd (expand_key (b, d) (hex4 c)) in
    forall x l, value d' x l <-> (x = c /\ l = flat_map (repl d) m) \/ (x <> c /\ value d x l).
  Proof.
    intros I V d' x l. subst d'. cbn [expand_key snd]. destruct V as (C & P & H). rewrite H.
    rewrite flat_map_text by assumption. unfold value. rewrite hget_hset. split.
    - intros (X & L & E). destruct (text_eqb (hex4 x) (hex4 c)) eqn:T.
      + apply text_eqb_eq, hex4_inj in T; [|assumption..]. subst x. left. split; [reflexivity|].
        symmetry. apply map_hex4_inj; [apply repl_pos; assumption|assumption|congruence].
      + right. split; [|tauto]. intros ->. rewrite text_eqb_refl in T. discriminate.
    - intros [(-> & ->)|(N & X & L & E)].
      + rewrite text_eqb_refl. repeat split; [assumption|apply repl_pos; assumption].
      + destruct (text_eqb (hex4 x) (hex4 c)) eqn:T; [|tauto].
        apply text_eqb_eq, hex4_inj in T; [contradiction|assumption..].
  Qed.
  Lemma expand_key_keys b d c m : value d c m -> hkeys (snd (expand_key (b, d) (hex4 c))) = hkeys d.
  Proof. intros (_ & _ & H). cbn [expand_key snd]. rewrite hkeys_hset. unfold hexists. rewrite H. reflexivity. Qed.
  Lemma hexists_keys {V} (d d' : hash V) k : hkeys d = hkeys d' -> hexists d k = hexists d' k.
  Proof.
    intros E. assert (J : forall h : hash V, hexists h k = true <-> In k (hkeys h)).
    { intros h. rewrite hget_keys. unfold hexists. destruct (hget h k); split; eauto; [discriminate|intros (v & H); discriminate]. }
    destruct (hexists d k) eqn:A, (hexists d' k) eqn:B; try reflexivity; exfalso.
    - apply J in A. rewrite E in A. apply J in A. congruence.
    - apply J in B. rewrite <- E in B. apply J in B. congruence.
  Qed.
  Lemma expand_key_inv b d c m : inv d -> value d c m -> inv (snd (expand_key (b, d) (hex4 c))).
  Proof.
    intros I V. pose proof (expand_key_value b d c m I V) as EV. cbv zeta in EV.
    pose proof (expand_key_keys b d c m V) as EK. set (d' := snd (expand_key (b, d) (hex4 c))) in *.
    assert (V0 := V). destruct V0 as (C & P & H). constructor.
    - rewrite EK. apply (inv_nodup d I).
    - intros k l G. assert (G0 := G). subst d'. cbn [expand_key snd] in G. rewrite H in G. rewrite hget_hset in G.
      destruct (text_eqb k (hex4 c)) eqn:T.
      + apply text_eqb_eq in T. injection G as <-. rewrite flat_map_text by assumption.
        exists c, (flat_map (repl d) m). repeat split; try assumption; [apply repl_pos; assumption|].
        rewrite <- (flat_map_text d m I P). subst k. cbn [expand_key snd]. rewrite H, hget_hset, text_eqb_refl. reflexivity.
      + destruct (inv_form d I k l G) as (x & n & -> & -> & W). exists x, n. repeat split; try apply W.
        exact G0.
    - intros x X. rewrite (hexists_keys d' d _ EK). apply (inv_keys d I x X).
    - intros x l D W E. apply EV in W. destruct W as [(-> & ->)|(_ & W)].
      + eapply (inv_sound d I); [eassumption|]. apply (repl_sound d m D I P E).
      + eapply (inv_sound d I); eassumption.
    - intros n x l W E. apply EV in W. destruct W as [(-> & ->)|(_ & W)].
      + apply repl_height_same; [assumption..|]. apply (inv_height d I n c m V E).
      + eapply (inv_height d I); eassumption.
  Qed.
  Definition below (n : nat) (d : hash (list text)) (c : Z) : Prop := forall m, value d c m -> Forall (height n) m.
  Definition is_key (d : hash (list text)) (k : text) : Prop := exists c m, k = hex4 c /\ value d c m.
  Lemma expand_key_below b d c m n x : inv d -> value d c m -> below n d x ->
    below n (snd (expand_key (b, d) (hex4 c))) x.
  Proof.
    intros I V B l W. apply (expand_key_value b d c m I V) in W. destruct W as [(-> & ->)|(_ & W)]; [|auto].
    apply repl_height_same; [assumption|apply V|auto].
  Qed.
  Lemma expand_key_down b d c m n : inv d -> value d c m -> below (S n) d c ->
    below n (snd (expand_key (b, d) (hex4 c))) c.
  Proof.
    intros I V B l W. apply (expand_key_value b d c m I V) in W. destruct W as [(_ & ->)|(N & _)]; [|contradiction].
    apply repl_height; [assumption|apply V|auto].
  Qed.
  Lemma is_key_in d k : inv d -> In k (hkeys d) -> is_key d k.
  Proof.
    intros I H. apply hget_keys in H. destruct H as (l & H). destruct (inv_form d I k l H) as (c & m & -> & -> & V).
    exists c, m. auto.
  Qed.
  Lemma is_key_keys d d' k : inv d' -> hkeys d = hkeys d' -> is_key d k -> is_key d' k.
  Proof.
    intros I E (c & m & -> & V). apply is_key_in; [assumption|]. rewrite <- E. apply hget_keys.
    destruct V as (_ & _ & H). eauto.
  Qed.
  (** No element of the value of [c] has a mapping. *)
  Definition final (d : hash (list text)) (c : Z) : Prop :=
    forall m x, value d c m -> In x m -> hexists d (hex4 x) = false.
  Lemma below_final d c : inv d -> below 0 d c <-> final d c.
  Proof.
    intros I. split.
    - intros B m x V X. specialize (B m V). rewrite Forall_forall in B. specialize (B x X).
      destruct (hexists d (hex4 x)) eqn:E; [|reflexivity]. exfalso.
      assert (Px : 0 <= x). { destruct V as (_ & P & _). rewrite Forall_forall in P. auto. }
      apply (inv_keys d I x Px) in E. destruct E as (l & L). exact (B l L).
    - intros F m V. apply Forall_forall. intros x X l L.
      assert (Px : 0 <= x). { destruct V as (_ & P & _). rewrite Forall_forall in P. auto. }
      assert (hexists d (hex4 x) = true) by (apply (inv_keys d I x Px); eauto).
      rewrite (F m x V X) in H. discriminate.
  Qed.
  Lemma final_existsb d c m : value d c m -> final d c -> existsb (hexists d) (map hex4 m) = false.
  Proof.
    intros V F. apply not_true_iff_false. intros H. apply existsb_exists in H. destruct H as (t & T & X).
    apply in_map_iff in T. destruct T as (x & <- & T). rewrite (F m x V T) in X. discriminate.
  Qed.
  Lemma repl_final d m : (forall x, In x m -> hexists d (hex4 x) = false) -> flat_map (repl d) m = m.
  Proof.
    induction m as [|x m IH]; intros F; [reflexivity|]. cbn. rewrite repl_none by (apply F; left; reflexivity).
    rewrite IH; [reflexivity|]. intros. apply F. right. assumption.
  Qed.

  Lemma pass_spec ks : forall b d, inv d -> (forall k, In k ks -> is_key d k) ->
    let r := fold_left expand_key ks (b, d) in
    inv (snd r) /\ hkeys (snd r) = hkeys d /\
    (forall n c, below n d c -> below n (snd r) c) /\
    (forall n c, In (hex4 c) ks -> 0 <= c -> below (S n) d c -> below n (snd r) c) /\
    (fst r = false -> b = false /\ (forall x l, value (snd r) x l <-> value d x l) /\
       (forall c, In (hex4 c) ks -> 0 <= c -> final d c)) /\
    ((forall c, below 0 d c) -> fst r = b).
  Proof.
    induction ks as [|k ks IH]; intros b d I K r.
    - subst r. cbn [fold_left fst snd]. split; [assumption|]. split; [reflexivity|]. split; [auto|].
      split; [intros n c []|]. split; [|reflexivity]. intros ->. split; [reflexivity|]. split; [reflexivity|intros c []].
    - destruct (K k (or_introl eq_refl)) as (c & m & -> & V).
      pose proof (expand_key_inv b d c m I V) as I'. pose proof (expand_key_keys b d c m V) as E'.
      pose proof (expand_key_value b d c m I V) as EV. cbv zeta in EV.
      pose proof (fun n x => expand_key_below b d c m n x I V) as EB.
      pose proof (fun n => expand_key_down b d c m n I V) as ED.
      assert (FL : fst (expand_key (b, d) (hex4 c)) = (b || existsb (hexists d) (map hex4 m))%bool).
      { cbn [expand_key fst]. destruct V as (_ & _ & ->). reflexivity. }
      subst r. cbn [fold_left].
      set (st := expand_key (b, d) (hex4 c)) in *. destruct st as [b' d'] eqn:ST. cbn [fst snd] in *.
      destruct (IH b' d' I') as (A1 & A2 & A3 & A4 & A5 & A6).
      { intros k H. eapply is_key_keys; [exact I'|symmetry; exact E'|]. apply K. right. assumption. }
      split; [assumption|]. split; [congruence|]. split; [auto|]. split; [|split].
      + intros n x X Px B. destruct (Z.eq_dec x c) as [->|NE]; [auto|].
        destruct X as [X|X]; [apply hex4_inj in X; [congruence|apply V|assumption]|]. apply A4; [assumption..|auto].
      + intros F. destruct (A5 F) as (F1 & F2 & F3). rewrite F1 in FL. symmetry in FL. apply orb_false_iff in FL.
        destruct FL as [-> FL]. split; [reflexivity|].
        assert (NK : forall x, In x m -> hexists d (hex4 x) = false).
        { intros x X. destruct (hexists d (hex4 x)) eqn:Q; [|reflexivity].
          assert (existsb (hexists d) (map hex4 m) = true); [|congruence].
          apply existsb_exists. exists (hex4 x). split; [apply in_map|]; assumption. }
        assert (SAME : forall x l, value d' x l <-> value d x l).
        { intros x l. rewrite EV. rewrite (repl_final d m NK). split.
          - intros [(-> & ->)|(_ & W)]; assumption.
          - intros W. destruct (Z.eq_dec x c) as [->|NE]; [left|right; auto].
            split; [reflexivity|]. eapply value_fun; eassumption. }
        split; [intros x l; rewrite F2; apply SAME|].
        intros x X Px. destruct (Z.eq_dec x c) as [->|NE].
        * intros l y W Y. rewrite (value_fun d c l m W V) in Y. auto.
        * destruct X as [X|X]; [apply hex4_inj in X; [congruence|apply V|assumption]|].
          intros l y W Y. rewrite (hexists_keys d d' (hex4 y) (eq_sym E')). apply (F3 x X Px l y); [apply SAME; assumption|assumption].
      + intros B. rewrite A6 by auto. rewrite FL. rewrite (final_existsb d c m V); [apply orb_false_r|].
        apply below_final; auto.
  Qed.

  Variable ord : nat -> list text -> list text.
  Hypothesis Ho : some_order ord.
  Lemma order_keys n (d : hash (list text)) k : In k (ord n (hkeys d)) <-> In k (hkeys d).
  Proof. split; intros H; (eapply Permutation_in; [|exact H]); [apply Permutation_sym|]; apply Ho. Qed.
  Lemma value_key d c m : value d c m -> In (hex4 c) (hkeys d).
  Proof. intros (_ & _ & H). apply hget_keys. eauto. Qed.

  Lemma loop_result fuel : forall n d d', inv d -> expand_loop fuel ord n d = Ok d' ->
    inv d' /\ hkeys d' = hkeys d /\ (forall c, final d' c).
  Proof.
    induction fuel as [|fuel IH]; intros n d d' I H; [discriminate|]. cbn [expand_loop] in H. unfold expand_pass in H.
    destruct (pass_spec (ord n (hkeys d)) false d I) as (A1 & A2 & _ & _ & A5 & _).
    { intros k K. apply order_keys in K. apply is_key_in; assumption. }
    destruct (fold_left expand_key (ord n (hkeys d)) (false, d)) as [b e]. cbn [fst snd] in *. destruct b.
    - destruct (IH _ _ _ A1 H) as (B1 & B2 & B3). split; [assumption|]. split; [congruence|assumption].
    - injection H as <-. split; [assumption|]. split; [assumption|]. destruct (A5 eq_refl) as (_ & S & F).
      intros c m x V X. rewrite (hexists_keys e d _ A2). apply S in V.
      refine (F c _ (proj1 V) m x V X). apply order_keys. eapply value_key; eassumption.
  Qed.
  Lemma loop_S fuel n d : expand_loop (S fuel) ord n d =
    let '(continue, d') := expand_pass (ord n) d in if continue then expand_loop fuel ord (S n) d' else Ok d'.
  Proof. reflexivity. Qed.
  Lemma loop_terminates N : forall n d, inv d -> (forall c, below N d c) -> exists d', expand_loop (S N) ord n d = Ok d'.
  Proof.
    induction N as [|N IH]; intros n d I B.
    all: rewrite loop_S; unfold expand_pass.
    all: destruct (pass_spec (ord n (hkeys d)) false d I) as (A1 & A2 & A3 & A4 & A5 & A6);
         [intros k K; apply order_keys in K; apply is_key_in; assumption|].
    all: destruct (fold_left expand_key (ord n (hkeys d)) (false, d)) as [b e]; cbn [fst snd] in *.
    - rewrite (A6 B). eauto.
    - destruct b; [|eauto]. apply IH; [assumption|]. intros c m V. apply (A4 N c); [|apply V|apply B|assumption].
      apply order_keys. rewrite <- A2. eapply value_key; eassumption.
  Qed.
  Lemma loop_more fuel : forall n d d', expand_loop fuel ord n d = Ok d' ->
    forall fuel', (fuel <= fuel')%nat -> expand_loop fuel' ord n d = Ok d'.
  Proof.
    induction fuel as [|fuel IH]; intros n d d' H fuel' L; [discriminate|]. destruct fuel' as [|fuel']; [lia|].
    cbn [expand_loop] in *. destruct (expand_pass (ord n) d) as [b e]. destruct b; [|assumption].
    apply IH; [assumption|lia].
  Qed.
  Lemma loop_expands fuel n d d' : inv d -> expand_loop fuel ord n d = Ok d' ->
    forall c m, value d' c m -> expands M c m.
  Proof.
    intros I H c m V. destruct (loop_result fuel n d d' I H) as (I' & _ & F).
    apply (inv_sound d' I' c m m V). apply expands_all_self. intros x l X L.
    assert (Px : 0 <= x). { destruct V as (_ & P & _). rewrite Forall_forall in P. auto. }
    assert (E : hexists d' (hex4 x) = true) by (apply (inv_keys d' I' x Px); eauto).
    rewrite (F c m x V X) in E. discriminate.
  Qed.
  Lemma loop_no_expansion fuel n d c : inv d -> (forall D, ~ expands M c D) -> forall d', expand_loop fuel ord n d <> Ok d'.
  Proof.
    intros I NE d' H. destruct (loop_result fuel n d d' I H) as (I' & _ & F).
    assert (Mc : exists l, M c l).
    { destruct (Z_le_gt_dec 0 c) as [Pc|Nc].
      - apply (inv_keys d' I' c Pc). destruct (hexists d' (hex4 c)) eqn:E; [reflexivity|]. exfalso.
        apply (NE [c]). apply expands_none. intros l L.
        assert (hexists d' (hex4 c) = true) by (apply (inv_keys d' I' c Pc); eauto). congruence.
      - exfalso. apply (NE [c]). apply expands_none. intros l L. apply Mpos in L. lia. }
    destruct Mc as (l & L). assert (Pc := proj1 (Mpos c l L)).
    assert (E : hexists d' (hex4 c) = true) by (apply (inv_keys d' I' c Pc); eauto).
    unfold hexists in E. destruct (hget d' (hex4 c)) as [t|] eqn:G; [|discriminate].
    destruct (inv_form d' I' _ _ G) as (x & m & K & -> & V).
    assert (x = c) as -> by (apply hex4_inj; [apply V|assumption|auto]).
    apply (NE m). exact (loop_expands fuel n d d' I H c m V).
  Qed.
  Lemma loop_outcome fuel : forall n d, (exists d', expand_loop fuel ord n d = Ok d') \/ expand_loop fuel ord n d = OutOfFuel.
  Proof.
    induction fuel as [|fuel IH]; intros n d; [right; reflexivity|]. cbn [expand_loop].
    destruct (expand_pass (ord n) d) as [b e]. destruct b; [apply IH|]. left. eauto.
  Qed.
  Lemma keys_bounded d : inv d -> (forall c, exists D, expands M c D) -> exists N, forall c, below N d c.
  Proof.
    intros I E.
    assert (H : exists N, forall c, 0 <= c -> In (hex4 c) (hkeys d) -> height N c).
    { induction (hkeys d) as [|k ks [N IH]]; [exists O; intros c _ []|].
      destruct (E (hex k)) as (D & X). apply (proj1 expands_height) in X. destruct X as (n & X).
      exists (Nat.max n N). intros c Pc [Q|Q].
      - subst k. rewrite hex_hex4 in X by assumption. eapply height_le; [|exact X]. lia.
      - eapply height_le; [|apply IH; assumption]. lia. }
    destruct H as [N H]. exists N. intros c m V. apply (inv_height d I N c m V). apply height_mono.
    apply H; [apply V|eapply value_key; eassumption].
  Qed.
End Expand.

(** ** canonical_decomposition_mapping_data.pl and its compatibility variant *)
Section Mapping.
  Variables (compat : bool) (ord : nat -> list text -> list text) (file : list entry).
  Hypotheses (Ho : some_order ord) (W : file_ok file).
  Let M := file_mapping compat file.
  Lemma file_mapping_fun : functional M.
  Proof.
    intros c l l' H H'. apply kept_mapping in H, H'. destruct H as (e & I & C & K), H' as (e' & I' & C' & K').
    rewrite (file_unique file e e' W I I') in K by congruence. congruence.
  Qed.
  Lemma file_mapping_pos c l : M c l -> 0 <= c /\ Forall (fun x => 0 <= x) l.
  Proof.
    intros H. apply kept_mapping in H. destruct H as (e & I & C & K).
    destruct (proj1 W e I) as (P & _ & _ & Q). split; [lia|]. unfold kept in K.
    destruct (e_mapping e) as [[tag m]|]; [|discriminate]. destruct (Q tag m eq_refl) as (_ & F & _).
    apply Forall_forall. destruct tag as [t|]; [destruct (compat && text_eqb t compat_tag)%bool; [|discriminate]|];
    injection K as <-; assumption.
  Qed.
  Definition mapping_hash : hash (list text) := fold_left (mapping_line compat) (map line_of file) [].
  Lemma mapping_hash_spec : NoDup (hkeys mapping_hash) /\
    forall k v, hget mapping_hash k = Some v <-> exists c l, M c l /\ k = hex4 c /\ v = map hex4 l.
  Proof.
    unfold mapping_hash. rewrite fold_left_map.
    destruct (fill_hash (fun h e => mapping_line compat h (line_of e))
      (fun e => option_map (fun l => (hex4 (e_code e), map hex4 l)) (kept compat e)) file) with (h0 := @nil (text * list text))
      as [N G].
    - intros h e I. apply mapping_line_spec, W, I.
    - intros x y k v w X Y. destruct (kept compat x) eqn:Kx; [|discriminate]. destruct (kept compat y) eqn:Ky; [|discriminate].
      cbn. intros E E'. injection E as <- <-. injection E' as E <-.
      apply hex4_inj in E; [|apply (proj1 W y Y)|apply (proj1 W x X)].
      rewrite (file_unique file y x W Y X E) in Ky. congruence.
    - constructor.
    - split; [assumption|]. intros k v. rewrite G. split.
      + intros [(e & I & E)|[_ E]]; [|discriminate]. destruct (kept compat e) as [l|] eqn:K; [|discriminate].
        injection E as <- <-. exists (e_code e), l. split; [apply kept_mapping; eauto|auto].
      + intros (c & l & H & -> & ->). left. apply kept_mapping in H. destruct H as (e & I & <- & K).
        exists e. rewrite K. auto.
  Qed.
  Lemma mapping_hash_inv : inv M mapping_hash.
  Proof.
    destruct mapping_hash_spec as [N G].
    assert (V : forall c m, value mapping_hash c m <-> M c m).
    { intros c m. unfold value. rewrite G. split.
      - intros (C & P & (c' & l & H & E & E')). destruct (file_mapping_pos _ _ H) as [C' P'].
        apply hex4_inj in E; [|assumption..]. apply map_hex4_inj in E'; [|assumption..]. congruence.
      - intros H. destruct (file_mapping_pos _ _ H) as [C P]. repeat split; [assumption..|]. eauto. }
    constructor.
    - assumption.
    - intros k l H. apply G in H. destruct H as (c & m & H & -> & ->). exists c, m.
      split; [reflexivity|]. split; [reflexivity|]. apply V. assumption.
    - intros c C. unfold hexists. split.
      + intros (l & H). apply V in H. destruct H as (_ & _ & ->). reflexivity.
      + intros H. destruct (hget mapping_hash (hex4 c)) as [t|] eqn:E; [|discriminate].
        apply G in E. destruct E as (c' & l & H' & E & ->). destruct (file_mapping_pos _ _ H') as [C' _].
        apply hex4_inj in E; [|assumption..]. subst. eauto.
    - intros c m D H E. apply V in H. eapply expands_map; eassumption.
    - intros n c m H E. apply V in H. exact (E m H).
  Qed.
  (** The rows: one for each codepoint with a mapping, holding its full expansion. *)
  Lemma mapping_rows fuel table : generate_mapping compat fuel ord (map line_of file) = Ok table ->
    StronglySorted (fun a b => row_at a 0 < row_at b 0) table /\
    forall r, In r table <-> exists c l D, M c l /\ expands M c D /\ r = c :: D ++ [0].
  Proof.
    unfold generate_mapping. fold mapping_hash. intros H.
    destruct (expand_loop fuel ord 1 mapping_hash) as [d| |] eqn:L; try discriminate. cbn [bind] in H. injection H as <-.
    destruct (loop_result M ord Ho fuel 1 _ _ mapping_hash_inv L) as (I & _ & _).
    pose proof (loop_expands M ord Ho fuel 1 _ _ mapping_hash_inv L) as X.
    assert (K : forall k, In k (hkeys d) -> exists c, 0 <= c /\ k = hex4 c).
    { intros k K. destruct (is_key_in M d k I K) as (c & m & -> & V). exists c. split; [apply V|reflexivity]. }
    destruct (sort_keys ord 0%nat (hkeys d) Ho (inv_nodup M d I) K) as [S P].
    split.
    - eapply sorted_map; [|exact S]. intros a b _ _ E. exact E.
    - intros r. rewrite in_map_iff. split.
      + intros (k & <- & H). apply P in H. destruct (is_key_in M d k I H) as (c & m & -> & V).
        destruct V as (C & Q & E). assert (V : value d c m) by (repeat split; assumption).
        rewrite E, map_hex, hex_hex4 by assumption.
        destruct (proj2 (inv_keys M d I c C)) as (l & Ml); [unfold hexists; rewrite E; reflexivity|].
        exists c, l, m. auto.
      + intros (c & l & D & Ml & E & ->). destruct (file_mapping_pos _ _ Ml) as [C _].
        assert (Ex : hexists d (hex4 c) = true) by (apply (inv_keys M d I c C); eauto).
        unfold hexists in Ex. destruct (hget d (hex4 c)) as [t|] eqn:Gd; [|discriminate].
        destruct (inv_form M d I _ _ Gd) as (x & m & Q & -> & V).
        assert (x = c) as -> by (apply hex4_inj; [apply V|assumption|auto]).
        assert (m = D) as -> by (eapply (proj1 (expands_fun M file_mapping_fun)); [apply X; eassumption|assumption]).
        exists (hex4 c). rewrite Gd, map_hex, hex_hex4 by (assumption || apply V). split; [reflexivity|].
        apply P. apply hget_keys. eauto.
  Qed.
  Lemma mapping_resolve_generated fuel table : generate_mapping compat fuel ord (map line_of file) = Ok table ->
    forall c, (forall l, M c l -> exists D, mapping_resolve_in table c = Ok (Some (D ++ [0])) /\ expands M c D) /\
      ((forall l, ~ M c l) -> mapping_resolve_in table c = Ok None).
  Proof.
    intros H c. destruct (mapping_rows fuel table H) as [S R]. unfold mapping_resolve_in.
    destruct (bsearch_rows _ c S) as [(r & E & I & K)|[E K]]; rewrite E; cbn [bind].
    - apply R in I. destruct I as (x & l & D & Ml & X & ->). cbn [row_at nth] in K. subst x. split.
      + intros _ _. exists D. auto.
      + intros N. exfalso. eapply N; eassumption.
    - split; [|reflexivity]. intros l Ml. exfalso.
      unfold generate_mapping in H. fold mapping_hash in H.
      destruct (expand_loop fuel ord 1 mapping_hash) as [d| |] eqn:L; try discriminate.
      destruct (loop_result M ord Ho fuel 1 _ _ mapping_hash_inv L) as (I & _ & _).
      pose proof (loop_expands M ord Ho fuel 1 _ _ mapping_hash_inv L) as X.
      destruct (file_mapping_pos _ _ Ml) as [C _].
      assert (Ex : hexists d (hex4 c) = true) by (apply (inv_keys M d I c C); eauto).
      unfold hexists in Ex. destruct (hget d (hex4 c)) as [t|] eqn:Gd; [|discriminate].
      destruct (inv_form M d I _ _ Gd) as (x & m & Q & -> & V).
      assert (x = c) as -> by (apply hex4_inj; [apply V|assumption|auto]).
      apply (K (c :: m ++ [0])); [|reflexivity]. apply R. exists c, l, m. auto.
  Qed.
  Lemma mapping_terminates : (forall c, exists D, expands M c D) ->
    exists N table, forall fuel, (N <= fuel)%nat -> generate_mapping compat fuel ord (map line_of file) = Ok table.
  Proof.
    intros E. destruct (keys_bounded M file_mapping_fun mapping_hash mapping_hash_inv E) as [N B].
    destruct (loop_terminates M ord Ho N 1 mapping_hash mapping_hash_inv B) as [d L].
    eexists (S N), _. intros fuel F. unfold generate_mapping. fold mapping_hash.
    rewrite (loop_more ord (S N) 1 _ _ L fuel F). reflexivity.
  Qed.
  Lemma mapping_hangs c : (forall D, ~ expands M c D) ->
    forall fuel, generate_mapping compat fuel ord (map line_of file) = OutOfFuel.
  Proof.
    intros E fuel. unfold generate_mapping. fold mapping_hash.
    destruct (loop_outcome ord fuel 1 mapping_hash) as [[d L]|L]; rewrite L; [|reflexivity].
    exfalso. exact (loop_no_expansion M file_mapping_pos ord Ho fuel 1 mapping_hash c mapping_hash_inv E d L).
  Qed.
End Mapping.
(** A codepoint that leads back to itself has no full decomposition. *)
Lemma cycle_no_expansion M c D : functional M -> reaches M c c -> ~ expands M c D.
Proof.
  intros F R E. destruct (expands_height M F) as [H _]. destruct (H c D E) as [n Hn]. clear E H.
  assert (P : forall x y, reaches M x y -> forall n, height M n x -> exists m, (m < n)%nat /\ height M m y).
  { clear. induction 1 as [c l x L X|c l x y L X R IH]; intros n H.
    - destruct n as [|n]; [exfalso; exact (H l L)|]. exists n. split; [lia|].
      specialize (H l L). rewrite Forall_forall in H. exact (H x X).
    - destruct n as [|n]; [exfalso; exact (H l L)|].
      specialize (H l L). rewrite Forall_forall in H. destruct (IH n (H x X)) as (m & Lm & Hm). exists m. split; [lia|assumption]. }
  induction n as [n IH] using (well_founded_induction lt_wf). destruct (P c c R n Hn) as (m & L & Hm). eauto.
Qed.
