(** * Proofs: Hangul syllables and the standard's full canonical decomposition *)
From Verif Require Import Prelude DataTables UcdTables PropsModel Utf8Model TextModel UnicodeSpec GraphemeSpec NormSpec
  PropsProofs DecompTables DecompProofs OrderProofs ComposeProofs NormData.
Require Import ZifyBool ZifyNat.

(** Conjoining jamo and Hangul syllables: no combining class, no mapping, no listed composite. *)
Definition hangulish (c : Z) : bool := ((0x1100 <=? c) && (c <=? 0x11FF)) || ((SBase <=? c) && (c <? SBase + 11172)).
Lemma hangul_no_ccc : forallb (fun r => negb (hangulish (fst r))) ucd_ccc = true.
Proof. vm_cast_no_check (eq_refl true). Qed.
Lemma hangul_no_mapping : forallb (fun r => negb (hangulish (fst (fst r)))) ucd_decomposition = true.
Proof. vm_cast_no_check (eq_refl true). Qed.
Lemma hangul_no_composite : forallb (fun r => forallb (fun x => negb (hangulish x)) r) canonical_composition_mapping_data = true.
Proof. vm_cast_no_check (eq_refl true). Qed.
Lemma hangulish_ccc c : hangulish c = true -> ccc c = 0.
Proof.
  intros H. destruct (has_ccc_total c) as [I|[_ E]]; [|assumption]. pose proof hangul_no_ccc as Q.
  rewrite forallb_forall in Q. specialize (Q _ I). cbn [fst] in Q. rewrite H in Q. discriminate.
Qed.
Lemma hangulish_unlisted c tag l : hangulish c = true -> ~ In (c, tag, l) ucd_decomposition.
Proof.
  intros H I. pose proof hangul_no_mapping as Q. rewrite forallb_forall in Q. specialize (Q _ I). cbn [fst] in Q.
  rewrite H in Q. discriminate.
Qed.
Lemma comp_not_hangulish a b c : comp a b = Some c -> hangulish a = false /\ hangulish b = false /\ hangulish c = false.
Proof.
  intros H. apply comp_row in H. pose proof hangul_no_composite as Q. rewrite forallb_forall in Q. specialize (Q _ H).
  cbn [forallb] in Q. destruct (hangulish a), (hangulish b), (hangulish c); try discriminate; auto.
Qed.
Lemma comp_hangulish_l a b : hangulish a = true -> comp a b = None.
Proof. intros H. destruct (comp a b) eqn:E; [|reflexivity]. apply comp_not_hangulish in E. destruct E as (E & _). congruence. Qed.
Lemma comp_hangulish_r a b : hangulish b = true -> comp a b = None.
Proof. intros H. destruct (comp a b) eqn:E; [|reflexivity]. apply comp_not_hangulish in E. destruct E as (_ & E & _). congruence. Qed.

(** Full decomposition into jamo. *)
Definition is_syllable (c : Z) : bool := (SBase <=? c) && (c <? SBase + 11172).
Lemma is_syllable_spec c : is_syllable c = true <-> hangul_syllable c.
Proof. unfold is_syllable, hangul_syllable. lia. Qed.
Definition jamo_l (s : Z) : Z := LBase + s / 588.
Definition jamo_v (s : Z) : Z := VBase + (s mod 588) / 28.
Definition jamo_t (s : Z) : Z := TBase + s mod 28.
Definition jamo (c : Z) : list Z :=
  if is_syllable c then
    let s := c - SBase in
    if s mod 28 =? 0 then [jamo_l s; jamo_v s] else [jamo_l s; jamo_v s; jamo_t s]
  else [c].
Lemma jamo_ranges s : 0 <= s < 11172 ->
  LBase <= jamo_l s <= LBase + 18 /\ VBase <= jamo_v s <= VBase + 20 /\ TBase <= jamo_t s <= TBase + 27.
Proof.
  intros H. unfold jamo_l, jamo_v, jamo_t.
  pose proof (Z.div_lt_upper_bound s 588 19 ltac:(lia) ltac:(lia)). pose proof (Z.div_pos s 588 ltac:(lia) ltac:(lia)).
  pose proof (Z.mod_pos_bound s 588 ltac:(lia)) as M.
  pose proof (Z.div_lt_upper_bound (s mod 588) 28 21 ltac:(lia) ltac:(lia)). pose proof (Z.div_pos (s mod 588) 28 ltac:(lia) ltac:(lia)).
  pose proof (Z.mod_pos_bound s 28 ltac:(lia)). lia.
Qed.
Lemma jamo_hangulish s : 0 <= s < 11172 -> hangulish (jamo_l s) = true /\ hangulish (jamo_v s) = true /\ hangulish (jamo_t s) = true.
Proof. intros H. pose proof (jamo_ranges s H). unfold hangulish, LBase, VBase, TBase, SBase in *. lia. Qed.
Lemma syllable_hangulish c : is_syllable c = true -> hangulish c = true.
Proof. unfold is_syllable, hangulish. lia. Qed.
Lemma unmapped_jamo c : hangulish c = true -> is_syllable c = false -> forall l, ~ canonical_mapping c l.
Proof.
  intros H N l [L|[S _]]; [eapply hangulish_unlisted; eassumption|]. apply is_syllable_spec in S. congruence.
Qed.
Lemma jamo_not_syllable s : 0 <= s < 11172 ->
  is_syllable (jamo_l s) = false /\ is_syllable (jamo_v s) = false /\ is_syllable (jamo_t s) = false.
Proof. intros H. pose proof (jamo_ranges s H). unfold is_syllable, LBase, VBase, TBase, SBase in *. lia. Qed.
Lemma jamo_all c : is_syllable c = true -> Forall (fun x => hangulish x = true /\ is_syllable x = false) (jamo c).
Proof.
  intros H. unfold jamo. rewrite H. cbv zeta. assert (0 <= c - SBase < 11172) by (unfold is_syllable in H; lia).
  pose proof (jamo_hangulish (c - SBase) ltac:(assumption)) as (A & B & C).
  pose proof (jamo_not_syllable (c - SBase) ltac:(assumption)) as (A' & B' & C').
  destruct (_ =? 0); repeat constructor; assumption.
Qed.
(** The intermediate LV syllable. *)
Definition lv_of (c : Z) : Z := SBase + ((c - SBase) / 28) * 28.
Lemma lv_of_facts c : is_syllable c = true -> (c - SBase) mod 28 <> 0 ->
  is_syllable (lv_of c) = true /\ (lv_of c - SBase) mod 28 = 0 /\
  jamo_l (lv_of c - SBase) = jamo_l (c - SBase) /\ jamo_v (lv_of c - SBase) = jamo_v (c - SBase).
Proof.
  intros H N. unfold lv_of. set (s := c - SBase) in *. assert (Hs : 0 <= s < 11172) by (unfold is_syllable, s in *; lia).
  replace (SBase + s / 28 * 28 - SBase) with (s / 28 * 28) by lia.
  pose proof (Z.div_mod s 28 ltac:(lia)) as DM. pose proof (Z.mod_pos_bound s 28 ltac:(lia)) as MB.
  assert (E588 : forall x, x / 588 = x / 28 / 21) by (intros; rewrite Z.div_div by lia; reflexivity).
  split; [unfold is_syllable; pose proof (Z.div_pos s 28 ltac:(lia) ltac:(lia)); lia|].
  split; [apply Z_mod_mult|]. split.
  - unfold jamo_l. rewrite !E588, Z.div_mul by lia. reflexivity.
  - unfold jamo_v. f_equal. rewrite !Z.mod_eq by lia. rewrite !E588, Z.div_mul by lia.
    replace (s / 28 * 28 - 588 * (s / 28 / 21)) with ((s / 28 - 21 * (s / 28 / 21)) * 28) by lia. rewrite Z.div_mul by lia.
    replace (s - 588 * (s / 28 / 21)) with (s mod 28 + (s / 28 - 21 * (s / 28 / 21)) * 28) by lia.
    rewrite Z.div_add by lia. rewrite (Z.div_small (s mod 28) 28) by lia. reflexivity.
Qed.
Lemma hangul_lv c : is_syllable c = true -> (c - SBase) mod 28 = 0 -> hangul_mapping c [jamo_l (c - SBase); jamo_v (c - SBase)].
Proof.
  intros H E. split; [apply is_syllable_spec; assumption|]. cbv zeta. rewrite E. reflexivity.
Qed.
Lemma hangul_lvt c : is_syllable c = true -> (c - SBase) mod 28 <> 0 -> hangul_mapping c [lv_of c; jamo_t (c - SBase)].
Proof.
  intros H E. split; [apply is_syllable_spec; assumption|]. cbv zeta. destruct (Z.eqb_spec ((c - SBase) mod 28) 0); [contradiction|].
  reflexivity.
Qed.
Lemma expands_lv c : is_syllable c = true -> (c - SBase) mod 28 = 0 ->
  expands canonical_mapping c [jamo_l (c - SBase); jamo_v (c - SBase)].
Proof.
  intros H E. eapply expands_map; [right; apply hangul_lv; assumption|].
  pose proof (jamo_all c H) as F. unfold jamo in F. rewrite H in F. cbv zeta in F. rewrite E in F. cbn [Z.eqb] in F.
  apply expands_all_self. intros x l Hx. rewrite Forall_forall in F. destruct (F x Hx). apply unmapped_jamo; assumption.
Qed.
Lemma expands_jamo c : is_syllable c = true -> expands canonical_mapping c (jamo c).
Proof.
  intros H. destruct (Z.eq_dec ((c - SBase) mod 28) 0) as [E|E].
  - unfold jamo. rewrite H. cbv zeta. rewrite E. cbn [Z.eqb]. apply expands_lv; assumption.
  - destruct (lv_of_facts c H E) as (A & B & C & D). pose proof (expands_lv _ A B) as X. rewrite C, D in X.
    pose proof (jamo_all c H) as F. unfold jamo in *. rewrite H in *. cbv zeta in *.
    destruct (Z.eqb_spec ((c - SBase) mod 28) 0); [contradiction|].
    eapply expands_map; [right; apply hangul_lvt; assumption|].
    change [jamo_l (c - SBase); jamo_v (c - SBase); jamo_t (c - SBase)]
      with ([jamo_l (c - SBase); jamo_v (c - SBase)] ++ [jamo_t (c - SBase)] ++ []).
    constructor; [assumption|]. constructor; [|constructor]. apply expands_none.
    inversion F as [|? ? _ F1]; subst. inversion F1 as [|? ? _ F2]; subst. inversion F2 as [|? ? [F3 F4] _]; subst.
    apply unmapped_jamo; assumption.
Qed.

(** ** The standard's full canonical decomposition *)
Definition full_standard (c : Z) : list Z := flat_map jamo (full_canonical c).
Lemma syllable_full c : hangulish c = true -> full_canonical c = [c].
Proof.
  intros H. symmetry. apply full_canonical_unique. apply expands_none. intros l. apply hangulish_unlisted. assumption.
Qed.
Lemma jamo_other c : is_syllable c = false -> jamo c = [c].
Proof. intros H. unfold jamo. rewrite H. reflexivity. Qed.
Lemma full_not_syllable c x : is_syllable c = false -> In x (full_canonical c) -> is_syllable x = false.
Proof.
  intros N Hx. destruct (is_syllable x) eqn:E; [|reflexivity]. exfalso.
  apply is_syllable_spec in E. revert E.
  assert (T : forall c l x, listed_canonical c l -> In x l -> ~ hangul_syllable x)
      by (intros c' l' x' L' I'; exact (proj1 (mapping_targets_not_hangul _ _ _ _ L' I'))).
  refine (proj1 (expands_not_hangul listed_canonical T) c _ (full_canonical_expands c) _ x Hx).
  intros S. apply is_syllable_spec in S. congruence.
Qed.
Lemma flat_map_id (f : Z -> list Z) l : (forall x, In x l -> f x = [x]) -> flat_map f l = l.
Proof.
  induction l as [|x l IH]; intros H; [reflexivity|]. cbn [flat_map]. rewrite (H x), IH; [reflexivity| |left; reflexivity].
  intros. apply H. right. assumption.
Qed.
Lemma full_standard_other c : is_syllable c = false -> full_standard c = full_canonical c.
Proof.
  intros N. unfold full_standard. apply flat_map_id. intros x Hx. apply jamo_other. eapply full_not_syllable; eassumption.
Qed.
Lemma full_standard_expands c : expands canonical_mapping c (full_standard c).
Proof.
  destruct (is_syllable c) eqn:H.
  - unfold full_standard. rewrite syllable_full by (apply syllable_hangulish; assumption).
    cbn [flat_map]. rewrite app_nil_r. apply expands_jamo. assumption.
  - rewrite full_standard_other by assumption. apply full_canonical_standard. intros S. apply is_syllable_spec in S. congruence.
Qed.
Lemma expands_all_flat M f cs : (forall c, expands M c (f c)) -> expands_all M cs (flat_map f cs).
Proof. intros H. induction cs; cbn [flat_map]; constructor; [apply H|assumption]. Qed.
Lemma standard_unique cs d : expands_all canonical_mapping cs d <-> d = flat_map full_standard cs.
Proof.
  split.
  - intros H. eapply (proj2 (expands_fun _ canonical_mapping_functional)); [eassumption|].
    apply expands_all_flat, full_standard_expands.
  - intros ->. apply expands_all_flat, full_standard_expands.
Qed.
Lemma flat_map_flat_map (f g : Z -> list Z) l : flat_map f (flat_map g l) = flat_map (fun c => flat_map f (g c)) l.
Proof. induction l as [|x l IH]; [reflexivity|]. cbn [flat_map]. rewrite flat_map_app, IH. reflexivity. Qed.
Lemma full_standard_all cs : flat_map full_standard cs = flat_map jamo (flat_map full_canonical cs).
Proof. rewrite flat_map_flat_map. reflexivity. Qed.

(** ** Ordering commutes with expanding syllables *)
Lemma cinsert_starter x l : ccc x = 0 -> cinsert x l = x :: l.
Proof.
  intros H. destruct l as [|y l]; [reflexivity|]. cbn [cinsert]. rewrite H. pose proof (ccc_nonneg y).
  destruct (Z.leb_spec 0 (ccc y)); [rewrite orb_true_r; reflexivity|lia].
Qed.
Lemma jamo_head y : exists h t, jamo y = h :: t /\ ccc h = ccc y.
Proof.
  destruct (is_syllable y) eqn:H.
  - pose proof (jamo_all y H) as F. destruct (jamo y) as [|h t] eqn:E.
    + unfold jamo in E. rewrite H in E. cbv zeta in E. destruct (_ =? 0); discriminate.
    + exists h, t. split; [reflexivity|]. inversion F as [|? ? [A _] _]; subst.
      rewrite (hangulish_ccc h A), (hangulish_ccc y); [reflexivity|apply syllable_hangulish; assumption].
  - rewrite jamo_other by assumption. exists y, []. auto.
Qed.
Lemma cinsert_jamo x l : is_syllable x = false -> cinsert x (flat_map jamo l) = flat_map jamo (cinsert x l).
Proof.
  intros N. induction l as [|y l IH]; cbn [flat_map cinsert].
  - rewrite jamo_other by assumption. reflexivity.
  - destruct ((ccc y =? 0) || (ccc x <=? ccc y)) eqn:E.
    + cbn [flat_map]. rewrite (jamo_other x N). cbn [app]. destruct (jamo_head y) as (h & t & J & K). rewrite J. cbn [app cinsert].
      rewrite K, E. reflexivity.
    + assert (S : is_syllable y = false).
      { destruct (is_syllable y) eqn:S; [|reflexivity]. apply syllable_hangulish, hangulish_ccc in S. lia. }
      rewrite (jamo_other y S). cbn [app flat_map cinsert]. rewrite E, (jamo_other y S). cbn [app]. rewrite IH. reflexivity.
Qed.
Lemma corder_jamo l : corder (flat_map jamo l) = flat_map jamo (corder l).
Proof.
  induction l as [|x l IH]; [reflexivity|]. cbn [flat_map]. rewrite corder_app, IH. cbn [corder fold_right]. fold (corder l).
  destruct (is_syllable x) eqn:S.
  - rewrite (cinsert_starter x) by (apply hangulish_ccc, syllable_hangulish; assumption). cbn [flat_map].
    pose proof (jamo_all x S) as F. revert F. generalize (jamo x) as j. induction j as [|y j IHj]; intros F; [reflexivity|].
    inversion F as [|? ? [A _] F']; subst. cbn [fold_right app]. rewrite IHj by assumption.
    apply cinsert_starter, hangulish_ccc. assumption.
  - rewrite (jamo_other x S). cbn [fold_right]. apply cinsert_jamo. assumption.
Qed.
Lemma nfd_eq cs d : nfd cs d <-> d = flat_map jamo (corder (flat_map full_canonical cs)).
Proof.
  unfold nfd. split.
  - intros (f & E & O). apply standard_unique in E. apply canonical_order_eq in O. subst.
    rewrite full_standard_all. apply corder_jamo.
  - intros ->. exists (flat_map full_standard cs). split; [apply standard_unique; reflexivity|].
    apply canonical_order_eq. rewrite full_standard_all. symmetry. apply corder_jamo.
Qed.
