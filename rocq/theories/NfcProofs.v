(** * Proofs: the Canonical Composition Algorithm against greedy composition *)
From Coq Require Import Permutation Sorted Relations.
From Verif Require Import Prelude DataTables UcdTables PropsModel Utf8Model TextModel UnicodeSpec GraphemeSpec NormSpec
  PropsProofs DecompTables DecompProofs GraphemeProofs OrderProofs ComposeProofs NormData HangulProofs NormProofs.
Require Import ZifyBool ZifyNat.

(** ** Basic facts *)
Lemma blocked_iff mid c : blocked mid c <-> exists b, In b mid /\ (ccc b = 0 \/ ccc b >= ccc c).
Proof.
  unfold blocked. split.
  - intros (b & i & j & I & Hi & Hj & H). apply has_ccc_eq in Hi, Hj. exists b. split; [assumption|]. lia.
  - intros (b & I & H). exists b, (ccc b), (ccc c). split; [assumption|]. split; [apply has_ccc_total|]. split; [apply has_ccc_total|]. lia.
Qed.
Lemma blocked_dec mid c : blocked mid c \/ ~ blocked mid c.
Proof.
  rewrite blocked_iff. destruct (existsb (fun b => (ccc b =? 0) || (ccc b >=? ccc c)) mid) eqn:E.
  - left. apply existsb_exists in E. destruct E as (b & I & H). exists b. split; [assumption|]. lia.
  - right. intros (b & I & H). assert (existsb (fun b => (ccc b =? 0) || (ccc b >=? ccc c)) mid = true); [|congruence].
    apply existsb_exists. exists b. split; [assumption|]. lia.
Qed.
Lemma not_blocked_nil c : ~ blocked [] c.
Proof. intros (b & i & j & [] & _). Qed.
Lemma blocked_starter mid c : mid <> [] -> ccc c = 0 -> blocked mid c.
Proof.
  intros N H. apply blocked_iff. destruct mid as [|b mid]; [contradiction|]. exists b. split; [left; reflexivity|].
  pose proof (ccc_nonneg b). lia.
Qed.
Lemma comp_starters a b c : comp a b = Some c -> ccc a = 0 /\ ccc c = 0.
Proof.
  intros H. apply comp_spec in H. destruct H as (_ & C & A & _). apply has_ccc_eq in C, A. auto.
Qed.
Lemma comp_mark a b : ccc a <> 0 -> comp a b = None.
Proof. intros H. destruct (comp a b) eqn:E; [|reflexivity]. apply comp_starters in E. lia. Qed.
Lemma hangul_cases d m : hangul_mapping d m -> is_syllable d = true /\
  (((d - SBase) mod 28 = 0 /\ m = [jamo_l (d - SBase); jamo_v (d - SBase)]) \/
   ((d - SBase) mod 28 <> 0 /\ m = [lv_of d; jamo_t (d - SBase)])).
Proof.
  intros [S E]. split; [apply is_syllable_spec; assumption|]. cbv zeta in E. rewrite E.
  generalize (Z.eqb_spec ((d - SBase) mod 28) 0). destruct (_ =? 0); intros R; inversion R; [left|right]; (split; [assumption|reflexivity]).
Qed.
Lemma pair_eq (a b x y : Z) : [a; b] = [x; y] -> a = x /\ b = y.
Proof. intros H. injection H; auto. Qed.
Lemma hangul_pair l c d : hangul_mapping d [l; c] ->
  hangulish l = true /\ hangulish c = true /\ is_syllable c = false /\ is_syllable d = true.
Proof.
  intros H. apply hangul_cases in H. destruct H as [Sd H].
  assert (Hs : 0 <= d - SBase < 11172) by (unfold is_syllable in Sd; lia).
  pose proof (jamo_hangulish _ Hs) as (A & B & C). pose proof (jamo_not_syllable _ Hs) as (A' & B' & C').
  destruct H as [[_ E]|[N E]]; apply pair_eq in E; destruct E as [E1 E2]; rewrite E1, E2.
  - split; [exact A|]. split; [exact B|]. split; [exact B'|exact Sd].
  - pose proof (lv_of_facts d Sd N) as (L & _).
    split; [exact (syllable_hangulish _ L)|]. split; [exact C|]. split; [exact C'|exact Sd].
Qed.
Lemma composes_cases l c d : composes l c d ->
  comp l c = Some d \/ (hangulish l = true /\ hangulish c = true /\ is_syllable c = false /\ is_syllable d = true).
Proof. intros [P|H]; [left; apply comp_spec; assumption|right; apply hangul_pair; assumption]. Qed.
Lemma composes_starters l c d : composes l c d -> ccc l = 0 /\ ccc d = 0.
Proof.
  intros H. apply composes_cases in H. destruct H as [H|(A & _ & _ & D)]; [apply comp_starters in H; assumption|].
  split; apply hangulish_ccc; [assumption|apply syllable_hangulish; assumption].
Qed.
Lemma composes_mark l c d : composes l c d -> ccc c <> 0 -> comp l c = Some d.
Proof. intros H N. apply composes_cases in H. destruct H as [H|(_ & B & _)]; [assumption|]. apply hangulish_ccc in B. lia. Qed.
(** A composite never composes with something in front of it. *)
Definition composite (h : Z) : Prop := exists p q, composes p q h.
Lemma composite_not_second h l d : composite h -> ~ composes l h d.
Proof.
  intros (p & q & H) C. apply composes_cases in H, C.
  destruct H as [H|(_ & _ & _ & S)], C as [C|(_ & B & N & _)].
  - rewrite (result_not_second _ _ _ l H) in C. discriminate.
  - apply comp_not_hangulish in H. destruct H as (_ & _ & H). congruence.
  - rewrite comp_hangulish_r in C by (apply syllable_hangulish; assumption). discriminate.
  - congruence.
Qed.
Fixpoint fast_ordered (l : list Z) : bool :=
  match l with a :: (b :: _) as t => ((fast_ccc b =? 0) || (fast_ccc a <=? fast_ccc b)) && fast_ordered t | _ => true end.
Lemma fast_ordered_eq l : fast_ordered l = orderedb l.
Proof.
  induction l as [|a [|b t] IH]; [reflexivity|reflexivity|].
  change (fast_ordered (a :: b :: t)) with (((fast_ccc b =? 0) || (fast_ccc a <=? fast_ccc b)) && fast_ordered (b :: t)).
  rewrite IH, !fast_ccc_eq. reflexivity.
Qed.
Definition row_ordered (row : list Z) : bool := fast_ordered (removelast (tl row)).
Lemma rows_ordered : forallb row_ordered canonical_decomposition_mapping_data = true.
Proof. vm_cast_no_check (eq_refl true). Qed.
Lemma full_ordered c : orderedb (full_canonical c) = true.
Proof.
  destruct (table_full_row _ _ c canonical_table) as [F|I]; [unfold full_canonical; rewrite F; reflexivity|].
  pose proof rows_ordered as Q. rewrite forallb_forall in Q. specialize (Q _ I). unfold row_ordered in Q.
  cbn [tl] in Q. rewrite removelast_snoc, fast_ordered_eq in Q. exact Q.
Qed.
Lemma orderedb_pair x a b y : orderedb (x ++ a :: b :: y) = true -> ccc b = 0 \/ ccc a <= ccc b.
Proof.
  induction x as [|z x IH]; cbn [app]; intros H.
  - cbn [orderedb] in H. apply andb_prop in H. destruct H as [H _]. unfold okpair in H. lia.
  - apply IH. destruct (x ++ a :: b :: y) as [|w t] eqn:E; [destruct x; discriminate|]. cbn [orderedb] in H.
    apply andb_prop in H. tauto.
Qed.
(** A mark that joined the starter cannot make room for one of smaller class. *)
Lemma no_late_join l c d x e : comp l c = Some d -> comp d x = Some e ->
  full_canonical c = [c] -> full_canonical x = [x] -> ccc x = 0 \/ ccc c <= ccc x.
Proof.
  intros H1 H2 Fc Fx. pose proof (full_ordered e) as O. rewrite (comp_full _ _ _ H2), (comp_full _ _ _ H1), Fc, Fx in O.
  rewrite <- app_assoc in O. cbn [app] in O. eapply orderedb_pair. eassumption.
Qed.

(** ** Greedy composition over a run of marks *)
Definition mark (c : Z) : Prop := ccc c <> 0.
Lemma composeF_none a t : (forall x, comp a x = None) -> composeF a t = a :: compose t.
Proof. intros H. destruct t as [|b t]; [reflexivity|]. cbn [composeF compose]. rewrite H. reflexivity. Qed.
Lemma composeF_keep mid : forall l c rest, Forall mark mid -> (forall m ms, mid = m :: ms -> comp l m = None) ->
  (mid <> [] \/ comp l c = None) -> composeF l (mid ++ c :: rest) = l :: mid ++ composeF c rest.
Proof.
  induction mid as [|m mid IH]; intros l c rest F N H.
  - destruct H as [H|H]; [contradiction|]. cbn [app composeF]. rewrite H. reflexivity.
  - inversion F as [|? ? Fm F']; subst. cbn [app composeF]. rewrite (N m mid eq_refl).
    rewrite (IH m c rest F'); [reflexivity| |].
    + intros m' ms _. apply comp_mark. assumption.
    + right. apply comp_mark. assumption.
Qed.
Lemma composeF_marks mid l : Forall mark mid -> (forall m ms, mid = m :: ms -> comp l m = None) -> composeF l mid = l :: mid.
Proof.
  revert l. induction mid as [|m mid IH]; intros l F N; [reflexivity|]. inversion F as [|? ? Fm F']; subst.
  cbn [composeF]. rewrite (N m mid eq_refl), IH; [reflexivity|assumption|]. intros. apply comp_mark. assumption.
Qed.
Lemma fully_composed_suffix p u : fully_composed (p ++ u) -> fully_composed u.
Proof. intros H x l mid c y d E. apply (H (p ++ x) l mid c y d). rewrite E, <- app_assoc. reflexivity. Qed.

(** ** If the greedy result is fully composed, the algorithm computes it *)
Lemma syllable_join c rest out : is_syllable c = true -> compose_from c [] rest out ->
  exists l t, jamo c = l :: t /\ hangulish l = true /\ is_syllable l = false /\ LBase <= l <= LBase + 18 /\
    compose_from l [] (t ++ rest) out.
Proof.
  intros S C. unfold jamo. rewrite S. cbv zeta.
  assert (Hs : 0 <= c - SBase < 11172) by (unfold is_syllable in S; lia).
  pose proof (jamo_hangulish (c - SBase) Hs) as (A & _). pose proof (jamo_not_syllable (c - SBase) Hs) as (A' & _).
  pose proof (jamo_ranges (c - SBase) Hs) as (R & _).
  destruct (Z.eqb_spec ((c - SBase) mod 28) 0) as [E|E].
  - exists (jamo_l (c - SBase)), [jamo_v (c - SBase)]. repeat (split; [assumption || reflexivity|]).
    cbn [app]. eapply cf_join; [apply not_blocked_nil|right; apply hangul_lv; assumption|assumption].
  - destruct (lv_of_facts c S E) as (L & M & EL & EV).
    exists (jamo_l (c - SBase)), [jamo_v (c - SBase); jamo_t (c - SBase)]. repeat (split; [assumption || reflexivity|]).
    cbn [app]. eapply cf_join; [apply not_blocked_nil| |].
    + right. rewrite <- EL, <- EV. apply hangul_lv; eassumption.
    + eapply cf_join; [apply not_blocked_nil|right; apply hangul_lvt; assumption|assumption].
Qed.
Lemma l_jamo_not_second l c d : LBase <= c <= LBase + 18 -> ~ composes l c d.
Proof.
  intros R [P|H].
  - apply comp_spec in P. rewrite comp_hangulish_r in P; [discriminate|]. unfold hangulish, LBase in *. lia.
  - apply hangul_cases in H. destruct H as [Sd H].
    assert (Hs : 0 <= d - SBase < 11172) by (unfold is_syllable in Sd; lia).
    pose proof (jamo_ranges _ Hs) as (_ & V & T).
    pose proof (Z.mod_pos_bound (d - SBase) 28 ltac:(lia)).
    destruct H as [[_ E]|[N E]]; apply pair_eq in E; destruct E as [_ E]; unfold jamo_t, LBase, VBase, TBase in *; lia.
Qed.
Lemma simulate rest : forall l mid, ccc l = 0 -> Forall mark mid -> (forall m ms, mid = m :: ms -> comp l m = None) ->
  fully_composed (composeF l (mid ++ rest)) -> compose_from l mid (flat_map jamo rest) (composeF l (mid ++ rest)).
Proof.
  induction rest as [|c rest IH]; intros l mid Hl F N U.
  - rewrite app_nil_r in *. rewrite composeF_marks by assumption. constructor.
  - cbn [flat_map].
    assert (KEEP : mid <> [] \/ comp l c = None -> composeF l (mid ++ c :: rest) = (l :: mid) ++ composeF c rest).
    { intros H. rewrite (composeF_keep mid l c rest F N H). reflexivity. }
    assert (START : (mid <> [] \/ comp l c = None) -> ccc c = 0 ->
      compose_from c [] (flat_map jamo rest) (composeF c rest)).
    { intros H Hc. rewrite (KEEP H) in U. apply fully_composed_suffix in U.
      apply (IH c [] Hc (Forall_nil _)); [discriminate|exact U]. }
    destruct (is_syllable c) eqn:S.
    + assert (Hg : hangulish c = true) by (apply syllable_hangulish; assumption).
      assert (H : mid <> [] \/ comp l c = None) by (right; apply comp_hangulish_r; assumption).
      destruct (syllable_join c (flat_map jamo rest) (composeF c rest) S (START H (hangulish_ccc c Hg)))
        as (j & t & -> & Hj & _ & R & C).
      rewrite (KEEP H). cbn [app]. apply cf_starter; [|apply has_ccc_eq, hangulish_ccc; assumption|assumption].
      right. intros d. apply l_jamo_not_second. assumption.
    + rewrite (jamo_other c S). cbn [app].
      destruct (Z.eq_dec (ccc c) 0) as [Hc|Hc].
      * destruct mid as [|m mid].
        -- assert (CASE : (exists d, comp l c = Some d) \/ comp l c = None) by (destruct (comp l c); eauto). destruct CASE as [[d E]|E].
           ++ cbn [app composeF] in *. rewrite E in *. eapply cf_join; [apply not_blocked_nil|left; apply comp_spec; eassumption|].
              apply (IH d []); [apply comp_starters in E; tauto|constructor|discriminate|assumption].
           ++ pose proof (KEEP (or_intror E)) as K. rewrite K. cbn [app]. apply (cf_starter l [] c); [|apply has_ccc_eq; assumption|apply START; auto].
              right. intros d H. rewrite K in U. cbn [app] in U. apply composes_cases in H as H'.
              destruct H' as [H'|(_ & Hg & _)]; [congruence|].
              rewrite (composeF_none c rest) in U by (intros; apply comp_hangulish_l; assumption).
              exact (U [] l [] c (compose rest) d eq_refl (not_blocked_nil c) H).
        -- assert (NE : m :: mid <> []) by discriminate. rewrite (KEEP (or_introl NE)). cbn [app].
           apply (cf_starter l (m :: mid) c); [|apply has_ccc_eq; assumption|apply START; auto].
           left. apply blocked_starter; assumption.
      * assert (STEP : forall mid', mid' = mid ++ [c] -> (blocked mid c \/ forall d, ~ composes l c d) ->
          (mid <> [] \/ comp l c = None) -> compose_from l mid (c :: flat_map jamo rest) (composeF l (mid ++ c :: rest))).
        { intros mid' -> H1 H2. apply cf_keep; [assumption|intros H; apply has_ccc_eq in H; contradiction|].
          replace (mid ++ c :: rest) with ((mid ++ [c]) ++ rest) by (rewrite <- app_assoc; reflexivity).
          apply IH; [assumption| | |rewrite <- app_assoc; assumption].
          - apply Forall_app. split; [assumption|constructor; [assumption|constructor]].
          - intros m ms E. destruct mid as [|m' mid]; cbn [app] in E; injection E as <- _.
            + destruct H2 as [H2|H2]; [contradiction|assumption].
            + apply (N m' mid eq_refl). }
        destruct mid as [|m mid].
        -- assert (CASE : (exists d, comp l c = Some d) \/ comp l c = None) by (destruct (comp l c); eauto). destruct CASE as [[d E]|E].
           ++ cbn [app composeF] in *. rewrite E in *. eapply cf_join; [apply not_blocked_nil|left; apply comp_spec; eassumption|].
              apply (IH d []); [apply comp_starters in E; tauto|constructor|discriminate|assumption].
           ++ eapply STEP; [reflexivity| |right; assumption]. right. intros d H. apply composes_mark in H; [congruence|assumption].
        -- assert (NE : m :: mid <> []) by discriminate. eapply STEP; [reflexivity| |left; assumption].
           destruct (blocked_dec (m :: mid) c) as [B|B]; [left; assumption|right]. intros d H.
           rewrite (KEEP (or_introl NE)) in U. rewrite (composeF_none c rest) in U by (intros; apply comp_mark; assumption).
           exact (U [] l (m :: mid) c (compose rest) d eq_refl B H).
Qed.
Lemma simulate_text D : fully_composed (compose D) -> compose_text (flat_map jamo D) (compose D).
Proof.
  induction D as [|x D IH]; intros U; [constructor|]. cbn [flat_map]. destruct (Z.eq_dec (ccc x) 0) as [H|H].
  - assert (C : compose_from x [] (flat_map jamo D) (compose (x :: D))).
    { apply (simulate D x []); [assumption|constructor|discriminate|assumption]. }
    destruct (is_syllable x) eqn:S.
    + destruct (syllable_join x _ _ S C) as (l & t & -> & Hg & _ & _ & C').
      cbn [app]. apply ct_starter; [apply has_ccc_eq, hangulish_ccc; assumption|assumption].
    + rewrite (jamo_other x S). cbn [app]. apply ct_starter; [apply has_ccc_eq; assumption|assumption].
  - cbn [compose] in *. rewrite (composeF_none x D) in * by (intros; apply comp_mark; assumption).
    assert (S : is_syllable x = false).
    { destruct (is_syllable x) eqn:S; [|reflexivity]. apply syllable_hangulish, hangulish_ccc in S. contradiction. }
    rewrite (jamo_other x S). cbn [app]. apply ct_mark; [intros K; apply has_ccc_eq in K; contradiction|].
    apply IH. apply (fully_composed_suffix [x]). assumption.
Qed.

(** ** The result of the algorithm is fully composed *)
Definition settled (l : Z) (mid : list Z) : Prop :=
  forall m1 c m2 d, mid = m1 ++ c :: m2 -> ~ blocked m1 c -> ~ composes l c d.
Definition plain (c : Z) : Prop := full_canonical c = [c].
Lemma algorithm_composed l mid rest out : compose_from l mid rest out ->
  ccc l = 0 -> Forall mark mid -> Forall plain mid -> Forall plain rest -> settled l mid ->
  fully_composed out /\ exists h t, out = h :: t /\ ccc h = 0 /\ (h = l \/ composite h).
Proof.
  induction 1 as [l mid|l mid c rest out d NB C _ IH|l mid c rest out B NC _ IH|l mid c rest out B SC _ IH];
    intros Hl Fm Pm Pr S.
  - split; [|exists l, mid; auto]. intros x l0 m0 c0 y d E NB C. destruct x as [|z x]; cbn [app] in E; injection E as <- E.
    + exact (S m0 c0 y d E NB C).
    + assert (M : mark l0). { rewrite Forall_forall in Fm. apply Fm. rewrite E. apply in_or_app. right. left. reflexivity. }
      apply composes_starters in C. unfold mark in M. lia.
  - inversion Pr as [|? ? Pc Pr']; subst. pose proof (composes_starters _ _ _ C) as [_ Hd].
    destruct (IH Hd Fm Pm Pr') as (U & h & t & E & Hh & H).
    + intros m1 x m2 e E NB' C'. assert (I : In x mid) by (rewrite E; apply in_or_app; right; left; reflexivity).
      rewrite Forall_forall in Fm, Pm. pose proof (Fm x I) as Mx. pose proof (Pm x I) as Px. unfold mark in Mx.
      assert (LT : ccc x < ccc c).
      { destruct (Z.lt_ge_cases (ccc x) (ccc c)) as [L|L]; [assumption|]. exfalso. apply NB. apply blocked_iff. exists x. split; [assumption|]. lia. }
      apply composes_mark in C'; [|assumption]. pose proof (ccc_nonneg x). apply composes_mark in C; [|lia].
      pose proof (no_late_join _ _ _ _ _ C C' Pc Px). lia.
    + split; [assumption|]. exists h, t. split; [assumption|]. split; [assumption|].
      right. destruct H as [->|H]; [exists l, c; assumption|assumption].
  - inversion Pr as [|? ? Pc Pr']; subst. apply IH; try assumption.
    + apply Forall_app. split; [assumption|]. constructor; [|constructor]. intros K. apply NC. apply has_ccc_eq. assumption.
    + apply Forall_app. split; [assumption|]. constructor; [assumption|constructor].
    + intros m1 x m2 e E NB' C'. destruct m2 as [|w m2] using rev_ind.
      * apply app_inj_tail in E. destruct E as [-> ->]. destruct B as [B|B]; [contradiction|exact (B e C')].
      * rewrite app_comm_cons, app_assoc in E. apply app_inj_tail in E. destruct E as [-> _]. exact (S m1 x m2 e eq_refl NB' C').
  - inversion Pr as [|? ? Pc Pr']; subst. apply has_ccc_eq in SC.
    destruct (IH SC (Forall_nil _) (Forall_nil _) Pr') as (U & h & t & E & Hh & H).
    { intros m1 x m2 e E. destruct m1; discriminate. }
    split; [|exists l, (mid ++ out); auto]. subst out.
    intros x l0 m0 c0 y d E NB C'. destruct x as [|z x]; cbn [app] in E; injection E as <- E.
    + apply app_eq_app in E. destruct E as (k & [[E1 E2]|[E1 E2]]).
      * destruct k as [|w k]; cbn [app] in E2; injection E2 as E2 E3.
        -- rewrite app_nil_r in E1. subst m0. subst c0. destruct mid as [|m mid].
           ++ destruct H as [->|H]; [|eapply composite_not_second; eassumption].
              destruct B as [B|B]; [exact (not_blocked_nil _ B)|exact (B d C')].
           ++ apply NB. apply blocked_starter; [discriminate|assumption].
        -- subst w. exact (S m0 c0 k d E1 NB C').
      * destruct k as [|w k]; cbn [app] in E2; injection E2 as E2 E3.
        -- rewrite app_nil_r in E1. subst m0. subst c0. destruct mid as [|m mid].
           ++ destruct H as [->|H]; [|eapply composite_not_second; eassumption].
              destruct B as [B|B]; [exact (not_blocked_nil _ B)|exact (B d C')].
           ++ apply NB. apply blocked_starter; [discriminate|assumption].
        -- subst w m0. apply NB. apply blocked_iff. exists h. split; [|left; assumption].
           apply in_or_app. right. left. reflexivity.
    + apply app_eq_app in E. destruct E as (k & [[E1 E2]|[E1 E2]]).
      * destruct k as [|w k]; cbn [app] in E2.
        -- apply (U [] l0 m0 c0 y d); [rewrite E2; reflexivity|assumption|assumption].
        -- injection E2 as E2 E3. subst w. assert (M : mark l0).
           { rewrite Forall_forall in Fm. apply Fm. rewrite E1. apply in_or_app. right. left. reflexivity. }
           apply composes_starters in C'. unfold mark in M. lia.
      * apply (U k l0 m0 c0 y d); [rewrite E2; reflexivity|assumption|assumption].
Qed.
Lemma algorithm_text_composed D out : compose_text D out -> Forall plain D -> fully_composed out.
Proof.
  induction 1 as [|c rest out N _ IH|c rest out S C]; intros P.
  - intros x l mid c y d E. destruct x; discriminate.
  - inversion P as [|? ? _ P']; subst. intros x l mid c0 y d E NB C.
    destruct x as [|z x]; cbn [app] in E; injection E as <- E.
    + apply composes_starters in C. destruct C as [C _]. apply N. apply has_ccc_eq. assumption.
    + exact (IH P' x l mid c0 y d E NB C).
  - inversion P as [|? ? _ P']; subst. apply has_ccc_eq in S.
    apply (algorithm_composed c [] rest out C S (Forall_nil _) (Forall_nil _) P').
    intros m1 x m2 e E. destruct m1; discriminate.
Qed.

(** ** The algorithm keeps the text canonically equivalent *)
Lemma full_standard_composes l c d : composes l c d -> full_standard d = full_standard l ++ full_standard c.
Proof.
  intros H. eapply (proj1 (expands_fun _ canonical_mapping_functional)); [apply full_standard_expands|].
  eapply (expands_map _ d [l; c]).
  - destruct H as [(L & _)|H]; [left; assumption|right; assumption].
  - apply standard_unique. cbn [flat_map]. rewrite app_nil_r. reflexivity.
Qed.
Lemma mark_standard c x : ccc c <> 0 -> In x (full_standard c) -> ccc x = ccc c.
Proof.
  intros N H. assert (S : is_syllable c = false).
  { destruct (is_syllable c) eqn:S; [|reflexivity]. apply syllable_hangulish, hangulish_ccc in S. exfalso. exact (N S). }
  rewrite full_standard_other in H by assumption. apply mark_full_class; assumption.
Qed.
Lemma algorithm_equivalent l mid rest out : compose_from l mid rest out -> Forall mark mid ->
  corder (flat_map full_standard out) = corder (flat_map full_standard (l :: mid ++ rest)).
Proof.
  induction 1 as [l mid|l mid c rest out d NB C _ IH|l mid c rest out B NC _ IH|l mid c rest out B SC _ IH]; intros F.
  - rewrite app_nil_r. reflexivity.
  - rewrite (IH F). cbn [flat_map]. rewrite (full_standard_composes _ _ _ C), !flat_map_app. cbn [flat_map].
    rewrite <- !app_assoc, !corder_app. f_equal. apply fold_fold_comm. intros x y Hx Hy.
    apply in_flat_map in Hy. destruct Hy as (m & Im & Hy). rewrite Forall_forall in F. pose proof (F m Im) as Mm. unfold mark in Mm.
    rewrite (mark_standard m y Mm Hy). pose proof (ccc_nonneg m).
    assert (LT : ccc m < ccc c).
    { destruct (Z.lt_ge_cases (ccc m) (ccc c)) as [L|L]; [assumption|]. exfalso. apply NB. apply blocked_iff. exists m. split; [assumption|]. lia. }
    rewrite (mark_standard c x); [lia|lia|assumption].
  - rewrite IH; [rewrite <- app_assoc; reflexivity|]. apply Forall_app. split; [assumption|]. constructor; [|constructor].
    intros K. apply NC. apply has_ccc_eq. assumption.
  - cbn [flat_map]. rewrite !flat_map_app, !corder_app.
    rewrite (IH (Forall_nil _)). cbn [app]. reflexivity.
Qed.
Lemma algorithm_text_equivalent D out : compose_text D out ->
  corder (flat_map full_standard out) = corder (flat_map full_standard D).
Proof.
  induction 1 as [|c rest out N _ IH|c rest out S C].
  - reflexivity.
  - cbn [flat_map]. rewrite !corder_app, IH. reflexivity.
  - apply (algorithm_equivalent c [] rest out C). constructor.
Qed.

(** ** Composition of pieces that do not interact *)
Lemma composeF_app t : forall a x r, (forall z, comp z x = None) -> composeF a (t ++ x :: r) = composeF a t ++ composeF x r.
Proof.
  induction t as [|b t IH]; intros a x r H; cbn [app composeF].
  - rewrite H. reflexivity.
  - destruct (comp a b); rewrite IH by assumption; reflexivity.
Qed.
Lemma composeF_inert t : forall a r, Forall inert (a :: t) -> composeF a (t ++ r) = a :: t ++ compose r.
Proof.
  induction t as [|b t IH]; intros a r F; inversion F as [|? ? Ia F']; subst; cbn [app].
  - apply composeF_none. apply Ia.
  - cbn [composeF]. destruct Ia as (_ & Ia & _). rewrite Ia, IH by assumption. reflexivity.
Qed.
Lemma compose_apart l r : apart l r -> forall rest, compose (l ++ r ++ rest) = compose l ++ compose (r ++ rest).
Proof.
  intros [(x & t & -> & G)|F] rest.
  - assert (N : forall z, comp z x = None).
    { intros z. destruct (comp z x) as [d|] eqn:E; [|reflexivity]. exfalso. apply G. right. exists z, d. assumption. }
    destruct l as [|a l]; [reflexivity|]. cbn [app compose]. apply composeF_app. assumption.
  - destruct l as [|a l]; [reflexivity|]. cbn [app compose]. rewrite (composeF_inert l a (r ++ rest) F).
    pose proof (composeF_inert l a [] F) as E. rewrite app_nil_r in E. rewrite E. cbn [compose]. rewrite app_nil_r. reflexivity.
Qed.
Lemma compose_pieces ls : chained apart ls -> compose (concat ls) = concat (map compose ls).
Proof.
  induction ls as [|l ls IH]; intros A; [reflexivity|]. cbn [concat map].
  rewrite <- IH by (eapply chained_tail; eassumption). destruct ls as [|r ls]; [cbn; rewrite !app_nil_r; reflexivity|].
  cbn [concat]. apply compose_apart. eapply chained_head. eassumption.
Qed.

(** ** Runs of starters followed by marks *)
Lemma marks_last_iff l : marks_last l <-> starters_first l.
Proof.
  unfold marks_last, starters_first. split; intros H x a y b z E; specialize (H x a y b z E).
  - rewrite !has_ccc_eq in H. assumption.
  - rewrite !has_ccc_eq. assumption.
Qed.
Lemma starters_first_split q : starters_first q <->
  exists S M, q = S ++ M /\ Forall (fun c => ccc c = 0) S /\ Forall mark M.
Proof.
  split.
  - induction q as [|x q IH]; intros H; [exists [], []; repeat split; constructor|].
    apply starters_first_cons in H. destruct H as [H1 H2]. destruct (Z.eq_dec (ccc x) 0) as [E|E].
    + destruct (IH H1) as (S & M & -> & FS & FM). exists (x :: S), M. split; [reflexivity|]. split; [constructor; assumption|assumption].
    + exists [], (x :: q). split; [reflexivity|]. split; [constructor|]. constructor; [assumption|]. apply H2. assumption.
  - intros (S & M & -> & FS & FM) x a y b z E Ha. rewrite Forall_forall in FS, FM.
    apply app_eq_app in E. destruct E as (k & [[E1 E2]|[E1 E2]]).
    + destruct k as [|w k]; cbn [app] in E2.
      * apply FM. rewrite <- E2. right. apply in_or_app. right. left. reflexivity.
      * injection E2 as <- E2. exfalso. apply Ha. apply FS. rewrite E1. apply in_or_app. right. left. reflexivity.
    + apply FM. rewrite E2. apply in_or_app. right. right. apply in_or_app. right. left. reflexivity.
Qed.
Lemma starters_first_jamo q : starters_first (flat_map jamo q) <-> starters_first q.
Proof.
  split.
  - intros H x a y b z E Ha. subst q. destruct (jamo_head b) as (h & t & J & K). rewrite <- K.
    assert (S : is_syllable a = false).
    { destruct (is_syllable a) eqn:S; [|reflexivity]. apply syllable_hangulish, hangulish_ccc in S. exfalso. exact (Ha S). }
    apply (H (flat_map jamo x) a (flat_map jamo y) h (t ++ flat_map jamo z)); [|assumption].
    rewrite !flat_map_app. cbn [flat_map]. rewrite (jamo_other a S), flat_map_app. cbn [flat_map]. rewrite J. reflexivity.
  - intros H. apply starters_first_split in H. destruct H as (S & M & -> & FS & FM). apply starters_first_split.
    exists (flat_map jamo S), M. rewrite flat_map_app. split; [|split; [|assumption]].
    + f_equal. apply flat_map_id. intros x Hx. apply jamo_other. rewrite Forall_forall in FM. specialize (FM x Hx).
      destruct (is_syllable x) eqn:Sx; [|reflexivity]. apply syllable_hangulish, hangulish_ccc in Sx. exfalso. exact (FM Sx).
    + rewrite Forall_forall in *. intros x Hx. apply in_flat_map in Hx. destruct Hx as (c & I & Hx).
      destruct (is_syllable c) eqn:Sc.
      * pose proof (jamo_all c Sc) as F. rewrite Forall_forall in F. apply hangulish_ccc. apply F in Hx. tauto.
      * rewrite (jamo_other c Sc) in Hx. destruct Hx as [<-|[]]. auto.
Qed.
Lemma sorted_orderedb l : StronglySorted ccc_le l -> orderedb l = true.
Proof.
  induction 1 as [|a l S IH F]; [reflexivity|]. destruct l as [|b t]; [reflexivity|]. change (okpair a b && orderedb (b :: t) = true). rewrite IH, andb_true_r.
  inversion F as [|? ? H _]; subst. apply ccc_le_iff in H. unfold okpair. lia.
Qed.

(** ** Forms C and KC against the standard's *)
Section Composed.
Context (full : Z -> list Z) (M : Z -> list Z -> Prop).
Context (full_ne : forall c, full c <> []).
Context (full_head : forall c x t, full c = x :: t -> glue x -> joiner c).
Context (full_control : forall c, control c -> full c = [c]).
Context (full_plain : forall c x, In x (full c) -> plain x).
Definition settled_text (cs : list Z) : Prop := forall x m, In x (flat_map full cs) -> ~ hangul_syllable x -> ~ M x m.
Context (M_jamo : forall x, hangulish x = true -> is_syllable x = false -> forall m, ~ M x m).
Context (M_canonical : forall c m, canonical_mapping c m -> M c m).
Context (full_expands : forall cs, settled_text cs -> forall f, expands_all M cs f <-> f = flat_map jamo (flat_map full cs)).
Definition form_c_of (cs : list Z) : list Z := concat (map compose (map isort (pieces full cs))).
Lemma form_c_eq cs : form_c_of cs = compose (form_d_of full cs).
Proof.
  unfold form_c_of, form_d_of. symmetry. apply compose_pieces. apply apart_chained_isort, pieces_apart; assumption.
Qed.
Lemma form_d_plain cs x : In x (form_d_of full cs) -> plain x.
Proof.
  intros H. eapply Permutation_in in H; [|symmetry; apply form_d_perm]. apply in_flat_map in H. destruct H as (c & _ & H). eauto.
Qed.
Lemma form_d_order_self cs : corder (form_d_of full cs) = form_d_of full cs.
Proof.
  unfold form_d_of. rewrite corder_pieces.
  - f_equal. rewrite map_map. apply map_ext. intros l. apply corder_id, sorted_orderedb, isort_sorted.
  - apply apart_chained_isort, pieces_apart; assumption.
  - apply Forall_forall. intros p Hp. apply in_map_iff in Hp. destruct Hp as (q & <- & I). apply isort_ne.
    pose proof (pieces_ne full full_ne cs) as F. rewrite Forall_forall in F. auto.
Qed.
Lemma form_c_decomposed cs : corder (flat_map full_standard (form_c_of cs)) = flat_map jamo (form_d_of full cs).
Proof.
  rewrite full_standard_all, form_c_eq, compose_full.
  rewrite (flat_map_id full_canonical) by (intros x Hx; apply (form_d_plain cs x Hx)).
  rewrite corder_jamo, form_d_order_self. reflexivity.
Qed.
Lemma length_jamo l l' : Permutation l l' -> length (flat_map jamo l) = length (flat_map jamo l').
Proof. intros P. apply Permutation_length. apply Permutation_flat_map. assumption. Qed.
Lemma same_jamo_iff cs : flat_map jamo (form_d_of full cs) = flat_map jamo (corder (flat_map full cs)) <->
  forall g, In g (seg cs) -> marks_last (flat_map full g).
Proof.
  rewrite (order_pieces full full_ne full_head full_control). unfold form_d_of. split.
  - intros E g I. apply marks_last_iff.
    assert (X : forall f : list Z -> list Z, flat_map jamo (concat (map f (pieces full cs))) = concat (map (fun p => flat_map jamo (f p)) (pieces full cs))).
    { intros f. rewrite flat_map_concat, flat_map_concat_map, map_map. reflexivity. }
    rewrite !X in E. assert (Q : flat_map jamo (isort (flat_map full g)) = flat_map jamo (corder (flat_map full g))).
    { refine (concat_same_length _ _ _ _ E (flat_map full g) _).
      - intros l. apply length_jamo. eapply perm_trans; [symmetry; apply isort_perm|apply corder_perm].
      - apply in_map. assumption. }
    assert (SF : starters_first (flat_map jamo (corder (flat_map full g)))).
    { rewrite <- Q. apply (proj2 (starters_first_jamo _)), sorted_starters_first, isort_sorted. }
    apply (proj1 (starters_first_jamo _)) in SF. rewrite mask_starters_first, corder_mask, <- mask_starters_first in SF. assumption.
  - intros H. do 2 f_equal. apply map_ext_in. intros p Hp. apply in_map_iff in Hp. destruct Hp as (g & <- & I).
    apply sort_is_order_iff, marks_last_iff. auto.
Qed.
Definition nf (cs d : list Z) : Prop := exists f, expands_all M cs f /\ canonical_order f d.
Lemma nf_eq cs d : settled_text cs -> (nf cs d <-> d = flat_map jamo (corder (flat_map full cs))).
Proof.
  intros S. unfold nf. split.
  - intros (f & E & O). apply (full_expands cs S) in E. apply canonical_order_eq in O. subst. apply corder_jamo.
  - intros ->. exists (flat_map jamo (flat_map full cs)). split; [apply full_expands; [assumption|reflexivity]|].
    apply canonical_order_eq. symmetry. apply corder_jamo.
Qed.
Lemma nf_settled cs d : nf cs d -> Permutation d (flat_map jamo (form_d_of full cs)) -> settled_text cs.
Proof.
  intros (f & E & O) P x m Hx Hs Mx. apply canonical_order_eq in O.
  assert (I : In x f).
  { eapply Permutation_in; [symmetry; apply corder_perm|]. rewrite <- O. eapply Permutation_in; [symmetry; exact P|]. apply in_flat_map. exists x.
    split; [eapply Permutation_in; [apply form_d_perm|assumption]|]. rewrite jamo_other; [left; reflexivity|].
    destruct (is_syllable x) eqn:S; [|reflexivity]. exfalso. apply Hs, is_syllable_spec. assumption. }
  exact (proj2 (expands_unmapped M) cs f E x m I Mx).
Qed.
Lemma nf_plain cs d x : nf cs d -> In x d -> plain x.
Proof.
  intros (f & E & O) H. apply canonical_order_eq in O. subst d. eapply Permutation_in in H; [|symmetry; apply corder_perm].
  unfold plain. symmetry. apply full_canonical_unique. apply expands_none. intros l L.
  apply (proj2 (expands_unmapped M) cs f E x l H). apply M_canonical. left. assumption.
Qed.
Lemma nf_standard_id cs d : nf cs d -> flat_map full_standard d = d.
Proof.
  intros N. apply flat_map_id. intros x Hx. rewrite full_standard_other; [exact (nf_plain cs d x N Hx)|].
  destruct (is_syllable x) eqn:S; [|reflexivity]. exfalso. destruct N as (f & E & O). apply canonical_order_eq in O. subst d.
  eapply Permutation_in in Hx; [|symmetry; apply corder_perm]. apply is_syllable_spec in S as S'.
  eapply (proj2 (expands_unmapped M) cs f E x); [assumption|]. apply M_canonical. right. split; [assumption|reflexivity].
Qed.
Lemma nf_order_id cs d : nf cs d -> corder d = d.
Proof. intros (f & E & O). apply canonical_order_eq in O. subst d. apply corder_id, corder_ordered. Qed.
Lemma form_c_standard_iff cs : (exists d, nf cs d /\ compose_text d (form_c_of cs)) <->
  settled_text cs /\ (forall g, In g (seg cs) -> marks_last (flat_map full g)) /\ fully_composed (form_c_of cs).
Proof.
  split.
  - intros (d & N & C).
    assert (D : d = flat_map jamo (form_d_of full cs)).
    { rewrite <- form_c_decomposed, (algorithm_text_equivalent _ _ C), (nf_standard_id _ _ N), (nf_order_id _ _ N). reflexivity. }
    assert (S : settled_text cs) by (apply (nf_settled cs d N); rewrite D; apply Permutation_refl).
    split; [assumption|]. split.
    + apply same_jamo_iff. rewrite <- D. apply (nf_eq cs d S). assumption.
    + apply (algorithm_text_composed _ _ C). apply Forall_forall. intros x Hx. exact (nf_plain cs d x N Hx).
  - intros (S & H & U). apply same_jamo_iff in H. exists (flat_map jamo (form_d_of full cs)). split.
    + apply (nf_eq cs _ S). assumption.
    + rewrite form_c_eq in *. apply simulate_text. assumption.
Qed.
Lemma form_d_standard_iff cs : nf cs (form_d_of full cs) <->
  settled_text cs /\ (forall s, In s (flat_map full cs) -> ~ hangul_syllable s) /\
  (forall g, In g (seg cs) -> marks_last (flat_map full g)).
Proof.
  assert (ID : (forall s, In s (flat_map full cs) -> ~ hangul_syllable s) -> forall l, Permutation (flat_map full cs) l -> flat_map jamo l = l).
  { intros H l P. apply flat_map_id. intros x Hx. apply jamo_other. destruct (is_syllable x) eqn:S; [|reflexivity].
    exfalso. apply (H x); [|apply is_syllable_spec; assumption]. eapply Permutation_in; [symmetry; exact P|assumption]. }
  split.
  - intros N. assert (HS : forall s, In s (flat_map full cs) -> ~ hangul_syllable s).
    { intros s I Hs. destruct N as (f & E & O). apply canonical_order_eq in O.
      assert (J : In s f).
      { eapply Permutation_in; [symmetry; apply corder_perm|]. rewrite <- O. eapply Permutation_in; [apply form_d_perm|assumption]. }
      eapply (proj2 (expands_unmapped M) cs f E s); [assumption|]. apply M_canonical. right. split; [assumption|reflexivity]. }
    pose proof (ID HS _ (form_d_perm full cs)) as J1. pose proof (ID HS _ (corder_perm (flat_map full cs))) as J2.
    assert (S : settled_text cs) by (apply (nf_settled cs _ N); rewrite J1; apply Permutation_refl).
    split; [assumption|]. split; [assumption|]. apply same_jamo_iff. rewrite J1. apply (nf_eq cs _ S). assumption.
  - intros (S & HS & H). apply same_jamo_iff in H. apply (nf_eq cs _ S).
    rewrite (ID HS _ (form_d_perm full cs)) in H. assumption.
Qed.
End Composed.
