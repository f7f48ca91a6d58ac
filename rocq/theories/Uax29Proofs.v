(** * Proofs: segmentation against UAX #29 *)
From Verif Require Import Prelude DataTables PropsModel TextModel UnicodeSpec GraphemeSpec PropsProofs
  LawfulProofs GraphemeProofs.

(** ** First-match rules against booleans *)
Fixpoint eval_rules (rules : list (bool * bool)) : option bool :=
  match rules with
  | [] => None
  | (p, w) :: t => if p then Some w else eval_rules t
  end.
Lemma first_match_eval rules bools v :
  Forall2 (fun (r : Prop * bool) (q : bool * bool) => (fst r <-> fst q = true) /\ snd r = snd q) rules bools ->
  (first_match rules v <-> eval_rules bools = Some v).
Proof.
  induction 1 as [|[P w] [p w'] rs bs [H1 H2] _ IH]; cbn [first_match eval_rules fst snd] in *.
  - split; [intros []|discriminate].
  - subst w'. destruct p.
    + split; [intros [[_ ->]|[N _]]; [reflexivity|exfalso; apply N, H1; reflexivity]|].
      intros E. injection E as ->. left. split; [apply H1; reflexivity|reflexivity].
    + assert (N : ~ P) by (intros X; apply H1 in X; discriminate). rewrite <- IH. tauto.
Qed.
Definition is_in (a : gcb) (l : list gcb) : bool := existsb (gcb_eqb a) l.
Lemma is_in_spec a l : In a l <-> is_in a l = true.
Proof.
  unfold is_in. rewrite existsb_exists. split.
  - intros H. exists a. split; [assumption|apply gcb_eqb_eq; reflexivity].
  - intros (x & H & E). apply gcb_eqb_eq in E. subst x. assumption.
Qed.
(** The chain with the outcome of GB10 and GB12/13 as parameters. *)
Definition chain_bools (a b : gcb) (gb10 gb12 : bool) : list (bool * bool) :=
  [ (gcb_eqb a G_CR && gcb_eqb b G_LF, false);
    (is_in a [G_CONTROL; G_CR; G_LF], true);
    (is_in b [G_CONTROL; G_CR; G_LF], true);
    (gcb_eqb a G_L && is_in b [G_L; G_V; G_LV; G_LVT], false);
    (is_in a [G_LV; G_V] && is_in b [G_V; G_T], false);
    (is_in a [G_LVT; G_T] && gcb_eqb b G_T, false);
    (is_in b [G_EXTEND; G_ZWJ], false);
    (gcb_eqb b G_SPACINGMARK, false);
    (gcb_eqb a G_PREPEND, false);
    (gb10, false);
    (gcb_eqb a G_ZWJ && is_in b [G_GLUE_AFTER_ZWJ; G_E_BASE_GAZ], false);
    (gb12, false);
    (true, true) ].
Definition chain (a b : gcb) (gb10 gb12 : bool) : bool :=
  match eval_rules (chain_bools a b gb10 gb12) with Some v => v | None => false end.
Lemma chain_some a b x y : eval_rules (chain_bools a b x y) = Some (chain a b x y).
Proof.
  unfold chain. destruct (eval_rules (chain_bools a b x y)) eqn:E; [reflexivity|].
  exfalso. unfold chain_bools in E. cbn [eval_rules] in E.
  repeat match type of E with (if ?c then _ else _) = None => destruct c; [discriminate|] end.
  discriminate.
Qed.
Definition pair10 (a b : gcb) : bool := is_in a [G_E_BASE; G_E_BASE_GAZ; G_EXTEND] && gcb_eqb b G_E_MODIFIER.
Definition pair12 (a b : gcb) : bool := gcb_eqb a G_REGIONAL_INDICATOR && gcb_eqb b G_REGIONAL_INDICATOR.
Lemma chain_pairwise a b : boundary_chain a b = chain a b (pair10 a b) (pair12 a b).
Proof. destruct a, b; vm_compute; reflexivity. Qed.

Ltac rulesolve := repeat (constructor; [split; [cbn [fst snd]|reflexivity]|]); [..|constructor];
  rewrite ?andb_true_iff, ?gcb_eqb_eq, <- ?is_in_spec; try tauto.
Lemma pairwise_spec a b v : first_match (pairwise_rules a b) v <-> boundary_chain a b = v.
Proof.
  rewrite (first_match_eval _ (chain_bools a b (pair10 a b) (pair12 a b))).
  - rewrite chain_some, chain_pairwise. split; [intros E; injection E; auto|intros ->; reflexivity].
  - unfold pairwise_rules, chain_bools, pair10, pair12. rulesolve.
Qed.

(** ** Contextual rules *)
Definition gb10_ctx (before : list gcb) : Prop :=
  exists l base ext, before = l ++ base :: ext /\ In base [G_E_BASE; G_E_BASE_GAZ] /\
    (forall x, In x ext -> x = G_EXTEND).
Definition gb12_ctx (before : list gcb) : Prop :=
  exists l k, before = l ++ repeat G_REGIONAL_INDICATOR (2 * k + 1) /\ ~ ends_in l [G_REGIONAL_INDICATOR].
Lemma ends_in_snoc l a cl : ends_in (l ++ [a]) cl <-> In a cl.
Proof.
  split.
  - intros (l' & a' & E & H). apply app_inj_tail in E. destruct E as [_ ->]. assumption.
  - intros H. exists l, a. auto.
Qed.
(** Decisions on the reversed context. *)
Fixpoint gb10_rev (r : list gcb) : bool :=
  match r with
  | [] => false
  | x :: t => if gcb_eqb x G_EXTEND then gb10_rev t else is_in x [G_E_BASE; G_E_BASE_GAZ]
  end.
Fixpoint ri_run (r : list gcb) : nat :=
  match r with
  | x :: t => if gcb_eqb x G_REGIONAL_INDICATOR then S (ri_run t) else O
  | [] => O
  end.
Lemma gb10_rev_spec r : gb10_rev r = true <-> gb10_ctx (rev r).
Proof.
  induction r as [|x t IH]; cbn [gb10_rev rev].
  - split; [discriminate|]. intros (l & b & ext & E & _). destruct l; discriminate.
  - destruct (gcb_eqb x G_EXTEND) eqn:X.
    + apply gcb_eqb_eq in X. subst x. rewrite IH. split.
      * intros (l & b & ext & E & H1 & H2). exists l, b, (ext ++ [G_EXTEND]). rewrite E, <- app_assoc.
        split; [reflexivity|]. split; [assumption|]. intros y Hy. apply in_app_or in Hy.
        destruct Hy as [Hy|[<-|[]]]; auto.
      * intros (l & b & ext & E & H1 & H2). destruct ext as [|y ext] using rev_ind.
        -- change (l ++ [b]) with (l ++ [b]) in E. apply app_inj_tail in E. destruct E as [_ <-].
           destruct H1 as [H1|[H1|[]]]; discriminate.
        -- clear IHext. replace (l ++ b :: ext ++ [y]) with ((l ++ b :: ext) ++ [y]) in E
             by (rewrite <- app_assoc; reflexivity).
           apply app_inj_tail in E. destruct E as [E _]. exists l, b, ext. split; [assumption|].
           split; [assumption|]. intros z Hz. apply H2, in_or_app. left. assumption.
    + rewrite <- is_in_spec. split.
      * intros H. exists (rev t), x, []. split; [reflexivity|]. split; [assumption|intros ? []].
      * intros (l & b & ext & E & H1 & H2). destruct ext as [|y ext] using rev_ind.
        -- apply app_inj_tail in E. destruct E as [_ ->]. assumption.
        -- replace (l ++ b :: ext ++ [y]) with ((l ++ b :: ext) ++ [y]) in E
             by (rewrite <- app_assoc; reflexivity).
           apply app_inj_tail in E. destruct E as [_ ->]. rewrite (H2 y) in X by (apply in_or_app; right; left; reflexivity).
           discriminate.
Qed.
Lemma rev_repeat {A} (x : A) n : rev (repeat x n) = repeat x n.
Proof.
  induction n as [|n IH]; [reflexivity|]. cbn [repeat rev]. rewrite IH. symmetry. apply repeat_cons.
Qed.
Lemma ri_run_app k l : ~ ends_in l [G_REGIONAL_INDICATOR] ->
  ri_run (rev (l ++ repeat G_REGIONAL_INDICATOR k)) = k.
Proof.
  intros N. rewrite rev_app_distr, rev_repeat. induction k as [|k IH].
  - cbn [repeat app]. destruct l as [|y l] using rev_ind; [reflexivity|]. rewrite rev_app_distr. cbn [rev app ri_run].
    destruct (gcb_eqb y G_REGIONAL_INDICATOR) eqn:E; [|reflexivity]. exfalso. apply N, ends_in_snoc.
    apply gcb_eqb_eq in E. left. auto.
  - cbn [repeat app ri_run gcb_eqb]. rewrite IH. reflexivity.
Qed.
Lemma ri_run_split r : exists l, rev r = l ++ repeat G_REGIONAL_INDICATOR (ri_run r) /\ ~ ends_in l [G_REGIONAL_INDICATOR].
Proof.
  induction r as [|x t (l & E & N)].
  - exists []. split; [reflexivity|]. intros (l & a & E & _). destruct l; discriminate.
  - cbn [ri_run rev]. destruct (gcb_eqb x G_REGIONAL_INDICATOR) eqn:X.
    + apply gcb_eqb_eq in X. subst x. exists l. split; [|assumption].
      rewrite E, <- app_assoc. f_equal. cbn [repeat]. symmetry. apply repeat_cons.
    + exists (rev t ++ [x]). cbn [repeat]. rewrite app_nil_r. split; [reflexivity|].
      rewrite ends_in_snoc. intros [H|[]]. subst x. discriminate.
Qed.
Lemma gb12_rev_spec r : Nat.odd (ri_run r) = true <-> gb12_ctx (rev r).
Proof.
  destruct (ri_run_split r) as (l & E & N). split.
  - intros O. apply Nat.odd_spec in O. destruct O as (k & K). exists l, k. rewrite <- K. auto.
  - intros (l' & k & E' & N').
    assert (Q : ri_run r = (2 * k + 1)%nat).
    { rewrite <- (rev_involutive r), E'. apply ri_run_app. assumption. }
    rewrite Q. apply Nat.odd_spec. exists k. lia.
Qed.
Definition ctx_brk (before : list gcb) (b : gcb) : bool :=
  chain (last before G_OTHER) b (gb10_rev (rev before) && gcb_eqb b G_E_MODIFIER)
        (Nat.odd (ri_run (rev before)) && gcb_eqb b G_REGIONAL_INDICATOR).
Lemma uax29_spec l a b v : first_match (uax29_rules (l ++ [a]) b) v <-> ctx_brk (l ++ [a]) b = v.
Proof.
  unfold ctx_brk. rewrite last_last.
  rewrite (first_match_eval _ (chain_bools a b (gb10_rev (rev (l ++ [a])) && gcb_eqb b G_E_MODIFIER)
     (Nat.odd (ri_run (rev (l ++ [a]))) && gcb_eqb b G_REGIONAL_INDICATOR))).
  - rewrite chain_some. split; [intros E; injection E; auto|intros ->; reflexivity].
  - unfold uax29_rules, chain_bools. fold (gb10_ctx (l ++ [a])). fold (gb12_ctx (l ++ [a])).
    pose proof (gb10_rev_spec (rev (l ++ [a]))) as G10. pose proof (gb12_rev_spec (rev (l ++ [a]))) as G12.
    rewrite rev_involutive in G10, G12.
    assert (S1 : forall c, In a [c] <-> a = c) by (intros c; cbn; split; [intros [H|[]]; auto|auto]).
    repeat (constructor; [split; [cbn [fst snd]|reflexivity]|]); [..|constructor];
      rewrite ?ends_in_snoc, ?S1, ?andb_true_iff, ?gcb_eqb_eq, <- ?is_in_spec; tauto.
Qed.
(** Where the two readings differ. *)
Lemma ctx_pair_agree l a b :
  ctx_brk (l ++ [a]) b = boundary_chain a b <->
  (a = G_EXTEND -> b = G_E_MODIFIER -> gb10_ctx (l ++ [a])) /\
  (a = G_REGIONAL_INDICATOR -> b = G_REGIONAL_INDICATOR -> gb12_ctx (l ++ [a])).
Proof.
  pose proof (gb10_rev_spec (rev (l ++ [a]))) as G10. pose proof (gb12_rev_spec (rev (l ++ [a]))) as G12.
  rewrite rev_involutive in G10, G12. rewrite <- G10, <- G12. clear G10 G12.
  unfold ctx_brk. rewrite last_last, rev_app_distr. cbn [rev app gb10_rev ri_run].
  destruct a, b; cbn [gcb_eqb is_in existsb andb orb Nat.odd];
    rewrite ?andb_false_r, ?andb_true_r;
    try (split; [intros _; split; intros; (discriminate || reflexivity)|intros _; vm_compute; reflexivity]).
  - destruct (gb10_rev (rev l)); (split; [intros H; split; intros; (discriminate || reflexivity)|
      intros [H _]; specialize (H eq_refl eq_refl); (discriminate || (vm_compute; reflexivity))]).
  - destruct (Nat.odd (S (ri_run (rev l)))); (split; [intros H; split; intros; (discriminate || reflexivity)|
      intros [_ H]; specialize (H eq_refl eq_refl); (discriminate || (vm_compute; reflexivity))]).
Qed.

(** ** Segmentations *)
Lemma has_gcb_fun c v v' : has_gcb c v -> has_gcb c v' -> v = v'.
Proof. intros H H'. apply gcb_spec in H, H'. congruence. Qed.
Lemma pairwise_boundary_snoc l a b : pairwise_boundary (l ++ [a]) b <-> brk a b = true.
Proof.
  unfold pairwise_boundary, brk. split.
  - intros (l' & a' & va & vb & E & Ha & Hb & F). apply app_inj_tail in E. destruct E as [_ <-].
    apply gcb_spec in Ha, Hb. subst. apply pairwise_spec in F. assumption.
  - intros H. exists l, a, (gcb_of a), (gcb_of b). split; [reflexivity|].
    split; [apply gcb_spec; reflexivity|]. split; [apply gcb_spec; reflexivity|]. apply pairwise_spec. assumption.
Qed.
Lemma Forall2_gcb before vs : Forall2 has_gcb before vs <-> vs = map gcb_of before.
Proof.
  split.
  - induction 1 as [|c v cs vs H _ IH]; [reflexivity|]. cbn. apply gcb_spec in H. congruence.
  - intros ->. induction before; cbn; constructor; [apply gcb_spec; reflexivity|assumption].
Qed.
Lemma uax29_boundary_snoc l a b :
  uax29_boundary (l ++ [a]) b <-> ctx_brk (map gcb_of l ++ [gcb_of a]) (gcb_of b) = true.
Proof.
  unfold uax29_boundary. split.
  - intros (vs & vb & F & Hb & M). apply Forall2_gcb in F. apply gcb_spec in Hb. subst.
    rewrite map_app in M. apply uax29_spec in M. assumption.
  - intros H. exists (map gcb_of (l ++ [a])), (gcb_of b). split; [apply Forall2_gcb; reflexivity|].
    split; [apply gcb_spec; reflexivity|]. rewrite map_app. apply uax29_spec. assumption.
Qed.
Lemma snoc_cases {A} (l : list A) : l <> [] -> exists l' a, l = l' ++ [a].
Proof. destruct l as [|a l] using rev_ind; [contradiction|eauto]. Qed.
Lemma seg_segments cs : segments pairwise_boundary cs (seg cs).
Proof.
  split; [apply seg_concat|]. split; [|split].
  - intros H. pose proof (seg_nonempty cs) as F. rewrite Forall_forall in F. exact (F _ H eq_refl).
  - intros before l b r after E NE. destruct (snoc_cases l NE) as (l' & a & ->).
    rewrite app_assoc, pairwise_boundary_snoc.
    rewrite (seg_inside cs ((l' ++ [a]) ++ b :: r) l' a b r); [discriminate| |rewrite <- app_assoc; reflexivity].
    rewrite E. apply in_or_app. right. left. reflexivity.
  - intros before b r after E NE. destruct (snoc_cases before NE) as (G1 & g & ->).
    assert (NG : g <> []).
    { pose proof (seg_nonempty cs) as F. rewrite Forall_forall in F. apply F. rewrite E.
      apply in_or_app. left. apply in_or_app. right. left. reflexivity. }
    destruct (snoc_cases g NG) as (l & a & ->).
    rewrite concat_app. cbn [concat]. rewrite app_nil_r, app_assoc, pairwise_boundary_snoc.
    eapply (seg_between cs G1 (l ++ [a]) (b :: r) after); [|reflexivity|reflexivity].
    rewrite E, <- app_assoc. reflexivity.
Qed.

Definition segs_from (R : list Z -> Z -> Prop) (pre : list Z) (gs : list (list Z)) : Prop :=
  ~ In [] gs /\
  (forall before l b r after, gs = before ++ (l ++ b :: r) :: after -> l <> [] -> ~ R (pre ++ concat before ++ l) b) /\
  (forall before b r after, gs = before ++ (b :: r) :: after -> before <> [] -> R (pre ++ concat before) b).
Lemma segs_from_tail R pre g gs : segs_from R pre (g :: gs) -> segs_from R (pre ++ g) gs.
Proof.
  intros (N & I & B). split; [intros H; apply N; right; assumption|]. split.
  - intros before l b r after E NE. specialize (I (g :: before) l b r after). cbn [concat] in I.
    rewrite <- app_assoc. rewrite <- app_assoc in I. apply I; [rewrite E; reflexivity|assumption].
  - intros before b r after E NE. specialize (B (g :: before) b r after). cbn [concat] in B.
    rewrite <- app_assoc. apply B; [rewrite E; reflexivity|discriminate].
Qed.
Lemma segs_first R pre g gs g' gs' : segs_from R pre (g :: gs) -> segs_from R pre (g' :: gs') ->
  g ++ concat gs = g' ++ concat gs' -> (length g < length g')%nat -> False.
Proof.
  intros (N & I & B) (N' & I' & B') E L.
  assert (Eg : exists b r, g' = g ++ b :: r /\ concat gs = b :: r ++ concat gs').
  { clear -E L. revert g' E L. induction g as [|x g IH]; intros g' E L.
    - destruct g' as [|b r]; [cbn in L; lia|]. exists b, r. split; [reflexivity|]. exact E.
    - destruct g' as [|x' g']; [cbn in L; lia|]. cbn in E, L. injection E as <- E.
      destruct (IH g' E ltac:(lia)) as (b & r & -> & Q). exists b, r. split; [reflexivity|assumption]. }
  destruct Eg as (b & r & -> & Q).
  assert (Ng : g <> []) by (intros ->; apply N; left; reflexivity).
  assert (Q' : exists r2 t, gs = (b :: r2) :: t).
  { destruct gs as [|h t]; [discriminate|]. destruct h as [|y h].
    - exfalso. apply N. right. left. reflexivity.
    - cbn in Q. injection Q as -> _. eauto. }
  destruct Q' as (r2 & t & ->).
  apply (I' [] g b r gs'); [reflexivity|assumption|]. cbn [concat app].
  specialize (B [g] b r2 t eq_refl ltac:(discriminate)). cbn [concat] in B. rewrite app_nil_r in B. assumption.
Qed.
Lemma segs_unique R : forall gs gs' pre, segs_from R pre gs -> segs_from R pre gs' ->
  concat gs = concat gs' -> gs = gs'.
Proof.
  induction gs as [|g gs IH]; intros [|g' gs'] pre S S' E; [reflexivity| | |].
  - destruct S' as (N & _). destruct g'; [exfalso; apply N; left; reflexivity|discriminate].
  - destruct S as (N & _). destruct g; [exfalso; apply N; left; reflexivity|discriminate].
  - cbn [concat] in E. assert (L : length g = length g').
    { destruct (Nat.lt_trichotomy (length g) (length g')) as [L|[L|L]]; [|assumption|]; exfalso.
      - exact (segs_first _ _ _ _ _ _ S S' E L).
      - exact (segs_first _ _ _ _ _ _ S' S (eq_sym E) L). }
    assert (EG : g = g' /\ concat gs = concat gs').
    { clear -E L. revert g' E L. induction g as [|x g IH]; intros [|y g'] E L; cbn in *; try lia; [auto|].
      injection E as <- E. destruct (IH g' E ltac:(lia)). split; congruence. }
    destruct EG as [-> EC]. f_equal. apply (IH gs' (pre ++ g')); [| |assumption]; eapply segs_from_tail; eassumption.
Qed.
Lemma segments_unique R cs gs gs' : segments R cs gs -> segments R cs gs' -> gs = gs'.
Proof.
  intros (E & S) (E' & S'). apply (segs_unique R gs gs' []); [exact S|exact S'|congruence].
Qed.
Lemma split_position (gs : list (list Z)) : forall l b r, concat gs = l ++ b :: r ->
  exists before l' r' after, gs = before ++ (l' ++ b :: r') :: after /\ l = concat before ++ l'.
Proof.
  induction gs as [|g gs IH]; intros l b r E; [destruct l; discriminate|]. cbn [concat] in E.
  destruct (Nat.lt_ge_cases (length l) (length g)) as [L|L].
  - assert (Q : exists r', g = l ++ b :: r').
    { clear -E L. revert g E L. induction l as [|x l IH]; intros g E L; (destruct g as [|y g]; [cbn in L; lia|]).
      - cbn in E. injection E as -> _. exists g. reflexivity.
      - cbn in E, L. injection E as -> E. destruct (IH g E ltac:(lia)) as (r' & ->). exists r'. reflexivity. }
    destruct Q as (r' & ->). exists [], l, r', gs. split; reflexivity.
  - assert (Q : exists l2, l = g ++ l2 /\ concat gs = l2 ++ b :: r).
    { clear -E L. revert l E L. induction g as [|y g IH]; intros l E L.
      - exists l. split; [reflexivity|exact E].
      - destruct l as [|x l]; [cbn in L; lia|]. cbn in E, L. injection E as -> E.
        destruct (IH l E ltac:(lia)) as (l2 & -> & Q). exists l2. split; [reflexivity|assumption]. }
    destruct Q as (l2 & -> & Q). destruct (IH l2 b r Q) as (before & l' & r' & after & -> & ->).
    exists (g :: before), l', r', after. split; [reflexivity|]. cbn [concat]. rewrite <- app_assoc. reflexivity.
Qed.
(** Two boundary notions give the same segmentation iff they agree at every position. *)
Lemma segments_agree R R' cs gs : segments R cs gs ->
  (forall before b, R before b \/ ~ R before b) ->
  (segments R' cs gs <->
   forall l b r, cs = l ++ b :: r -> l <> [] -> (R l b <-> R' l b)).
Proof.
  intros (E & N & I & B) D. split.
  - intros (_ & _ & I' & B') l b r Ec NE. rewrite <- E in Ec.
    destruct (split_position gs l b r Ec) as (before & l' & r' & after & Eg & ->).
    destruct l' as [|x l'].
    + rewrite app_nil_r in *. assert (before <> []) by (intros ->; apply NE; reflexivity).
      split; intros _; [eapply B'|eapply B]; eassumption.
    + assert (x :: l' <> []) by discriminate.
      split; intros H1; exfalso; [eapply I|eapply I']; eassumption.
  - intros A. split; [assumption|]. split; [assumption|]. split.
    + intros before l b r after Eg NE H. apply (I before l b r after Eg NE).
      apply (A (concat before ++ l) b (r ++ concat after)); [|destruct (concat before), l; (discriminate || contradiction)|assumption].
      rewrite <- E, Eg, concat_app. cbn [concat]. rewrite <- !app_assoc. reflexivity.
    + intros before b r after Eg NE. apply (A (concat before) b (r ++ concat after)).
      * rewrite <- E, Eg, concat_app. reflexivity.
      * intros Q. destruct before as [|g before]; [contradiction|]. destruct g as [|x g]; [|discriminate].
        apply N. rewrite Eg. left. reflexivity.
      * eapply B; eassumption.
Qed.

Lemma map_eq_app_inv {A B} (f : A -> B) l : forall x y, map f l = x ++ y ->
  exists l1 l2, l = l1 ++ l2 /\ map f l1 = x /\ map f l2 = y.
Proof.
  induction l as [|a l IH]; intros x y E.
  - symmetry in E. apply app_eq_nil in E. destruct E as [-> ->]. exists [], []. auto.
  - destruct x as [|b x].
    + exists [], (a :: l). auto.
    + cbn in E. injection E as <- E. destruct (IH x y E) as (l1 & l2 & -> & <- & <-).
      exists (a :: l1), l2. auto.
Qed.
Lemma gb10_map l a : gcb_of a = G_EXTEND ->
  (gb10_ctx (map gcb_of l ++ [gcb_of a]) <->
   exists l' base ext, l = l' ++ base :: ext /\
      (has_gcb base G_E_BASE \/ has_gcb base G_E_BASE_GAZ) /\ (forall y, In y ext -> has_gcb y G_EXTEND)).
Proof.
  intros Ha. split.
  - intros (l0 & b & ext & E & Hb & F). destruct ext as [|y ext] using rev_ind.
    + apply app_inj_tail in E. destruct E as [_ <-]. rewrite Ha in Hb. destruct Hb as [H|[H|[]]]; discriminate.
    + replace (l0 ++ b :: ext ++ [y]) with ((l0 ++ b :: ext) ++ [y]) in E by (rewrite <- app_assoc; reflexivity).
      apply app_inj_tail in E. destruct E as [E _].
      destruct (map_eq_app_inv _ _ _ _ E) as (l1 & l2 & -> & E1 & E2). destruct l2 as [|b' l2]; [discriminate|].
      cbn in E2. injection E2 as Eb Ee. exists l1, b', l2. split; [reflexivity|]. split.
      * destruct Hb as [H|[H|[]]]; [left|right]; apply gcb_spec; congruence.
      * intros z Hz. apply gcb_spec. apply F. apply in_or_app. left. rewrite <- Ee. apply in_map. assumption.
  - intros (l' & b & ext & -> & Hb & F). exists (map gcb_of l'), (gcb_of b), (map gcb_of ext ++ [gcb_of a]).
    rewrite map_app. cbn [map]. split; [rewrite <- app_assoc; reflexivity|]. split.
    + destruct Hb as [H|H]; apply gcb_spec in H; rewrite H; cbn; auto.
    + intros x Hx. apply in_app_or in Hx. destruct Hx as [Hx|[<-|[]]]; [|assumption].
      apply in_map_iff in Hx. destruct Hx as (y & <- & Hy). apply gcb_spec. auto.
Qed.
Lemma ri_single l a : gcb_of a = G_REGIONAL_INDICATOR ->
  (forall l' b, l = l' ++ [b] -> gcb_of b <> G_REGIONAL_INDICATOR) ->
  gb12_ctx (map gcb_of l ++ [gcb_of a]).
Proof.
  intros Ha N. exists (map gcb_of l), 0%nat. cbn [Nat.mul Nat.add repeat]. rewrite Ha. split; [reflexivity|].
  intros (l0 & x & E & [Hx|[]]). destruct (map_eq_app_inv _ _ _ _ E) as (l1 & l2 & -> & _ & E2).
  destruct l2 as [|y [|]]; try discriminate. injection E2 as E2. apply (N l1 y eq_refl). congruence.
Qed.
Lemma uax29_iff cs : segments uax29_boundary cs (seg cs) <-> no_ri_triple cs /\ modifiers_based cs.
Proof.
  rewrite (segments_agree pairwise_boundary uax29_boundary cs (seg cs) (seg_segments cs)).
  2:{ intros before b. destruct before as [|x before].
      - right. intros (l & a & _ & _ & E & _). destruct l; discriminate.
      - destruct (snoc_cases (x :: before) ltac:(discriminate)) as (l & a & ->). rewrite pairwise_boundary_snoc.
        destruct (brk a b); [left; reflexivity|right; discriminate]. }
  assert (AG : (forall l b r, cs = l ++ b :: r -> l <> [] -> pairwise_boundary l b <-> uax29_boundary l b) <->
    (forall l a b r, cs = l ++ a :: b :: r ->
      (gcb_of a = G_EXTEND -> gcb_of b = G_E_MODIFIER -> gb10_ctx (map gcb_of l ++ [gcb_of a])) /\
      (gcb_of a = G_REGIONAL_INDICATOR -> gcb_of b = G_REGIONAL_INDICATOR -> gb12_ctx (map gcb_of l ++ [gcb_of a])))).
  { split.
    - intros H l a b r E. apply ctx_pair_agree. specialize (H (l ++ [a]) b r).
      rewrite pairwise_boundary_snoc, uax29_boundary_snoc in H. fold (brk a b).
      assert (NE : l ++ [a] <> []) by (destruct l; discriminate).
      specialize (H ltac:(rewrite E, <- app_assoc; reflexivity) NE).
      destruct (ctx_brk (map gcb_of l ++ [gcb_of a]) (gcb_of b)), (brk a b); try reflexivity;
        [symmetry; tauto|tauto].
    - intros H l b r E NE. destruct (snoc_cases l NE) as (l' & a & ->).
      rewrite pairwise_boundary_snoc, uax29_boundary_snoc. rewrite <- app_assoc in E.
      rewrite (proj2 (ctx_pair_agree (map gcb_of l') (gcb_of a) (gcb_of b)) (H l' a b r E)). reflexivity. }
  rewrite AG. clear AG. split.
  - intros H. split.
    + intros l a b c r E (Ha & Hb & Hc). apply gcb_spec in Ha, Hb, Hc.
      destruct (H l a b (c :: r) E) as [_ H1]. specialize (H1 Ha Hb).
      destruct (H (l ++ [a]) b c r ltac:(rewrite E, <- app_assoc; reflexivity)) as [_ H2]. specialize (H2 Hb Hc).
      assert (P1 := proj2 (gb12_rev_spec (rev (map gcb_of l ++ [gcb_of a])))).
      assert (P2 := proj2 (gb12_rev_spec (rev (map gcb_of (l ++ [a]) ++ [gcb_of b])))).
      rewrite rev_involutive in P1, P2. specialize (P1 H1). specialize (P2 H2).
      rewrite map_app in P2. cbn [map] in P2. rewrite !rev_app_distr in P1, P2. cbn [rev app] in P1, P2.
      rewrite Ha in P1, P2. rewrite Hb in P2. cbn [ri_run gcb_eqb] in P1, P2.
      rewrite rev_app_distr in P2. cbn [rev app ri_run gcb_eqb] in P2.
      rewrite Nat.odd_succ in P1. rewrite Nat.odd_succ, Nat.even_succ, <- Nat.negb_even, P1 in P2. discriminate.
    + intros l x m r E Hx Hm. apply gcb_spec in Hx, Hm. apply (gb10_map l x Hx).
      destruct (H l x m r E) as [H1 _]. auto.
  - intros [H1 H2] l a b r E. split.
    + intros Ha Hb. apply (gb10_map l a Ha). eapply H2; [eassumption| |]; apply gcb_spec; assumption.
    + intros Ha Hb. apply ri_single; [assumption|]. intros l' c -> Hc. apply (H1 l' c a b r).
      * rewrite E, <- app_assoc. reflexivity.
      * repeat split; apply gcb_spec; assumption.
Qed.
