(** * Proofs: filtering part of the graphemes of a text, and views that end inside of a grapheme *)
From Coq Require Import Permutation Sorted Relations.
From Verif Require Import Prelude DataTables UcdTables PropsModel Utf8Model TextModel Utf8Spec UnicodeSpec GraphemeSpec TextSpec NormSpec FilterSpec
  PropsProofs LawfulProofs DecompTables DecompProofs GraphemeProofs Uax29Proofs GraphemeText FilterProofs OrderProofs ComposeProofs
  NormData HangulProofs NormProofs NfcProofs NormForms EncodeProofs EncodeText NormUtf8 NormText Properties_Normalize TextsProofs.
Require Import ZifyBool ZifyNat.

(** ** A run of graphemes is segmented into these graphemes *)
Lemma segments_run cs l m r : segments pairwise_boundary cs (l ++ m ++ r) -> segments pairwise_boundary (concat m) m.
Proof.
  intros (E & NE & I & B). split; [reflexivity|]. split; [|split].
  - intros H. apply NE. apply in_or_app. right. apply in_or_app. left. assumption.
  - intros bf x b t af Em Hx. destruct (snoc_cases x Hx) as (x' & a & ->). specialize (I (l ++ bf) (x' ++ [a]) b t (af ++ r)).
    rewrite (app_assoc (concat bf) x' [a]), pairwise_boundary_snoc. rewrite (app_assoc (concat (l ++ bf)) x' [a]), pairwise_boundary_snoc in I. apply I; [|assumption].
    rewrite Em, <- !app_assoc. reflexivity.
  - intros bf b t af Em Hb. specialize (B (l ++ bf) b t (af ++ r)).
    assert (NB : concat bf <> []).
    { destruct bf as [|x bf]; [contradiction|]. intros Q. apply NE. rewrite Em. apply in_or_app. right.
      destruct x; [left; reflexivity|discriminate]. }
    destruct (snoc_cases _ NB) as (x & a & Ex). rewrite Ex, pairwise_boundary_snoc. rewrite concat_app, Ex, (app_assoc (concat l) x [a]), pairwise_boundary_snoc in B.
    apply B; [rewrite Em, <- !app_assoc; reflexivity|]. destruct l; [assumption|discriminate].
Qed.
Lemma seg_run cs l m r : seg cs = l ++ m ++ r -> seg (concat m) = m.
Proof. intros E. symmetry. apply seg_eq, (segments_run cs l m r). rewrite <- E. apply seg_segments. Qed.
Lemma run_split {A} (l : list A) a k : (a <= k)%nat -> l = firstn a l ++ firstn (k - a) (skipn a l) ++ skipn k l.
Proof.
  intros H. rewrite <- (firstn_skipn a l) at 1. f_equal. rewrite <- (firstn_skipn (k - a) (skipn a l)) at 1. f_equal.
  revert l k H. induction a as [|a IH]; intros l k H; [rewrite Nat.sub_0_r; reflexivity|]. destruct l as [|x l]; [rewrite !skipn_nil; reflexivity|].
  destruct k as [|k]; [lia|]. cbn [skipn]. rewrite Nat.sub_succ. apply IH. lia.
Qed.

Lemma sub_app_l (x y : list Z) i j : (j <= length x)%nat -> sub (x ++ y) i j = sub x i j.
Proof.
  intros H. unfold sub. destruct (Nat.le_gt_cases i (length x)) as [G|G].
  - rewrite skipn_app. replace (i - length x)%nat with 0%nat by lia. cbn [skipn]. rewrite firstn_app, skipn_length.
    replace (j - i - (length x - i))%nat with 0%nat by lia. cbn [firstn]. apply app_nil_r.
  - replace (j - i)%nat with 0%nat by lia. reflexivity.
Qed.

Section Sub.
Context (ops : cp_ops) (b e : Z) (cs : list Z) (c : Z) (pos : nat -> Z) (inside : nat -> Z -> Prop).
Context (T : text_in ops b e cs c pos inside).
Let L := ti_lawful _ _ _ _ _ _ _ T.
Let all := cs ++ [c].
Let n := length cs.
Let start k := length (concat (firstn k (seg cs))).
Let He := text_e ops b e cs c pos inside T.
Let Hn := text_n cs c.
Let EC := eq_sym (text_sub cs c).

(** The loop from iterator number [a] against any iterator that is different exactly from the
    iterators before number [K]. *)
Lemma run_range fuel ge K : (n < fuel)%nat -> (K <= length (seg cs))%nat ->
  (forall a g, (a <= K)%nat -> on all pos n e g (start a) -> gi_neq fuel ops g ge = Ok (negb (a =? K)%nat)) ->
  forall m a g, (K - a = m)%nat -> (a <= K)%nat -> on all pos n e g (start a) ->
  exists ps, range_of (gi_neq fuel ops) (fun g => Ok (gi_deref g, g)) (gi_step fuel ops) g ge ps /\
    Forall2 (delimits all pos n) ps (firstn (K - a) (skipn a (seg cs))).
Proof.
  intros Hf HK NEQ. induction m as [|m IH]; intros a g Hm Ha G.
  - assert (a = K) by lia. subst a. exists []. rewrite Nat.sub_diag. split; [|constructor]. constructor.
    rewrite (NEQ K g (le_n _) G), Nat.eqb_refl. reflexivity.
  - pose proof (is_end_next all n Hn e cs a EC ltac:(lia)) as J. fold (start a) (start (S a)) in J.
    pose proof J as ((J1 & J2) & _). pose proof G as (W & En & Hi & A & _).
    destruct (A ltac:(lia)) as (j & J' & Ej). assert (j = start (S a)) by (apply (is_end_unique all n Hn (start a)); assumption). subst j.
    destruct (gi_step_ok ops all pos inside L n Hn e He g (start a) (start (S a)) fuel G J ltac:(lia)) as (g' & Eg & G').
    destruct (IH (S a) g' ltac:(lia) ltac:(lia) G') as (ps & R & F2).
    destruct (nth_lt_some (seg cs) a ltac:(lia)) as [x Ex].
    exists ((pos (start a), pos (start (S a))) :: ps). split.
    + econstructor; [|unfold gi_deref; rewrite W, Ej; reflexivity|exact Eg|exact R].
      rewrite (NEQ a g Ha G). destruct (Nat.eqb_spec a K); [lia|reflexivity].
    + rewrite (nth_split_at _ _ _ Ex) at 1. rewrite skipn_app, firstn_length, (skipn_all2 (n := a)) by (rewrite firstn_length; lia).
      replace (a - Nat.min a (length (seg cs)))%nat with 0%nat by lia. cbn [skipn app].
      replace (K - a)%nat with (S (K - S a)) by lia. cbn [firstn]. constructor; [|assumption].
      exists (start a), (start (S a)). split; [reflexivity|]. split; [lia|].
      unfold all, start. rewrite (sub_app_l cs [c]).
      * rewrite (seg_range cs a (S a)) by lia. replace (S a - a)%nat with 1%nat by lia.
        rewrite (nth_split_at _ _ _ Ex) at 1. rewrite skipn_app, firstn_length, (skipn_all2 (n := a)) by (rewrite firstn_length; lia).
        replace (a - Nat.min a (length (seg cs)))%nat with 0%nat by lia. cbn [skipn app firstn concat]. rewrite app_nil_r. reflexivity.
      * fold (start (S a)). exact J2.
Qed.
Lemma sub_range fuel a k ga gk : (2 * n < fuel)%nat -> (a <= k <= length (seg cs))%nat ->
  on all pos n e ga (start a) -> on all pos n e gk (start k) ->
  exists ps, range_of (gi_neq fuel ops) (fun g => Ok (gi_deref g, g)) (gi_step fuel ops) ga gk ps /\
    Forall2 (delimits all pos n) ps (firstn (k - a) (skipn a (seg cs))).
Proof.
  intros Hf H Ga Gk. apply (run_range fuel gk k ltac:(lia) ltac:(lia)) with (m := (k - a)%nat); try lia; [|assumption].
  intros x g Hx G. unfold gi_neq. rewrite (text_eq ops b e cs c pos inside T fuel x k g gk Hf ltac:(lia) ltac:(lia) G Gk). reflexivity.
Qed.
(** The end iterator of a view that does not end at a grapheme boundary. *)
Lemma view_range fuel : (2 * n < fuel)%nat -> exists g0 ge K ps,
  grapheme_begin fuel ops b e = Ok g0 /\ grapheme_end fuel ops b e = Ok ge /\ (K <= length (seg cs))%nat /\
  (K = length (seg cs) <-> cs = [] \/ pairwise_boundary cs c) /\
  range_of (gi_neq fuel ops) (fun g => Ok (gi_deref g, g)) (gi_step fuel ops) g0 ge ps /\
  Forall2 (delimits all pos n) ps (firstn K (seg cs)).
Proof.
  intros Hf. pose proof (boundary_after_or cs c) as BO.
  destruct (text_begin ops b e cs c pos inside T fuel ltac:(lia)) as (g0 & E0 & G0).
  destruct (text_grapheme_end ops b e cs c pos inside T fuel ltac:(lia)) as (s & ge & E & W & S & Q & R & I). fold n in S.
  assert (P : inside n (pos n)) by (apply (lw_pos _ _ _ _ L); exact Hn).
  assert (ATE : at_ inside n ge s n).
  { constructor; [rewrite W; apply (lw_pos _ _ _ _ L); exact (Nat.le_lt_trans _ _ _ S Hn)|rewrite Q; apply He|rewrite R; apply He|lia]. }
  assert (LE : forall x y, (x <= y)%nat -> (start x <= start y)%nat).
  { intros x y H. unfold start. rewrite (run_split (firstn y (seg cs)) x y H), concat_app, app_length, firstn_firstn, Nat.min_l by lia. lia. }
  assert (K : exists K, (K <= length (seg cs))%nat /\ (start K <= s)%nat /\ (K < length (seg cs) -> s < start (Datatypes.S K))%nat).
  { assert (K : forall m, (m <= length (seg cs))%nat -> exists K, (K <= m)%nat /\ (start K <= s)%nat /\ (K < m -> s < start (Datatypes.S K))%nat).
    { induction m as [|m IH]; intros H.
      - exists 0%nat. split; [lia|]. split; [unfold start; cbn; lia|lia].
      - destruct (IH ltac:(lia)) as (K & K1 & K2 & K3). destruct (Nat.le_gt_cases (start (Datatypes.S m)) s) as [Hs|Hs].
        + exists (Datatypes.S m). split; [lia|]. split; [assumption|lia].
        + exists K. split; [lia|]. split; [assumption|]. intros HK. destruct (Nat.eq_dec K m) as [->|]; [assumption|]. apply K3. lia. }
    exact (K _ (le_n _)). }
  destruct K as (K & K1 & K2 & K3).
  assert (TOP : start (length (seg cs)) = n) by (apply (starts_end all n Hn cs); [exact EC|lia|reflexivity]).
  assert (KI : K = length (seg cs) <-> s = n).
  { split; [intros ->; lia|]. intros ->. destruct (Nat.eq_dec K (length (seg cs))); [assumption|].
    specialize (K3 ltac:(lia)). pose proof (LE (Datatypes.S K) (length (seg cs)) ltac:(lia)). lia. }
  destruct (run_range fuel ge K ltac:(lia) K1) with (m := K) (a := 0%nat) (g := g0) as (ps & RG & F2); try lia.
  - intros a g Ha G. unfold gi_neq.
    pose proof (on_extent ops all pos inside L n Hn e He cs a g EC ltac:(lia) G) as A. fold (start a) (start (Datatypes.S a)) in A.
    pose proof (at_le _ _ _ _ _ A) as La.
    destruct (gi_eq_ok ops all pos inside L n Hn _ _ _ _ _ _ fuel A ATE ltac:(lia)) as (r & -> & RR). cbn [bind]. do 2 f_equal.
    destruct (Nat.eqb_spec a K) as [->|NE].
    + apply RR. destruct (Nat.eq_dec K (length (seg cs))) as [EK|EK].
      * left. apply KI in EK. rewrite EK in *. split; [|left; reflexivity]. assert (KK : K = length (seg cs)) by (apply KI; reflexivity). rewrite KK. exact TOP.
      * right. exists s. specialize (K3 ltac:(lia)). split; [lia|]. left. reflexivity.
    + destruct r; [exfalso|reflexivity]. pose proof (LE (Datatypes.S a) K ltac:(lia)).
      pose proof (starts_inj all n Hn cs a (length (seg cs)) EC ltac:(lia)) as INJ. fold (start a) (start (length (seg cs))) in INJ.
      destruct (proj1 RR eq_refl) as [(X1 & X2)|(x & X1 & X2)]; lia.
  - exact G0.
  - rewrite Nat.sub_0_r in F2. cbn [skipn] in F2. exists g0, ge, K, ps. rewrite BO, KI. fold n in I. rewrite I. split; [assumption|]. split; [assumption|]. split; [assumption|]. split; [reflexivity|]. split; assumption.
Qed.

(** What a form does with one grapheme *)
Lemma form_piece F listed k full sort append fuel p g out : form_data F listed k full -> std_sort_ok sort -> (n < fuel)%nat ->
  delimits all pos n p g -> zlen (flat_map full g) <= int_max ->
  F sort append fuel ops p out = let* o := append out (norm_grapheme k full sort g) in Ok (zlen (norm_grapheme k full sort g), o).
Proof.
  intros FD SO Hf D Hm.
  assert (DEC : forall dec, (forall c out, dec c out = Ok (zlen (full c), out ++ full c)) ->
    form_decomposed sort append fuel ops dec p out = (let* o := append out (sort (flat_map full g)) in Ok (zlen (sort (flat_map full g)), o)) /\
    form_composed sort append fuel ops dec p out = (let* o := append out (compose (sort (flat_map full g))) in Ok (zlen (compose (sort (flat_map full g))), o))).
  { intros dec Hdec. unfold form_decomposed, form_composed.
    rewrite (decompose_ok ops b e cs c pos inside T dec full p g fuel Hdec D Hf Hm). cbn [bind].
    assert (LS : zlen (flat_map full g) = zlen (sort (flat_map full g))) by (unfold zlen; rewrite (std_length sort _ SO); reflexivity).
    split; [rewrite LS; reflexivity|].
    destruct (canonical_composition_ok (sort (flat_map full g)) 0) as (rest & -> & _). cbn [bind].
    replace (Z.to_nat (zlen (compose (sort (flat_map full g))))) with (length (compose (sort (flat_map full g)))) by (unfold zlen; lia).
    rewrite firstn_app, firstn_all, Nat.sub_diag, app_nil_r.
    destruct (append out (compose (sort (flat_map full g)))) as [o|u|]; cbn [bind]; try reflexivity.
    do 2 f_equal. unfold zlen. rewrite (std_length sort _ SO). lia. }
  unfold norm_grapheme. destruct FD.
  - apply (DEC _ canonical_decomposition_eq).
  - apply (DEC _ compat_decomposition_eq).
  - apply (DEC _ canonical_decomposition_eq).
  - apply (DEC _ compat_decomposition_eq).
Qed.
Lemma filter_run F listed k full sort append fuel out g0 ge ps gs l r : form_data F listed k full -> std_sort_ok sort -> output_encoding append ->
  (n < fuel)%nat -> seg cs = l ++ gs ++ r -> zlen (flat_map full (concat gs)) <= int_max ->
  range_of (gi_neq fuel ops) (fun g => Ok (gi_deref g, g)) (gi_step fuel ops) g0 ge ps -> Forall2 (delimits all pos n) ps gs ->
  filter_graphemes fuel ops (F sort append fuel ops) g0 ge out
  = let* o := append out (flat_map (norm_grapheme k full sort) gs) in Ok (zlen (flat_map (norm_grapheme k full sort) gs), o).
Proof.
  intros FD SO OE Hf ES HM RG F2. unfold filter_graphemes, filter.
  pose proof (norm_length k full sort (concat gs) SO) as NL. rewrite (seg_run cs l gs r ES) in NL.
  rewrite flat_map_concat in HM.
  rewrite (filter_loop_res append (encoding_nil _ OE) (encoding_app _ OE) _ _ _ (delimits all pos n)
    _ (fun g => zlen (norm_grapheme k full sort g)) (norm_grapheme k full sort) g0 ge ps RG gs F2).
  - rewrite (zsum_pieces (norm_grapheme k full sort)). reflexivity.
  - intros p g out' D I. apply (form_piece F listed); try assumption. eapply piece_bound; eassumption.
  - apply Forall_forall. intros x Hx. apply in_map_iff in Hx. destruct Hx as (g & <- & _). unfold zlen. lia.
  - lia.
  - rewrite (zsum_pieces (norm_grapheme k full sort)). rewrite flat_map_concat in NL. lia.
  - rewrite (Forall2_len _ _ _ F2). pose proof (seg_length cs) as SL. rewrite ES, !app_length in SL. fold n in SL. lia.
Qed.
End Sub.
