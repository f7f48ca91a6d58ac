(** * Proofs: normalization of parts, sizes, unchanged texts *)
From Coq Require Import Permutation Sorted Relations.
From Verif Require Import Prelude DataTables UcdTables PropsModel Utf8Model TextModel Utf8Spec UnicodeSpec GraphemeSpec TextSpec NormSpec FilterSpec
  PropsProofs LawfulProofs DecompTables DecompProofs GraphemeProofs Uax29Proofs GraphemeText FilterProofs OrderProofs ComposeProofs
  NormData HangulProofs NormProofs NfcProofs NormForms EncodeProofs EncodeText NormUtf8 NormText Properties_Normalize.
Require Import ZifyBool ZifyNat.

(** ** Graphemes of a concatenation *)
Lemma seg_app x : forall a c y, brk (last (a :: x) 0) c = true -> seg ((a :: x) ++ c :: y) = seg (a :: x) ++ seg (c :: y).
Proof.
  induction x as [|b x IH]; intros a c y B.
  - cbn [last] in B. cbn [app]. rewrite seg_cons2, B. reflexivity.
  - change ((a :: b :: x) ++ c :: y) with (a :: b :: (x ++ c :: y)). rewrite !seg_cons2.
    change (b :: x ++ c :: y) with ((b :: x) ++ c :: y). rewrite (IH b c y) by exact B.
    destruct (brk a b); [reflexivity|]. destruct (seg_cons b x) as (g & gs & ->). reflexivity.
Qed.
Lemma seg_app_iff x c y : x <> [] -> (segments pairwise_boundary (x ++ c :: y) (seg x ++ seg (c :: y)) <-> pairwise_boundary x c).
Proof.
  intros NE. rewrite (boundary_after x c NE). split.
  - intros (_ & _ & _ & B). destruct (seg_cons c y) as (g & gs & E). rewrite E in B.
    specialize (B (seg x) c g gs eq_refl). rewrite seg_concat in B. apply (boundary_after x c NE). apply B.
    intros Z. apply NE. rewrite <- (seg_concat x), Z. reflexivity.
  - intros B. destruct x as [|a x]; [contradiction|]. rewrite <- seg_app by assumption. apply seg_segments.
Qed.
Lemma seg_parts x y : x = [] \/ y = [] \/ (exists c t, y = c :: t /\ pairwise_boundary x c) -> seg (x ++ y) = seg x ++ seg y.
Proof.
  intros [->|[->|(c & t & -> & B)]]; [reflexivity|rewrite !app_nil_r; reflexivity|].
  destruct x as [|a x]; [reflexivity|]. apply seg_app. apply (boundary_after (a :: x) c); [discriminate|assumption].
Qed.

(** ** What every form does *)
Definition norm_grapheme (composed : bool) (full : Z -> list Z) (sort : list Z -> list Z) (g : list Z) : list Z :=
  let d := sort (flat_map full g) in if composed then compose d else d.
Inductive output_encoding : (list Z -> list Z -> res (list Z)) -> Prop :=
| utf8_output : output_encoding utf8_append_from_utf32ne
| utf32_output : output_encoding utf32_append_from_utf32ne.
Lemma encoding_nil append : output_encoding append -> forall out, append out [] = Ok out.
Proof. intros []; [apply utf8_append_nil|apply utf32_append_nil]. Qed.
Lemma encoding_app append : output_encoding append ->
  forall out l r, append out (l ++ r) = let* o := append out l in append o r.
Proof. intros []; [intros; apply utf8_append_app|apply utf32_append_app]. Qed.

Inductive form_data : ((list Z -> list Z) -> (list Z -> list Z -> res (list Z)) -> nat -> cp_ops ->
    Z * Z -> list Z -> res (Z * list Z)) -> (Z -> list Z -> Prop) -> bool -> (Z -> list Z) -> Prop :=
| fd_d : form_data normalization_form_d listed_canonical false full_canonical
| fd_kd : form_data normalization_form_kd listed_compat false full_compat
| fd_c : form_data normalization_form_c listed_canonical true full_canonical
| fd_kc : form_data normalization_form_kc listed_compat true full_compat.
Lemma form_data_of F listed : form_of F listed -> exists k full, form_data F listed k full.
Proof. intros []; eexists _, _; constructor. Qed.
Lemma data_listed F listed k full : form_data F listed k full -> forall cs f, expands_all listed cs f <-> f = flat_map full cs.
Proof. intros []; first [exact canonical_listed|exact compat_listed]. Qed.

Lemma run_any F listed k full sort append ops b e cs fuel out : form_data F listed k full ->
  std_sort_ok sort -> output_encoding append -> delimited_text ops b e cs -> (length cs < fuel)%nat -> count_fits listed cs ->
  let r := flat_map (norm_grapheme k full sort) (seg cs) in
  normalize fuel ops (F sort append fuel ops) b e out = let* o := append out r in Ok (zlen r, o).
Proof.
  intros FD SO OE D Hf CF. cbv zeta. pose proof (encoding_nil _ OE) as A1. pose proof (encoding_app _ OE) as A2.
  unfold norm_grapheme. destruct FD; rewrite flat_map_concat_map.
  - exact (run_d _ _ _ canonical_decomposition_eq canonical_listed sort SO _ _ _ _ D fuel Hf CF append out A1 A2).
  - exact (run_d _ _ _ compat_decomposition_eq compat_listed sort SO _ _ _ _ D fuel Hf CF append out A1 A2).
  - unfold normalization_form_c. rewrite (run_c _ _ _ canonical_decomposition_eq canonical_listed sort SO _ _ _ _ D fuel Hf CF append out A1 A2).
    unfold c_pieces, d_pieces. rewrite map_map. reflexivity.
  - unfold normalization_form_kc. rewrite (run_c _ _ _ compat_decomposition_eq compat_listed sort SO _ _ _ _ D fuel Hf CF append out A1 A2).
    unfold c_pieces, d_pieces. rewrite map_map. reflexivity.
Qed.
Lemma run_any32 F listed k full sort ops b e cs fuel out : form_data F listed k full ->
  std_sort_ok sort -> delimited_text ops b e cs -> (length cs < fuel)%nat -> count_fits listed cs ->
  let r := flat_map (norm_grapheme k full sort) (seg cs) in
  normalize fuel ops (F sort utf32_append_from_utf32ne fuel ops) b e out = Ok (zlen r, out ++ r).
Proof. intros FD SO D Hf CF. cbv zeta.
  rewrite (run_any F listed k full sort _ ops b e cs fuel out FD SO utf32_output D Hf CF). reflexivity. Qed.

Lemma count_parts listed full x y : (forall cs f, expands_all listed cs f <-> f = flat_map full cs) ->
  count_fits listed (x ++ y) -> count_fits listed x /\ count_fits listed y.
Proof.
  intros LF (f & E & H). apply LF in E. subst f. rewrite flat_map_app, app_length in H.
  split; (eexists; split; [apply (proj2 (LF _ _)); reflexivity|lia]).
Qed.

(** ** Sizes *)
Definition row_length (n : Z) (row : list Z) : bool := zlen row <=? n + 2.
Lemma canonical_row_lengths : forallb (row_length 4) canonical_decomposition_mapping_data = true.
Proof. vm_cast_no_check (eq_refl true). Qed.
Lemma compat_row_lengths : forallb (row_length 7) compatibility_and_canonical_decomposition_mapping_data = true.
Proof. vm_cast_no_check (eq_refl true). Qed.
Lemma row_bound keep data n c : closed_table keep data -> forallb (row_length n) data = true -> 1 <= n -> zlen (table_full data c) <= n.
Proof.
  intros T L N. destruct (table_full_row keep data c T) as [->|I]; [exact N|].
  rewrite forallb_forall in L. specialize (L _ I). unfold row_length, zlen in *. cbn [length] in L. rewrite app_length in L. cbn [length] in L. lia.
Qed.
Lemma canonical_bound c : 1 <= zlen (full_canonical c) <= 4.
Proof.
  split; [|apply (row_bound _ _ 4 c canonical_table canonical_row_lengths); lia].
  pose proof (full_canonical_ne c). destruct (full_canonical c); [contradiction|unfold zlen; cbn [length]; lia].
Qed.
Lemma compat_bound c : 1 <= zlen (full_compat c) <= 7.
Proof.
  split; [|apply (row_bound _ _ 7 c compat_table compat_row_lengths); lia].
  pose proof (full_compat_ne c). destruct (full_compat c); [contradiction|unfold zlen; cbn [length]; lia].
Qed.
Lemma flat_bound (f : Z -> list Z) n cs : (forall c, 1 <= zlen (f c) <= n) -> zlen cs <= zlen (flat_map f cs) <= n * zlen cs.
Proof.
  intros H. induction cs as [|c cs IH]; [unfold zlen; cbn; lia|]. cbn [flat_map]. specialize (H c).
  unfold zlen in *. rewrite app_length. cbn [length]. lia.
Qed.
Lemma norm_length k full sort cs : std_sort_ok sort ->
  zlen (flat_map (norm_grapheme k full sort) (seg cs)) <= zlen (flat_map full cs).
Proof.
  intros SO. rewrite <- (seg_concat cs) at 2. rewrite flat_map_concat. induction (seg cs) as [|g gs IH]; [reflexivity|].
  cbn [flat_map]. unfold zlen in *. rewrite !app_length.
  assert (length (norm_grapheme k full sort g) <= length (flat_map full g))%nat; [|lia].
  unfold norm_grapheme. rewrite <- (std_length sort (flat_map full g) SO). destruct k; [apply compose_length|reflexivity].
Qed.
Lemma norm_length_d full sort cs : std_sort_ok sort ->
  zlen (flat_map (norm_grapheme false full sort) (seg cs)) = zlen (flat_map full cs).
Proof.
  intros SO. rewrite <- (seg_concat cs) at 2. rewrite flat_map_concat. induction (seg cs) as [|g gs IH]; [reflexivity|].
  cbn [flat_map]. unfold zlen in *. rewrite !app_length. unfold norm_grapheme at 1. rewrite (std_length sort (flat_map full g) SO). lia.
Qed.

(** ** Order of the output *)
Lemma orderedb_app l r : orderedb l = true -> orderedb r = true ->
  (Forall (fun c => ccc c = 0) l \/ (exists x t, r = x :: t /\ ccc x = 0)) -> orderedb (l ++ r) = true.
Proof.
  intros L R. induction l as [|a l IH]; intros H; [assumption|]. cbn [app]. destruct l as [|b l].
  - cbn [app]. destruct r as [|x t]; [reflexivity|]. change (okpair a x && orderedb (x :: t) = true). rewrite R, andb_true_r.
    unfold okpair. destruct H as [H|(x' & t' & E & H)]; [|injection E as -> ->; lia].
    inversion H as [|? ? A _]; subst. pose proof (ccc_nonneg x). lia.
  - change (okpair a b && orderedb (b :: l) = true) in L. apply andb_prop in L. destruct L as [L1 L2].
    change (okpair a b && orderedb ((b :: l) ++ r) = true). rewrite L1. cbn [andb]. apply IH; [assumption|].
    destruct H as [H|H]; [left; inversion H; assumption|right; assumption].
Qed.
Lemma compose_ordered t : forall a, orderedb (a :: t) = true -> orderedb (composeF a t) = true /\
  (exists y ys, composeF a t = y :: ys /\ ccc y = ccc a).
Proof.
  induction t as [|b t IH]; intros a O.
  - split; [reflexivity|]. exists a, []. auto.
  - change (okpair a b && orderedb (b :: t) = true) in O. apply andb_prop in O. destruct O as [O1 O2]. cbn [composeF].
    destruct (comp a b) as [c|] eqn:C.
    + destruct (comp_starters a b c C) as [Ca Cc].
      destruct (IH c) as [P Q].
      { destruct t as [|d t]; [reflexivity|]. change (okpair c d && orderedb (d :: t) = true). change (okpair b d && orderedb (d :: t) = true) in O2.
        apply andb_prop in O2. destruct O2 as [_ ->]. rewrite andb_true_r. unfold okpair. pose proof (ccc_nonneg d). lia. }
      split; [assumption|]. rewrite Ca, <- Cc. assumption.
    + destruct (IH b O2) as (P & y & ys & E & Y). rewrite E in P |- *. split; [|exists a, (y :: ys); auto].
      change (okpair a y && orderedb (y :: ys) = true). rewrite P, andb_true_r. unfold okpair in *. rewrite Y. assumption.
Qed.
Lemma compose_starters t : forall a, Forall (fun c => ccc c = 0) (a :: t) -> Forall (fun c => ccc c = 0) (composeF a t).
Proof.
  induction t as [|b t IH]; intros a F; cbn [composeF]; [assumption|]. inversion F as [|? ? A F']; subst.
  destruct (comp a b) as [c|] eqn:C.
  - apply IH. constructor; [eapply comp_starters; eassumption|]. inversion F'; assumption.
  - constructor; [assumption|]. apply IH. assumption.
Qed.
Definition ord_apart (l r : list Z) : Prop := Forall (fun c => ccc c = 0) l \/ (exists x t, r = x :: t /\ ccc x = 0).
Lemma concat_ordered ls : Forall (fun l => orderedb l = true) ls -> Forall (fun l => l <> []) ls -> chained ord_apart ls -> orderedb (concat ls) = true.
Proof.
  intros O N C. induction ls as [|l ls IH]; [reflexivity|]. cbn [concat]. inversion O as [|? ? O1 O2]; subst. inversion N as [|? ? N1 N2]; subst.
  destruct ls as [|r ls]; [cbn [concat]; rewrite app_nil_r; assumption|].
  apply orderedb_app; [assumption|apply IH; [assumption..|eapply chained_tail; eassumption]|].
  apply chained_head in C. destruct C as [F|(x & t & -> & X)]; [left; assumption|]. right. exists x, (t ++ concat ls). auto.
Qed.
Lemma apart_starter l r : apart l r -> Forall (fun c => ccc c = 0) l \/ (exists x, In x r /\ ccc x = 0).
Proof.
  intros [(x & t & -> & G)|F].
  - right. exists x. split; [left; reflexivity|]. destruct (Z.eq_dec (ccc x) 0); [assumption|]. exfalso. apply G. left. assumption.
  - left. eapply Forall_impl; [|exact F]. intros c I. apply I.
Qed.
Lemma sorted_head l : StronglySorted ccc_le l -> (exists x, In x l /\ ccc x = 0) -> exists x t, l = x :: t /\ ccc x = 0.
Proof.
  intros S (x & I & X). destruct S as [|a l S F]; [destruct I|]. exists a, l. split; [reflexivity|].
  destruct I as [->|I]; [assumption|]. rewrite Forall_forall in F. specialize (F x I). apply ccc_le_iff in F.
  pose proof (ccc_nonneg a). lia.
Qed.
Lemma norm_ordered k full sort cs : (forall c, full c <> []) -> (forall c x t, full c = x :: t -> glue x -> joiner c) ->
  (forall c, control c -> full c = [c]) -> std_sort_ok sort ->
  orderedb (flat_map (norm_grapheme k full sort) (seg cs)) = true.
Proof.
  intros NE HD CT SO. rewrite flat_map_concat_map.
  assert (PN : forall g, In g (seg cs) -> sort (flat_map full g) <> []).
  { intros g I E. pose proof (pieces_ne full NE cs) as PN. rewrite Forall_forall in PN.
    apply (PN (flat_map full g)); [unfold pieces; apply in_map; assumption|]. apply Permutation_nil. rewrite <- E.
    symmetry. apply SO. }
  apply concat_ordered.
  - apply Forall_forall. intros p I. apply in_map_iff in I. destruct I as (g & <- & I). unfold norm_grapheme.
    assert (O : orderedb (sort (flat_map full g)) = true) by (apply sorted_orderedb, (proj1 (std_sort_classes sort) SO)).
    destruct k; [|assumption]. destruct (sort (flat_map full g)) as [|a t]; [reflexivity|]. apply compose_ordered. assumption.
  - apply Forall_forall. intros p I. apply in_map_iff in I. destruct I as (g & <- & I). specialize (PN g I). unfold norm_grapheme.
    destruct k; [|assumption]. destruct (sort (flat_map full g)) as [|a t]; [contradiction|]. cbn [compose].
    pose proof (composeF_length t a). intros E. rewrite E in H. cbn [length] in H. lia.
  - apply chained_map. intros G1 g h G2 E.
    pose proof (graphemes_apart full NE HD CT cs G1 g h G2 E) as A. apply apart_starter in A. unfold norm_grapheme.
    assert (Q : ord_apart (sort (flat_map full g)) (sort (flat_map full h))).
    { destruct A as [F|(x & I & X)].
      - left. rewrite Forall_forall in *. intros c I. apply F. eapply Permutation_in; [symmetry; apply SO|assumption].
      - right. apply sorted_head; [apply (std_sort_classes sort); assumption|]. exists x. split; [|assumption]. eapply Permutation_in; [apply SO|assumption]. }
    destruct k; [|assumption]. destruct Q as [F|(x & t & Q & X)].
    + left. destruct (sort (flat_map full g)) as [|a t]; [constructor|]. apply compose_starters. assumption.
    + right. assert (O : orderedb (sort (flat_map full h)) = true) by (apply sorted_orderedb, (proj1 (std_sort_classes sort) SO)). rewrite Q in O |- *.
      cbn [compose].
      destruct (compose_ordered t x O) as (_ & y & ys & -> & Y). exists y, ys. split; [reflexivity|]. congruence.
Qed.

(** ** Unchanged texts *)
Lemma seg_fixed (f : list Z -> list Z) cs : (forall g, In g (seg cs) -> f g = g) -> flat_map f (seg cs) = cs.
Proof.
  intros H. rewrite <- (seg_concat cs) at 2. induction (seg cs) as [|g gs IH]; [reflexivity|].
  cbn [flat_map concat]. rewrite (H g) by (left; reflexivity). rewrite IH; [reflexivity|]. intros h I. apply H. right. assumption.
Qed.
Lemma isort_id_iff l : isort l = l <-> StronglySorted ccc_le l.
Proof.
  split; [intros <-; apply isort_sorted|]. intros S. apply sorted_class_unique; [apply isort_sorted|assumption|].
  intros k. apply isort_class.
Qed.
Section Unchanged.
Context (full : Z -> list Z) (full_ne : forall c, full c <> []) (full_fix : forall c x, In x (full c) -> full x = [x]).
Context (full_compose : forall l, flat_map full (compose l) = flat_map full l).
Lemma full_nil l : flat_map full l = [] -> l = [].
Proof. destruct l as [|c l]; [reflexivity|]. cbn [flat_map]. intros H. apply app_eq_nil in H. destruct H as [H _]. exfalso. exact (full_ne c H). Qed.
Lemma unchanged_d_iff cs : flat_map (norm_grapheme false full isort) (seg cs) = cs <->
  (forall c, In c cs -> full c = [c]) /\ (forall g, In g (seg cs) -> StronglySorted ccc_le g).
Proof.
  unfold norm_grapheme. split.
  - intros E. assert (U : forall c, In c cs -> full c = [c]).
    { intros c I. rewrite <- E in I. apply in_flat_map in I. destruct I as (g & _ & I).
      eapply Permutation_in in I; [|symmetry; apply isort_perm]. apply in_flat_map in I. destruct I as (x & _ & I). eauto. }
    split; [assumption|]. intros g I. apply isort_id_iff.
    rewrite <- (seg_concat cs) in E at 2. rewrite flat_map_concat_map in E.
    assert (M : map (fun g => isort (flat_map full g)) (seg cs) = map isort (seg cs)).
    { apply map_ext_in. intros h J. rewrite flat_map_id; [reflexivity|]. intros x X. apply U. rewrite <- (seg_concat cs).
      apply in_concat. exists h. auto. }
    rewrite M in E. rewrite <- (map_id (seg cs)) in E at 2. exact (concat_same_length isort (fun l => l) (seg cs) isort_length E g I).
  - intros [U S]. apply seg_fixed. intros g I. rewrite flat_map_id; [apply isort_id_iff; auto|].
    intros x X. apply U. rewrite <- (seg_concat cs). apply in_concat. exists g. auto.
Qed.
Lemma same_full_pieces gs : forall us, concat us = concat gs -> Forall2 (fun u g => flat_map full u = flat_map full g) us gs -> us = gs.
Proof.
  induction gs as [|g gs IH]; intros us E F; inversion F as [|u ? us' ? H F']; subst; [reflexivity|]. cbn [concat] in E.
  assert (u = g); [|subst u; apply app_inv_head in E; f_equal; apply IH; assumption].
  clear - full_ne E H. revert g E H. induction u as [|x u IH]; intros [|y g] E H; [reflexivity|..].
  - exfalso. cbn [flat_map] in H. symmetry in H. apply app_eq_nil in H. destruct H as [H _]. exact (full_ne y H).
  - exfalso. cbn [flat_map] in H. apply app_eq_nil in H. destruct H as [H _]. exact (full_ne x H).
  - cbn [app] in E. injection E as -> E. f_equal. apply IH; [assumption|]. cbn [flat_map] in H. apply app_inv_head in H. assumption.
Qed.
Lemma unchanged_c_iff cs : flat_map (norm_grapheme true full isort) (seg cs) = cs <->
  (forall g, In g (seg cs) -> StronglySorted ccc_le (flat_map full g) /\ greedy (flat_map full g) g).
Proof.
  assert (FX : forall g, flat_map full (isort (flat_map full g)) = isort (flat_map full g)).
  { intros g. apply flat_map_id. intros x Hx. eapply Permutation_in in Hx; [|symmetry; apply isort_perm].
    apply in_flat_map in Hx. destruct Hx as (y & _ & Hx). eauto. }
  unfold norm_grapheme. split.
  - intros E. assert (Q : forall g, In g (seg cs) -> isort (flat_map full g) = flat_map full g).
    { assert (X : flat_map full (flat_map (fun g => compose (isort (flat_map full g))) (seg cs)) = flat_map full (concat (seg cs)))
        by (rewrite E, seg_concat; reflexivity).
      rewrite flat_map_concat in X.
      assert (Y : flat_map full (flat_map (fun g => compose (isort (flat_map full g))) (seg cs)) = concat (map isort (map (flat_map full) (seg cs)))).
      { clear X E. induction (seg cs) as [|g gs IH]; [reflexivity|]. cbn [flat_map map concat]. rewrite flat_map_app, IH, full_compose, FX. reflexivity. }
      rewrite Y, flat_map_concat_map, <- (map_id (map (flat_map full) (seg cs))) in X at 1. rewrite map_id in X.
      intros g I. apply (concat_same_length isort (fun l => l) (map (flat_map full) (seg cs)) isort_length); [rewrite map_id; exact X|].
      apply in_map. assumption. }
    intros g I. split; [apply isort_id_iff; auto|].
    assert (S : map (fun g => compose (isort (flat_map full g))) (seg cs) = seg cs).
    { apply same_full_pieces; [rewrite <- flat_map_concat_map, E, seg_concat; reflexivity|].
      revert Q. clear E I. induction (seg cs) as [|h hs IH]; intros Q; [constructor|]. cbn [map]. constructor.
      - rewrite full_compose, FX. apply Q. left. reflexivity.
      - apply IH. intros h' I. apply Q. right. assumption. }
    assert (G : compose (isort (flat_map full g)) = g).
    { clear - S I. induction (seg cs) as [|h hs IH]; [destruct I|]. cbn [map] in S. injection S as S1 S2. destruct I as [->|I]; auto. }
    rewrite (Q g I) in G. rewrite <- G at 2. apply compose_greedy.
  - intros H. apply seg_fixed. intros g I. destruct (H g I) as [S G]. apply isort_id_iff in S. rewrite S. symmetry. apply greedy_compose_eq. assumption.
Qed.
End Unchanged.
Lemma unmapped_iff keep data c : closed_table keep data -> (table_full data c = [c] <-> forall m, ~ rel_of keep c m).
Proof.
  intros T. split.
  - intros E m R. pose proof (table_full_expands keep data c T) as X. rewrite E in X.
    exact (proj1 (expands_unmapped (rel_of keep)) c [c] X c m (or_introl eq_refl) R).
  - intros N. destruct (table_resolver_spec keep data c T) as [(d & m & E & R & _)|(E & _)]; unfold table_full; rewrite E; [|reflexivity].
    exfalso. exact (N _ R).
Qed.

(** ** Truncation: a grapheme iterator constructed at any native position *)
Section Truncate.
Context (ops : cp_ops) (all : list Z) (pos : nat -> Z) (inside : nat -> Z -> Prop).
Context (L : lawful ops all pos inside).
Context (n : nat) (Hn : (n < length all)%nat) (e : Z) (He : inside n e).
Lemma find_start_inside b i p fuel : inside 0%nat b -> (i <= n)%nat -> inside i p -> b = pos 0%nat -> (i < fuel)%nat ->
  exists s w, is_start all i s /\ find_start_of_grapheme fuel ops b p = Ok w /\ inside s w /\ (i <> 0%nat -> w = pos s).
Proof.
  intros Hb Hi Hp Eb Hf. destruct i as [|i].
  - exists 0%nat, p. split; [reflexivity|]. split; [|split; [assumption|congruence]].
    unfold find_start_of_grapheme. rewrite (lw_eq _ _ _ _ L 0%nat 0%nat p b) by (assumption || lia). reflexivity.
  - destruct (find_start_ok ops all pos inside L n Hn b (S i) p fuel Hb Eb Hi Hp ltac:(lia) Hf) as (s & S & E).
    exists s, (pos s). split; [assumption|]. split; [assumption|]. split; [|reflexivity]. apply (lw_pos _ _ _ _ L).
    unfold is_start in S. cbn [Nat.eqb] in S. destruct (brk_at all (Datatypes.S i)); [lia|]. destruct S; lia.
Qed.
Lemma make3_inside b s i j p fuel : b = pos 0%nat -> is_end all n s j -> (s = 0%nat \/ brk_at all s = true) -> (s <= i < j)%nat ->
  inside i p -> (n < fuel)%nat ->
  exists g s', gi_make3 fuel ops b e p = Ok g /\ g_eog g = pos j /\ inside s' (g_where g) /\ (i <> 0%nat -> g_where g = pos s') /\ (s' <= i)%nat /\
    (s' = s <-> start_found all s i).
Proof.
  intros Eb J B Hi Hp Hf. pose proof J as ((J1 & J2) & _).
  assert (H0 : inside 0%nat b) by (rewrite Eb; apply (lw_pos _ _ _ _ L); lia).
  destruct (find_start_inside b i p fuel H0 ltac:(lia) Hp Eb ltac:(lia)) as (s' & w & S & E1 & W1 & W2).
  destruct (find_end_ok ops all pos inside L n Hn e He i p fuel ltac:(lia) Hp ltac:(lia)) as (j' & J' & E2).
  assert (j' = j).
  { apply (is_end_unique all n Hn i); [assumption|]. apply (is_end_inner all n Hn s i j); assumption. }
  subst j'. unfold gi_make3. rewrite E1, E2. cbn [bind]. eexists. exists s'. split; [reflexivity|]. cbn [g_eog g_where].
  split; [reflexivity|]. split; [assumption|]. split; [assumption|]. split.
  - unfold is_start in S. destruct (Nat.eqb_spec i 0); [lia|]. destruct (brk_at all i); [lia|]. destruct S; lia.
  - apply (is_start_found all n Hn s i j s'); assumption.
Qed.
End Truncate.
Section TruncateText.
Context (ops : cp_ops) (b e : Z) (cs : list Z) (c : Z) (pos : nat -> Z) (inside : nat -> Z -> Prop).
Context (T : text_in ops b e cs c pos inside).
Let L := ti_lawful _ _ _ _ _ _ _ T.
Lemma text_make3_inside fuel before g after i p : segments pairwise_boundary cs (before ++ g :: after) ->
  let s := length (concat before) in
  (s <= i < s + length g)%nat -> inside i p -> (length cs < fuel)%nat ->
  exists it s', gi_make3 fuel ops b e p = Ok it /\ g_eog it = pos (s + length g)%nat /\ inside s' (g_where it) /\
    (i <> 0%nat -> g_where it = pos s') /\ (s' <= i < length cs)%nat /\
    (s' = s <-> i = s \/ ((s = 0%nat \/ pairwise_boundary [nth (S s) cs 0] (nth s cs 0)) /\
      forall k, (s < k < i)%nat -> ~ pairwise_boundary [nth (S k) cs 0] (nth k cs 0))).
Proof.
  intros S s Hi Hp Hf. pose proof (seg_eq _ _ S) as Eg. symmetry in Eg.
  assert (LEN : (s + length g <= length cs)%nat).
  { destruct S as (E & _). rewrite <- E, concat_app, app_length. cbn [concat]. rewrite app_length. unfold s. lia. }
  pose proof (text_n cs c) as TN.
  destruct (seg_is_end (cs ++ [c]) (length cs) TN e cs before g after (eq_sym (text_sub cs c)) Eg) as [J B].
  destruct (make3_inside ops (cs ++ [c]) pos inside L (length cs) TN e (text_e ops b e cs c pos inside T) b s i _ p fuel
    (ti_begin _ _ _ _ _ _ _ T) J B Hi Hp Hf) as (it & s' & E & Q & W1 & W2 & Hs & I).
  exists it, s'. split; [assumption|]. split; [assumption|]. split; [assumption|]. split; [assumption|]. split; [lia|]. rewrite I. clear I.
  unfold start_found, rev_brk_at.
  assert (NTH : forall k, (k < length cs)%nat -> nth k (cs ++ [c]) 0 = nth k cs 0) by (intros; apply app_nth1; assumption).
  assert (PB : forall k, pairwise_boundary [nth (Datatypes.S k) cs 0] (nth k cs 0) <-> brk (nth (Datatypes.S k) cs 0) (nth k cs 0) = true).
  { intros k. apply (pairwise_boundary_snoc []). }
  split.
  - intros [X|(X & Y)]; [left; exact X|]. destruct (Nat.eq_dec i s) as [|Hne]; [left; assumption|].
    right. split.
    + destruct X as [X|X]; [left; exact X|right]. apply PB. rewrite !NTH in X by lia. exact X.
    + intros k Hk K. apply PB in K. specialize (Y k Hk). rewrite !NTH in Y by lia. congruence.
  - intros [X|(X & Y)]; [left; exact X|]. destruct (Nat.eq_dec i s) as [|Hne]; [left; assumption|].
    right. split.
    + destruct X as [X|X]; [left; exact X|right]. apply PB in X. rewrite !NTH by lia. exact X.
    + intros k Hk. rewrite !NTH by lia. specialize (Y k Hk). rewrite PB in Y. destruct (brk _ _); [contradiction Y; reflexivity|reflexivity].
Qed.
Lemma sub_prefix k : (k <= length cs)%nat -> sub (cs ++ [c]) 0 k = firstn k cs.
Proof. intros H. unfold sub. rewrite Nat.sub_0_r. cbn [skipn]. rewrite firstn_app. replace (k - length cs)%nat with 0%nat by lia. apply app_nil_r. Qed.
Lemma prefix_before (before : list (list Z)) g after k : concat (before ++ g :: after) = cs -> (k <= length cs)%nat ->
  (firstn k cs = concat before <-> k = length (concat before)).
Proof.
  intros E H. split.
  - intros F. apply (f_equal (@length Z)) in F. rewrite firstn_length in F. lia.
  - intros ->. rewrite <- E, concat_app, firstn_app, Nat.sub_diag, firstn_all. apply app_nil_r.
Qed.
End TruncateText.
