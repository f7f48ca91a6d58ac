(** * Proofs: normalization with any output encoding that appends piecewise *)
From Verif Require Import Prelude DataTables PropsModel Utf8Model TextModel Utf8Spec UnicodeSpec GraphemeSpec TextSpec
  PropsProofs Utf8Proofs LawfulProofs IterProofs DecompTables DecompProofs GraphemeProofs Uax29Proofs GraphemeText NormSpec
  FilterSpec FilterProofs ComposeProofs NormProofs EncodeProofs EncodeText.
Require Import ZifyBool ZifyNat.

Section Res.
Context (ops : cp_ops) (b e : Z) (cs : list Z) (c : Z) (pos : nat -> Z) (inside : nat -> Z -> Prop).
Context (T : text_in ops b e cs c pos inside).
Context (B : cs = [] \/ pairwise_boundary cs c).
Let L := ti_lawful _ _ _ _ _ _ _ T.
Context (append_out : list Z -> list Z -> res (list Z)).
Context (append_nil : forall out, append_out out [] = Ok out).
Context (append_app : forall out l r, append_out out (l ++ r) = let* o := append_out out l in append_out o r).

Lemma normalize_as_filter form out fuel : (length cs < fuel)%nat ->
  exists g0 ge ps, normalize fuel ops form b e out = filter_graphemes fuel ops form g0 ge out /\
    range_of (gi_neq fuel ops) (fun g => Ok (gi_deref g, g)) (gi_step fuel ops) g0 ge ps /\
    Forall2 (delimits (cs ++ [c]) pos (length cs)) ps (seg cs).
Proof.
  intros Hf. unfold normalize.
  destruct (text_begin ops b e cs c pos inside T fuel ltac:(lia)) as (g0 & -> & G0). cbn [bind].
  destruct (text_grapheme_end ops b e cs c pos inside T fuel Hf) as (s & ge & -> & W & _ & Q & R & I). cbn [bind].
  pose proof (text_e ops b e cs c pos inside T) as He.
  assert (s = length cs) by (apply I, boundary_after_or, B). subst s.
  assert (EE : at_the_end inside (length cs) ge).
  { split; [rewrite W; apply (lw_pos _ _ _ _ L); rewrite app_length; cbn; lia|]. split; [rewrite Q; assumption|rewrite R; assumption]. }
  destruct (grapheme_range ops (cs ++ [c]) pos inside L (length cs) (text_n cs c) e He ge fuel EE Hf (length cs) 0 g0 ltac:(lia) G0)
    as (ps & RG & F2).
  rewrite (text_sub cs c) in F2. exists g0, ge, ps. auto.
Qed.
Lemma filter_loop_res {It Elem} (neq : It -> It -> res bool) deref inc (D : Elem -> list Z -> Prop)
  (operation : Elem -> list Z -> res (Z * list Z)) (cnt : list Z -> Z) (f : list Z -> list Z) from to ps :
  range_of neq deref inc from to ps -> forall gs, Forall2 D ps gs ->
  (forall p g out, D p g -> In g gs -> operation p out = let* o := append_out out (f g) in Ok (cnt g, o)) ->
  Forall (fun n => 0 <= n) (map cnt gs) ->
  forall counter out fuel, 0 <= counter -> counter + zsum (map cnt gs) <= int_max -> (length ps < fuel)%nat ->
  filter_loop fuel neq deref inc operation from to out counter
  = let* o := append_out out (flat_map f gs) in Ok (counter + zsum (map cnt gs), o).
Proof.
  induction 1 as [from to E|from to x from' from'' xs E Hd Hi _ IH]; intros gs F2 H F counter out fuel Hc S Hf;
    (destruct fuel as [|fuel]; [cbn in Hf; lia|]); cbn [filter_loop]; rewrite E; cbn [bind].
  - inversion F2; subst. cbn [flat_map map zsum fold_right]. rewrite append_nil. cbn [bind]. rewrite Z.add_0_r. reflexivity.
  - inversion F2 as [|? g ? gs' Dx F2']; subst. rewrite Hd. cbn [bind]. rewrite (H x g out Dx) by (left; reflexivity).
    cbn [flat_map map zsum fold_right] in *. fold (zsum (map cnt gs')) in *. rewrite append_app.
    destruct (append_out out (f g)) as [o|u|]; cbn [bind]; [|reflexivity|reflexivity].
    inversion F as [|? ? Fn F']; subst.
    assert (Z0 : 0 <= zsum (map cnt gs')).
    { clear - F'. induction F' as [|n ns Hn _ IH]; cbn; [lia|]. fold (zsum ns). lia. }
    unfold int_add. replace ((int_min <=? counter + cnt g) && (counter + cnt g <=? int_max)) with true by (unfold int_min; lia).
    cbn [bind]. rewrite Hi. cbn [bind]. rewrite (IH gs' F2').
    + rewrite Z.add_assoc. reflexivity.
    + intros. apply H; [assumption|right; assumption].
    + assumption.
    + lia.
    + lia.
    + cbn in Hf. lia.
Qed.
Lemma normalize_res form (cnt : list Z -> Z) (f : list Z -> list Z) out fuel :
  (length cs < fuel)%nat ->
  (forall p g out, delimits (cs ++ [c]) pos (length cs) p g -> In g (seg cs) ->
     form p out = let* o := append_out out (f g) in Ok (cnt g, o)) ->
  Forall (fun n => 0 <= n) (map cnt (seg cs)) -> zsum (map cnt (seg cs)) <= int_max ->
  normalize fuel ops form b e out = let* o := append_out out (flat_map f (seg cs)) in Ok (zsum (map cnt (seg cs)), o).
Proof.
  intros Hf H F S. destruct (normalize_as_filter form out fuel Hf) as (g0 & ge & ps & -> & RG & F2).
  assert (LEN : length ps = length (seg cs)) by (eapply Forall2_len; eassumption).
  unfold filter_graphemes, filter. rewrite (filter_loop_res _ _ _ _ form cnt f g0 ge ps RG (seg cs) F2 H F); [reflexivity|lia|lia|].
  pose proof (seg_length cs). lia.
Qed.

Context (dec : Z -> list Z -> res (Z * list Z)) (full : Z -> list Z).
Context (Hdec : forall c out, dec c out = Ok (zlen (full c), out ++ full c)).
Context (sort : list Z -> list Z).
Lemma normalize_decomposed_res out fuel : (length cs < fuel)%nat -> zlen (flat_map full cs) <= int_max ->
  normalize fuel ops (form_decomposed sort append_out fuel ops dec) b e out
  = let* o := append_out out (flat_map (fun g => sort (flat_map full g)) (seg cs)) in Ok (zlen (flat_map full cs), o).
Proof.
  intros Hf Hm. rewrite <- (seg_concat cs), flat_map_concat in Hm.
  rewrite (normalize_res _ (fun g => zlen (flat_map full g)) (fun g => sort (flat_map full g))).
  - rewrite (zsum_pieces (flat_map full)), <- flat_map_concat, seg_concat. reflexivity.
  - assumption.
  - intros p g out' D I. unfold form_decomposed.
    rewrite (decompose_ok ops b e cs c pos inside T dec full p g fuel Hdec D Hf) by (eapply piece_bound; eassumption).
    reflexivity.
  - apply Forall_forall. intros x Hx. apply in_map_iff in Hx. destruct Hx as (g & <- & _). unfold zlen. lia.
  - rewrite (zsum_pieces (flat_map full)). assumption.
Qed.
Lemma normalize_composed_res out fuel : (length cs < fuel)%nat -> zlen (flat_map full cs) <= int_max ->
  (forall l, length (sort l) = length l) ->
  normalize fuel ops (form_composed sort append_out fuel ops dec) b e out
  = let* o := append_out out (flat_map (fun g => compose (sort (flat_map full g))) (seg cs)) in
    Ok (zlen (flat_map (fun g => compose (sort (flat_map full g))) (seg cs)), o).
Proof.
  intros Hf Hm Hl. rewrite <- (seg_concat cs), flat_map_concat in Hm.
  rewrite (normalize_res _ (fun g => zlen (compose (sort (flat_map full g)))) (fun g => compose (sort (flat_map full g)))).
  - rewrite (zsum_pieces (fun g => compose (sort (flat_map full g)))). reflexivity.
  - assumption.
  - intros p g out' D I. unfold form_composed.
    rewrite (decompose_ok ops b e cs c pos inside T dec full p g fuel Hdec D Hf) by (eapply piece_bound; eassumption).
    cbn [bind]. destruct (canonical_composition_ok (sort (flat_map full g)) 0) as (rest & -> & _). cbn [bind].
    replace (Z.to_nat (zlen (compose (sort (flat_map full g))))) with (length (compose (sort (flat_map full g)))) by (unfold zlen; lia).
    rewrite firstn_app, firstn_all, Nat.sub_diag, app_nil_r.
    destruct (append_out out' (compose (sort (flat_map full g)))) as [o|u|]; cbn [bind]; try reflexivity.
    do 2 f_equal. unfold zlen. rewrite Hl. lia.
  - apply Forall_forall. intros x Hx. apply in_map_iff in Hx. destruct Hx as (g & <- & _). unfold zlen. lia.
  - rewrite (zsum_pieces (fun g => compose (sort (flat_map full g)))).
    assert (LE : zlen (flat_map (fun g => compose (sort (flat_map full g))) (seg cs)) <= zlen (flat_map (flat_map full) (seg cs))).
    { generalize (seg cs) as gs. induction gs as [|g gs IH]; [unfold zlen; cbn; lia|]. cbn [flat_map]. unfold zlen in *. rewrite !app_length.
      pose proof (compose_length (sort (flat_map full g))) as Q. rewrite Hl in Q. lia. }
    lia.
Qed.
End Res.
Lemma utf8_append_nil out : utf8_append_from_utf32ne out [] = Ok out.
Proof. reflexivity. Qed.
Lemma utf8_append_app l : forall out r,
  utf8_append_from_utf32ne out (l ++ r) = let* o := utf8_append_from_utf32ne out l in utf8_append_from_utf32ne o r.
Proof.
  induction l as [|c l IH]; intros out r; [reflexivity|]. cbn [app utf8_append_from_utf32ne].
  destruct (utf8_encode_one c); cbn [bind]; [apply IH|reflexivity|reflexivity].
Qed.
Lemma utf32_append_nil out : utf32_append_from_utf32ne out [] = Ok out.
Proof. unfold utf32_append_from_utf32ne. rewrite app_nil_r. reflexivity. Qed.
Lemma utf32_append_app out l r :
  utf32_append_from_utf32ne out (l ++ r) = let* o := utf32_append_from_utf32ne out l in utf32_append_from_utf32ne o r.
Proof. unfold utf32_append_from_utf32ne. cbn [bind]. rewrite app_assoc. reflexivity. Qed.
