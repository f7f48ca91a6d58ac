(** * Proofs: filter and the normalization forms when memory runs out *)
From Verif Require Import Prelude DataTables PropsModel Utf8Model TextModel Utf8Spec UnicodeSpec GraphemeSpec TextSpec
  PropsProofs Utf8Proofs LawfulProofs IterProofs DecompTables DecompProofs GraphemeProofs Uax29Proofs GraphemeText NormSpec
  FilterSpec FilterProofs ComposeProofs NormProofs EncodeProofs EncodeText NormUtf8 AllocModel.
Require Import ZifyBool ZifyNat.

(** The first of [n] appends, numbered from [k], that fails. *)
Fixpoint attempt (mem : nat -> bool) (k n : nat) : option nat :=
  match n with
  | O => None
  | S n => if mem k then attempt mem (S k) n else Some k
  end.
Lemma attempt_add mem a : forall k b, attempt mem k (a + b) =
  match attempt mem k a with None => attempt mem (k + a) b | Some m => Some m end.
Proof.
  induction a as [|a IH]; intros k b; cbn [attempt Nat.add]; [rewrite Nat.add_0_r; reflexivity|].
  destruct (mem k); [|reflexivity]. rewrite IH, <- Nat.add_succ_comm. reflexivity.
Qed.
Lemma attempt_some mem n : forall k m, attempt mem k n = Some m ->
  (k <= m < k + n)%nat /\ mem m = false /\ forall i, (k <= i < m)%nat -> mem i = true.
Proof.
  induction n as [|n IH]; intros k m; cbn [attempt]; [discriminate|]. destruct (mem k) eqn:M.
  - intros A. destruct (IH _ _ A) as (R & F & T). split; [lia|]. split; [assumption|].
    intros i Hi. destruct (Nat.eq_dec i k) as [->|]; [assumption|apply T; lia].
  - intros [= <-]. split; [lia|]. split; [assumption|]. intros i Hi. lia.
Qed.
Lemma attempt_none mem n : forall k, attempt mem k n = None <-> forall i, (k <= i < k + n)%nat -> mem i = true.
Proof.
  induction n as [|n IH]; intros k; cbn [attempt]; [split; [intros _ i Hi; lia|reflexivity]|].
  destruct (mem k) eqn:M.
  - rewrite IH. split; intros H i Hi; [destruct (Nat.eq_dec i k) as [->|]; [assumption|]|]; apply H; lia.
  - split; [discriminate|]. intros H. rewrite H in M by lia. discriminate.
Qed.
Lemma attempt_at mem n m : (m < n)%nat -> mem m = false -> (forall i, (i < m)%nat -> mem i = true) ->
  attempt mem 0 n = Some m.
Proof.
  intros Hm F T. destruct (attempt mem 0 n) as [x|] eqn:A.
  - destruct (attempt_some _ _ _ _ A) as (R & Fx & Tx). f_equal. destruct (Nat.lt_trichotomy x m) as [L|[->|L]]; [|reflexivity|].
    + rewrite T in Fx by lia. discriminate.
    + rewrite Tx in F by lia. discriminate.
  - rewrite (proj1 (attempt_none _ _ _) A m) in F by lia. discriminate.
Qed.

(** What has been written when the [i]-th append of a run over [gs] fails. *)
Section Written.
Context {G : Type} (cost : G -> nat) (f : G -> list Z) (part : G -> nat -> list Z).
Fixpoint written (gs : list G) (i : nat) : list Z :=
  match gs with
  | [] => []
  | g :: t => if (i <? cost g)%nat then part g i else f g ++ written t (i - cost g)
  end.
Definition total (gs : list G) : nat := fold_right (fun g n => cost g + n)%nat 0%nat gs.
Lemma total_app x y : total (x ++ y) = (total x + total y)%nat.
Proof using cost. clear f part. induction x as [|g x IH]; [reflexivity|]. cbn [app total fold_right]. fold (total (x ++ y)) (total x). lia. Qed.
Lemma written_at x g y i : (i < cost g)%nat -> written (x ++ g :: y) (total x + i) = flat_map f x ++ part g i.
Proof.
  intros Hi. induction x as [|h x IH]; cbn [app written total fold_right flat_map].
  - cbn [Nat.add]. destruct (Nat.ltb_spec i (cost g)); [reflexivity|lia].
  - fold (total x). destruct (Nat.ltb_spec (cost h + total x + i) (cost h)); [lia|].
    replace (cost h + total x + i - cost h)%nat with (total x + i)%nat by lia. rewrite IH, app_assoc. reflexivity.
Qed.
Lemma total_split gs m : (m < total gs)%nat -> exists x g y i, gs = x ++ g :: y /\ (i < cost g)%nat /\ m = (total x + i)%nat.
Proof using cost.
  clear f part. revert m. induction gs as [|g gs IH]; intros m; cbn [total fold_right]; [lia|]. fold (total gs). intros Hm.
  destruct (Nat.lt_ge_cases m (cost g)) as [Hc|Hc]; [exists [], g, gs, m; auto|].
  destruct (IH (m - cost g)%nat ltac:(lia)) as (x & h & y & i & -> & Hi & E). exists (g :: x), h, y, i.
  split; [reflexivity|]. split; [assumption|]. cbn [total fold_right]. fold (total x). lia.
Qed.
End Written.

(** What a call reports for its string: all of [n] appends succeeded, or one failed. *)
Definition ends {A} (mem : nat -> bool) (k n : nat) (a : A) (all : list Z) (part : nat -> list Z) : outcome A (nat * list Z) :=
  match attempt mem k n with
  | None => Returned a ((k + n)%nat, all)
  | Some m => Thrown (S m, part (m - k)%nat)
  end.

Lemma filter_loop_exc_ends {It Elem G} mem (neq : It -> It -> res bool) deref inc (D : Elem -> G -> Prop)
  (operation : Elem -> nat * list Z -> res (outcome Z (nat * list Z)))
  (cnt : G -> Z) (cost : G -> nat) (f : G -> list Z) (part : G -> nat -> list Z) from to ps :
  range_of neq deref inc from to ps -> forall gs, Forall2 D ps gs ->
  (forall p g k out, D p g -> In g gs -> operation p (k, out) = Ok (ends mem k (cost g) (cnt g) (out ++ f g) (fun i => out ++ part g i))) ->
  Forall (fun n => 0 <= n) (map cnt gs) ->
  forall counter k out fuel, 0 <= counter -> counter + zsum (map cnt gs) <= int_max -> (length ps < fuel)%nat ->
  filter_loop_exc fuel neq deref inc operation from to (k, out) counter
  = Ok (ends mem k (total cost gs) (counter + zsum (map cnt gs)) (out ++ flat_map f gs) (fun i => out ++ written cost f part gs i)).
Proof.
  induction 1 as [from to E|from to x from' from'' xs E Hd Hi _ IH]; intros gs F2 H F counter k out fuel Hc S Hf;
    (destruct fuel as [|fuel]; [cbn in Hf; lia|]); cbn [filter_loop_exc]; rewrite E; cbn [bind].
  - inversion F2; subst. unfold ends. cbn [total attempt flat_map map zsum fold_right]. rewrite app_nil_r, Z.add_0_r, Nat.add_0_r. reflexivity.
  - inversion F2 as [|? g ? gs' Dx F2']; subst. rewrite Hd. cbn [bind]. rewrite (H x g k out Dx) by (left; reflexivity).
    cbn [bind]. cbn [flat_map map zsum fold_right total] in *. fold (zsum (map cnt gs')) in *. fold (total cost gs').
    unfold ends at 1. unfold ends at 1. rewrite attempt_add.
    destruct (attempt mem k (cost g)) as [m|] eqn:A.
    + destruct (attempt_some _ _ _ _ A) as (R & _). cbn [written]. destruct (Nat.ltb_spec (m - k) (cost g)); [reflexivity|lia].
    + inversion F as [|? ? Fn F']; subst.
      assert (Z0 : 0 <= zsum (map cnt gs')).
      { clear - F'. induction F' as [|n ns Hn _ IH]; cbn; [lia|]. fold (zsum ns). lia. }
      unfold int_add. replace ((int_min <=? counter + cnt g) && (counter + cnt g <=? int_max)) with true by (unfold int_min; lia).
      cbn [bind]. rewrite Hi. cbn [bind]. rewrite (IH gs' F2').
      * unfold ends. destruct (attempt mem (k + cost g) (total cost gs')) as [m|] eqn:A'.
        -- destruct (attempt_some _ _ _ _ A') as (R & _). cbn [written]. destruct (Nat.ltb_spec (m - k) (cost g)); [lia|].
           rewrite app_assoc, Nat.sub_add_distr. reflexivity.
        -- rewrite Z.add_assoc, app_assoc, Nat.add_assoc. reflexivity.
      * intros. apply H; [assumption|right; assumption].
      * assumption.
      * lia.
      * lia.
      * cbn in Hf. lia.
Qed.

Lemma decomposition_exc mem r c n l : codepoint_decomposition r c [] = Ok (n, l) -> forall k out,
  codepoint_decomposition_exc mem r c (k, out) = Ok (ends mem k 1 n (out ++ l) (fun i => out ++ [])).
Proof.
  unfold codepoint_decomposition, codepoint_decomposition_exc. intros E k out. destruct (r c) as [mp|u|]; cbn [bind] in *; try discriminate.
  assert (X : match mp with Some row => let* l := zero_scan row in Ok (zlen l, l) | None => Ok (1, [c]) end = Ok (n, l)).
  { destruct mp as [row|]; [destruct (zero_scan row); cbn [bind app] in *; try discriminate|]; exact E. }
  rewrite X. cbn [bind string_append]. unfold ends. cbn [attempt]. rewrite app_nil_r. destruct (mem k); [rewrite Nat.add_1_r|]; reflexivity.
Qed.

Section Run.
Context (ops : cp_ops) (b e : Z) (cs : list Z) (c : Z) (pos : nat -> Z) (inside : nat -> Z -> Prop).
Context (T : text_in ops b e cs c pos inside).
Context (B : cs = [] \/ pairwise_boundary cs c).
Let L := ti_lawful _ _ _ _ _ _ _ T.
Context (mem : nat -> bool).

Lemma normalize_exc_as_filter form out fuel : (length cs < fuel)%nat ->
  exists g0 ge ps, normalize_exc fuel ops form b e out =
      filter_loop_exc fuel (gi_neq fuel ops) (fun g => Ok (gi_deref g, g)) (gi_step fuel ops) form g0 ge out 0 /\
    range_of (gi_neq fuel ops) (fun g => Ok (gi_deref g, g)) (gi_step fuel ops) g0 ge ps /\
    Forall2 (delimits (cs ++ [c]) pos (length cs)) ps (seg cs).
Proof.
  intros Hf. unfold normalize_exc, filter_exc.
  destruct (text_begin ops b e cs c pos inside T fuel ltac:(lia)) as (g0 & -> & G0). cbn [bind].
  destruct (text_grapheme_end ops b e cs c pos inside T fuel Hf) as (s & ge & -> & W & _ & Q & R & I). cbn [bind].
  pose proof (text_e ops b e cs c pos inside T) as He.
  assert (s = length cs) by (apply I, boundary_after_or, B). subst s.
  assert (EE : at_the_end inside (length cs) ge).
  { split; [rewrite W; apply (lw_pos _ _ _ _ L); rewrite app_length; cbn; lia|]. split; [rewrite Q; assumption|rewrite R; assumption]. }
  destruct (grapheme_range ops (cs ++ [c]) pos inside L (length cs) (text_n cs c) e He ge fuel EE Hf (length cs) 0 g0 ltac:(lia) G0)
    as (ps & RG & F2).
  rewrite (text_sub cs c) in F2. exists g0, ge, ps. auto.
Qed.

Context (r : Z -> res (option (list Z))) (full : Z -> list Z).
Context (Hdec : forall c, codepoint_decomposition r c [] = Ok (zlen (full c), full c)).

Lemma decompose_exc p g fuel k : delimits (cs ++ [c]) pos (length cs) p g -> (length cs < fuel)%nat ->
  zlen (flat_map full g) <= int_max ->
  decompose_grapheme_exc fuel ops (codepoint_decomposition_exc mem r) p k
  = Ok (ends mem k (length g) (zlen (flat_map full g)) (flat_map full g) (fun i => written (fun _ => 1%nat) full (fun _ _ => []) g i)).
Proof.
  intros (i & j & -> & Hij & ->) Hf Hm. cbn [fst snd]. unfold decompose_grapheme_exc, filter_exc. cbn [fst snd].
  assert (S : forall l, zsum (map (fun c => zlen (full c)) l) = zlen (flat_map full l)).
  { induction l as [|x l IH]; [reflexivity|]. cbn [map zsum fold_right flat_map]. fold (zsum (map (fun c => zlen (full c)) l)).
    unfold zlen in *. rewrite app_length. lia. }
  assert (TT : forall l : list Z, total (fun _ => 1%nat) l = length l).
  { induction l as [|x l IH]; [reflexivity|]. cbn [total fold_right length]. fold (total (fun _ : Z => 1%nat) l). lia. }
  pose proof (text_n cs c) as Hn.
  rewrite (filter_loop_exc_ends mem _ _ _ eq _ (fun c => zlen (full c)) (fun _ => 1%nat) full (fun _ _ => []) _ _ (sub (cs ++ [c]) i j)) with (gs := sub (cs ++ [c]) i j).
  - rewrite S, TT. reflexivity.
  - apply (codepoint_range ops _ pos inside L (j - i) i j); try lia; apply (lw_pos _ _ _ _ L); lia.
  - generalize (sub (cs ++ [c]) i j). clear. intros l. induction l; constructor; auto.
  - intros p g k' out <- _. apply decomposition_exc, Hdec.
  - apply Forall_forall. intros x Hx. apply in_map_iff in Hx. destruct Hx as (y & <- & _). unfold zlen. lia.
  - lia.
  - rewrite S. lia.
  - rewrite sub_length by lia. lia.
Qed.

(** The output encoding: [acost l] appends, which write [enc l]; after [i] of them, [enc (apart l i)]. *)
Context (append_out : nat * list Z -> list Z -> res (outcome unit (nat * list Z))).
Context (enc : list Z -> list Z) (acost : list Z -> nat) (apart : list Z -> nat -> list Z) (good : list Z -> Prop).
Context (enc_nil : enc [] = []) (enc_app : forall x y, enc (x ++ y) = enc x ++ enc y).
Context (apart_0 : forall l, apart l 0%nat = []).
Context (append_ok : forall l k out, good l ->
  append_out (k, out) l = Ok (ends mem k (acost l) tt (out ++ enc l) (fun i => out ++ enc (apart l i)))).
Context (sort : list Z -> list Z).

Definition piece_cost (f : list Z -> list Z) (g : list Z) : nat := length g + acost (f g).
Definition piece_part (f : list Z -> list Z) (g : list Z) (i : nat) : list Z := apart (f g) (i - length g).

Lemma enc_flat_map (f : list Z -> list Z) l : enc (flat_map f l) = flat_map (fun g => enc (f g)) l.
Proof. induction l as [|x l IH]; cbn [flat_map]; [assumption|]. rewrite enc_app, IH. reflexivity. Qed.
Lemma written_enc (cost : list Z -> nat) f part gs : forall i,
  written cost (fun g => enc (f g)) (fun g i => enc (part g i)) gs i = enc (written cost f part gs i).
Proof.
  induction gs as [|g gs IH]; intros i; cbn [written]; [symmetry; assumption|].
  destruct (i <? cost g)%nat; [reflexivity|]. rewrite enc_app, IH. reflexivity.
Qed.

(** A grapheme: first the local string, then the output. *)
Lemma glue k out g l (n : Z) part (run : res (outcome Z (nat * list Z))) (cntl : Z) :
  run = Ok (ends mem k (length g) cntl (flat_map full g) part) -> good l ->
  (let* o := run in
   match o with
   | Thrown (tried, _) => Ok (Thrown (tried, out))
   | Returned _ (tried, _) =>
       let* o := append_out (tried, out) l in
       match o with Thrown output => Ok (Thrown output) | Returned _ output => Ok (Returned n output) end
   end)
  = Ok (ends mem k (length g + acost l) n (out ++ enc l) (fun i => out ++ enc (apart l (i - length g)))).
Proof.
  intros -> Gl. cbn [bind]. unfold ends. rewrite attempt_add. destruct (attempt mem k (length g)) as [m|] eqn:A.
  - destruct (attempt_some _ _ _ _ A) as (R & _). replace (m - k - length g)%nat with 0%nat by lia.
    rewrite apart_0, enc_nil, app_nil_r. reflexivity.
  - rewrite append_ok by assumption. cbn [bind]. unfold ends.
    destruct (attempt mem (k + length g) (acost l)) as [m|]; [rewrite Nat.sub_add_distr|rewrite Nat.add_assoc]; reflexivity.
Qed.

Lemma normalize_exc_ends form (cnt : list Z -> Z) (f : list Z -> list Z) k out fuel :
  (length cs < fuel)%nat ->
  (forall p g k out, delimits (cs ++ [c]) pos (length cs) p g -> In g (seg cs) ->
     form p (k, out) = Ok (ends mem k (piece_cost f g) (cnt g) (out ++ enc (f g)) (fun i => out ++ enc (piece_part f g i)))) ->
  Forall (fun n => 0 <= n) (map cnt (seg cs)) -> zsum (map cnt (seg cs)) <= int_max ->
  normalize_exc fuel ops form b e (k, out) =
  Ok (ends mem k (total (piece_cost f) (seg cs)) (zsum (map cnt (seg cs))) (out ++ enc (flat_map f (seg cs)))
        (fun i => out ++ enc (written (piece_cost f) f (piece_part f) (seg cs) i))).
Proof.
  intros Hf H F S. destruct (normalize_exc_as_filter form (k, out) fuel Hf) as (g0 & ge & ps & -> & RG & F2).
  assert (LEN : length ps = length (seg cs)) by (eapply Forall2_len; eassumption).
  rewrite (filter_loop_exc_ends mem _ _ _ _ form cnt (piece_cost f) (fun g => enc (f g)) (fun g i => enc (piece_part f g i)) g0 ge ps RG (seg cs) F2).
  - cbn [Z.add]. unfold ends. rewrite enc_flat_map. destruct (attempt mem k _); [rewrite written_enc|]; reflexivity.
  - exact H.
  - assumption.
  - lia.
  - lia.
  - pose proof (seg_length cs). lia.
Qed.

Lemma normalize_decomposed_exc k out fuel : (length cs < fuel)%nat -> zlen (flat_map full cs) <= int_max ->
  let f := fun g => sort (flat_map full g) in
  (forall g, In g (seg cs) -> good (f g)) ->
  normalize_exc fuel ops (form_decomposed_exc sort append_out fuel ops (codepoint_decomposition_exc mem r)) b e (k, out) =
  Ok (ends mem k (total (piece_cost f) (seg cs)) (zlen (flat_map full cs)) (out ++ enc (flat_map f (seg cs)))
        (fun i => out ++ enc (written (piece_cost f) f (piece_part f) (seg cs) i))).
Proof.
  intros Hf Hm f HG. rewrite <- (seg_concat cs), flat_map_concat in Hm.
  rewrite (normalize_exc_ends _ (fun g => zlen (flat_map full g)) f).
  - rewrite (zsum_pieces (flat_map full)), <- flat_map_concat, seg_concat. reflexivity.
  - assumption.
  - intros p g k' out' D I. unfold form_decomposed_exc.
    assert (E : zlen (flat_map full g) <= int_max) by (eapply piece_bound; eassumption).
    pose proof (glue k' out' g (f g) (zlen (flat_map full g)) _ _ _ (decompose_exc p g fuel k' D Hf E) (HG g I)) as Q.
    rewrite (decompose_exc p g fuel k' D Hf E) in *. cbn [bind] in *. unfold piece_cost, piece_part. rewrite <- Q.
    unfold ends. destruct (attempt mem k' (length g)) as [m|]; reflexivity.
  - apply Forall_forall. intros x Hx. apply in_map_iff in Hx. destruct Hx as (g & <- & _). unfold zlen. lia.
  - rewrite (zsum_pieces (flat_map full)). assumption.
Qed.
Lemma normalize_composed_exc k out fuel : (length cs < fuel)%nat -> zlen (flat_map full cs) <= int_max ->
  (forall l, length (sort l) = length l) ->
  let f := fun g => compose (sort (flat_map full g)) in
  (forall g, In g (seg cs) -> good (f g)) ->
  normalize_exc fuel ops (form_composed_exc sort append_out fuel ops (codepoint_decomposition_exc mem r)) b e (k, out) =
  Ok (ends mem k (total (piece_cost f) (seg cs)) (zlen (flat_map f (seg cs))) (out ++ enc (flat_map f (seg cs)))
        (fun i => out ++ enc (written (piece_cost f) f (piece_part f) (seg cs) i))).
Proof.
  intros Hf Hm Hl f HG. rewrite <- (seg_concat cs), flat_map_concat in Hm.
  rewrite (normalize_exc_ends _ (fun g => zlen (f g)) f).
  - rewrite (zsum_pieces f). reflexivity.
  - assumption.
  - intros p g k' out' D I. unfold form_composed_exc.
    assert (E : zlen (flat_map full g) <= int_max) by (eapply piece_bound; eassumption).
    pose proof (glue k' out' g (f g) (zlen (f g)) _ _ _ (decompose_exc p g fuel k' D Hf E) (HG g I)) as Q.
    rewrite (decompose_exc p g fuel k' D Hf E) in *. cbn [bind] in *. unfold piece_cost, piece_part. rewrite <- Q.
    unfold ends. destruct (attempt mem k' (length g)) as [m|]; [reflexivity|].
    destruct (canonical_composition_ok (sort (flat_map full g)) 0) as (rest & -> & _). cbn [bind]. fold (f g).
    replace (Z.to_nat (zlen (f g))) with (length (f g)) by (unfold zlen; lia).
    rewrite firstn_app, firstn_all, Nat.sub_diag, app_nil_r.
    replace (zlen (flat_map full g) - (0 + (zlen (sort (flat_map full g)) - zlen (f g)))) with (zlen (f g))
      by (unfold zlen; rewrite Hl; lia). reflexivity.
  - apply Forall_forall. intros x Hx. apply in_map_iff in Hx. destruct Hx as (g & <- & _). unfold zlen. lia.
  - rewrite (zsum_pieces f).
    assert (LE : zlen (flat_map f (seg cs)) <= zlen (flat_map (flat_map full) (seg cs))).
    { generalize (seg cs) as gs. induction gs as [|g gs IH]; [unfold zlen; cbn; lia|]. cbn [flat_map]. unfold zlen in *. rewrite !app_length.
      pose proof (compose_length (sort (flat_map full g))) as Q. rewrite Hl in Q. fold (f g) in Q. lia. }
    lia.
Qed.
End Run.

(** The two output encodings. *)
Lemma utf32_append_exc mem l k out : True ->
  utf32_append_from_utf32ne_exc mem (k, out) l = Ok (ends mem k 1 tt (out ++ l) (fun i => out ++ [])).
Proof.
  intros _. unfold utf32_append_from_utf32ne_exc, string_append, ends. cbn [attempt]. rewrite app_nil_r, Nat.add_1_r.
  destruct (mem k); reflexivity.
Qed.
Definition octets_of (c : Z) : list Z := match utf8_encode_one c with Ok l => l | _ => [] end.
Definition encodable (c : Z) : Prop := exists l, utf8_encode_one c = Ok l.
Lemma utf8_append_exc mem l : forall k out, Forall encodable l ->
  utf8_append_from_utf32ne_exc mem (k, out) l
  = Ok (ends mem k (length l) tt (out ++ flat_map octets_of l) (fun i => out ++ flat_map octets_of (firstn i l))).
Proof.
  induction l as [|c l IH]; intros k out F; cbn [utf8_append_from_utf32ne_exc length].
  - unfold ends. cbn [attempt flat_map]. rewrite app_nil_r, Nat.add_0_r. reflexivity.
  - inversion F as [|? ? (o & Ho) F']; subst. rewrite Ho. cbn [bind string_append]. unfold ends. cbn [attempt].
    destruct (mem k).
    + rewrite IH by assumption. unfold ends. cbn [flat_map].
      assert (E : octets_of c = o) by (unfold octets_of; rewrite Ho; reflexivity). rewrite E, app_assoc.
      destruct (attempt mem (S k) (length l)) as [m|] eqn:A.
      * destruct (attempt_some _ _ _ _ A) as (R & _). replace (m - k)%nat with (S (m - S k)) by lia. cbn [firstn flat_map].
        rewrite E, app_assoc. reflexivity.
      * rewrite Nat.add_succ_comm. reflexivity.
    + rewrite Nat.sub_diag. cbn [firstn flat_map]. rewrite app_nil_r. reflexivity.
Qed.
Lemma utf8_append_octets l : forall out o, utf8_append_from_utf32ne out l = Ok o ->
  Forall encodable l /\ o = out ++ flat_map octets_of l.
Proof.
  induction l as [|c l IH]; intros out o; cbn [utf8_append_from_utf32ne].
  - intros [= <-]. split; [constructor|]. cbn. rewrite app_nil_r. reflexivity.
  - destruct (utf8_encode_one c) as [x|u|] eqn:X; cbn [bind]; try discriminate. intros E.
    destruct (IH _ _ E) as (F & ->). split; [constructor; [exists x; assumption|assumption]|].
    cbn [flat_map]. replace (octets_of c) with x by (unfold octets_of; rewrite X; reflexivity). rewrite app_assoc. reflexivity.
Qed.
Lemma utf8_octets_append l out : Forall encodable l -> utf8_append_from_utf32ne out l = Ok (out ++ flat_map octets_of l).
Proof.
  intros F. revert out. induction F as [|c l (x & X) F IH]; intros out; cbn [utf8_append_from_utf32ne flat_map]; [rewrite app_nil_r; reflexivity|].
  rewrite X. cbn [bind]. rewrite IH, <- app_assoc. replace (octets_of c) with x by (unfold octets_of; rewrite X; reflexivity). reflexivity.
Qed.
