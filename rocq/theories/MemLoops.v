(** * Proofs: codepoint loops over any range of any memory *)
From Verif Require Import Prelude Utf8Model TextModel Utf8Spec RangeSpec MemSpec Utf8Proofs LawfulProofs ByteProofs BoundsProofs ExactProofs GraphemeBytes RangeProofs MemProofs.
Require Import ZifyBool ZifyNat.

Lemma upto_byte mem : Forall octet_upto_FD mem -> Forall is_byte mem.
Proof. intros H. eapply Forall_impl; [|exact H]. unfold octet_upto_FD, is_byte. lia. Qed.
Lemma octet_upto mem p : Forall octet_upto_FD mem -> octet_upto_FD (octet mem p).
Proof.
  intros F. unfold octet. destruct (nth_in_or_default (Z.to_nat p) mem 0) as [I| ->].
  - rewrite Forall_forall in F. auto.
  - unfold octet_upto_FD. lia.
Qed.
Lemma lead_at mem r : 0 <= r -> ~ continuation_octet (octet mem r) -> closest_lead mem r r.
Proof. intros H C. split; [lia|]. split; [assumption|]. intros k Hk. lia. Qed.

Section Loops.
Context (mem : list Z) (U : Forall octet_upto_FD mem).
Let F : Forall is_byte mem := upto_byte mem U.
Let ops := utf8_ops mem.

Lemma value_small r : value_at mem r < 2 ^ 31 /\ 0 <= value_at mem r.
Proof.
  unfold value_at, octets_at, sequence_value. destruct (firstn _ _) as [|lead tail] eqn:E; [lia|].
  assert (HL : lead = octet mem r).
  { unfold octet. destruct (skipn (Z.to_nat r) mem) as [|x l] eqn:S; [rewrite firstn_nil in E; discriminate|].
    pose proof (announced_len_range (octet mem r)). destruct (Z.to_nat (announced_len (octet mem r))) eqn:N; [lia|]. cbn in E. injection E as <- _.
    rewrite <- (firstn_skipn (Z.to_nat r) mem), S. assert (L : length (firstn (Z.to_nat r) mem) = Z.to_nat r).
    { rewrite firstn_length. assert ((Z.to_nat r < length mem)%nat); [|lia]. destruct (Nat.ltb_spec (Z.to_nat r) (length mem)); [assumption|].
      rewrite skipn_all2 in S by lia. discriminate. }
    rewrite app_nth2 by lia. rewrite L, Nat.sub_diag. reflexivity. }
  pose proof (octet_upto mem r U) as UU. pose proof (announced_len_range (octet mem r)) as AR.
  assert (LT : Z.of_nat (length tail) <= announced_len (octet mem r) - 1).
  { pose proof (firstn_le_length (Z.to_nat (announced_len (octet mem r))) (skipn (Z.to_nat r) mem)) as L1.
    pose proof (firstn_length (Z.to_nat (announced_len (octet mem r))) (skipn (Z.to_nat r) mem)) as L2. rewrite E in *. cbn [length] in *. lia. }
  subst lead. set (a := octet mem r) in *. clearbody a. unfold octet_upto_FD in UU.
  assert (SM : exists k, 0 <= k /\ 0 <= (if a <? 128 then a else a mod 2 ^ (7 - announced_len a)) < 2 ^ k /\ k + 6 * (announced_len a - 1) <= 31).
  { destruct (Z.ltb_spec a 128).
    - exists 7. unfold announced_len. destruct (Z.ltb_spec a 192); [|lia]. change (2 ^ 7) with 128. lia.
    - exists (7 - announced_len a). assert (announced_len a <= 6) by (unfold announced_len; repeat match goal with |- context [?x <? ?y] => destruct (Z.ltb_spec x y) end; lia).
      split; [lia|]. split; [|lia]. apply Z.mod_pos_bound. apply Z.pow_pos_nonneg; lia. }
  destruct SM as (k & K & V & KN). pose proof (fold6_range mem F tail _ k V K) as Q. split; [|lia].
  eapply Z.lt_le_trans; [apply Q|]. apply Z.pow_le_mono_r; lia.
Qed.
Lemma deref_upto p r : 0 <= p < zlen mem -> closest_lead mem p r ->
  (extent mem r <= zlen mem ->
    it_deref mem p = Ok (if (r <? p) && (octet mem r <? 128) then octet mem r mod 64 else value_at mem r, r)) /\
  (zlen mem < extent mem r -> it_deref mem p = UB OobRead).
Proof.
  intros P R. destruct (deref_lead mem F p r P R) as (D1 & D2 & D3 & D4). pose proof (octet_upto mem r U) as UU. unfold octet_upto_FD in UU.
  split; [|apply D3; lia]. intros X. destruct (Z.ltb_spec (octet mem r) 128) as [S|S].
  - rewrite D1 by assumption. destruct (Z.ltb_spec r p); cbn [andb]; [reflexivity|].
    do 2 f_equal. pose proof R as (R1 & _). unfold value_at, octets_at. rewrite skipn_octet by lia.
    assert (A : announced_len (octet mem r) = 1) by (unfold announced_len; destruct (Z.ltb_spec (octet mem r) 192); lia).
    rewrite A. change (Z.to_nat 1) with 1%nat. cbn [firstn sequence_value fold_left].
    destruct (Z.ltb_spec (octet mem r) 128); [reflexivity|lia].
  - rewrite andb_false_r. apply D4; [lia|lia|assumption|apply value_small].
Qed.

(** ** Forwards *)
Section Forward.
Context (e : Z) (He : 0 <= e < zlen mem).
Lemma step_lead p r f : 0 <= p <= e -> closest_lead mem p r ->
  let v := if (r <? p) && (octet mem r <? 128) then octet mem r mod 64 else value_at mem r in
  (e < extent mem r -> iterate_codepoints (S f) ops p e = Ok [] /\ iterate_codepoints_for (S f) ops p e = Ok []) /\
  (extent mem r <= e ->
     iterate_codepoints (S f) ops p e = (let* rest := iterate_codepoints f ops (extent mem r) e in Ok (v :: rest)) /\
     iterate_codepoints_for (S f) ops p e = (let* rest := iterate_codepoints_for f ops (extent mem r) e in Ok (v :: rest))).
Proof.
  intros P R v. pose proof R as (R1 & R2 & R3).
  assert (EQ := eq_lead mem F p e r ltac:(lia) ltac:(lia) R). replace (e <? r) with false in EQ by lia.
  cbn [iterate_codepoints iterate_codepoints_for]. unfold op_neq, op_step, ops. cbn [op_eq op_postinc op_deref utf8_ops]. unfold it_postinc.
  rewrite EQ. cbn [bind]. split; intros Q.
  - replace (e <? extent mem r) with true by lia. split; reflexivity.
  - replace (e <? extent mem r) with false by lia. cbn [negb].
    rewrite (proj1 (deref_upto p r ltac:(lia) R)) by lia. fold v.
    rewrite (inc_lead mem F p r) by (assumption || lia). replace (extent mem r <=? zlen mem) with true by lia. cbn [bind].
    rewrite (proj1 (deref_upto p r ltac:(lia) R)) by lia. fold v. cbn [bind]. split; [reflexivity|].
    rewrite (inc_lead mem F r r) by (try lia; apply lead_at; (lia || assumption)). replace (extent mem r <=? zlen mem) with true by lia. reflexivity.
Qed.
Lemma step_none p f : 0 <= p <= e -> leading_continuation mem p ->
  iterate_codepoints (S f) ops p e = UB BadPointer /\ iterate_codepoints_for (S f) ops p e = UB BadPointer.
Proof.
  intros P N. destruct (none_ops mem F p ltac:(lia) N) as (_ & _ & _ & Q & _).
  cbn [iterate_codepoints iterate_codepoints_for]. unfold op_neq, ops. cbn [op_eq utf8_ops]. rewrite Q. split; reflexivity.
Qed.
Lemma stray_forever p f : 0 <= p <= e -> stray mem p ->
  iterate_codepoints f ops p e = OutOfFuel /\ iterate_codepoints_for f ops p e = OutOfFuel.
Proof.
  revert p. induction f as [|f IH]; intros p P (r & R & S); [split; reflexivity|].
  destruct (step_lead p r f P R) as (_ & B2). cbv zeta in B2. unfold extent in B2. destruct (B2 ltac:(lia)) as (-> & ->).
  pose proof (announced_len_range (octet mem r)). pose proof R as (R1 & R2 & R3).
  destruct (IH (r + announced_len (octet mem r))) as (-> & ->); [lia| |split; reflexivity].
  exists r. split; [|lia]. split; [lia|]. split; [assumption|]. intros k K. apply R3. lia.
Qed.
Lemma walk_no_stray p rs : 0 <= p <= e -> forward_walk mem e p rs -> ~ stray mem p.
Proof.
  intros P W. induction W as [p r R L|p r rs R L W IH]; intros (r' & R' & S); assert (r' = r) by (eapply closest_lead_unique; eassumption); subst r'.
  - unfold extent in L. lia.
  - pose proof (announced_len_range (octet mem r)). pose proof R as (R1 & R2 & R3). unfold extent in *. apply IH; [lia|].
    exists r. split; [|lia]. split; [lia|]. split; [assumption|]. intros k K. apply R3. lia.
Qed.
Lemma walk_result p rs : 0 <= p <= e -> forward_walk mem e p rs -> forall f, (length rs < f)%nat ->
  iterate_codepoints f ops p e = Ok (map (value_at mem) rs) /\ iterate_codepoints_for f ops p e = Ok (map (value_at mem) rs).
Proof.
  intros P W. induction W as [p r R L|p r rs R L W IH]; intros f Hf; (destruct f as [|f]; [cbn in Hf; lia|]);
    destruct (step_lead p r f P R) as (B1 & B2); cbv zeta in B2.
  - apply B1. assumption.
  - destruct (B2 L) as (-> & ->). pose proof (announced_len_range (octet mem r)). pose proof R as (R1 & _). cbn [length] in Hf.
    destruct (IH ltac:(unfold extent in *; lia) f ltac:(lia)) as (-> & ->). cbn [bind map].
    assert (NS : ~ stray mem p) by (apply (walk_no_stray p (r :: rs)); [assumption|econstructor; eassumption]).
    replace ((r <? p) && (octet mem r <? 128)) with false; [split; reflexivity|].
    destruct (Z.ltb_spec r p), (Z.ltb_spec (octet mem r) 128); try reflexivity. exfalso. apply NS.
    exists r. split; [assumption|]. unfold announced_len. destruct (Z.ltb_spec (octet mem r) 192); lia.
Qed.
Lemma reached_range b p : 0 <= b <= e -> reached mem e b p -> 0 <= p <= e.
Proof. intros H V. induction V as [|p r V IH R L]; [assumption|]. pose proof (announced_len_range (octet mem r)). destruct R. unfold extent in *. lia. Qed.
Lemma reached_trans b p q : reached mem e b p -> reached mem e p q -> reached mem e b q.
Proof. intros A V. induction V as [|x r V IH R L]; [assumption|econstructor; eassumption]. Qed.
Lemma forward_cases n : forall b r, 0 <= b <= e -> closest_lead mem b r -> e - b = Z.of_nat n ->
  (exists rs, (length rs <= S n)%nat /\ forward_walk mem e b rs) \/ (exists x, reached mem e b x /\ stray mem x).
Proof.
  induction n as [n IH] using (well_founded_induction lt_wf). intros b r Hb R N. pose proof R as (R1 & R2 & R3).
  pose proof (announced_len_range (octet mem r)) as AR.
  destruct (Z.ltb_spec e (extent mem r)) as [L|L].
  - left. exists []. split; [cbn; lia|]. econstructor; eassumption.
  - destruct (Z.leb_spec (extent mem r) b) as [S|S].
    + right. exists b. split; [constructor|]. exists r. split; assumption.
    + assert (HR : exists r', closest_lead mem (extent mem r) r').
      { destruct (lead_or_not mem (extent mem r) ltac:(unfold extent; lia)) as [X|X]; [assumption|]. exfalso. apply R2. apply X. unfold extent. lia. }
      destruct HR as (r' & R').
      destruct (IH (Z.to_nat (e - extent mem r)) ltac:(lia) (extent mem r) r' ltac:(unfold extent in *; lia) R' ltac:(lia)) as [(rs & LR & W)|(x & V & X)].
      * left. exists (r :: rs). split; [cbn [length]; lia|]. econstructor; eassumption.
      * right. exists x. split; [|assumption]. eapply reached_trans; [|eassumption]. econstructor; [constructor|eassumption|assumption].
Qed.
Lemma reached_forever b x : 0 <= b <= e -> reached mem e b x -> stray mem x -> forall f,
  iterate_codepoints f ops b e = OutOfFuel /\ iterate_codepoints_for f ops b e = OutOfFuel.
Proof.
  intros Hb V S.
  assert (G : forall y, reached mem e b y -> (forall f, iterate_codepoints f ops y e = OutOfFuel /\ iterate_codepoints_for f ops y e = OutOfFuel) ->
     forall f, iterate_codepoints f ops b e = OutOfFuel /\ iterate_codepoints_for f ops b e = OutOfFuel).
  { clear x V S. intros y V. induction V as [|p r V IH R L]; intros H; [assumption|]. apply IH. intros f. destruct f as [|f]; [split; reflexivity|].
    destruct (step_lead p r f ltac:(apply (reached_range b); assumption) R) as (_ & B2). cbv zeta in B2. destruct (B2 L) as (-> & ->).
    destruct (H f) as (-> & ->). split; reflexivity. }
  apply (G x V). intros f. apply stray_forever; [apply (reached_range b); assumption|assumption].
Qed.
Lemma forward_any b : 0 <= b <= e ->
  (leading_continuation mem b -> forall f, (0 < f)%nat -> iterate_codepoints f ops b e = UB BadPointer /\ iterate_codepoints_for f ops b e = UB BadPointer) /\
  (forall rs f, forward_walk mem e b rs -> (length rs < f)%nat ->
     iterate_codepoints f ops b e = Ok (map (value_at mem) rs) /\ iterate_codepoints_for f ops b e = Ok (map (value_at mem) rs)) /\
  ((exists x, reached mem e b x /\ stray mem x) -> forall f, iterate_codepoints f ops b e = OutOfFuel /\ iterate_codepoints_for f ops b e = OutOfFuel) /\
  (leading_continuation mem b \/ (exists rs, (length rs <= S (Z.to_nat (e - b)))%nat /\ forward_walk mem e b rs) \/
   exists x, reached mem e b x /\ stray mem x).
Proof.
  intros Hb. split; [|split; [|split]].
  - intros N f Hf. destruct f as [|f]; [lia|]. apply step_none; assumption.
  - intros rs f W L. apply walk_result; assumption.
  - intros (x & V & S). apply (reached_forever b x); assumption.
  - destruct (lead_or_not mem b ltac:(lia)) as [(r & R)|N]; [right|left; assumption].
    apply (forward_cases (Z.to_nat (e - b)) b r); (assumption || lia).
Qed.
End Forward.

(** ** Backwards *)
Section Backward.
Context (b : Z) (Hb : 0 <= b <= zlen mem).
(** The positions from [x] on and below [y], last first. *)
Definition between (x y : Z) : list Z := List.filter (fun p => x <=? p) (leads mem (Z.to_nat y)).
Lemma between_spec x y : 0 <= x -> leads_between mem x y (between x y).
Proof.
  intros X. split.
  - intros p. unfold between. rewrite filter_In, leads_in. split; intros A; split; try (split; [lia|apply A]); try lia. apply A.
  - unfold between. pose proof (leads_sorted mem (Z.to_nat y)) as S. induction (leads mem (Z.to_nat y)) as [|a l IH]; [cbn; lia|].
    assert (Sl : forall i j, (i < j < length l)%nat -> nth j l 0 < nth i l 0) by (intros i j L; apply (S (Datatypes.S i) (Datatypes.S j)); cbn; lia).
    specialize (IH Sl). cbn [List.filter]. destruct (x <=? a); [|assumption].
    intros [|i] [|j] L; cbn [length nth] in *; try lia; [|apply IH; lia].
    assert (I : In (nth j (List.filter (fun p => x <=? p) l) 0) l) by (eapply (proj1 (filter_In _ _ _)); apply nth_In; lia).
    destruct (In_nth l _ 0 I) as (m & M1 & M2). specialize (S 0%nat (Datatypes.S m) ltac:(lia)). cbn [nth] in S. rewrite M2 in S. assumption.
Qed.
Lemma between_step x r q : 0 <= x -> x < r -> closest_lead mem (r - 1) q -> x <= q -> between x r = q :: between x q.
Proof. intros X L Q XQ. unfold between. rewrite (leads_step mem r q ltac:(lia) Q). cbn [List.filter]. replace (x <=? q) with true by lia. reflexivity. Qed.
Lemma between_self x : between x x = [].
Proof.
  unfold between. destruct (List.filter (fun p => x <=? p) (leads mem (Z.to_nat x))) as [|a l] eqn:E; [reflexivity|].
  assert (I : In a (a :: l)) by (left; reflexivity). rewrite <- E in I. apply filter_In in I. destruct I as [I1 I2]. apply leads_in in I1. lia.
Qed.
(** One step at a position with lead octet [r]. *)
Lemma back_stop p r f : 0 <= p < zlen mem -> closest_lead mem p r -> covers mem r b -> iterate_backwards (S f) ops p b = Ok [].
Proof.
  intros P R (_ & C). cbn [iterate_backwards]. unfold op_neq, ops. cbn [op_eq utf8_ops]. rewrite (eq_lead mem F p b r) by (assumption || lia).
  replace (b <? r) with false by lia. replace (b <? extent mem r) with true by lia. reflexivity.
Qed.
Lemma back_bad p r f : 0 <= p < zlen mem -> closest_lead mem p r -> b < r -> zlen mem < extent mem r ->
  iterate_backwards (S f) ops p b = UB BadPointer.
Proof.
  intros P R C X. cbn [iterate_backwards]. unfold op_neq, ops. cbn [op_eq utf8_ops]. rewrite (eq_lead mem F p b r) by (assumption || lia).
  replace (b <? r) with true by lia. replace (extent mem r <=? zlen mem) with false by lia. reflexivity.
Qed.
Lemma back_go p r f : 0 <= p < zlen mem -> closest_lead mem p r -> ~ covers mem r b -> (b < r -> extent mem r <= zlen mem) ->
  iterate_backwards (S f) ops p b =
   (let* it := it_predec mem p in let* '(c, it) := it_deref mem it in let* rest := iterate_backwards f ops it b in Ok (c :: rest)).
Proof.
  intros P R C X. pose proof R as (R1 & R2 & R3). cbn [iterate_backwards]. unfold op_neq, ops. cbn [op_eq op_dec op_deref utf8_ops].
  rewrite (eq_lead mem F p b r) by (assumption || lia). destruct (Z.ltb_spec b r).
  - specialize (X H). replace (extent mem r <=? zlen mem) with true by lia. reflexivity.
  - destruct (Z.ltb_spec b (extent mem r)); [|reflexivity]. exfalso. apply C. split; [assumption|lia].
Qed.
Lemma back_any n : forall p r f, Z.to_nat r = n -> 0 <= p < zlen mem -> closest_lead mem p r -> (n < f)%nat ->
  (b < r -> extent mem r <= zlen mem) ->
  (forall x, 0 <= x <= r -> covers mem x b -> (forall y, x < y <= r -> ~ covers mem y b) ->
     ((forall y, In y (between x r) -> extent mem y <= zlen mem) -> iterate_backwards f ops p b = Ok (map (value_at mem) (between x r))) /\
     ((exists y, In y (between x r) /\ zlen mem < extent mem y) -> iterate_backwards f ops p b = UB OobRead)) /\
  ((forall x, 0 <= x <= r -> ~ covers mem x b) -> exists u, iterate_backwards f ops p b = UB u).
Proof.
  induction n as [n IH] using (well_founded_induction lt_wf). intros p r f Hn P R L X. pose proof R as (R1 & R2 & R3).
  destruct f as [|f]; [lia|].
  assert (GO : ~ covers mem r b ->
     (forall q, closest_lead mem (r - 1) q ->
        (extent mem q <= zlen mem -> iterate_backwards (S f) ops p b = (let* rest := iterate_backwards f ops q b in Ok (value_at mem q :: rest))) /\
        (zlen mem < extent mem q -> iterate_backwards (S f) ops p b = UB OobRead)) /\
     (leading_continuation mem (r - 1) -> iterate_backwards (S f) ops p b = UB BadPointer)).
  { intros C. rewrite (back_go p r f P R C X). destruct (dec_lead mem F p r P R) as (D1 & D2). split.
    - intros q Q. rewrite (D1 q Q). cbn [bind]. pose proof Q as (Q1 & Q2 & Q3).
      destruct (deref_upto q q ltac:(lia) ltac:(apply lead_at; (lia || assumption))) as (E1 & E2). rewrite Z.ltb_irrefl in E1. cbn [andb] in E1.
      split; intros Y; [rewrite E1 by assumption|rewrite E2 by assumption]; reflexivity.
    - intros N. rewrite (D2 N). reflexivity. }
  split.
  - intros x Hx C NC. destruct (Z.eq_dec x r) as [->|NE].
    + rewrite between_self. split; [intros _; apply (back_stop p r); assumption|intros (y & [] & _)].
    + destruct (GO (NC r ltac:(lia))) as (G1 & _). pose proof C as (C1 & C2).
      destruct (lead_or_not mem (r - 1) ltac:(lia)) as [(q & Q)|N].
      2: { exfalso. apply C1. apply N. lia. }
      destruct (G1 q Q) as (G2 & G3). pose proof Q as (Q1 & Q2 & Q3).
      assert (XQ : x <= q). { destruct (Z.leb_spec x q); [assumption|]. exfalso. apply C1. apply Q3. lia. }
      rewrite (between_step x r q) by (assumption || lia).
      destruct (Z.leb_spec (extent mem q) (zlen mem)) as [Y|Y].
      * rewrite (G2 Y).
        destruct (IH (Z.to_nat q) ltac:(lia) q q f eq_refl ltac:(lia) ltac:(apply lead_at; (lia || assumption)) ltac:(lia) (fun _ => Y)) as (I1 & _).
        destruct (I1 x ltac:(lia) C ltac:(intros y Yy; apply NC; lia)) as (J1 & J2). split.
        -- intros A. rewrite J1 by (intros y I; apply A; right; assumption). reflexivity.
        -- intros (y & [<-|I] & Z0); [lia|]. rewrite J2 by (exists y; split; assumption). reflexivity.
      * rewrite (G3 Y). split; [|reflexivity]. intros A. specialize (A q (or_introl eq_refl)). lia.
  - intros NC. destruct (GO (NC r ltac:(lia))) as (G1 & G4).
    destruct (Z.eq_dec r 0) as [->|].
    { exists BadPointer. apply G4. intros i I. lia. }
    destruct (lead_or_not mem (r - 1) ltac:(lia)) as [(q & Q)|N].
    2: { exists BadPointer. apply G4. assumption. }
    destruct (G1 q Q) as (G2 & G3). pose proof Q as (Q1 & Q2 & Q3).
    destruct (Z.leb_spec (extent mem q) (zlen mem)) as [Y|Y]; [|exists OobRead; apply G3; assumption].
    destruct (IH (Z.to_nat q) ltac:(lia) q q f eq_refl ltac:(lia) ltac:(apply lead_at; (lia || assumption)) ltac:(lia) (fun _ => Y)) as (_ & I2).
    destruct I2 as (u & E); [intros x Hx; apply NC; lia|]. exists u. rewrite (G2 Y), E. reflexivity.
Qed.
Lemma leads_between_unique x y l : forall l', leads_between mem x y l -> leads_between mem x y l' -> l = l'.
Proof.
  assert (G : forall l l', (forall i j, (i < j < length l)%nat -> nth j l 0 < nth i l 0) -> (forall i j, (i < j < length l')%nat -> nth j l' 0 < nth i l' 0) ->
     (forall p : Z, In p l <-> In p l') -> l = l').
  { clear. induction l as [|a l IH]; intros [|a' l'] S S' E; [reflexivity|destruct (proj2 (E a') (or_introl eq_refl))|destruct (proj1 (E a) (or_introl eq_refl))|].
    assert (T : forall (c : Z) m, (forall i j, (i < j < length (c :: m))%nat -> nth j (c :: m) 0 < nth i (c :: m) 0) -> forall z, In z m -> z < c).
    { intros c m Sm z I. destruct (In_nth m z 0 I) as (k & K1 & K2). specialize (Sm 0%nat (Datatypes.S k) ltac:(cbn; lia)). cbn [nth] in Sm. lia. }
    assert (a = a').
    { destruct (proj1 (E a) (or_introl eq_refl)) as [|I]; [congruence|]. destruct (proj2 (E a') (or_introl eq_refl)) as [|I']; [congruence|].
      pose proof (T _ _ S' _ I). pose proof (T _ _ S _ I'). lia. }
    subst a'. f_equal. apply IH.
    - intros i j L. apply (S (Datatypes.S i) (Datatypes.S j)). cbn. lia.
    - intros i j L. apply (S' (Datatypes.S i) (Datatypes.S j)). cbn. lia.
    - intros p. pose proof (T _ _ S p) as T1. pose proof (T _ _ S' p) as T2. specialize (E p). cbn [In] in E. split; intros I.
      + destruct (proj1 E (or_intror I)); [|assumption]. specialize (T1 I). lia.
      + destruct (proj2 E (or_intror I)); [|assumption]. specialize (T2 I). lia. }
  intros l' (A & S) (A' & S'). apply G; try assumption. intros p. rewrite A, A'. reflexivity.
Qed.
End Backward.

Lemma backward_any e b r : 0 <= e < zlen mem -> 0 <= b <= zlen mem -> closest_lead mem e r -> forall f, (Z.to_nat e < f)%nat ->
  (b < r -> zlen mem < extent mem r -> iterate_backwards f ops e b = UB BadPointer) /\
  ((b < r -> extent mem r <= zlen mem) ->
    (forall x rs, 0 <= x <= r -> covers mem x b -> (forall y, x < y <= r -> ~ covers mem y b) -> leads_between mem x r rs ->
       ((forall y, In y rs -> extent mem y <= zlen mem) -> iterate_backwards f ops e b = Ok (map (value_at mem) rs)) /\
       ((exists y, In y rs /\ zlen mem < extent mem y) -> iterate_backwards f ops e b = UB OobRead)) /\
    ((forall x, 0 <= x <= r -> ~ covers mem x b) -> exists u, iterate_backwards f ops e b = UB u)).
Proof.
  intros He Hb R f L. pose proof R as (R1 & _). split.
  - intros A X. destruct f as [|f]; [lia|]. apply (back_bad b Hb e r); assumption.
  - intros X. destruct (back_any b Hb (Z.to_nat r) e r f eq_refl He R ltac:(lia) X) as (A & N). split; [|assumption].
    intros x rs Hx C NC LB. assert (rs = between x r) by (apply (leads_between_unique x r); [assumption|apply between_spec; lia]). subst rs.
    apply A; assumption.
Qed.

(** ** append(first, last) *)
Lemma append_any out p q : 0 <= p < zlen mem -> 0 <= q < zlen mem ->
  (forall rp rq, closest_lead mem p rp -> closest_lead mem q rq ->
     (rp <= rq -> exists a m z, mem = a ++ m ++ z /\ zlen a = rp /\ zlen a + zlen m = rq /\ utf8_append out mem p q = Ok (out ++ m)) /\
     (rq < rp -> utf8_append out mem p q = UB OobRead)) /\
  (leading_continuation mem p \/ leading_continuation mem q -> utf8_append out mem p q = UB BadPointer).
Proof.
  intros P Q. split.
  - intros rp rq RP RQ. unfold utf8_append. rewrite (native_lead mem F p rp P RP), (native_lead mem F q rq Q RQ). cbn [bind].
    destruct RP as (P1 & _), RQ as (Q1 & _). unfold copy_range. split; intros H.
    + exists (firstn (Z.to_nat rp) mem), (slice mem rp rq), (skipn (Z.to_nat rq) mem). split; [|split; [|split]].
      * rewrite <- (firstn_skipn (Z.to_nat rp) mem) at 1. f_equal. unfold slice.
        rewrite <- (firstn_skipn (Z.to_nat (rq - rp)) (skipn (Z.to_nat rp) mem)) at 1. f_equal. rewrite skipn_skip. f_equal. lia.
      * unfold zlen in *. rewrite firstn_length. lia.
      * unfold slice, zlen in *. rewrite !firstn_length, skipn_length. lia.
      * replace ((0 <=? rp) && (rp <=? rq) && (rq <=? zlen mem)) with true by lia. reflexivity.
    + replace ((0 <=? rp) && (rp <=? rq) && (rq <=? zlen mem)) with false by lia. reflexivity.
  - intros N. unfold utf8_append. destruct (lead_or_not mem p ltac:(lia)) as [(rp & RP)|NP].
    + rewrite (native_lead mem F p rp P RP). cbn [bind]. destruct N as [N|N].
      * destruct RP as (R1 & R2 & _). exfalso. apply R2. apply N. assumption.
      * destruct (none_ops mem F q Q N) as (_ & _ & _ & _ & ->). reflexivity.
    + destruct (none_ops mem F p P NP) as (_ & _ & _ & _ & ->). reflexivity.
Qed.
End Loops.
