(** * Proofs: the graphemes of arbitrary octets *)
From Verif Require Import Prelude DataTables PropsModel Utf8Model TextModel Utf8Spec UnicodeSpec GraphemeSpec TextSpec RangeSpec MemSpec
  Utf8Proofs PropsProofs LawfulProofs SequenceProofs ByteProofs BoundsProofs ExactProofs DecompProofs GraphemeProofs Uax29Proofs GraphemeText
  GraphemeBytes RangeProofs MemProofs MemLoops Properties_Normalize.
Require Import ZifyBool ZifyNat.

(** ** Walks in which the end of an element may compare equal to the next one *)
Record walked (ops : cp_ops) (vals : list Z) (at_ stop : nat -> Z -> Prop) (lap : nat -> bool) (e : Z) : Prop := {
  wk_deref : forall i q v, nth_error vals i = Some v -> at_ i q -> exists q', op_deref ops q = Ok (v, q') /\ at_ i q' /\ stop i q';
  wk_step : forall i q, (i < length vals)%nat -> at_ i q -> exists q', op_step ops q = Ok q' /\ at_ (S i) q';
  wk_last : forall q, at_ (length vals) q -> stop (length vals) q;
  wk_stop : forall i q, (i <= length vals)%nat -> stop i q -> at_ i q;
  wk_eq : forall i j q q', (i <= j <= length vals)%nat -> at_ i q -> stop j q' ->
    op_eq ops q q' = Ok ((i =? j)%nat || ((S i =? j)%nat && lap i));
  wk_end : forall i q, (i <= length vals)%nat -> at_ i q -> op_eq ops q e = Ok (i =? length vals)%nat;
  wk_end_end : op_eq ops e e = Ok true;
  wk_end_eq : forall i q, (i < length vals)%nat -> at_ i q -> op_eq ops e q = Ok false
}.
Section Walked.
Context (vals : list Z) (ops1 ops2 : cp_ops) (at_ stop : nat -> Z -> Prop) (lap : nat -> bool) (pos : nat -> Z) (e1 e2 : Z).
Context (W : walked ops1 vals at_ stop lap e1) (F : forward ops2 vals pos e2).
Let n := length vals.

Lemma walked_find_end_loop : forall fuel a i q x, (i <= n)%nat -> at_ i q -> find_end_loop fuel ops2 e2 a (pos i) = Ok x ->
  exists j q', (i <= j <= n)%nat /\ x = pos j /\ find_end_loop fuel ops1 e1 a q = Ok q' /\ stop j q'.
Proof.
  induction fuel as [|f IH]; intros a i q x Hi A X; [discriminate|]. cbn [find_end_loop] in *.
  rewrite (fw_end _ _ _ _ F i Hi) in X. rewrite (wk_end _ _ _ _ _ _ W i q Hi A). cbn [bind] in *.
  destruct (Nat.eqb_spec i (length vals)) as [Q|Q].
  { injection X as <-. exists i, q. split; [lia|]. split; [reflexivity|]. split; [reflexivity|]. subst i. apply (wk_last _ _ _ _ _ _ W). assumption. }
  destruct (nth_lt_some vals i ltac:(unfold n in *; lia)) as [v Ev].
  rewrite (fw_deref _ _ _ _ F i v Ev) in X. destruct (wk_deref _ _ _ _ _ _ W i q v Ev A) as (q1 & -> & A1 & S1). cbn [bind] in *.
  rewrite is_grapheme_boundary_eq in *. cbn [bind] in *. destruct (brk a v).
  { injection X as <-. exists i, q1. split; [lia|]. auto. }
  rewrite (fw_step _ _ _ _ F i ltac:(unfold n in *; lia)) in X. destruct (wk_step _ _ _ _ _ _ W i q1 ltac:(unfold n in *; lia) A1) as (q2 & -> & A2).
  cbn [bind] in *. destruct (IH v (S i) q2 x ltac:(unfold n in *; lia) A2 X) as (j & q' & J & R). exists j, q'. split; [lia|assumption].
Qed.
Lemma walked_find_end fuel i q x : (i <= n)%nat -> at_ i q -> find_end_of_grapheme fuel ops2 e2 (pos i) = Ok x ->
  exists j q', (i <= j <= n)%nat /\ (i < n -> i < j)%nat /\ x = pos j /\ find_end_of_grapheme fuel ops1 e1 q = Ok q' /\ stop j q'.
Proof.
  intros Hi A X. unfold find_end_of_grapheme in *.
  rewrite (fw_end _ _ _ _ F i Hi) in X. rewrite (wk_end _ _ _ _ _ _ W i q Hi A). cbn [bind] in *.
  destruct (Nat.eqb_spec i (length vals)) as [Q|Q].
  { injection X as <-. exists i, q. split; [lia|]. split; [unfold n; lia|]. split; [reflexivity|]. split; [reflexivity|]. subst i.
    apply (wk_last _ _ _ _ _ _ W). assumption. }
  destruct (nth_lt_some vals i ltac:(unfold n in *; lia)) as [v Ev].
  rewrite (fw_deref _ _ _ _ F i v Ev) in X. destruct (wk_deref _ _ _ _ _ _ W i q v Ev A) as (q1 & -> & A1 & S1). cbn [bind] in *.
  rewrite (fw_step _ _ _ _ F i ltac:(unfold n in *; lia)) in X. destruct (wk_step _ _ _ _ _ _ W i q1 ltac:(unfold n in *; lia) A1) as (q2 & -> & A2).
  cbn [bind] in *. destruct (walked_find_end_loop fuel v (S i) q2 x ltac:(unfold n in *; lia) A2 X) as (j & q' & J & R).
  exists j, q'. split; [lia|]. split; [lia|assumption].
Qed.
(** What is left of codepoints [i] .. [j - 1]. *)
Definition left_of (i j : nat) (g : list Z) : list Z := if (i <? j)%nat && lap (j - 1) then removelast g else g.
Lemma forward_iterate_length : forall fuel i j g, (i <= j <= n)%nat -> iterate_codepoints_for fuel ops2 (pos i) (pos j) = Ok g ->
  length g = (j - i)%nat.
Proof.
  induction fuel as [|f IH]; intros i j g H X; [discriminate|]. cbn [iterate_codepoints_for] in X. unfold op_neq in X.
  rewrite (fw_eq _ _ _ _ F i j H) in X. cbn [bind] in X. destruct (Nat.eqb_spec i j) as [Q|Q]; cbn [negb] in X; [injection X as <-; cbn; lia|].
  destruct (nth_lt_some vals i ltac:(unfold n in *; lia)) as [v Ev]. rewrite (fw_deref _ _ _ _ F i v Ev) in X. cbn [bind] in X.
  rewrite (fw_step _ _ _ _ F i ltac:(unfold n in *; lia)) in X. cbn [bind] in X.
  destruct (iterate_codepoints_for f ops2 (pos (S i)) (pos j)) as [r|u|] eqn:R; cbn [bind] in X; try discriminate.
  injection X as <-. cbn [length]. rewrite (IH (S i) j r ltac:(lia) R). lia.
Qed.
Lemma walked_iterate : forall fuel i j q q' g, (i <= j <= n)%nat -> at_ i q -> stop j q' ->
  iterate_codepoints_for fuel ops2 (pos i) (pos j) = Ok g -> iterate_codepoints_for fuel ops1 q q' = Ok (left_of i j g).
Proof.
  induction fuel as [|f IH]; intros i j q q' g H A S X; [discriminate|]. pose proof (forward_iterate_length _ i j g H X) as LG.
  cbn [iterate_codepoints_for] in *. unfold op_neq in *.
  rewrite (fw_eq _ _ _ _ F i j H) in X. rewrite (wk_eq _ _ _ _ _ _ W i j q q' H A S). cbn [bind] in *. unfold left_of.
  destruct (Nat.eqb_spec i j) as [Q|Q]; cbn [negb orb] in *.
  { injection X as <-. replace (i <? j)%nat with false by lia. reflexivity. }
  replace (i <? j)%nat with true by lia. cbn [andb].
  destruct (nth_lt_some vals i ltac:(unfold n in *; lia)) as [v Ev]. rewrite (fw_deref _ _ _ _ F i v Ev) in X. cbn [bind] in X.
  rewrite (fw_step _ _ _ _ F i ltac:(unfold n in *; lia)) in X. cbn [bind] in X.
  destruct (iterate_codepoints_for f ops2 (pos (Datatypes.S i)) (pos j)) as [r|u|] eqn:R; cbn [bind] in X; try discriminate. injection X as <-.
  destruct ((Datatypes.S i =? j)%nat && lap i) eqn:LP; cbn [negb].
  - replace (j - 1)%nat with i by lia. assert (LI : lap i = true) by lia. rewrite LI. cbn [length] in LG. destruct r; [reflexivity|cbn in LG; lia].
  - destruct (wk_deref _ _ _ _ _ _ W i q v Ev A) as (q1 & -> & A1 & S1). cbn [bind].
    destruct (wk_step _ _ _ _ _ _ W i q1 ltac:(unfold n in *; lia) A1) as (q2 & -> & A2). cbn [bind].
    rewrite (IH (Datatypes.S i) j q2 q' r ltac:(lia) A2 S R). cbn [bind]. unfold left_of. cbn [length] in LG.
    destruct (Nat.ltb_spec (Datatypes.S i) j).
    + cbn [andb]. destruct (lap (j - 1)); [|reflexivity]. destruct r; [cbn in LG; lia|reflexivity].
    + cbn [andb]. replace (j - 1)%nat with i by lia. replace (Datatypes.S i =? j)%nat with true in LP by lia. cbn [andb] in LP. rewrite LP. reflexivity.
Qed.
(** Grapheme iterators. *)
Definition paired (i j : nat) (g1 g2 : gi) : Prop := (i <= j <= n)%nat /\ (i < n -> i < j)%nat /\ g_end g1 = e1 /\ g_end g2 = e2 /\
  at_ i (g_where g1) /\ g_where g2 = pos i /\ stop j (g_eog g1) /\ g_eog g2 = pos j.
Lemma walked_end_cp E fuel i q : end_at e1 E -> (i < n)%nat -> at_ i q -> (0 < fuel)%nat -> gi_eq_cp fuel ops1 E q = Ok false.
Proof.
  intros (G1 & G2 & G3) Hi A Hf. unfold gi_eq_cp. rewrite G2, G3, (wk_end_eq _ _ _ _ _ _ W i q Hi A). cbn [bind].
  destruct fuel as [|f]; [lia|]. cbn [gi_eq_cp_loop]. rewrite (wk_end_end _ _ _ _ _ _ W). reflexivity.
Qed.
Lemma walked_eq_loop E1 E2 : end_at e1 E1 -> end_at e2 E2 -> forall fuel i j q q', (i <= j <= n)%nat -> at_ i q -> stop j q' -> (j - i < fuel)%nat ->
  gi_eq_loop fuel ops1 q' q E1 = Ok false /\ gi_eq_loop fuel ops2 (pos j) (pos i) E2 = Ok false.
Proof.
  intros H1 H2. induction fuel as [|f IH]; intros i j q q' H A S Hf; [lia|]. cbn [gi_eq_loop].
  rewrite (fw_eq _ _ _ _ F i j H), (wk_eq _ _ _ _ _ _ W i j q q' H A S). cbn [bind].
  destruct (Nat.eqb_spec i j) as [Q|Q]; cbn [orb]; [split; reflexivity|].
  rewrite (end_eq_cp vals pos ops2 e2 E2 (Datatypes.S f) i F H2), (walked_end_cp E1 (Datatypes.S f) i q H1) by (assumption || unfold n in *; lia). cbn [bind].
  rewrite (fw_step _ _ _ _ F i ltac:(unfold n in *; lia)). destruct (wk_step _ _ _ _ _ _ W i q ltac:(unfold n in *; lia) A) as (q2 & -> & A2). cbn [bind].
  destruct (IH (Datatypes.S i) j q2 q' ltac:(lia) A2 S ltac:(lia)) as (-> & ->). destruct (_ && _); split; reflexivity.
Qed.
Lemma walked_neq E1 E2 i j g1 g2 fuel : end_at e1 E1 -> end_at e2 E2 -> paired i j g1 g2 -> (n < fuel)%nat ->
  gi_neq fuel ops1 g1 E1 = Ok (i <? n)%nat /\ gi_neq fuel ops2 g2 E2 = Ok (i <? n)%nat.
Proof.
  intros H1 H2 (H & Hij & G1 & G2 & A & W2 & S & X2) Hf. unfold gi_neq, gi_eq. rewrite G1, G2, W2, X2.
  rewrite (fw_end _ _ _ _ F i ltac:(unfold n in *; lia)), (wk_end _ _ _ _ _ _ W i _ ltac:(unfold n in *; lia) A). cbn [bind].
  destruct (walked_eq_loop E1 E2 H1 H2 fuel i j _ _ H A S ltac:(lia)) as (-> & ->).
  destruct (Nat.eqb_spec i (length vals)) as [Q|Q].
  - rewrite (end_eq_end vals pos ops2 e2 E2 fuel F H2). unfold gi_eq_cp. destruct H1 as (_ & -> & _). rewrite (wk_end_end _ _ _ _ _ _ W). cbn [bind negb].
    replace (i <? n)%nat with false by (unfold n; lia). split; reflexivity.
  - cbn [bind negb]. replace (i <? n)%nat with true by (unfold n in *; lia). split; reflexivity.
Qed.
Lemma walked_step fuel i j g1 g2 h2 : paired i j g1 g2 -> gi_step fuel ops2 g2 = Ok h2 ->
  exists k h1, gi_step fuel ops1 g1 = Ok h1 /\ paired j k h1 h2.
Proof.
  intros (H & Hij & G1 & G2 & A & W2 & S & X2) X. unfold gi_step, gi_postinc, gi_inc in *. rewrite G2, X2 in X. rewrite G1.
  destruct (find_end_of_grapheme fuel ops2 e2 (pos j)) as [x|u|] eqn:E; cbn [bind] in X; try discriminate. injection X as <-.
  destruct (walked_find_end fuel j (g_eog g1) x ltac:(lia) (wk_stop _ _ _ _ _ _ W j _ ltac:(unfold n in *; lia) S) E) as (k & q' & K & JK & -> & -> & S').
  cbn [bind]. eexists k, _. split; [reflexivity|]. repeat split; cbn; try lia; try assumption.
  apply (wk_stop _ _ _ _ _ _ W); [unfold n in *; lia|assumption].
Qed.
(** The graphemes of the walk, from codepoint [k] on. *)
Fixpoint lapped (k : nat) (gs : list (list Z)) : list (list Z) :=
  match gs with
  | [] => []
  | g :: gs => left_of k (k + length g) g :: lapped (k + length g) gs
  end.
Lemma walked_graphemes_loop E1 E2 fuel0 : end_at e1 E1 -> end_at e2 E2 -> (n < fuel0)%nat -> forall fuel i j g1 g2 gs, paired i j g1 g2 ->
  iterate_graphemes fuel0 fuel ops2 g2 E2 = Ok gs -> iterate_graphemes fuel0 fuel ops1 g1 E1 = Ok (lapped i gs).
Proof.
  intros H1 H2 Hf. induction fuel as [|f IH]; intros i j g1 g2 gs P X; [discriminate|]. cbn [iterate_graphemes] in *.
  destruct (walked_neq E1 E2 i j g1 g2 fuel0 H1 H2 P Hf) as (-> & N2). rewrite N2 in X. cbn [bind] in *.
  destruct (i <? n)%nat; [|injection X as <-; reflexivity].
  pose proof P as (H & Hij & G1 & G2 & A & W2 & S & X2). unfold gi_deref in *. rewrite W2, X2 in X.
  destruct (iterate_codepoints_for fuel0 ops2 (pos i) (pos j)) as [g|u|] eqn:I; cbn [bind] in X; try discriminate.
  rewrite (walked_iterate fuel0 i j _ _ g H A S I). cbn [bind].
  destruct (gi_step fuel0 ops2 g2) as [h2|u|] eqn:ST; cbn [bind] in X; try discriminate.
  destruct (walked_step fuel0 i j g1 g2 h2 P ST) as (k & h1 & -> & P'). cbn [bind].
  destruct (iterate_graphemes fuel0 f ops2 h2 E2) as [rest|u|] eqn:R; cbn [bind] in X; try discriminate. injection X as <-.
  rewrite (IH j k h1 h2 rest P' R). cbn [bind lapped]. rewrite (forward_iterate_length fuel0 i j g H I).
  replace (i + (j - i))%nat with j by lia. reflexivity.
Qed.
Lemma walked_graphemes E1 E2 fuel b gs : at_ 0 b -> grapheme_end fuel ops1 b e1 = Ok E1 -> end_at e1 E1 ->
  grapheme_end fuel ops2 (pos 0) e2 = Ok E2 -> end_at e2 E2 -> (n < fuel)%nat ->
  graphemes fuel ops2 (pos 0) e2 = Ok gs -> graphemes fuel ops1 b e1 = Ok (lapped 0 gs).
Proof.
  intros A X1 H1 X2 H2 Hf X. unfold graphemes in *. rewrite X1. rewrite X2 in X. unfold grapheme_begin, gi_make2 in *.
  destruct (find_end_of_grapheme fuel ops2 e2 (pos 0)) as [x|u|] eqn:E; cbn [bind] in X; try discriminate.
  destruct (walked_find_end fuel 0 b x ltac:(lia) A E) as (j & q' & J & IJ & -> & -> & S'). cbn [bind] in *.
  eapply (walked_graphemes_loop E1 E2 fuel H1 H2 Hf fuel 0 j); [|exact X]. repeat split; cbn; try lia; assumption.
Qed.
End Walked.

Lemma last_sub (l : list Z) m : forall k, (0 < m)%nat -> (k + m <= length l)%nat -> last (firstn m (skipn k l)) 0 = nth (k + m - 1) l 0.
Proof.
  induction l as [|x l IH]; intros k M L; [cbn in L; lia|]. destruct k as [|k].
  - clear IH. cbn [skipn]. replace (0 + m - 1)%nat with (m - 1)%nat by lia. cbn [plus] in L. revert x l L M.
    induction m as [|m IH]; intros x l L M; [lia|]. cbn [firstn]. destruct m as [|m]; [reflexivity|].
    destruct l as [|y l]; [cbn in L; lia|]. specialize (IH y l ltac:(cbn in *; lia) ltac:(lia)). cbn [firstn last] in *.
    replace (S (S m) - 1)%nat with (S m) by lia. replace (S m - 1)%nat with m in IH by lia. cbn [nth]. exact IH.
  - cbn [skipn]. rewrite IH by (cbn in L; lia). replace (S k + m - 1)%nat with (S (k + m - 1)) by lia. reflexivity.
Qed.
Lemma skipn_plus {A} (l : list A) m : forall k, skipn m (skipn k l) = skipn (k + m) l.
Proof. induction l as [|x l IH]; intros k; [rewrite !skipn_nil; reflexivity|]. destruct k; [reflexivity|]. cbn [skipn plus]. apply IH. Qed.
Lemma skipn_head (l : list Z) : forall k r t, skipn k l = r :: t -> nth k l 0 = r.
Proof. induction l as [|x l IH]; intros [|k] r t H; try discriminate; [injection H as -> _; reflexivity|]. cbn in *. eapply IH. eassumption. Qed.

(** ** The codepoint iterators along a walk over octets *)
Section Octets.
Context (s : list Z) (U : Forall octet_upto_FD s) (C0 : ~ continuation_octet (octet s 0)).
Let mem := string_buffer s.
Let e := zlen s.
Lemma buffer_upto : Forall octet_upto_FD mem.
Proof. unfold mem, string_buffer. apply Forall_app. split; [assumption|]. repeat constructor; unfold octet_upto_FD; lia. Qed.
Let UM := buffer_upto.
Let FM := upto_byte mem UM.
Lemma e_range : 0 <= e < zlen mem.
Proof. unfold e, mem, string_buffer, zlen. rewrite app_length. cbn. lia. Qed.
Lemma first_lead : ~ continuation_octet (octet mem 0).
Proof. apply octet_string_first. assumption. Qed.

Definition start_of (p : Z) (rs : list Z) (i : nat) : Z := match i with O => p | S k => extent mem (nth k rs 0) end.
Lemma walk_at p rs : 0 <= p <= e -> forward_walk mem e p rs ->
  (forall i, (i < length rs)%nat -> closest_lead mem (start_of p rs i) (nth i rs 0) /\ extent mem (nth i rs 0) <= e /\
     0 <= start_of p rs i < extent mem (nth i rs 0)) /\
  (exists r, closest_lead mem (start_of p rs (length rs)) r /\ e < extent mem r) /\ 0 <= start_of p rs (length rs) <= e.
Proof.
  intros P W. induction W as [p r R L|p r rs R L W IH].
  - split; [cbn; intros; lia|]. split; [exists r; split; assumption|]. exact P.
  - pose proof (walk_no_stray mem e p (r :: rs) P ltac:(econstructor; eassumption)) as NS.
    pose proof R as (R1 & R2 & R3). pose proof (announced_len_range (octet mem r)) as AR.
    destruct (IH ltac:(unfold extent in *; lia)) as (A & B & C). split; [|split].
    + intros [|i] Hi.
      * cbn [start_of nth]. split; [assumption|]. split; [assumption|]. destruct (Z.le_gt_cases (extent mem r) p) as [X|X]; [|lia].
        destruct NS. exists r. split; assumption.
      * cbn [length] in Hi. specialize (A i ltac:(lia)). destruct i as [|i]; exact A.
    + destruct rs; exact B.
    + destruct rs; exact C.
Qed.
Section Walk.
Context (rs : list Z) (W : forward_walk mem e 0 rs).
Let n := length rs.
Let start := start_of 0 rs.
Let r_ i := nth i rs 0.
Let vals := map (value_at mem) rs.
Lemma walk_lead i : (i < n)%nat -> closest_lead mem (start i) (r_ i) /\ extent mem (r_ i) <= e /\ 0 <= start i < extent mem (r_ i).
Proof. apply (walk_at 0 rs); [pose proof e_range; lia|assumption]. Qed.
Lemma walk_end : (exists r, closest_lead mem (start n) r /\ e < extent mem r) /\ 0 <= start n <= e.
Proof. apply (walk_at 0 rs); [pose proof e_range; lia|assumption]. Qed.
Lemma start_S i : start (S i) = extent mem (r_ i).
Proof. reflexivity. Qed.
Lemma start_le i j : (i <= j <= n)%nat -> start i <= start j.
Proof.
  intros H. induction j as [|j IH]; [replace i with 0%nat by lia; lia|]. destruct (Nat.eq_dec i (S j)) as [->|]; [lia|].
  specialize (IH ltac:(lia)). destruct (walk_lead j ltac:(lia)) as (_ & _ & X). rewrite start_S. lia.
Qed.
Definition lap (i : nat) : bool := (S i <? n)%nat && (r_ (S i) <? extent mem (r_ i)).
Definition at_ (i : nat) (q : Z) : Prop := q = start i \/ ((i < n)%nat /\ q = r_ i).
Definition stop (i : nat) (q : Z) : Prop := (i = n /\ q = start n) \/ ((i < n)%nat /\ q = r_ i).
Lemma at_lead i q : (i < n)%nat -> at_ i q -> 0 <= q <= e /\ closest_lead mem q (r_ i) /\ r_ i <= q /\ extent mem (r_ i) <= e /\ 0 <= r_ i.
Proof.
  intros Hi A. destruct (walk_lead i Hi) as (L & X & S). pose proof L as (L1 & L2 & L3). pose proof (announced_len_range (octet mem (r_ i))) as AR.
  unfold extent in *. destruct A as [->|(_ & ->)].
  - split; [lia|]. split; [exact L|]. lia.
  - split; [lia|]. split; [apply lead_at; (lia || assumption)|]. lia.
Qed.
Lemma next_lead i : (S i < n)%nat -> r_ i <= r_ (S i).
Proof.
  intros Hi. destruct (walk_lead i ltac:(lia)) as (L & _ & S). destruct (walk_lead (Datatypes.S i) Hi) as ((L1 & L2 & L3) & _ & _).
  pose proof (announced_len_range (octet mem (r_ i))) as AR. rewrite start_S in *. unfold extent in *.
  destruct (Z.le_gt_cases (r_ i) (r_ (Datatypes.S i))) as [|G]; [assumption|]. exfalso. destruct L as (_ & N & _). apply N. apply L3. lia.
Qed.
Lemma later_lead i j : (S (S i) <= j < n)%nat -> extent mem (r_ i) <= r_ j.
Proof.
  intros H. destruct j as [|j]; [lia|]. destruct (walk_lead j ltac:(lia)) as (L & _ & SJ). destruct (walk_lead (S j) ltac:(lia)) as (L' & _ & SS).
  pose proof (start_le (S i) j ltac:(lia)) as LE. rewrite start_S in LE.
  destruct (Z.le_gt_cases (start j) (r_ (S j))) as [|G]; [lia|]. exfalso.
  assert (E : r_ (S j) = r_ j).
  { eapply closest_lead_unique; [|exact L]. destruct L' as (L1 & L2 & L3). rewrite start_S in *. split; [lia|]. split; [assumption|]. intros k K. apply L3. lia. }
  rewrite start_S, E in SS. lia.
Qed.
Lemma stop_eq i j q q' : (i <= j <= n)%nat -> at_ i q -> stop j q' ->
  it_eq mem q q' = Ok ((i =? j)%nat || ((S i =? j)%nat && lap i)).
Proof.
  intros H A S. pose proof e_range as ER. destruct (Nat.eq_dec i n) as [->|Ni].
  - assert (j = n) by lia. subst j. rewrite Nat.eqb_refl. cbn [orb]. destruct walk_end as ((r & L & X) & SE).
    assert (q = start n) by (destruct A as [|(? & _)]; [assumption|lia]). assert (q' = start n) by (destruct S as [(_ & ?)|(? & _)]; [assumption|lia]). subst q q'.
    rewrite (eq_lead mem FM _ _ r) by (assumption || lia). pose proof L as (L1 & _). replace (start n <? r) with false by lia.
    replace (start n <? extent mem r) with true by lia. reflexivity.
  - destruct (at_lead i q ltac:(lia) A) as (Q & L & QR & X & R0). pose proof (announced_len_range (octet mem (r_ i))) as AR.
    assert (QE : q' <= e).
    { destruct S as [(_ & ->)|(J & ->)]; [apply walk_end|]. destruct (walk_lead j J) as (_ & XX & _). pose proof (announced_len_range (octet mem (r_ j))). unfold extent in XX. lia. }
    rewrite (eq_lead mem FM q q' (r_ i)) by (assumption || lia).
    destruct (Nat.eqb_spec i j) as [->|Nij].
    { assert (q' = r_ j) by (destruct S as [(? & _)|(_ & ?)]; [lia|assumption]). subst q'.
      replace (r_ j <? r_ j) with false by lia. cbn [orb]. f_equal. unfold extent. lia. }
    cbn [orb]. destruct S as [(-> & ->)|(J & ->)].
    { pose proof (start_le (Datatypes.S i) n ltac:(lia)) as LE. rewrite start_S in LE. unfold extent in *.
      replace (start n <? r_ i) with false by lia. replace (start n <? r_ i + announced_len (octet mem (r_ i))) with false by lia.
      unfold lap. destruct (Nat.eqb_spec (Datatypes.S i) n); [|reflexivity]. replace (Datatypes.S i <? n)%nat with false by lia. reflexivity. }
    destruct (Nat.eqb_spec (Datatypes.S i) j) as [<-|NN].
    + pose proof (next_lead i J). replace (r_ (Datatypes.S i) <? r_ i) with false by lia. unfold lap. replace (Datatypes.S i <? n)%nat with true by lia. reflexivity.
    + pose proof (later_lead i j ltac:(lia)). unfold extent in *. replace (r_ j <? r_ i) with false by lia.
      replace (r_ j <? r_ i + announced_len (octet mem (r_ i))) with false by lia. reflexivity.
Qed.
Lemma octets_walked : walked (utf8_ops mem) vals at_ stop lap e.
Proof.
  pose proof e_range as ER. assert (LV : length vals = n) by apply map_length. constructor; rewrite ?LV.
  - intros i q v V A. assert (Hi : (i < n)%nat) by (rewrite <- LV; apply nth_error_Some; congruence).
    assert (v = value_at mem (r_ i)).
    { unfold vals in V. rewrite nth_error_map in V. destruct (nth_error rs i) as [x|] eqn:E; [|discriminate]. injection V as <-. unfold r_. rewrite (nth_error_nth rs i 0 E). reflexivity. }
    subst v. destruct (at_lead i q Hi A) as (Q & L & QR & X & R0). exists (r_ i). split; [|split; right; auto].
    change (op_deref (utf8_ops mem) q) with (it_deref mem q). rewrite (proj1 (deref_upto mem UM q (r_ i) ltac:(lia) L)) by lia. do 2 f_equal.
    destruct (Z.ltb_spec (r_ i) q) as [LT|]; [|reflexivity]. destruct (Z.ltb_spec (octet mem (r_ i)) 128) as [S8|]; [|reflexivity]. exfalso.
    destruct (walk_lead i Hi) as (_ & _ & SX). assert (start i <= r_ i).
    { unfold extent, announced_len in SX. replace (octet mem (r_ i) <? 192) with true in SX by lia. lia. }
    destruct A as [->|(_ & ->)]; lia.
  - intros i q Hi A. destruct (at_lead i q Hi A) as (Q & L & QR & X & R0). exists (start (S i)). split; [|left; reflexivity].
    unfold op_step. cbn [op_postinc utf8_ops]. unfold it_postinc. rewrite (inc_lead mem FM q (r_ i)) by (assumption || lia).
    replace (extent mem (r_ i) <=? zlen mem) with true by lia. reflexivity.
  - intros q [->|(H & _)]; [left; auto|lia].
  - intros i q Hi [(-> & ->)|(H & ->)]; [left; reflexivity|right; auto].
  - intros i j q q' H A S. apply stop_eq; assumption.
  - intros i q Hi A. change (op_eq (utf8_ops mem) q e) with (it_eq mem q e). destruct (Nat.eqb_spec i n) as [->|Ni].
    + destruct walk_end as ((r & L & X) & SE). assert (q = start n) by (destruct A as [|(? & _)]; [assumption|lia]). subst q.
      rewrite (eq_lead mem FM _ _ r) by (assumption || lia). pose proof L as (L1 & _). replace (e <? r) with false by lia.
      replace (e <? extent mem r) with true by lia. reflexivity.
    + destruct (at_lead i q ltac:(lia) A) as (Q & L & QR & X & R0). pose proof (announced_len_range (octet mem (r_ i))) as AR.
      rewrite (eq_lead mem FM q e (r_ i)) by (assumption || lia). unfold extent in *. replace (e <? r_ i) with false by lia.
      replace (e <? r_ i + announced_len (octet mem (r_ i))) with false by lia. reflexivity.
  - unfold e at 1. rewrite (eq_e s mem (byte_env_string s U first_lead)) by (fold e; lia). rewrite Z.eqb_refl. reflexivity.
  - intros i q Hi A. destruct (at_lead i q Hi A) as (Q & L & QR & X & R0).
    pose proof (announced_len_range (octet mem (r_ i))) as AR.
    unfold e. rewrite (eq_e s mem (byte_env_string s U first_lead)) by (fold e; lia). f_equal.
    assert (q < e); [|fold e; lia]. unfold extent in *.
    destruct A as [->|(_ & ->)]; [|lia]. destruct (walk_lead i Hi) as (_ & _ & SX). unfold extent in SX. lia.
Qed.
(** The lapped graphemes, from the positions. *)
Lemma lapped_swallowed : forall gs k, concat gs = skipn k vals -> Forall (fun g => g <> []) gs ->
  lapped lap k gs = without_swallowed mem (skipn k rs) gs.
Proof.
  induction gs as [|g gs IH]; intros k CC NE; [reflexivity|]. cbn [lapped without_swallowed concat] in *. inversion NE as [|x l NG NE']; subst.
  assert (LG : (0 < length g)%nat) by (destruct g; [contradiction|cbn; lia]).
  assert (LK : (k + length g <= n)%nat).
  { apply (f_equal (@length Z)) in CC. rewrite app_length, skipn_length in CC. unfold vals in CC. rewrite map_length in CC. fold n in CC. lia. }
  assert (SK : skipn (length g) (skipn k rs) = skipn (k + length g) rs) by apply skipn_plus.
  rewrite SK. f_equal.
  - unfold left_of. replace (k <? k + length g)%nat with true by lia. cbn [andb]. unfold lap.
    replace (S (k + length g - 1)) with (k + length g)%nat by lia.
    assert (LAST : last (firstn (length g) (skipn k rs)) 0 = r_ (k + length g - 1)) by (apply last_sub; (assumption || unfold n in *; lia)).
    rewrite LAST. destruct (skipn (k + length g) rs) as [|r l] eqn:SR.
    + replace (k + length g <? n)%nat with false; [reflexivity|]. apply (f_equal (@length Z)) in SR. rewrite skipn_length in SR. cbn in SR. unfold n. lia.
    + assert (k + length g < n)%nat by (apply (f_equal (@length Z)) in SR; rewrite skipn_length in SR; cbn in SR; unfold n; lia).
      replace (k + length g <? n)%nat with true by lia. cbn [andb].
      replace (r_ (k + length g)) with r; [reflexivity|]. unfold r_. symmetry. eapply skipn_head. exact SR.
  - apply IH; [|assumption].
    replace (skipn (k + length g) vals) with (skipn (length g) (skipn k vals)).
    + rewrite <- CC, skipn_app, skipn_all, Nat.sub_diag. reflexivity.
    + apply skipn_plus.
Qed.
End Walk.
End Octets.

Lemma utf32_forward vals : forward (utf32_ops (string_buffer vals)) vals Z.of_nat (zlen vals).
Proof.
  constructor.
  - intros i v V. cbn [op_deref utf32_ops]. assert (Hi : (i < length vals)%nat) by (apply nth_error_Some; congruence).
    unfold rd. replace (Z.of_nat i <? 0) with false by lia. rewrite Nat2Z.id. unfold string_buffer. rewrite nth_error_app1 by assumption. rewrite V. reflexivity.
  - intros i Hi. unfold op_step. cbn [op_postinc utf32_ops]. unfold padd, zlen, string_buffer. rewrite app_length. cbn [length].
    replace (_ && _) with true by lia. cbn [bind]. f_equal. lia.
  - intros i j H. cbn [op_eq utf32_ops]. f_equal. lia.
  - intros i H. cbn [op_eq utf32_ops]. f_equal. unfold zlen. lia.
  - cbn [op_eq utf32_ops]. f_equal. lia.
  - intros i H. cbn [op_eq utf32_ops]. f_equal. unfold zlen. lia.
Qed.

Lemma utf32_end vals fuel : (length vals < fuel)%nat ->
  exists E, grapheme_end fuel (utf32_ops (string_buffer vals)) 0 (zlen vals) = Ok E /\ end_at (zlen vals) E.
Proof.
  intros Hf. pose proof (utf32_string vals) as M. destruct (string_text _ _ _ _ _ M) as (pos' & inside & T & P).
  destruct (final_view_end _ _ _ _ _ _ pos' inside T P fuel Hf) as (it & E & Q & W).
  exists it. split; [exact E|]. split; [|split].
  - unfold grapheme_end, gi_make3 in E.
    destruct (find_start_of_grapheme fuel (utf32_ops (string_buffer vals)) 0 (zlen vals)); cbn [bind] in E; try discriminate.
    destruct (find_end_of_grapheme fuel (utf32_ops (string_buffer vals)) (zlen vals) (zlen vals)); cbn [bind] in E; try discriminate.
    injection E as <-. reflexivity.
  - apply W. apply boundary_nul.
  - exact Q.
Qed.
Section Result.
Context (s : list Z) (U : Forall octet_upto_FD s) (C0 : ~ continuation_octet (octet s 0)).
Let mem := string_buffer s.
Context (HE : forall fuel, grapheme_end (S fuel) (utf8_ops mem) 0 (zlen s) = Ok (the_end s)).
Lemma octet_graphemes rs fuel : forward_walk mem (zlen s) 0 rs -> (length rs < fuel)%nat ->
  graphemes fuel (utf8_ops mem) 0 (zlen s) = Ok (without_swallowed mem rs (seg (map (value_at mem) rs))).
Proof.
  intros W Hf. set (vals := map (value_at mem) rs). assert (LV : length vals = length rs) by apply map_length.
  destruct fuel as [|f]; [lia|]. destruct (utf32_end vals (S f) ltac:(lia)) as (E2 & X2 & H2).
  assert (H1 : end_at (zlen s) (the_end s)) by (split; [|split]; reflexivity).
  pose proof (utf32_string vals) as M. destruct (string_text _ _ _ _ _ M) as (pos' & inside & T & P).
  pose proof (text_graphemes _ _ _ _ _ pos' inside T (S f) (proj1 (boundary_after_or _ _) (boundary_nul _)) ltac:(lia)) as G.
  pose proof (walked_graphemes vals _ _ _ _ _ _ _ _ (octets_walked s U C0 rs W) (utf32_forward vals) (the_end s) E2 (S f) 0 (seg vals)
    ltac:(left; reflexivity) (HE f) H1 X2 H2 ltac:(lia) G) as R.
  fold mem in R. rewrite R. f_equal. apply (lapped_swallowed s rs (seg vals) 0); [apply seg_concat|apply seg_nonempty].
Qed.
(** ** Walks that never end *)
Definition endless (q : Z) : Prop := 0 <= q <= zlen s /\ forall rs, ~ forward_walk mem (zlen s) q rs.
Let UM := buffer_upto s U.
Let FM := upto_byte mem UM.
Lemma endless_lead q : endless q -> exists r, closest_lead mem q r /\ extent mem r <= zlen s /\ endless r /\ endless (extent mem r).
Proof.
  intros (Q & N). destruct (lead_exists s mem (byte_env_string s U (octet_string_first s C0)) q ltac:(lia)) as (r & R).
  pose proof R as (R1 & R2 & R3). pose proof (announced_len_range (octet mem r)) as AR.
  assert (X : extent mem r <= zlen s).
  { destruct (Z.le_gt_cases (extent mem r) (zlen s)); [assumption|]. destruct (N []). apply (forward_stop _ _ _ r); [assumption|lia]. }
  exists r. split; [assumption|]. split; [assumption|]. split.
  - split; [lia|]. intros rs W. apply (N rs). inversion W as [p r' L Y|p r' rs' L Y W']; subst.
    + assert (r' = r) by (eapply closest_lead_unique; [exact L|apply lead_at; (lia || assumption)]). subst r'. lia.
    + assert (r' = r) by (eapply closest_lead_unique; [exact L|apply lead_at; (lia || assumption)]). subst r'. apply (forward_next _ _ _ r); assumption.
  - split; [unfold extent in *; lia|]. intros rs W. apply (N (r :: rs)). apply (forward_next _ _ _ r); assumption.
Qed.
Lemma endless_eq q : endless q -> op_eq (utf8_ops mem) q (zlen s) = Ok false.
Proof.
  intros Q. destruct (endless_lead q Q) as (r & R & X & _ & _). pose proof Q as (Q1 & _). pose proof R as (R1 & _).
  pose proof (e_range s) as ER. fold mem in ER. change (op_eq (utf8_ops mem) q (zlen s)) with (it_eq mem q (zlen s)).
  rewrite (eq_lead mem FM q _ r) by (assumption || lia). replace (zlen s <? r) with false by lia. f_equal. lia.
Qed.
Lemma endless_deref q v q' : endless q -> op_deref (utf8_ops mem) q = Ok (v, q') -> endless q'.
Proof.
  intros Q D. destruct (endless_lead q Q) as (r & R & X & Er & _). pose proof Q as (Q1 & _).
  pose proof (e_range s) as ER. fold mem in ER. change (op_deref (utf8_ops mem) q) with (it_deref mem q) in D.
  rewrite (proj1 (deref_upto mem UM q r ltac:(lia) R)) in D by lia. injection D as _ <-. assumption.
Qed.
Lemma endless_step q q' : endless q -> op_step (utf8_ops mem) q = Ok q' -> endless q'.
Proof.
  intros Q D. destruct (endless_lead q Q) as (r & R & X & _ & Er). pose proof Q as (Q1 & _).
  pose proof (e_range s) as ER. fold mem in ER. unfold op_step in D. cbn [op_postinc utf8_ops] in D. unfold it_postinc in D.
  rewrite (inc_lead mem FM q r) in D by (assumption || lia). replace (extent mem r <=? zlen mem) with true in D by lia.
  cbn [bind] in D. injection D as <-. assumption.
Qed.
Lemma endless_find_loop : forall fuel a q q', endless q -> find_end_loop fuel (utf8_ops mem) (zlen s) a q = Ok q' -> endless q'.
Proof.
  induction fuel as [|f IH]; intros a q q' Q X; [discriminate|]. cbn [find_end_loop] in X. rewrite (endless_eq q Q) in X. cbn [bind] in X.
  destruct (op_deref (utf8_ops mem) q) as [[v q1]|u|] eqn:D; cbn [bind] in X; try discriminate. pose proof (endless_deref q v q1 Q D) as Q1.
  rewrite is_grapheme_boundary_eq in X. cbn [bind] in X. destruct (brk a v); [injection X as <-; assumption|].
  destruct (op_step (utf8_ops mem) q1) as [q2|u|] eqn:S; cbn [bind] in X; try discriminate.
  apply (IH v q2 q' (endless_step q1 q2 Q1 S) X).
Qed.
Lemma endless_find fuel q q' : endless q -> find_end_of_grapheme fuel (utf8_ops mem) (zlen s) q = Ok q' -> endless q'.
Proof.
  intros Q X. unfold find_end_of_grapheme in X. rewrite (endless_eq q Q) in X. cbn [bind] in X.
  destruct (op_deref (utf8_ops mem) q) as [[v q1]|u|] eqn:D; cbn [bind] in X; try discriminate. pose proof (endless_deref q v q1 Q D) as Q1.
  destruct (op_step (utf8_ops mem) q1) as [q2|u|] eqn:S; cbn [bind] in X; try discriminate.
  apply (endless_find_loop fuel v q2 q' (endless_step q1 q2 Q1 S) X).
Qed.
Lemma endless_not_end q : endless q -> q < zlen s.
Proof.
  intros Q. destruct (endless_lead q Q) as (r & R & X & _ & _). pose proof Q as (Q1 & Q2). destruct (Z.eq_dec q (zlen s)) as [->|]; [|lia]. exfalso.
  apply (Q2 []). assert (O : octet mem (zlen s) = 0) by (unfold mem, string_buffer, octet, zlen; rewrite Nat2Z.id, nth_middle; reflexivity).
  apply (forward_stop _ _ _ (zlen s)); [apply lead_at; [lia|rewrite O; unfold continuation_octet; lia]|]. unfold extent. pose proof (announced_len_range (octet mem (zlen s))). lia.
Qed.
Lemma endless_eq_cp fuel q : endless q -> (0 < fuel)%nat -> gi_eq_cp fuel (utf8_ops mem) (the_end s) q = Ok false.
Proof.
  intros Q Hf. pose proof (endless_not_end q Q). pose proof Q as (Q1 & _). unfold gi_eq_cp. cbn [g_where g_eog the_end].
  rewrite (eq_e s mem (byte_env_string s U (octet_string_first s C0))) by lia. replace (zlen s =? q) with false by lia. cbn [bind].
  destruct fuel as [|f]; [lia|]. cbn [gi_eq_cp_loop]. rewrite (eq_e s mem (byte_env_string s U (octet_string_first s C0))) by lia. rewrite Z.eqb_refl. reflexivity.
Qed.
Lemma endless_eq_loop : forall fuel q' q, endless q -> gi_eq_loop fuel (utf8_ops mem) q' q (the_end s) <> Ok true.
Proof.
  induction fuel as [|f IH]; intros q' q Q; [discriminate|]. cbn [gi_eq_loop]. destruct (op_eq (utf8_ops mem) q q') as [[]|u|]; cbn [bind]; try discriminate.
  rewrite (endless_eq_cp (S f) q Q) by lia. cbn [bind]. destruct (op_step (utf8_ops mem) q) as [q2|u|] eqn:S; cbn [bind]; try discriminate.
  apply IH. apply (endless_step q q2 Q S).
Qed.
Lemma endless_neq fuel g : g_end g = zlen s -> endless (g_where g) -> gi_neq fuel (utf8_ops mem) g (the_end s) <> Ok false.
Proof.
  intros G Q. unfold gi_neq, gi_eq. rewrite G, (endless_eq _ Q). cbn [bind].
  pose proof (endless_eq_loop fuel (g_eog g) _ Q) as N. destruct (gi_eq_loop fuel (utf8_ops mem) (g_eog g) (g_where g) (the_end s)) as [[]|u|]; cbn [bind]; try discriminate.
  congruence.
Qed.
Lemma endless_iterate fuel0 : forall fuel g gs, g_end g = zlen s -> endless (g_where g) -> endless (g_eog g) ->
  iterate_graphemes fuel0 fuel (utf8_ops mem) g (the_end s) <> Ok gs.
Proof.
  induction fuel as [|f IH]; intros g gs G Q Q'; [discriminate|]. cbn [iterate_graphemes]. pose proof (endless_neq fuel0 g G Q) as N.
  destruct (gi_neq fuel0 (utf8_ops mem) g (the_end s)) as [[]|u|]; cbn [bind]; try discriminate; [|congruence].
  unfold gi_deref. destruct (iterate_codepoints_for fuel0 (utf8_ops mem) (g_where g) (g_eog g)); cbn [bind]; try discriminate.
  unfold gi_step, gi_postinc, gi_inc. rewrite G.
  destruct (find_end_of_grapheme fuel0 (utf8_ops mem) (zlen s) (g_eog g)) as [x|u|] eqn:E; cbn [bind]; try discriminate.
  pose proof (endless_find fuel0 _ x Q' E) as Qx.
  match goal with |- context [iterate_graphemes fuel0 f (utf8_ops mem) ?h (the_end s)] => pose proof (fun l => IH h l eq_refl Q' Qx) as IH'; destruct (iterate_graphemes fuel0 f (utf8_ops mem) h (the_end s)) end;
    cbn [bind]; try discriminate. intros _. eapply IH'. reflexivity.
Qed.
Lemma endless_graphemes fuel : (forall rs, ~ forward_walk mem (zlen s) 0 rs) -> graphemes fuel (utf8_ops mem) 0 (zlen s) = OutOfFuel.
Proof.
  intros N. assert (Q : endless 0) by (split; [unfold zlen; lia|assumption]).
  pose proof (graphemes_safe s mem (byte_env_string s U (octet_string_first s C0)) fuel HE) as S.
  destruct (graphemes fuel (utf8_ops mem) 0 (zlen s)) as [gs|u|] eqn:G; [exfalso|destruct (S u eq_refl)|reflexivity].
  unfold graphemes, grapheme_begin, gi_make2 in G. destruct fuel as [|f]; [destruct (find_end_of_grapheme 0 _ _ _); cbn [bind] in G; try discriminate;
    destruct (grapheme_end 0 (utf8_ops mem) 0 (zlen s)); discriminate|].
  destruct (find_end_of_grapheme (Datatypes.S f) (utf8_ops mem) (zlen s) 0) as [x|u|] eqn:E; cbn [bind] in G; try discriminate.
  pose proof (endless_find _ 0 x Q E) as Qx. rewrite HE in G. cbn [bind] in G. eapply (endless_iterate (Datatypes.S f) (Datatypes.S f)); [| | |exact G]; (reflexivity || assumption).
Qed.
End Result.

(** ** Normalization, grapheme by grapheme, whatever the iterators do *)
Lemma filter_by_values {Out} ops (f : Z -> Out -> res (Z * Out)) : forall fuel q q' g o c,
  iterate_codepoints_for fuel ops q q' = Ok g ->
  filter_loop fuel (op_neq ops) (op_deref ops) (op_step ops) f q q' o c = one_by_one f g o c.
Proof.
  induction fuel as [|k IH]; intros q q' g o c X; [discriminate|]. cbn [iterate_codepoints_for filter_loop] in *.
  destruct (op_neq ops q q') as [[]|u|]; cbn [bind] in *; try discriminate; [|injection X as <-; reflexivity].
  destruct (op_deref ops q) as [[v q1]|u|]; cbn [bind] in *; try discriminate.
  destruct (op_step ops q1) as [q2|u|] eqn:S; cbn [bind] in *; try discriminate.
  destruct (iterate_codepoints_for k ops q2 q') as [r|u|] eqn:R; cbn [bind] in *; try discriminate. injection X as <-. cbn [one_by_one].
  destruct (f v o) as [[m o']|u|]; cbn [bind]; try reflexivity. destruct (int_add c m) as [c'|u|]; cbn [bind]; try reflexivity.
  apply IH. assumption.
Qed.
Lemma filter_by_graphemes {Out} ops fuel0 (f : Z * Z -> Out -> res (Z * Out)) (h : list Z -> Out -> res (Z * Out)) E :
  (forall q q' g o, iterate_codepoints_for fuel0 ops q q' = Ok g -> f (q, q') o = h g o) ->
  forall fuel g gs o c, iterate_graphemes fuel0 fuel ops g E = Ok gs ->
  filter_loop fuel (gi_neq fuel0 ops) (fun g => Ok (gi_deref g, g)) (gi_step fuel0 ops) f g E o c = one_by_one h gs o c.
Proof.
  intros H. induction fuel as [|k IH]; intros g gs o c X; [discriminate|]. cbn [iterate_graphemes filter_loop] in *.
  destruct (gi_neq fuel0 ops g E) as [[]|u|]; cbn [bind] in *; try discriminate; [|injection X as <-; reflexivity].
  unfold gi_deref in *. destruct (iterate_codepoints_for fuel0 ops (g_where g) (g_eog g)) as [l|u|] eqn:I; cbn [bind] in X; try discriminate.
  rewrite (H _ _ l o I). destruct (gi_step fuel0 ops g) as [g'|u|]; cbn [bind] in *; try discriminate.
  destruct (iterate_graphemes fuel0 k ops g' E) as [r|u|] eqn:R; cbn [bind] in *; try discriminate. injection X as <-. cbn [one_by_one].
  destruct (h l o) as [[m o']|u|]; cbn [bind]; try reflexivity. destruct (int_add c m) as [c'|u|]; cbn [bind]; try reflexivity.
  apply IH. assumption.
Qed.
Lemma utf32_values g fuel : (length g < fuel)%nat -> iterate_codepoints_for fuel (utf32_ops (string_buffer g)) 0 (zlen g) = Ok g.
Proof.
  assert (H : forall k i, (i + k = length g)%nat -> forall fuel, (k < fuel)%nat ->
    iterate_codepoints_for fuel (utf32_ops (string_buffer g)) (Z.of_nat i) (zlen g) = Ok (skipn i g)).
  { pose proof (utf32_forward g) as F. induction k as [|k IH]; intros i Hi f Hf; (destruct f as [|f]; [lia|]); cbn [iterate_codepoints_for]; unfold op_neq;
      rewrite (fw_end _ _ _ _ F i) by lia; cbn [bind].
    - replace (i =? length g)%nat with true by lia. cbn [negb]. rewrite skipn_all2 by lia. reflexivity.
    - replace (i =? length g)%nat with false by lia. cbn [negb]. destruct (nth_lt_some g i ltac:(lia)) as [v Ev].
      rewrite (fw_deref _ _ _ _ F i v Ev). cbn [bind]. rewrite (fw_step _ _ _ _ F i) by lia. cbn [bind]. rewrite (IH (S i)) by lia. cbn [bind]. f_equal.
      clear - Ev. revert i Ev. induction g as [|x l IH]; intros [|i] Ev; try discriminate; [injection Ev as ->; reflexivity|]. cbn [skipn]. apply IH. assumption. }
  intros Hf. exact (H (length g) 0%nat eq_refl fuel Hf).
Qed.
Lemma form_by_values F listed sort append fuel fuel' ops ops' q q' p p' g o : form_of F listed ->
  iterate_codepoints_for fuel ops q q' = Ok g -> iterate_codepoints_for fuel' ops' p p' = Ok g ->
  F sort append fuel ops (q, q') o = F sort append fuel' ops' (p, p') o.
Proof.
  intros FO X Y.
  destruct FO; unfold normalization_form_d, normalization_form_c, normalization_form_kd, normalization_form_kc,
    form_decomposed, form_composed, decompose_grapheme, filter_codepoints, filter; cbn [fst snd];
    rewrite (filter_by_values ops _ fuel q q' g [] 0 X), (filter_by_values ops' _ fuel' p p' g [] 0 Y); reflexivity.
Qed.
Lemma iterate_length ops : forall fuel q q' g, iterate_codepoints_for fuel ops q q' = Ok g -> (length g < fuel)%nat.
Proof.
  induction fuel as [|k IH]; intros q q' g X; [discriminate|]. cbn [iterate_codepoints_for] in X.
  destruct (op_neq ops q q') as [[]|u|]; cbn [bind] in X; try discriminate; [|injection X as <-; cbn; lia].
  destruct (op_deref ops q) as [[v q1]|u|]; cbn [bind] in X; try discriminate. destruct (op_step ops q1) as [q2|u|]; cbn [bind] in X; try discriminate.
  destruct (iterate_codepoints_for k ops q2 q') as [r|u|] eqn:R; cbn [bind] in X; try discriminate. injection X as <-. cbn [length].
  pose proof (IH q2 q' r R). lia.
Qed.
Lemma normalize_by_graphemes F listed sort append fuel ops b e out gs : form_of F listed ->
  graphemes fuel ops b e = Ok gs ->
  normalize fuel ops (F sort append fuel ops) b e out =
  one_by_one (fun g o => F sort append fuel (utf32_ops (string_buffer g)) (0, zlen g) o) gs out 0.
Proof.
  intros FO G. unfold graphemes, normalize in *. destruct (grapheme_begin fuel ops b e) as [from|u|]; cbn [bind] in *; try discriminate.
  destruct (grapheme_end fuel ops b e) as [to|u|]; cbn [bind] in *; try discriminate. unfold filter_graphemes, filter.
  apply (filter_by_graphemes ops fuel _ _ to); [|assumption]. intros q q' g o I.
  apply (form_by_values F listed sort append fuel fuel ops _ q q' 0 (zlen g) g o FO I). apply utf32_values. apply (iterate_length ops fuel q q' g I).
Qed.
