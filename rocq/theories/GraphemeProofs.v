(** * Proofs: grapheme iteration over lawful codepoint iterators *)
From Verif Require Import Prelude DataTables PropsModel Utf8Model TextModel Utf8Spec PropsProofs
  Utf8Proofs LawfulProofs.
Require Import ZifyBool ZifyNat.

(** lia without the universally quantified hypotheses (it is slow with them). *)
Ltac nlia := repeat match goal with
  | H : forall x, _ |- _ => match type of H with ?T => match type of T with Prop => clear H end end
  end; lia.

Definition brk (a b : Z) : bool := boundary_chain (gcb_of a) (gcb_of b).
Lemma is_grapheme_boundary_eq a b : is_grapheme_boundary a b = Ok (brk a b).
Proof. unfold is_grapheme_boundary. rewrite !gcb_resolve. reflexivity. Qed.

(** Functional segmentation. *)
Fixpoint seg (cs : list Z) : list (list Z) :=
  match cs with
  | [] => []
  | a :: t =>
      match t with
      | [] => [[a]]
      | b :: _ => if brk a b then [a] :: seg t
                  else match seg t with g :: gs => (a :: g) :: gs | [] => [[a]] end
      end
  end.
Lemma seg_cons a t : exists g gs, seg (a :: t) = (a :: g) :: gs.
Proof.
  destruct t as [|b t]; [exists [], []; reflexivity|].
  change (seg (a :: b :: t)) with (if brk a b then [a] :: seg (b :: t)
    else match seg (b :: t) with g :: gs => (a :: g) :: gs | [] => [[a]] end).
  destruct (brk a b); [eauto|]. destruct (seg (b :: t)); eauto.
Qed.
Lemma seg_cons2 a b t : seg (a :: b :: t) =
  if brk a b then [a] :: seg (b :: t)
  else match seg (b :: t) with g :: gs => (a :: g) :: gs | [] => [[a]] end.
Proof. reflexivity. Qed.
Lemma seg_concat cs : concat (seg cs) = cs.
Proof.
  induction cs as [|a [|b t] IH]; [reflexivity|reflexivity|]. rewrite seg_cons2.
  destruct (brk a b); [cbn [concat app]; rewrite IH; reflexivity|].
  destruct (seg_cons b t) as (g & gs & E). rewrite E in *. cbn [concat app] in *. congruence.
Qed.
Lemma seg_nonempty cs : Forall (fun g => g <> []) (seg cs).
Proof.
  induction cs as [|a [|b t] IH]; [constructor|repeat constructor; discriminate|]. rewrite seg_cons2.
  destruct (brk a b); [constructor; [discriminate|assumption]|].
  destruct (seg_cons b t) as (g & gs & E). rewrite E in *. inversion IH; subst. constructor; [discriminate|assumption].
Qed.
Lemma seg_inside cs : forall g l a b r, In g (seg cs) -> g = l ++ a :: b :: r -> brk a b = false.
Proof.
  induction cs as [|x [|y t] IH]; intros g l a b r Hg Eg; [destruct Hg| |].
  - cbn in Hg. destruct Hg as [<-|[]]. destruct l as [|? [|]]; discriminate.
  - rewrite seg_cons2 in Hg. destruct (brk x y) eqn:B.
    + destruct Hg as [<-|Hg]; [destruct l as [|? [|]]; discriminate|]. eapply IH; eassumption.
    + destruct (seg_cons y t) as (h & hs & E). rewrite E in Hg.
      destruct Hg as [<-|Hg].
      * destruct l as [|z l].
        -- injection Eg as <- E2 E3. subst. exact B.
        -- injection Eg as <- Eg. eapply IH; [rewrite E; left; reflexivity|eassumption].
      * eapply IH; [rewrite E; right; eassumption|eassumption].
Qed.
Lemma seg_between cs : forall G1 g h G2 l a b r,
  seg cs = G1 ++ g :: h :: G2 -> g = l ++ [a] -> h = b :: r -> brk a b = true.
Proof.
  induction cs as [|x [|y t] IH]; intros G1 g h G2 l a b r E Eg Eh.
  - destruct G1; discriminate.
  - destruct G1 as [|? [|? []]]; discriminate.
  - rewrite seg_cons2 in E. destruct (seg_cons y t) as (h' & hs & Es). rewrite Es in *.
    destruct (brk x y) eqn:B.
    + destruct G1 as [|g1 G1]; cbn [app] in E.
      * assert (E1 : [x] = g) by congruence. assert (E2 : y :: h' = h) by congruence. rewrite <- E1 in Eg.
        destruct l as [|? [|]]; try discriminate. cbn [app] in Eg. assert (x = a) by congruence. assert (y = b) by congruence.
        subst. exact B.
      * apply (IH G1 g h G2 l a b r); [congruence|assumption|assumption].
    + destruct G1 as [|g1 G1]; cbn [app] in E.
      * assert (E1 : x :: y :: h' = g) by congruence. assert (E2 : hs = h :: G2) by congruence.
        rewrite <- E1 in Eg. destruct l as [|z l]; [discriminate|]. cbn [app] in Eg.
        eapply (IH [] (y :: h') h G2 l a b r); [cbn; congruence|congruence|assumption].
      * assert (E2 : hs = G1 ++ g :: h :: G2) by congruence.
        eapply (IH ((y :: h') :: G1)); [rewrite E2; reflexivity|eassumption|eassumption].
Qed.
Lemma seg_length cs : (length (seg cs) <= length cs)%nat.
Proof.
  induction cs as [|x [|y t] IH]; [reflexivity|reflexivity|]. rewrite seg_cons2.
  destruct (brk x y); [cbn [length] in *; lia|].
  destruct (seg_cons y t) as (h' & hs & Es). rewrite Es in *. cbn [length] in *. lia.
Qed.

(** ** End of a grapheme *)
Section Lawful.
Context (ops : cp_ops) (all : list Z) (pos : nat -> Z) (inside : nat -> Z -> Prop).
Context (L : lawful ops all pos inside).
Context (n : nat) (Hn : (n < length all)%nat).
Context (e : Z) (He : inside n e).

Definition brk_at (k : nat) : bool := brk (nth (k - 1) all 0) (nth k all 0).
Definition is_end (i j : nat) : Prop :=
  (i < j <= n)%nat /\ (forall k, (i < k < j)%nat -> brk_at k = false) /\
  (j = n \/ brk_at j = true).

Lemma nth_all i : (i < length all)%nat -> nth_error all i = Some (nth i all 0).
Proof. intros H. apply nth_error_nth'. assumption. Qed.

Lemma find_end_loop_ok : forall m i p fuel, (n - i = m)%nat -> (0 < i <= n)%nat -> inside i p ->
  (i = n -> p = pos n) -> (m < fuel)%nat ->
  exists j, (i <= j <= n)%nat /\ (forall k, (i <= k < j)%nat -> brk_at k = false) /\
    (j = n \/ brk_at j = true) /\
    find_end_loop fuel ops e (nth (i - 1) all 0) p = Ok (pos j).
Proof.
  induction m as [|m IH]; intros i p fuel Hm Hi Hp Hpn Hf; (destruct fuel as [|fuel]; [lia|]); cbn [find_end_loop];
    rewrite (lw_eq _ _ _ _ L i n p e) by (assumption || lia); cbn [bind].
  - exists n. replace (Nat.eqb i n) with true by (symmetry; apply Nat.eqb_eq; lia).
    rewrite Hpn by lia.
    split; [lia|]. split; [intros; lia|]. split; [left; reflexivity|reflexivity].
  - destruct (Nat.eqb_spec i n); [lia|].
    rewrite (lw_deref _ _ _ _ L i p _ (nth_all i ltac:(lia)) Hp). cbn [bind].
    rewrite is_grapheme_boundary_eq. cbn [bind]. fold (brk_at i). destruct (brk_at i) eqn:B.
    + exists i. split; [lia|]. split; [intros; lia|]. split; [right; assumption|reflexivity].
    + assert (Hpi : inside i (pos i)) by (apply (lw_pos _ _ _ _ L); lia).
      rewrite (lw_step _ _ _ _ L i (pos i)) by (assumption || lia). cbn [bind].
      destruct (IH (S i) (pos (S i)) fuel) as (j & J1 & J2 & J3 & J4);
        [lia|lia|apply (lw_pos _ _ _ _ L); lia|congruence|lia|].
      exists j. split; [lia|]. split; [|split; [assumption|]].
      * intros k Hk. destruct (Nat.eq_dec k i) as [->|]; [assumption|]. apply J2. lia.
      * replace (S i - 1)%nat with i in J4 by lia. exact J4.
Qed.
Lemma find_end_ok i p fuel : (i < n)%nat -> inside i p -> (n - i <= fuel)%nat ->
  exists j, is_end i j /\ find_end_of_grapheme fuel ops e p = Ok (pos j).
Proof.
  intros Hi Hp Hf. unfold find_end_of_grapheme.
  rewrite (lw_eq _ _ _ _ L i n p e) by (assumption || lia). cbn [bind].
  destruct (Nat.eqb_spec i n); [lia|].
  rewrite (lw_deref _ _ _ _ L i p _ (nth_all i ltac:(lia)) Hp). cbn [bind].
  assert (Hpi : inside i (pos i)) by (apply (lw_pos _ _ _ _ L); lia).
  rewrite (lw_step _ _ _ _ L i (pos i)) by (assumption || lia). cbn [bind].
  destruct (find_end_loop_ok (n - S i) (S i) (pos (S i)) fuel) as (j & J1 & J2 & J3 & J4);
    [lia|lia|apply (lw_pos _ _ _ _ L); lia|congruence|lia|].
  replace (S i - 1)%nat with i in J4 by lia.
  exists j. split; [|exact J4]. split; [lia|]. split; [intros; apply J2; lia|assumption].
Qed.
Lemma find_end_at_end p fuel : inside n p -> find_end_of_grapheme fuel ops e p = Ok p.
Proof.
  intros Hp. unfold find_end_of_grapheme. rewrite (lw_eq _ _ _ _ L n n p e) by assumption. cbn [bind].
  rewrite Nat.eqb_refl. reflexivity.
Qed.
Lemma is_end_unique i j j' : is_end i j -> is_end i j' -> j = j'.
Proof.
  intros (A & B & C) (A' & B' & C').
  destruct (Nat.lt_trichotomy j j') as [H|[H|H]]; [|assumption|].
  - specialize (B' j ltac:(lia)). destruct C; [lia|congruence].
  - specialize (B j' ltac:(lia)). destruct C'; [lia|congruence].
Qed.
Lemma is_end_exists i : (i < n)%nat -> exists j, is_end i j.
Proof.
  intros Hi. destruct (find_end_ok i (pos i) (S n)) as (j & J & _); [assumption| |lia|eauto].
  apply (lw_pos _ _ _ _ L). lia.
Qed.
(** Scanning from anywhere inside a grapheme finds its end. *)
Lemma is_end_inner i k j : is_end i j -> (i <= k < j)%nat -> is_end k j.
Proof. intros (A & B & C) H. split; [lia|]. split; [intros; apply B; lia|assumption]. Qed.

Lemma seg_step : forall m i j, (j - i = m)%nat -> is_end i j ->
  seg (sub all i n) = sub all i j :: seg (sub all j n).
Proof.
  induction m as [|m IH]; intros i j Hm HJ; [destruct HJ; nlia|].
  destruct (nth_lt_some all i) as [a Ea]; [destruct HJ; nlia|].
  pose proof (nth_error_nth all i 0 Ea) as Na.
  assert (HI : (i < j <= n)%nat) by (destruct HJ; assumption).
  rewrite (sub_cons all i n a), (sub_cons all i j a) by (assumption || nlia).
  destruct (Nat.eq_dec (S i) j) as [EJ|Hne].
  - replace (sub all (S i) j) with (@nil Z) by (rewrite EJ, sub_nil; reflexivity).
    destruct (Nat.eq_dec j n) as [->|Hjn]; [rewrite EJ, sub_nil; reflexivity|].
    destruct HJ as (_ & _ & [B|B]); [contradiction|].
    destruct (nth_lt_some all j) as [b Eb]; [nlia|]. pose proof (nth_error_nth all j 0 Eb) as Nb.
    rewrite EJ. rewrite (sub_cons all j n b) by (assumption || nlia). rewrite seg_cons2.
    unfold brk_at in B. replace (j - 1)%nat with i in B by nlia. rewrite Na, Nb in B. rewrite B. reflexivity.
  - assert (HJ' : is_end (S i) j) by (apply (is_end_inner i); [assumption|nlia]).
    specialize (IH (S i) j ltac:(nlia) HJ').
    destruct (nth_lt_some all (S i)) as [b Eb]; [nlia|]. pose proof (nth_error_nth all (S i) 0 Eb) as Nb.
    assert (B : brk a b = false).
    { destruct HJ as (_ & B & _). specialize (B (S i) ltac:(nlia)). unfold brk_at in B.
      replace (S i - 1)%nat with i in B by nlia. rewrite Na, Nb in B. exact B. }
    rewrite (sub_cons all (S i) n b) by (assumption || nlia). rewrite seg_cons2, B.
    rewrite (sub_cons all (S i) n b) in IH by (assumption || nlia). rewrite IH. reflexivity.
Qed.

(** ** Equality with a codepoint iterator *)
Lemma gi_eq_cp_loop_ok : forall m i j k p pj q fuel, (j - i = m)%nat -> (i <= j <= n)%nat -> (k <= n)%nat ->
  inside i p -> inside j pj -> inside k q -> (m < fuel)%nat ->
  gi_eq_cp_loop fuel ops pj p q = Ok ((i <=? k)%nat && (k <? j)%nat).
Proof.
  induction m as [|m IH]; intros i j k p pj q fuel Hm Hij Hk Hp Hpj Hq Hf;
    (destruct fuel as [|fuel]; [lia|]); cbn [gi_eq_cp_loop];
    rewrite (lw_eq _ _ _ _ L i j p pj) by (assumption || lia); cbn [bind].
  - destruct (Nat.eqb_spec i j); [|lia]. f_equal. lia.
  - destruct (Nat.eqb_spec i j); [lia|].
    rewrite (lw_eq _ _ _ _ L i k p q) by (assumption || lia). cbn [bind].
    destruct (Nat.eqb_spec i k); [f_equal; lia|].
    rewrite (lw_step _ _ _ _ L i p) by (assumption || lia). cbn [bind].
    rewrite (IH (S i) j k (pos (S i)) pj q fuel); try assumption; try lia; [f_equal; lia|].
    apply (lw_pos _ _ _ _ L). lia.
Qed.

(** An iterator standing on the codepoints [i, j). *)
Record at_ (g : gi) (i j : nat) : Prop := {
  at_where : inside i (g_where g);
  at_eog : inside j (g_eog g);
  at_end : inside n (g_end g);
  at_le : (i <= j <= n)%nat
}.
Lemma gi_eq_cp_ok g i j k q fuel : at_ g i j -> (k <= n)%nat -> inside k q -> (j - i < fuel)%nat ->
  gi_eq_cp fuel ops g q = Ok ((i =? k)%nat || ((i <=? k)%nat && (k <? j)%nat)).
Proof.
  intros G Hk Hq Hf. pose proof (at_le _ _ _ G). unfold gi_eq_cp.
  rewrite (lw_eq _ _ _ _ L i k (g_where g) q) by (try assumption; try lia; apply G). cbn [bind].
  destruct (Nat.eqb_spec i k); [reflexivity|]. cbn [orb].
  apply (gi_eq_cp_loop_ok (j - i)); try assumption; try lia; apply G.
Qed.
Lemma gi_eq_loop_ok g' i' j' : at_ g' i' j' ->
  forall m i j p pj fuel, (j - i = m)%nat -> (i <= j <= n)%nat -> inside i p -> inside j pj ->
  (m + (j' - i') < fuel)%nat ->
  exists b, gi_eq_loop fuel ops pj p g' = Ok b /\
    (b = true <-> exists k, (i <= k < j)%nat /\ (k = i' \/ (i' <= k < j')%nat)).
Proof.
  intros G'. induction m as [|m IH]; intros i j p pj fuel Hm Hij Hp Hpj Hf; (destruct fuel as [|fuel]; [lia|]);
    cbn [gi_eq_loop]; rewrite (lw_eq _ _ _ _ L i j p pj) by (assumption || lia); cbn [bind].
  - destruct (Nat.eqb_spec i j); [|lia]. exists false. split; [reflexivity|].
    split; [discriminate|intros (k & Hk & _); lia].
  - destruct (Nat.eqb_spec i j); [lia|].
    rewrite (gi_eq_cp_ok g' i' j' i p (S fuel) G') by (assumption || lia). cbn [bind].
    destruct ((i' =? i)%nat || ((i' <=? i)%nat && (i <? j')%nat))%bool eqn:T.
    + exists true. split; [reflexivity|]. split; [intros _; exists i; lia|reflexivity].
    + rewrite (lw_step _ _ _ _ L i p) by (assumption || lia). cbn [bind].
      destruct (IH (S i) j (pos (S i)) pj fuel) as (b & E & B); try assumption; try lia.
      { apply (lw_pos _ _ _ _ L). lia. }
      exists b. split; [exact E|]. rewrite B. split; intros (k & Hk & K); exists k; lia.
Qed.
(** gi_eq on iterators of the same text *)
Lemma gi_eq_ok g i j g' i' j' fuel : at_ g i j -> at_ g' i' j' -> (j - i + (j' - i') < fuel)%nat ->
  exists b, gi_eq fuel ops g g' = Ok b /\
    (b = true <-> (i = n /\ (i' = n \/ (i' <= n < j')%nat)) \/
       exists k, (i <= k < j)%nat /\ (k = i' \/ (i' <= k < j')%nat)).
Proof.
  intros G G' Hf. pose proof (at_le _ _ _ G). pose proof (at_le _ _ _ G'). unfold gi_eq.
  rewrite (lw_eq _ _ _ _ L i n (g_where g) (g_end g)) by (try apply G; lia). cbn [bind].
  destruct (gi_eq_loop_ok g' i' j' G' (j - i) i j (g_where g) (g_eog g) fuel) as (b & E & B);
    try (apply G); try lia.
  destruct (Nat.eqb_spec i n) as [->|Hin].
  - rewrite (gi_eq_cp_ok g' i' j' n (g_end g) fuel) by (try assumption; try lia; apply G). cbn [bind].
    destruct ((i' =? n)%nat || _)%bool eqn:T.
    + exists true. split; [reflexivity|]. split; [intros _; left; lia|reflexivity].
    + exists b. split; [assumption|]. rewrite B. split; [intros (k & K); right; exists k; assumption|].
      intros [K|K]; [lia|assumption].
  - cbn [bind]. exists b. split; [assumption|]. rewrite B. split; [intros K; right; assumption|].
    intros [K|K]; [lia|assumption].
Qed.

(** ** Iteration *)
Definition on (g : gi) (i : nat) : Prop :=
  g_where g = pos i /\ g_end g = e /\ (i <= n)%nat /\
  ((i < n)%nat -> exists j, is_end i j /\ g_eog g = pos j) /\
  (i = n -> g_eog g = pos n).
Lemma on_at g i : on g i -> exists j, at_ g i j /\ ((i < n)%nat -> is_end i j) /\ (i = n -> j = n).
Proof.
  intros (W & E & Hi & A & B). destruct (Nat.eq_dec i n) as [->|Hne].
  - exists n. split; [|split; [nlia|reflexivity]]. constructor.
    + rewrite W. apply (lw_pos _ _ _ _ L). assumption.
    + rewrite (B eq_refl). apply (lw_pos _ _ _ _ L). assumption.
    + rewrite E. assumption.
    + nlia.
  - destruct (A ltac:(nlia)) as (j & J & Ej). exists j. split; [|split; [intros; assumption|nlia]].
    pose proof J as ((J1 & J2) & _). constructor.
    + rewrite W. apply (lw_pos _ _ _ _ L). nlia.
    + rewrite Ej. apply (lw_pos _ _ _ _ L). nlia.
    + rewrite E. assumption.
    + nlia.
Qed.
Lemma gi_inc_ok g i j fuel : on g i -> is_end i j -> (n - j <= fuel)%nat ->
  exists g', gi_inc fuel ops g = Ok g' /\ on g' j.
Proof.
  intros (W & E & Hi & A & B) J Hf. pose proof J as ((J1 & J2) & _).
  destruct (A ltac:(nlia)) as (j' & J' & Ej). assert (j' = j) by exact (is_end_unique i j' j J' J). subst j'.
  assert (Hpj : inside j (pos j)) by (apply (lw_pos _ _ _ _ L); nlia).
  unfold gi_inc. rewrite E, Ej. destruct (Nat.eq_dec j n) as [->|Hne].
  - rewrite find_end_at_end by assumption. cbn [bind]. eexists. split; [reflexivity|].
    unfold on. cbn [g_where g_end g_eog]. repeat split; try nlia.
  - destruct (find_end_ok j (pos j) fuel) as (k & K & ->); [nlia|assumption|assumption|]. cbn [bind].
    eexists. split; [reflexivity|]. unfold on. cbn [g_where g_end g_eog]. repeat split; try nlia.
    intros _. exists k. auto.
Qed.
(** The end iterator: any iterator standing at [n]. *)
Definition at_the_end (g : gi) : Prop := inside n (g_where g) /\ inside n (g_eog g) /\ inside n (g_end g).
Lemma neq_end g i ge fuel : on g i -> at_the_end ge -> (n < fuel)%nat ->
  gi_neq fuel ops g ge = Ok (negb (i =? n)%nat).
Proof.
  intros G (E1 & E2 & E3) Hf. destruct (on_at g i G) as (j & A & J & Jn). pose proof (at_le _ _ _ A).
  assert (A' : at_ ge n n) by (constructor; try assumption; nlia).
  unfold gi_neq. destruct (gi_eq_ok g i j ge n n fuel A A' ltac:(nlia)) as (b & -> & B). cbn [bind].
  f_equal. f_equal. destruct (Nat.eqb_spec i n) as [Q|Q].
  - apply B. left. split; [assumption|]. left. reflexivity.
  - destruct b; [|reflexivity]. exfalso. destruct (proj1 B eq_refl) as [K|(k & K1 & K2)]; [nlia|].
    pose proof (J ltac:(nlia)) as ((_ & ?) & _). nlia.
Qed.
Lemma gi_step_ok g i j fuel : on g i -> is_end i j -> (n - j <= fuel)%nat ->
  exists g', gi_step fuel ops g = Ok g' /\ on g' j.
Proof.
  intros G J F. destruct (gi_inc_ok g i j fuel G J F) as (g' & E & G'). exists g'. split; [|assumption].
  unfold gi_step, gi_postinc. rewrite E. reflexivity.
Qed.
Lemma iterate_graphemes_ok ge fuel0 : at_the_end ge -> (n < fuel0)%nat ->
  forall m i g fuel, (n - i <= m)%nat -> on g i -> (m < fuel)%nat ->
  iterate_graphemes fuel0 fuel ops g ge = Ok (seg (sub all i n)).
Proof.
  intros E Hf0. induction m as [|m IH]; intros i g fuel Hm G Hf; (destruct fuel as [|fuel]; [nlia|]);
    cbn [iterate_graphemes]; rewrite (neq_end g i ge) by assumption; cbn [bind];
    pose proof G as (W & En & Hi & A & B).
  - assert (i = n) by nlia. subst i. rewrite Nat.eqb_refl, sub_nil. reflexivity.
  - destruct (Nat.eqb_spec i n) as [->|Hne]; [rewrite sub_nil; reflexivity|]. cbn [negb].
    destruct (A ltac:(nlia)) as (j & J & Ej). pose proof J as ((J1 & J2) & _).
    unfold gi_deref. rewrite W, Ej.
    rewrite (iterate_for_lawful _ _ _ _ L (j - i) i j);
      [|nlia|nlia|apply (lw_pos _ _ _ _ L); nlia|apply (lw_pos _ _ _ _ L); nlia|nlia].
    cbn [bind]. destruct (gi_step_ok g i j fuel0 G J ltac:(nlia)) as (g' & -> & G'). cbn [bind].
    rewrite (IH j g' fuel) by (assumption || nlia). cbn [bind].
    rewrite (seg_step (j - i) i j eq_refl J). reflexivity.
Qed.
Lemma grapheme_begin_ok b fuel : b = pos 0 -> (n <= fuel)%nat ->
  exists g, grapheme_begin fuel ops b e = Ok g /\ on g 0.
Proof.
  intros -> Hf. unfold grapheme_begin, gi_make2.
  assert (H0 : inside 0 (pos 0)) by (apply (lw_pos _ _ _ _ L); nlia).
  destruct (Nat.eq_dec n 0) as [N|N].
  - assert (HN : inside n (pos 0)) by (rewrite N; assumption).
    rewrite (find_end_at_end (pos 0) fuel HN). cbn [bind]. eexists. split; [reflexivity|].
    unfold on. cbn [g_where g_end g_eog].
    split; [reflexivity|]. split; [reflexivity|]. split; [nlia|]. split; [nlia|]. intros _. rewrite N. reflexivity.
  - destruct (find_end_ok 0 (pos 0) fuel) as (j & J & ->); [nlia|assumption|nlia|]. cbn [bind].
    eexists. split; [reflexivity|]. unfold on. cbn [g_where g_end g_eog]. repeat split; try nlia. intros _. eauto.
Qed.

(** ** find_start_of_grapheme: the exact result *)
Definition rev_brk_at (k : nat) : bool := brk (nth (S k) all 0) (nth k all 0).
Definition is_start (i s : nat) : Prop :=
  if (i =? 0)%nat then s = 0%nat else
  if brk_at i then s = i else
  (s < i)%nat /\ (s = 0%nat \/ rev_brk_at s = true) /\ (forall k, (s < k < i)%nat -> rev_brk_at k = false).
Lemma find_start_loop_ok b : inside 0 b ->
  forall i p fuel, (i < n)%nat -> inside i p -> (i = 0%nat -> p = pos 0) -> (i < fuel)%nat ->
  exists s, (s <= i)%nat /\ (s = 0%nat \/ rev_brk_at s = true) /\ (forall k, (s < k <= i)%nat -> rev_brk_at k = false) /\
    find_start_loop fuel ops b (nth (S i) all 0) p = Ok (pos s).
Proof.
  intros Hb. induction i as [|i IH]; intros p fuel Hi Hp Hp0 Hf; (destruct fuel as [|fuel]; [nlia|]); cbn [find_start_loop].
  - rewrite (lw_eq _ _ _ _ L 0 0 p b) by (assumption || nlia). cbn [bind Nat.eqb].
    exists 0%nat. rewrite Hp0 by reflexivity. split; [nlia|]. split; [left; reflexivity|]. split; [intros; nlia|reflexivity].
  - rewrite (lw_eq _ _ _ _ L (S i) 0 p b) by (assumption || nlia). cbn [bind Nat.eqb].
    rewrite (lw_deref _ _ _ _ L (S i) p _ (nth_all (S i) ltac:(nlia)) Hp). cbn [bind].
    rewrite is_grapheme_boundary_eq. cbn [bind]. fold (rev_brk_at (S i)). destruct (rev_brk_at (S i)) eqn:B.
    + exists (S i). split; [nlia|]. split; [right; assumption|]. split; [intros; nlia|reflexivity].
    + assert (Hpi : inside (S i) (pos (S i))) by (apply (lw_pos _ _ _ _ L); nlia).
      rewrite (lw_dec _ _ _ _ L i (pos (S i))) by (assumption || nlia). cbn [bind].
      destruct (IH (pos i) fuel) as (s & S1 & S2 & S3 & S4); [nlia|apply (lw_pos _ _ _ _ L); nlia|intros ->; reflexivity|nlia|].
      exists s. split; [nlia|]. split; [assumption|]. split; [|exact S4].
      intros k Hk. destruct (Nat.eq_dec k (S i)) as [->|]; [assumption|apply S3; nlia].
Qed.
Lemma find_start_ok b i p fuel : inside 0 b -> b = pos 0 -> (i <= n)%nat -> inside i p -> (i = 0%nat -> p = pos 0) ->
  (i < fuel)%nat ->
  exists s, is_start i s /\ find_start_of_grapheme fuel ops b p = Ok (pos s).
Proof.
  intros Hb Eb Hi Hp Hp0 Hf. unfold find_start_of_grapheme, is_start.
  rewrite (lw_eq _ _ _ _ L i 0 p b) by (assumption || nlia). cbn [bind].
  destruct i as [|i]; cbn [Nat.eqb].
  - exists 0%nat. rewrite Hp0 by reflexivity. split; reflexivity.
  - rewrite (lw_dec _ _ _ _ L i p) by (assumption || nlia). cbn [bind].
    assert (Hpi : inside i (pos i)) by (apply (lw_pos _ _ _ _ L); nlia).
    rewrite (lw_deref _ _ _ _ L i (pos i) _ (nth_all i ltac:(nlia)) Hpi). cbn [bind].
    destruct fuel as [|fuel]; [nlia|]. cbn [find_start_loop].
    rewrite (lw_eq _ _ _ _ L (S i) 0 p b) by (assumption || nlia). cbn [bind Nat.eqb].
    rewrite (lw_deref _ _ _ _ L (S i) p _ (nth_all (S i) ltac:(nlia)) Hp). cbn [bind].
    rewrite is_grapheme_boundary_eq. cbn [bind].
    assert (BQ : brk (nth i all 0) (nth (S i) all 0) = brk_at (S i)) by (unfold brk_at; f_equal; f_equal; nlia).
    rewrite BQ. destruct (brk_at (S i)) eqn:B.
    + exists (S i). split; reflexivity.
    + assert (HpS : inside (S i) (pos (S i))) by (apply (lw_pos _ _ _ _ L); nlia).
      rewrite (lw_dec _ _ _ _ L i (pos (S i))) by (assumption || nlia). cbn [bind].
      destruct (find_start_loop_ok b Hb i (pos i) fuel) as (s & S1 & S2 & S3 & S4); [nlia|assumption|intros ->; reflexivity|nlia|].
      exists s. split; [|exact S4]. split; [nlia|]. split; [assumption|]. intros. apply S3. nlia.
Qed.
Lemma grapheme_end_ok b fuel : b = pos 0 -> (n = 0%nat -> e = pos 0) -> (n < fuel)%nat ->
  exists s g, grapheme_end fuel ops b e = Ok g /\ is_start n s /\
    g_where g = pos s /\ g_eog g = e /\ g_end g = e.
Proof.
  intros -> E0 Hf. unfold grapheme_end, gi_make3.
  assert (H0 : inside 0 (pos 0)) by (apply (lw_pos _ _ _ _ L); nlia).
  destruct (find_start_ok (pos 0) n e fuel) as (s & S & ->); try assumption; try reflexivity. cbn [bind].
  rewrite find_end_at_end by assumption. cbn [bind]. exists s. eexists. split; [reflexivity|].
  cbn [g_where g_end g_eog]. auto.
Qed.
Lemma graphemes_ok b fuel : b = pos 0 -> (n = 0%nat -> e = pos 0) -> (n = 0%nat \/ brk_at n = true) ->
  (n < fuel)%nat -> graphemes fuel ops b e = Ok (seg (sub all 0 n)).
Proof.
  intros Eb E0 B Hf. unfold graphemes.
  destruct (grapheme_begin_ok b fuel Eb ltac:(nlia)) as (g & -> & G). cbn [bind].
  destruct (grapheme_end_ok b fuel Eb E0 Hf) as (s & ge & -> & S & W & Q & R). cbn [bind].
  assert (s = n).
  { unfold is_start in S. destruct (Nat.eqb_spec n 0) as [N|N]; [congruence|]. destruct B as [B|B]; [nlia|].
    rewrite B in S. assumption. }
  subst s. apply (iterate_graphemes_ok ge fuel) with (m := n); try assumption; [|nlia].
  split; [rewrite W; apply (lw_pos _ _ _ _ L); assumption|]. split; [rewrite Q; assumption|rewrite R; assumption].
Qed.
End Lawful.
