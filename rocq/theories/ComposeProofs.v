(** * Proofs: in-place canonical composition *)
From Verif Require Import Prelude DataTables PropsModel Utf8Model TextModel Utf8Spec UnicodeSpec
  PropsProofs DecompTables DecompProofs NormSpec.
Require Import ZifyBool ZifyNat.

(** The greedy composition as a function. *)
Fixpoint composeF (a : Z) (t : list Z) : list Z :=
  match t with
  | [] => [a]
  | b :: t => match comp a b with Some c => composeF c t | None => a :: composeF b t end
  end.
Definition compose (l : list Z) : list Z := match l with [] => [] | a :: t => composeF a t end.

Lemma comp_none a b : comp a b = None <-> forall c, ~ primary_composite a b c.
Proof.
  split.
  - intros E c P. apply comp_spec in P. congruence.
  - intros N. destruct (comp a b) as [c|] eqn:E; [|reflexivity]. apply comp_spec in E. exfalso. eapply N; eassumption.
Qed.
Lemma composeF_greedy t : forall a, greedy (a :: t) (composeF a t).
Proof.
  induction t as [|b t IH]; intros a; cbn [composeF]; [constructor|].
  destruct (comp a b) as [c|] eqn:E.
  - eapply greedy_compose; [apply comp_spec; eassumption|apply IH].
  - apply greedy_keep; [apply comp_none; assumption|apply IH].
Qed.
Lemma compose_greedy l : greedy l (compose l).
Proof. destruct l; [constructor|apply composeF_greedy]. Qed.
Lemma greedy_compose_eq l out : greedy l out -> out = compose l.
Proof.
  induction 1 as [|a|a b c t out P _ IH|a b t out N _ IH]; [reflexivity|reflexivity| |]; cbn [compose composeF] in *.
  - apply comp_spec in P. rewrite P. assumption.
  - apply comp_none in N. rewrite N. rewrite IH. reflexivity.
Qed.
Lemma composeF_length t : forall a, (1 <= length (composeF a t) <= S (length t))%nat.
Proof.
  induction t as [|b t IH]; intros a; cbn [composeF length]; [lia|].
  destruct (comp a b) as [c|]; [specialize (IH c); lia|]. cbn [length]. specialize (IH b). lia.
Qed.

(** ** The in-place loop *)
Lemma upd_app l : forall n x r v, length l = n -> upd (l ++ x :: r) n v = l ++ v :: r.
Proof. induction l as [|y l IH]; intros n x r v E; subst n; cbn; [reflexivity|]. rewrite IH; reflexivity. Qed.
Lemma rd_app l x r : rd (l ++ x :: r) (zlen l) = Ok x.
Proof.
  unfold rd, zlen. destruct (Z.ltb_spec (Z.of_nat (length l)) 0); [lia|].
  rewrite Nat2Z.id, nth_error_app2, Nat.sub_diag by lia. reflexivity.
Qed.
Lemma wr_app l x r v : wr (l ++ x :: r) (zlen l) v = Ok (l ++ v :: r).
Proof.
  unfold wr, zlen. rewrite app_length. cbn [length].
  destruct (Z.leb_spec 0 (Z.of_nat (length l))); [|lia].
  destruct (Z.ltb_spec (Z.of_nat (length l)) (Z.of_nat (length l + S (length r)))); [|lia].
  cbn [andb]. rewrite Nat2Z.id, upd_app; reflexivity.
Qed.
Lemma padd1 mem p : 0 <= p < zlen mem -> padd mem p 1 = Ok (p + 1).
Proof.
  intros H. unfold padd. destruct (Z.leb_spec 0 (p + 1)); [|lia]. destruct (Z.leb_spec (p + 1) (zlen mem)); [|lia]. reflexivity.
Qed.
Lemma zlen_app' {A} (l r : list A) : zlen (l ++ r) = zlen l + zlen r.
Proof. unfold zlen. rewrite app_length. lia. Qed.
Lemma zlen_cons' {A} (x : A) r : zlen (x :: r) = 1 + zlen r.
Proof. unfold zlen. cbn [length]. lia. Qed.
Lemma zlen_nn {A} (l : list A) : 0 <= zlen l.
Proof. unfold zlen. lia. Qed.

Ltac z2 := unfold zlen in *; repeat (rewrite app_length || (progress cbn [length])); lia.

(** Splitting the scratch area so that the element at oi is visible. *)
Lemma scratch_hd (scr : list Z) a t : exists x rest, scr ++ a :: t = x :: rest /\ length rest = (length scr + length t)%nat.
Proof. destruct scr as [|x scr]; cbn; [exists a, t|exists x, (scr ++ a :: t)]; (split; [reflexivity|]); [lia|rewrite app_length; cbn; lia]. Qed.

(** The state is [done ++ scratch ++ a :: t]; oi = |done|, in = |done| + |scratch|. *)
Lemma composition_loop_ok : forall t a done scr fuel count,
  (S (length t) < fuel)%nat ->
  exists rest,
    composition_loop fuel (done ++ scr ++ a :: t) (zlen (done ++ scr)) (zlen done) (zlen (done ++ scr ++ a :: t)) count
    = Ok (done ++ composeF a t ++ rest, zlen (done ++ composeF a t), count + (1 + zlen t - zlen (composeF a t))) /\
    (length (composeF a t) + length rest = length scr + S (length t))%nat.
Proof.
  induction t as [|b t IH]; intros a done scr fuel count Hf; (destruct fuel as [|fuel]; [lia|]); cbn [composition_loop].
  - assert (NE : zlen (done ++ scr) =? zlen (done ++ scr ++ [a]) = false).
    { z2. }
    rewrite NE. assert (R0 : rd (done ++ scr ++ [a]) (zlen (done ++ scr)) = Ok a) by (rewrite app_assoc; apply rd_app).
    rewrite R0. cbn [bind].
    rewrite padd1 by z2.     cbn [bind].
    assert (EQ : zlen (done ++ scr) + 1 =? zlen (done ++ scr ++ [a]) = true).
    { z2. }
    rewrite EQ. destruct (scratch_hd scr a []) as (x & rest & E & Hr). rewrite E, wr_app. cbn [bind].
    rewrite padd1 by z2.     cbn [bind]. destruct fuel as [|fuel]; [cbn in Hf; lia|]. cbn [composition_loop].
    assert (EQ2 : zlen (done ++ scr) + 1 =? zlen (done ++ x :: rest) = true).
    { rewrite <- E. z2. }
    rewrite EQ2. exists rest. cbn [composeF app]. split; [|cbn [length] in *; lia].
    rewrite zlen_app', zlen_cons'. cbn. do 2 f_equal. lia.
  - assert (NE : zlen (done ++ scr) =? zlen (done ++ scr ++ a :: b :: t) = false).
    { z2. }
    rewrite NE. assert (R0 : rd (done ++ scr ++ a :: b :: t) (zlen (done ++ scr)) = Ok a) by (rewrite app_assoc; apply rd_app).
    rewrite R0. cbn [bind].
    rewrite padd1 by z2.     cbn [bind].
    assert (NE2 : zlen (done ++ scr) + 1 =? zlen (done ++ scr ++ a :: b :: t) = false).
    { z2. }
    rewrite NE2.
    assert (P1 : zlen (done ++ scr) + 1 = zlen ((done ++ scr) ++ [a])) by z2.
    assert (D1 : done ++ scr ++ a :: b :: t = ((done ++ scr) ++ [a]) ++ b :: t) by (rewrite <- !app_assoc; reflexivity).
    rewrite D1, P1, rd_app. cbn [bind]. rewrite comp_resolve. cbn [bind composeF].
    destruct (comp a b) as [c|].
    + rewrite wr_app. cbn [bind].
      destruct (IH c done (scr ++ [a]) fuel (count + 1) ltac:(cbn in Hf; lia)) as (rest & E & Hl).
      exists rest. split.
      * assert (Z1 : zlen (((done ++ scr) ++ [a]) ++ b :: t) = zlen (done ++ (scr ++ [a]) ++ c :: t))
          by z2.
        rewrite Z1. replace (((done ++ scr) ++ [a]) ++ c :: t) with (done ++ (scr ++ [a]) ++ c :: t) by (rewrite <- !app_assoc; reflexivity).
        replace ((done ++ scr) ++ [a]) with (done ++ scr ++ [a]) by (rewrite <- !app_assoc; reflexivity).
        rewrite E, zlen_cons'. do 2 f_equal. lia.
      * rewrite app_length in Hl. cbn [length] in *. lia.
    + rewrite <- D1. destruct (scratch_hd scr a (b :: t)) as (x & rest0 & E & Hr). rewrite E, wr_app. cbn [bind].
      rewrite padd1 by z2. cbn [bind].
      (* the state is done++[a] ; scratch' ; b :: t *)
      assert (SC : exists scr', rest0 = scr' ++ b :: t /\ length scr' = length scr).
      { destruct scr as [|y scr0]; cbn in E; injection E as _ <-; [exists []; auto|].
        exists (scr0 ++ [a]). rewrite <- app_assoc, app_length. cbn. split; [reflexivity|lia]. }
      destruct SC as (scr' & -> & Hs).
      destruct (IH b (done ++ [a]) scr' fuel count ltac:(cbn in Hf; lia)) as (rest & E2 & Hl).
      exists rest. split.
      * replace (done ++ a :: scr' ++ b :: t) with ((done ++ [a]) ++ scr' ++ b :: t) by (rewrite <- app_assoc; reflexivity).
        assert (Z1 : zlen ((done ++ scr) ++ [a]) = zlen ((done ++ [a]) ++ scr')).
        { z2. }
        assert (Z2 : zlen (done ++ x :: scr' ++ b :: t) = zlen ((done ++ [a]) ++ scr' ++ b :: t)).
        { z2. }
        assert (Z3 : zlen done + 1 = zlen (done ++ [a])) by z2.
        rewrite Z1, Z2, Z3, E2. rewrite <- !app_assoc. cbn [app]. rewrite !zlen_cons'. do 2 f_equal. lia.
      * cbn [length] in *. lia.
Qed.
Lemma canonical_composition_ok data count :
  exists rest, canonical_composition data count
    = Ok (compose data ++ rest, zlen (compose data), count + (zlen data - zlen (compose data))) /\
    length (compose data ++ rest) = length data.
Proof.
  unfold canonical_composition. destruct data as [|a t].
  - exists []. cbn. split; [do 2 f_equal; lia|reflexivity].
  - destruct (composition_loop_ok t a [] [] (S (length (a :: t))) count ltac:(cbn; lia)) as (rest & E & Hl).
    exists rest. cbn [app] in E. split.
    + change (composition_loop (S (length (a :: t))) (a :: t) 0 0 (zlen (a :: t)) count) with
        (composition_loop (S (length (a :: t))) (a :: t) (zlen (@nil Z)) (zlen (@nil Z)) (zlen (a :: t)) count).
      rewrite E. cbn [compose]. rewrite zlen_cons'. reflexivity.
    + rewrite app_length. cbn [compose length] in *. lia.
Qed.

(** ** No adjacent pair of the result composes *)
Lemma comp_row a b c : comp a b = Some c -> In [a; b; c] canonical_composition_mapping_data.
Proof.
  unfold comp. intros H.
  destruct (find (fun r => compare_pair_to_row a b r =? 0) canonical_composition_mapping_data) as [r|] eqn:F; [|discriminate].
  apply find_some in F. destruct F as [I E]. apply Z.eqb_eq, compare_pair_eq in E.
  destruct (comp_row_shape r I) as (x & y & z & -> & P). cbn [row_at nth] in E, H. destruct E as [<- <-].
  injection H as <-. assumption.
Qed.
Definition seconds_tree := tree_of (fun row => row_at row 1) canonical_composition_mapping_data.
Definition results_not_second : bool :=
  let t := seconds_tree in
  forallb (fun r => match lookup t (row_at r 2) with Some _ => false | None => true end) canonical_composition_mapping_data.
Lemma results_not_second_true : results_not_second = true.
Proof. vm_cast_no_check (eq_refl true). Qed.
Lemma seconds_pos : Forall (fun row => 0 < row_at row 1) canonical_composition_mapping_data.
Proof.
  assert (H : forallb (fun row => 0 <? row_at row 1) canonical_composition_mapping_data = true)
    by (vm_cast_no_check (eq_refl true)).
  apply Forall_forall. intros r Hr. rewrite forallb_forall in H. specialize (H r Hr). apply Z.ltb_lt. exact H.
Qed.
Lemma result_not_second a b c x : comp a b = Some c -> comp x c = None.
Proof.
  intros H. destruct (comp x c) as [d|] eqn:E; [|reflexivity]. exfalso.
  apply comp_row in H, E. pose proof results_not_second_true as R. unfold results_not_second in R. cbv zeta in R.
  rewrite forallb_forall in R. specialize (R _ H). cbv beta in R.
  destruct (lookup seconds_tree (row_at [a; b; c] 2)) as [r|] eqn:F; [discriminate|].
  exact (lookup_none _ _ _ seconds_pos F _ E eq_refl).
Qed.
Lemma composeF_head t : forall a, exists y ys, composeF a t = y :: ys /\ (y = a \/ exists p q, comp p q = Some y).
Proof.
  induction t as [|b t IH]; intros a; cbn [composeF]; [exists a, []; auto|].
  destruct (comp a b) as [c|] eqn:E.
  - destruct (IH c) as (y & ys & -> & [->|H]); exists y, ys || exists c, ys; eauto.
  - exists a, (composeF b t). auto.
Qed.
Lemma composeF_adjacent t : forall a l x y r, composeF a t = l ++ x :: y :: r -> comp x y = None.
Proof.
  induction t as [|b t IH]; intros a l x y r H; cbn [composeF] in H.
  - destruct l as [|? [|]]; discriminate.
  - destruct (comp a b) as [c|] eqn:E; [eapply IH; eassumption|].
    destruct l as [|z l]; cbn [app] in H; injection H as -> H.
    + destruct (composeF_head t b) as (y' & ys & Q & [->|(p & q & P)]); rewrite Q in H; injection H as <- _;
        [assumption|eapply result_not_second; eassumption].
    + eapply IH; eassumption.
Qed.
Lemma compose_adjacent l0 l x y r : compose l0 = l ++ x :: y :: r -> comp x y = None.
Proof. destruct l0; [destruct l; discriminate|apply composeF_adjacent]. Qed.

(** ** Composition and decomposition *)
Lemma composeF_full t : forall a, flat_map full_canonical (composeF a t) = flat_map full_canonical (a :: t).
Proof.
  induction t as [|b t IH]; intros a; cbn [composeF]; [reflexivity|].
  destruct (comp a b) as [c|] eqn:E.
  - rewrite IH. cbn [flat_map]. rewrite (comp_full _ _ _ E), <- app_assoc. reflexivity.
  - cbn [flat_map]. rewrite IH. reflexivity.
Qed.
Lemma compose_full l : flat_map full_canonical (compose l) = flat_map full_canonical l.
Proof. destruct l; [reflexivity|apply composeF_full]. Qed.
