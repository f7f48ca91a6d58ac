(** * Proofs: the normalization forms *)
From Coq Require Import Permutation Sorted Relations.
From Verif Require Import Prelude DataTables UcdTables PropsModel Utf8Model TextModel Utf8Spec UnicodeSpec GraphemeSpec TextSpec NormSpec
  PropsProofs LawfulProofs DecompTables DecompProofs GraphemeProofs Uax29Proofs GraphemeText FilterSpec FilterProofs OrderProofs ComposeProofs
  NormData HangulProofs.
Require Import ZifyBool ZifyNat.

Lemma zsum_pieces (f : list Z -> list Z) gs : zsum (map (fun g => zlen (f g)) gs) = zlen (flat_map f gs).
Proof.
  induction gs as [|g gs IH]; [reflexivity|]. cbn [map zsum fold_right flat_map]. fold (zsum (map (fun g => zlen (f g)) gs)).
  rewrite IH. unfold zlen. rewrite app_length. lia.
Qed.
Lemma flat_map_concat (f : Z -> list Z) gs : flat_map f (concat gs) = flat_map (flat_map f) gs.
Proof. induction gs as [|g gs IH]; [reflexivity|]. cbn [concat flat_map]. rewrite flat_map_app, IH. reflexivity. Qed.
Lemma piece_bound (f : Z -> list Z) gs g : In g gs -> zlen (flat_map (flat_map f) gs) <= int_max -> zlen (flat_map f g) <= int_max.
Proof.
  induction gs as [|h gs IH]; [intros []|]. intros [->|I] H; cbn [flat_map] in H; unfold zlen in *; rewrite app_length in H; [lia|].
  apply IH; [assumption|lia].
Qed.
Lemma compose_length l : (length (compose l) <= length l)%nat.
Proof. destruct l as [|a t]; [reflexivity|]. cbn [compose length]. pose proof (composeF_length t a). lia. Qed.

(** ** Pieces that do not interact *)
Definition chained (R : list Z -> list Z -> Prop) (ls : list (list Z)) : Prop :=
  forall G1 l r G2, ls = G1 ++ l :: r :: G2 -> R l r.
Lemma chained_tail R l ls : chained R (l :: ls) -> chained R ls.
Proof. intros H G1 x y G2 E. apply (H (l :: G1) x y G2). rewrite E. reflexivity. Qed.
Lemma chained_head R l r ls : chained R (l :: r :: ls) -> R l r.
Proof. intros H. apply (H [] l r ls eq_refl). Qed.
Lemma chained_map R (f : list Z -> list Z) ls : chained (fun l r => R (f l) (f r)) ls -> chained R (map f ls).
Proof.
  intros H G1 l r G2 E. symmetry in E. revert E. revert H. revert G1. induction ls as [|x ls IH]; intros G1 H E.
  - destruct G1; discriminate.
  - destruct G1 as [|g G1]; cbn [app map] in E; injection E as E1 E2.
    + destruct ls as [|y ls]; [discriminate|]. cbn [map] in E2. injection E2 as E2 _. subst. apply chained_head in H. assumption.
    + eapply IH; [apply chained_tail in H; exact H|eassumption].
Qed.
Section Pieces.
Context (full : Z -> list Z).
Context (full_ne : forall c, full c <> []).
Context (full_head : forall c x t, full c = x :: t -> glue x -> joiner c).
Context (full_control : forall c, control c -> full c = [c]).
Definition pieces (cs : list Z) : list (list Z) := map (flat_map full) (seg cs).
Lemma pieces_apart cs : chained apart (pieces cs).
Proof.
  apply chained_map. intros G1 g h G2 E. exact (graphemes_apart full full_ne full_head full_control cs G1 g h G2 E).
Qed.
Lemma pieces_ne cs : Forall (fun p => p <> []) (pieces cs).
Proof.
  unfold pieces. apply Forall_forall. intros p Hp. apply in_map_iff in Hp. destruct Hp as (g & <- & I).
  pose proof (seg_nonempty cs) as F. rewrite Forall_forall in F. specialize (F g I). destruct g as [|a g]; [contradiction|].
  cbn [flat_map]. intros E. apply app_eq_nil in E. destruct E as [E _]. exact (full_ne _ E).
Qed.
Lemma pieces_concat cs : concat (pieces cs) = flat_map full cs.
Proof. unfold pieces. rewrite <- flat_map_concat_map, <- flat_map_concat, seg_concat. reflexivity. Qed.
End Pieces.

Lemma corder_pieces ls : chained apart ls -> Forall (fun p => p <> []) ls -> corder (concat ls) = concat (map corder ls).
Proof.
  intros A N. induction ls as [|l ls IH]; [reflexivity|]. cbn [concat map].
  rewrite <- IH by (try (eapply chained_tail; eassumption); inversion N; assumption).
  apply corder_separated. destruct ls as [|r ls]; [right; left; reflexivity|]. right. right.
  apply chained_head in A. destruct A as [(x & t & -> & G)|F].
  - right. exists x, (t ++ concat ls). split; [reflexivity|]. destruct (Z.eq_dec (ccc x) 0); [assumption|]. exfalso. apply G. left. assumption.
  - left. inversion N as [|? ? Nl _]; subst. destruct (exists_last Nl) as (l' & s & ->). exists l', s. split; [reflexivity|].
    rewrite Forall_app in F. destruct F as [_ F]. inversion F as [|? ? I _]; subst. apply I.
Qed.
(** Sorting keeps pieces apart. *)
Lemma isort_head x t : ccc x = 0 -> exists t', isort (x :: t) = x :: t'.
Proof.
  intros H. cbn [isort fold_right]. fold (isort t). destruct (isort t) as [|y m]; [exists []; reflexivity|]. exists (y :: m).
  cbn [insert]. pose proof (ccc_nonneg y). rewrite H. destruct (Z.leb_spec 0 (ccc y)); [reflexivity|lia].
Qed.
Lemma apart_isort l r : apart l r -> apart (isort l) (isort r).
Proof.
  intros [(x & t & -> & G)|F].
  - left. destruct (isort_head x t) as (t' & ->); [|exists x, t'; auto].
    destruct (Z.eq_dec (ccc x) 0); [assumption|]. exfalso. apply G. left. assumption.
  - right. rewrite Forall_forall in *. intros x Hx. apply F. eapply Permutation_in; [symmetry; apply isort_perm|assumption].
Qed.
Lemma isort_ne l : l <> [] -> isort l <> [].
Proof. intros H E. apply H. apply Permutation_nil. symmetry. rewrite <- E. apply isort_perm. Qed.
Lemma apart_chained_isort ls : chained apart ls -> chained apart (map isort ls).
Proof. intros H. apply chained_map. intros G1 l r G2 E. apply apart_isort. eapply H; eassumption. Qed.

Lemma app_inj_len {A} (a b c d : list A) : length a = length b -> a ++ c = b ++ d -> a = b /\ c = d.
Proof.
  revert b. induction a as [|x a IH]; intros [|y b] L E; try discriminate; [auto|]. cbn [app] in E. injection E as -> E.
  destruct (IH b ltac:(cbn in L; lia) E) as [-> ->]. auto.
Qed.
Lemma concat_same_length {A} (f g : list A -> list A) ls : (forall l, length (f l) = length (g l)) ->
  concat (map f ls) = concat (map g ls) -> forall l, In l ls -> f l = g l.
Proof.
  intros L. induction ls as [|x ls IH]; [intros _ l []|]. intros E l [<-|I]; cbn [map concat] in E;
    apply app_inj_len in E; try apply L; destruct E as [E1 E2]; [assumption|]. apply IH; assumption.
Qed.

(** ** The canonical tables *)
Lemma canonical_head c x t : full_canonical c = x :: t -> glue x -> joiner c.
Proof. apply (head_joins _ _ c x t canonical_table canonical_heads_ok). Qed.
Lemma canonical_control c : control c -> full_canonical c = [c].
Proof. apply (control_full _ _ c canonical_table canonical_not_control). Qed.
Lemma compat_head c x t : full_compat c = x :: t -> glue x -> joiner c.
Proof. apply (head_joins _ _ c x t compat_table compat_heads_ok). Qed.
Lemma compat_control c : control c -> full_compat c = [c].
Proof. apply (control_full _ _ c compat_table compat_not_control). Qed.

(** ** Form D against NFD *)
Definition form_d_of (full : Z -> list Z) (cs : list Z) : list Z := concat (map isort (pieces full cs)).
Lemma isort_length l : length (isort l) = length l.
Proof. symmetry. apply Permutation_length, isort_perm. Qed.
Lemma corder_length l : length (corder l) = length l.
Proof. symmetry. apply Permutation_length, corder_perm. Qed.
Lemma form_d_perm full cs : Permutation (flat_map full cs) (form_d_of full cs).
Proof.
  unfold form_d_of. rewrite <- (pieces_concat full cs). generalize (pieces full cs) as ls.
  induction ls as [|l ls IH]; [constructor|]. cbn [concat map]. apply Permutation_app; [apply isort_perm|assumption].
Qed.
Section Order.
Context (full : Z -> list Z).
Context (full_ne : forall c, full c <> []).
Context (full_head : forall c x t, full c = x :: t -> glue x -> joiner c).
Context (full_control : forall c, control c -> full c = [c]).
Lemma order_pieces cs : corder (flat_map full cs) = concat (map corder (pieces full cs)).
Proof.
  rewrite <- (pieces_concat full cs). apply corder_pieces; [apply pieces_apart|apply pieces_ne]; assumption.
Qed.
Lemma form_d_ordered_iff cs : form_d_of full cs = corder (flat_map full cs) <->
  forall g, In g (seg cs) -> starters_first (flat_map full g).
Proof.
  rewrite order_pieces. unfold form_d_of. split.
  - intros E g I. apply sort_is_order_iff.
    apply (concat_same_length isort corder (pieces full cs)); [intros; rewrite isort_length, corder_length; reflexivity|assumption|].
    apply in_map. assumption.
  - intros H. f_equal. apply map_ext_in. intros p Hp. apply in_map_iff in Hp. destruct Hp as (g & <- & I).
    apply sort_is_order_iff. auto.
Qed.
End Order.
Lemma jamo_no_syllable l x : In x (flat_map jamo l) -> is_syllable x = false.
Proof.
  intros H. apply in_flat_map in H. destruct H as (c & _ & H). destruct (is_syllable c) eqn:S.
  - pose proof (jamo_all c S) as F. rewrite Forall_forall in F. apply F in H. tauto.
  - rewrite jamo_other in H by assumption. destruct H as [<-|[]]. assumption.
Qed.
Lemma full_syllable_in cs s : In s cs -> is_syllable s = true -> In s (flat_map full_canonical cs).
Proof.
  intros I S. apply in_flat_map. exists s. split; [assumption|].
  rewrite syllable_full by (apply syllable_hangulish; assumption). left. reflexivity.
Qed.
Lemma form_d_nfd_iff cs : nfd cs (form_d_of full_canonical cs) <->
  (forall s, In s cs -> ~ hangul_syllable s) /\ (forall g, In g (seg cs) -> starters_first (flat_map full_canonical g)).
Proof.
  rewrite nfd_eq, <- (form_d_ordered_iff full_canonical full_canonical_ne canonical_head canonical_control). split.
  - intros E. assert (N : forall s, In s cs -> ~ hangul_syllable s).
    { intros s I S. apply is_syllable_spec in S. assert (J : In s (form_d_of full_canonical cs)).
      { eapply Permutation_in; [apply form_d_perm|]. apply full_syllable_in; assumption. }
      rewrite E in J. apply jamo_no_syllable in J. congruence. }
    split; [assumption|]. rewrite E at 1. apply flat_map_id. intros x Hx. apply jamo_other.
    eapply Permutation_in in Hx; [|symmetry; apply corder_perm]. apply in_flat_map in Hx. destruct Hx as (c & I & Hx).
    apply (full_not_syllable c x); [|assumption]. destruct (is_syllable c) eqn:S; [|reflexivity]. exfalso.
    apply is_syllable_spec in S. exact (N c I S).
  - intros [N E]. rewrite E. symmetry. apply flat_map_id. intros x Hx. apply jamo_other.
    eapply Permutation_in in Hx; [|symmetry; apply corder_perm]. apply in_flat_map in Hx. destruct Hx as (c & I & Hx).
    apply (full_not_syllable c x); [|assumption]. destruct (is_syllable c) eqn:S; [|reflexivity]. exfalso.
    apply is_syllable_spec in S. exact (N c I S).
Qed.

(** ** Canonical equivalence *)
Definition same_class (row : list Z) : bool :=
  match row with
  | c :: d => (fast_ccc c =? 0) || forallb (fun x => fast_ccc x =? fast_ccc c) (removelast d)
  | [] => false
  end.
Lemma same_class_rows : forallb same_class canonical_decomposition_mapping_data = true.
Proof. vm_cast_no_check (eq_refl true). Qed.
Lemma mark_full_class c x : ccc c <> 0 -> In x (full_canonical c) -> ccc x = ccc c.
Proof.
  intros N Hx. destruct (table_full_row _ _ c canonical_table) as [F|I].
  - unfold full_canonical in Hx. rewrite F in Hx. destruct Hx as [<-|[]]. reflexivity.
  - pose proof same_class_rows as Q. rewrite forallb_forall in Q. specialize (Q _ I). cbn [same_class] in Q.
    rewrite removelast_snoc, fast_ccc_eq in Q. rewrite (proj2 (Z.eqb_neq (ccc c) 0) N) in Q. cbn [orb] in Q.
    rewrite forallb_forall in Q. specialize (Q x Hx). rewrite fast_ccc_eq in Q. lia.
Qed.
Lemma cinsert_fold_comm a B l : (forall b, In b B -> 0 < ccc b < ccc a) ->
  cinsert a (fold_right cinsert l B) = fold_right cinsert (cinsert a l) B.
Proof.
  induction B as [|b B IH]; intros H; [reflexivity|]. cbn [fold_right].
  rewrite cinsert_comm by (apply H; left; reflexivity). rewrite IH by (intros; apply H; right; assumption). reflexivity.
Qed.
Lemma fold_fold_comm A B l : (forall a b, In a A -> In b B -> 0 < ccc b < ccc a) ->
  fold_right cinsert (fold_right cinsert l B) A = fold_right cinsert (fold_right cinsert l A) B.
Proof.
  induction A as [|a A IH]; intros H; [reflexivity|]. cbn [fold_right]. rewrite IH by (intros; apply H; [right|]; assumption).
  apply cinsert_fold_comm. intros b Hb. apply H; [left; reflexivity|assumption].
Qed.
Lemma exchange_full l l' : exchange l l' -> corder (flat_map full_canonical l) = corder (flat_map full_canonical l').
Proof.
  intros [p a b q i j A B H]. apply has_ccc_eq in A, B. rewrite !flat_map_app. cbn [flat_map].
  rewrite !corder_app. f_equal. apply fold_fold_comm. intros x y Hx Hy.
  rewrite (mark_full_class a x), (mark_full_class b y) by (assumption || lia). lia.
Qed.
Lemma step_nfd l l' : equiv_step l l' -> corder (flat_map full_standard l) = corder (flat_map full_standard l').
Proof.
  intros [x c m y M|l0 l1 X].
  - assert (E : full_standard c = flat_map full_standard m).
    { eapply (proj1 (expands_fun _ canonical_mapping_functional)); [apply full_standard_expands|].
      eapply expands_map; [eassumption|]. apply standard_unique. reflexivity. }
    rewrite !flat_map_app. cbn [flat_map]. rewrite E. reflexivity.
  - rewrite !full_standard_all, !corder_jamo. f_equal. apply exchange_full. assumption.
Qed.
Lemma equivalent_nfd l l' : canonically_equivalent l l' -> forall d, nfd l d <-> nfd l' d.
Proof.
  intros E d. assert (Q : corder (flat_map full_standard l) = corder (flat_map full_standard l')).
  { induction E; [apply step_nfd; assumption|reflexivity|symmetry; assumption|congruence]. }
  rewrite !nfd_eq, <- !corder_jamo, <- !full_standard_all, Q. reflexivity.
Qed.
Lemma nfd_fun cs d d' : nfd cs d -> nfd cs d' -> d = d'.
Proof. rewrite !nfd_eq. congruence. Qed.
