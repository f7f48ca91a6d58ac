(** * Proofs: normalization and graphemes across a separator *)
From Coq Require Import Permutation Sorted Relations.
From Verif Require Import Prelude DataTables UcdTables PropsModel Utf8Model TextModel Utf8Spec UnicodeSpec GraphemeSpec TextSpec NormSpec
  PropsProofs LawfulProofs DecompTables DecompProofs GraphemeProofs Uax29Proofs GraphemeText OrderProofs ComposeProofs
  NormData NormProofs NfcProofs NormText TextsProofs KeepGraphemes LinesSpec.
Require Import ZifyBool ZifyNat.

(** ** Lines *)
Lemma joined_cons s l m r : joined s (l :: m :: r) = l ++ s :: joined s (m :: r).
Proof. reflexivity. Qed.
Lemma lines_exist s cs : exists ls, lines_of s cs ls.
Proof.
  induction cs as [|c t (ls & N & E & F)].
  - exists [[]]. split; [discriminate|]. split; [reflexivity|]. intros l [<-|[]] [].
  - destruct ls as [|l r]; [contradiction|]. destruct (Z.eq_dec c s) as [->|D].
    + exists ([] :: l :: r). split; [discriminate|]. split; [rewrite (joined_cons s [] l r), <- E; reflexivity|]. intros x [<-|I]; [intros []|exact (F x I)].
    + exists ((c :: l) :: r). split; [discriminate|]. split; [rewrite E; destruct r; reflexivity|].
      intros x [<-|I]; [intros [J|J]; [congruence|exact (F l (or_introl eq_refl) J)]|exact (F x (or_intror I))].
Qed.
Lemma split_first (s : Z) (x y x' y' : list Z) : ~ In s x -> ~ In s x' -> x ++ s :: y = x' ++ s :: y' -> x = x' /\ y = y'.
Proof.
  revert x'. induction x as [|a x IH]; intros [|b x'] N N' E; cbn [app] in E.
  - injection E as ->. auto.
  - injection E as -> _. exfalso. apply N'. left. reflexivity.
  - injection E as -> _. exfalso. apply N. left. reflexivity.
  - injection E as -> E. destruct (IH x') as (-> & ->); auto; intros I; [apply N|apply N']; right; exact I.
Qed.
Lemma lines_unique s cs : forall ls ls', lines_of s cs ls -> lines_of s cs ls' -> ls = ls'.
Proof.
  intros ls. revert cs. induction ls as [|l r IH]; intros cs ls' (N & E & F) (N' & E' & F'); [contradiction|].
  destruct ls' as [|l' r']; [contradiction|].
  pose proof (F l (or_introl eq_refl)) as Fl. pose proof (F' l' (or_introl eq_refl)) as Fl'.
  destruct r as [|m r], r' as [|m' r'].
  - cbn [joined] in E, E'. congruence.
  - exfalso. rewrite joined_cons in E'. cbn [joined] in E. apply Fl. rewrite <- E, E'. apply in_or_app. right. left. reflexivity.
  - exfalso. rewrite joined_cons in E. cbn [joined] in E'. apply Fl'. rewrite <- E', E. apply in_or_app. right. left. reflexivity.
  - rewrite joined_cons in E, E'. rewrite E in E'. destruct (split_first s _ _ _ _ Fl Fl' E') as (-> & Q). f_equal.
    apply (IH (joined s (m :: r))); [|rewrite Q]; (split; [discriminate|split; [reflexivity|]]); intros x I; [apply F|apply F']; right; exact I.
Qed.
Lemma joined_in s ls z : In z (joined s ls) -> z = s \/ exists l, In l ls /\ In z l.
Proof.
  induction ls as [|l r IH]; [intros []|]. destruct r as [|m r]; [intros I; right; exists l; cbn; auto|].
  rewrite joined_cons. intros I. apply in_app_or in I. destruct I as [I|[->|I]]; [right; exists l; cbn; auto|auto|].
  destruct (IH I) as [->|(x & J & K)]; [auto|]. right. exists x. cbn; auto.
Qed.

(** ** A separator never comes from anything else *)
Definition tail_clear (r : list Z) : bool := forallb (fun x => negb (in_ranges control_ranges x)) (removelast (tl r)).
Lemma canonical_tails : forallb tail_clear canonical_decomposition_mapping_data = true.
Proof. vm_cast_no_check (eq_refl true). Qed.
Lemma compat_tails : forallb tail_clear compatibility_and_canonical_decomposition_mapping_data = true.
Proof. vm_cast_no_check (eq_refl true). Qed.
Lemma composite_clear : forallb (fun r => negb (in_ranges control_ranges (nth 2 r 0))) canonical_composition_mapping_data = true.
Proof. vm_cast_no_check (eq_refl true). Qed.
Lemma full_control keep data c z : closed_table keep data -> forallb tail_clear data = true -> control z -> In z (table_full data c) -> c = z.
Proof.
  intros T L C I. destruct (table_full_row keep data c T) as [E|J]; [rewrite E in I; destruct I as [I|[]]; exact I|].
  exfalso. rewrite forallb_forall in L. specialize (L _ J). unfold tail_clear in L. cbn [tl] in L. rewrite removelast_snoc in L.
  rewrite forallb_forall in L. specialize (L _ I). rewrite (in_control_ranges z C) in L. discriminate.
Qed.
Lemma comp_control a b z : control z -> comp a b <> Some z.
Proof.
  intros C E. apply comp_row in E. pose proof composite_clear as Q. rewrite forallb_forall in Q. specialize (Q _ E). cbn [nth] in Q.
  rewrite (in_control_ranges z C) in Q. discriminate.
Qed.
Lemma composeF_in z t : forall a, In z (composeF a t) -> In z (a :: t) \/ exists p q, comp p q = Some z.
Proof.
  induction t as [|b t IH]; intros a I; cbn [composeF] in I; [left; exact I|].
  destruct (comp a b) as [c|] eqn:E.
  - destruct (IH c I) as [[->|J]|J]; [right; eauto|left; right; right; exact J|right; exact J].
  - destruct I as [->|I]; [left; left; reflexivity|]. destruct (IH b I) as [J|J]; [left; right; exact J|right; exact J].
Qed.

Section Form.
Context (F : (list Z -> list Z) -> (list Z -> list Z -> res (list Z)) -> nat -> cp_ops -> Z * Z -> list Z -> res (Z * list Z)).
Context (listed : Z -> list Z -> Prop) (k : bool) (full : Z -> list Z) (sort : list Z -> list Z).
Context (FD : form_data F listed k full) (SO : std_sort_ok sort).
Let N (cs : list Z) : list Z := flat_map (norm_grapheme k full sort) (seg cs).

Lemma full_of_control c : control c -> full c = [c].
Proof. destruct FD; intros; first [apply canonical_control|apply compat_control]; assumption. Qed.
Lemma full_to_control c z : control z -> In z (full c) -> c = z.
Proof.
  intros C. destruct FD; first [exact (full_control _ _ c z canonical_table canonical_tails C)|exact (full_control _ _ c z compat_table compat_tails C)].
Qed.
Lemma sort_perm l : Permutation l (sort l).
Proof. exact (proj1 (SO l)). Qed.
Lemma norm_keeps_out z cs : control z -> In z (N cs) -> In z cs.
Proof.
  intros C I. unfold N in I. apply in_flat_map in I. destruct I as (g & G & I).
  assert (J : In z (sort (flat_map full g))).
  { unfold norm_grapheme in I. destruct k; [|exact I]. destruct (sort (flat_map full g)) as [|a t]; [destruct I|].
    destruct (composeF_in z t a I) as [J|(p & q & J)]; [exact J|]. exfalso. exact (comp_control p q z C J). }
  apply (Permutation_in _ (Permutation_sym (sort_perm _))) in J. apply in_flat_map in J. destruct J as (c & J & H).
  rewrite <- (full_to_control c z C H). rewrite <- (seg_concat cs). apply in_concat. eauto.
Qed.
Lemma norm_controls g : Forall control g -> sort g = g -> norm_grapheme k full sort g = g.
Proof.
  intros A S. assert (E : flat_map full g = g).
  { clear S. induction A as [|c g C A IH]; [reflexivity|]. cbn [flat_map]. rewrite IH, (full_of_control c C). reflexivity. }
  unfold norm_grapheme. rewrite E, S. destruct k; [|reflexivity]. clear E S. destruct g as [|a t]; [reflexivity|]. cbn [compose].
  revert a A. induction t as [|b t IH]; intros a A; [reflexivity|]. inversion A as [|? ? C A']; subst. cbn [composeF].
  destruct (control_inert a C) as (_ & X & _). rewrite X. f_equal. apply IH. exact A'.
Qed.
Lemma sort_single c : sort [c] = [c].
Proof. symmetry. pose proof (sort_perm [c]) as P. apply Permutation_length_1_inv in P. congruence. Qed.
Lemma norm_one c : control c -> N [c] = [c].
Proof. intros C. unfold N. cbn [seg flat_map]. rewrite app_nil_r. apply norm_controls; [auto|apply sort_single]. Qed.

Definition line_end (s : Z) : Prop := gcb_of s = G_CONTROL \/ gcb_of s = G_LF.
Lemma line_end_control s : line_end s -> control s.
Proof. unfold line_end, control. intuition. Qed.
Lemma brk_after s c : line_end s -> brk s c = true.
Proof. unfold brk. intros [->| ->]; destruct (gcb_of c); reflexivity. Qed.
Lemma brk_before a s : line_end s -> brk a s = false -> gcb_of a = G_CR /\ gcb_of s = G_LF.
Proof. unfold brk. intros [->| ->]; destruct (gcb_of a); cbn; intros H; try discriminate; auto. Qed.
Lemma after_parts x s y : line_end s -> seg (x ++ s :: y) = seg (x ++ [s]) ++ seg y.
Proof.
  intros L. replace (x ++ s :: y) with ((x ++ [s]) ++ y) by (rewrite <- app_assoc; reflexivity).
  apply seg_parts. destruct y as [|c t]; [auto|]. right. right. exists c, t. split; [reflexivity|].
  apply boundary_after; [destruct x; discriminate|]. rewrite last_last. apply brk_after. exact L.
Qed.
Lemma seg_line x s : line_end s -> (x = [] \/ brk (last x 0) s = true) -> seg (x ++ [s]) = seg x ++ [[s]].
Proof.
  intros L H. change [[s]] with (seg [s]). apply seg_parts. destruct H as [->|B]; [auto|]. destruct x as [|a x]; [auto|].
  right. right. exists s, []. split; [reflexivity|]. apply boundary_after; [discriminate|exact B].
Qed.
Lemma seg_crlf x r s : gcb_of r = G_CR -> gcb_of s = G_LF -> seg (x ++ [r; s]) = seg x ++ [[r; s]] /\ seg (x ++ [r]) = seg x ++ [[r]].
Proof.
  intros Er Es. assert (B : forall a, brk a r = true) by (intros a; unfold brk; rewrite Er; destruct (gcb_of a); reflexivity).
  assert (Q : brk r s = false) by (unfold brk; rewrite Er, Es; reflexivity).
  replace [[r; s]] with (seg [r; s]) by (rewrite seg_cons2, Q; reflexivity). change [[r]] with (seg [r]).
  split; apply seg_parts; (destruct x as [|a x]; [auto|]); right; right; eexists _, _; (split; [reflexivity|]);
    (apply boundary_after; [discriminate|apply B]).
Qed.
(** The form of a text is that of its lines. *)
Lemma norm_line x s y : line_end s ->
  (forall r, gcb_of r = G_CR -> gcb_of s = G_LF -> sort [r; s] = [r; s]) -> N (x ++ s :: y) = N x ++ s :: N y.
Proof.
  intros L K. pose proof (line_end_control s L) as C. unfold N at 1. rewrite (after_parts x s y L), flat_map_app. fold (N y). fold (N (x ++ [s])).
  change (s :: N y) with ([s] ++ N y). rewrite app_assoc. f_equal.
  assert (A : x = [] \/ brk (last x 0) s = true \/ (x <> [] /\ brk (last x 0) s = false)).
  { destruct x; [auto|]. destruct (brk _ s); [auto|]. right. right. split; [discriminate|reflexivity]. }
  assert (S1 : norm_grapheme k full sort [s] = [s]) by (apply norm_controls; [auto|apply sort_single]).
  destruct A as [A|[A|(NE & A)]].
  - unfold N. rewrite (seg_line x s L (or_introl A)), flat_map_app. cbn [flat_map]. rewrite app_nil_r, S1. reflexivity.
  - unfold N. rewrite (seg_line x s L (or_intror A)), flat_map_app. cbn [flat_map]. rewrite app_nil_r, S1. reflexivity.
  - destruct (exists_last NE) as (x' & r & ->). rewrite last_last in A. destruct (brk_before r s L A) as (Er & Es).
    destruct (seg_crlf x' r s Er Es) as (E1 & E2).
    assert (Cr : control r) by (unfold control; auto).
    unfold N. rewrite <- app_assoc. cbn [app]. rewrite E1, E2, !flat_map_app. cbn [flat_map]. rewrite !app_nil_r, <- app_assoc. f_equal.
    rewrite (norm_controls [r]), (norm_controls [r; s]); [reflexivity|auto|apply K; assumption|auto|apply sort_single].
Qed.
Lemma norm_lines s ls : line_end s -> (forall r, gcb_of r = G_CR -> gcb_of s = G_LF -> sort [r; s] = [r; s]) ->
  N (joined s ls) = joined s (map N ls).
Proof.
  intros L K. induction ls as [|l r IH]; [reflexivity|]. destruct r as [|m r]; [reflexivity|].
  cbn [map]. rewrite !joined_cons, (norm_line l s _ L K), IH. reflexivity.
Qed.
End Form.
