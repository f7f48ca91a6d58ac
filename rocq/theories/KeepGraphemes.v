(** * Proofs: forms D and C keep the graphemes *)
From Coq Require Import Permutation Sorted Relations.
From Verif Require Import Prelude DataTables UcdTables PropsModel Utf8Model TextModel Utf8Spec UnicodeSpec GraphemeSpec TextSpec NormSpec
  PropsProofs DecompTables DecompProofs GraphemeProofs Uax29Proofs GraphemeText OrderProofs ComposeProofs NormData NormProofs NfcProofs NormText
  TextsProofs LocalMarks RangeTree.
Require Import ZifyBool ZifyNat.

Definition mk (v : gcb) : bool := match v with G_EXTEND | G_SPACINGMARK => true | _ => false end.
Definition other (v : gcb) : bool := match v with G_OTHER => true | _ => false end.
Definition row_classes (r : list Z) : bool :=
  match removelast (tl r) with
  | h :: t => let v := fast_gcb (hd 0 r) in
      if mk v then forallb (fun x => mk (fast_gcb x)) (h :: t)
      else other v && other (fast_gcb h) && forallb (fun x => mk (fast_gcb x)) t
  | [] => false
  end.
Lemma canonical_rows_classes : forallb row_classes canonical_decomposition_mapping_data = true.
Proof. vm_compute. reflexivity. Qed.
Definition comp_classes (r : list Z) : bool :=
  let va := fast_gcb (row_at r 0) in let vc := fast_gcb (row_at r 2) in
  mk (fast_gcb (row_at r 1)) && ((mk va && mk vc) || (other va && other vc)).
Lemma comp_rows_classes : forallb comp_classes canonical_composition_mapping_data = true.
Proof. vm_compute. reflexivity. Qed.

(** ** Classes of an expansion and of a composite *)
Lemma full_canonical_classes c : full_canonical c = [c] \/
  (mk (gcb_of c) = true /\ Forall (fun x => mk (gcb_of x) = true) (full_canonical c)) \/
  (gcb_of c = G_OTHER /\ exists h t, full_canonical c = h :: t /\ gcb_of h = G_OTHER /\ Forall (fun x => mk (gcb_of x) = true) t).
Proof.
  destruct (table_full_row keep_canonical _ c canonical_table) as [F|I]; [left; exact F|right].
  pose proof canonical_rows_classes as Q. rewrite forallb_forall in Q. specialize (Q _ I). unfold row_classes in Q. cbn [tl hd] in Q.
  rewrite removelast_snoc in Q. fold (full_canonical c) in Q. destruct (full_canonical c) as [|h t]; [discriminate|].
  rewrite !fast_gcb_eq in Q.
  assert (FA : forall l, forallb (fun x => mk (fast_gcb x)) l = true -> Forall (fun x => mk (gcb_of x) = true) l).
  { intros l H. apply (proj2 (Forall_forall _ l)). intros x X. rewrite forallb_forall in H. specialize (H x X). rewrite fast_gcb_eq in H. exact H. }
  destruct (mk (gcb_of c)); [left; split; [reflexivity|apply FA; exact Q]|right].
  apply andb_prop in Q. destruct Q as [Q Q3]. apply andb_prop in Q. destruct Q as [Q1 Q2].
  split; [destruct (gcb_of c); cbn in Q1; congruence|]. exists h, t. split; [reflexivity|]. split; [destruct (gcb_of h); cbn in Q2; congruence|apply FA; exact Q3].
Qed.
Lemma comp_roles a b c : comp a b = Some c -> mk (gcb_of b) = true /\
  ((mk (gcb_of a) = true /\ mk (gcb_of c) = true) \/ (gcb_of a = G_OTHER /\ gcb_of c = G_OTHER)).
Proof.
  intros H. apply comp_row in H. pose proof comp_rows_classes as Q. rewrite forallb_forall in Q. specialize (Q _ H).
  unfold comp_classes in Q. cbn [row_at nth] in Q. rewrite !fast_gcb_eq in Q. apply andb_prop in Q. destruct Q as [Q1 Q]. split; [exact Q1|].
  apply orb_prop in Q. destruct Q as [Q|Q]; apply andb_prop in Q; destruct Q as [A B]; [left; split; assumption|right].
  split; [destruct (gcb_of a); cbn in A; congruence|destruct (gcb_of c); cbn in B; congruence].
Qed.
Lemma mark_mk x : ccc x <> 0 -> mk (gcb_of x) = true.
Proof. intros H. destruct (glue_joins x (or_introl H)) as [E|E]; rewrite E; reflexivity. Qed.

(** ** No boundary between neighbours, and an emoji modifier only where the first allows it *)
Definition nc (a : Z) : Prop := ~ control a.
Definition modifies (v : gcb) : Prop := v = G_E_BASE \/ v = G_E_BASE_GAZ \/ v = G_PREPEND.
Definition nb (a b : Z) : Prop := brk a b = false /\ (gcb_of b = G_E_MODIFIER -> modifies (gcb_of a)).
Definition softv (v : gcb) : bool := other v || mk v.
Definition joins (v : gcb) : Prop := mk v = true \/ v = G_ZWJ.
Lemma nb_soft a b : softv (gcb_of a) = true -> nb a b -> joins (gcb_of b).
Proof.
  unfold nb, brk, joins, modifies. generalize (gcb_of a) (gcb_of b). intros va vb H (X & Y).
  destruct va; cbn in H; try discriminate H; destruct vb; cbn in X; try discriminate X; cbn; auto;
    destruct (Y eq_refl) as [E|[E|E]]; discriminate E.
Qed.
Lemma nb_join a b : nc a -> joins (gcb_of b) -> nb a b.
Proof.
  unfold nc, control, nb, brk, joins, modifies. generalize (gcb_of a) (gcb_of b). intros va vb N H.
  destruct va; try (exfalso; apply N; auto; fail); destruct vb; cbn in H; destruct H as [H|H]; try discriminate H; (split; [reflexivity|discriminate]).
Qed.
Lemma nb_class_r a b b' : gcb_of b' = gcb_of b -> nb a b -> nb a b'.
Proof. unfold nb, brk. intros ->. auto. Qed.
Lemma nb_class_l a a' b : gcb_of a' = gcb_of a -> nb a b -> nb a' b.
Proof. unfold nb, brk. intros ->. auto. Qed.
Lemma mk_nc a : mk (gcb_of a) = true -> nc a.
Proof. unfold nc, control. destruct (gcb_of a); cbn; intros E [X|[X|X]]; discriminate. Qed.
Lemma other_nc a : gcb_of a = G_OTHER -> nc a.
Proof. unfold nc, control. intros -> [X|[X|X]]; discriminate. Qed.
Lemma nb_joins_nc a b : nb a b -> joins (gcb_of b) -> nc a.
Proof.
  unfold nc, control, nb, brk, joins. generalize (gcb_of a) (gcb_of b). intros va vb (H & _) J [E|[E|E]]; subst va;
    destruct vb; cbn in H; try discriminate H; cbn in J; destruct J as [J|J]; discriminate J.
Qed.
Lemma full_nc c : nc c -> Forall nc (full_canonical c).
Proof.
  intros N. destruct (full_canonical_classes c) as [E|[(M & F)|(M & h & t & E & H & F)]].
  - rewrite E. constructor; [assumption|constructor].
  - eapply Forall_impl; [|exact F]. intros x. apply mk_nc.
  - rewrite E. constructor; [apply other_nc; assumption|]. eapply Forall_impl; [|exact F]. intros x. apply mk_nc.
Qed.
Lemma adj_tail P a l : adj P (a :: l) -> adj P l.
Proof. destruct l as [|b l]; [reflexivity|]. intros (_ & H). exact H. Qed.
Lemma adj_cons P a b l : adj P (a :: b :: l) <-> P a b /\ adj P (b :: l).
Proof. reflexivity. Qed.

Lemma of_class_app k l r : of_class k (l ++ r) = of_class k l ++ of_class k r.
Proof. apply filter_app. Qed.
Lemma of_class_forall k (P : Z -> Prop) l : Forall P l -> Forall P (of_class k l).
Proof. intros H. apply (proj2 (Forall_forall _ _)). intros x I. apply filter_In in I. rewrite Forall_forall in H. apply H. apply I. Qed.
Lemma walk l : forall a rest, Forall (fun x => mk (gcb_of x) = true) l -> nc a ->
  (forall a', nc a' -> adj nb (a' :: rest)) -> adj nb (a :: l ++ rest).
Proof.
  induction l as [|b l IH]; intros a rest F N H; [apply H; assumption|]. inversion F as [|? ? B F']; subst.
  cbn [app]. apply adj_cons. split; [apply nb_join; [assumption|left; assumption]|]. apply IH; [assumption|apply mk_nc; assumption|assumption].
Qed.
Local Notation full := full_canonical.
Lemma chain g : forall c0 a, nc a -> (a = c0 \/ softv (gcb_of c0) = true) -> adj nb (c0 :: g) -> Forall nc g ->
  adj nb (a :: of_class 0 (flat_map full g)).
Proof.
  induction g as [|c g IH]; intros c0 a N R A F; [exact I|]. apply adj_cons in A. destruct A as (A & A').
  inversion F as [|? ? Nc F']; subst. cbn [flat_map]. rewrite of_class_app.
  assert (NB : forall b, gcb_of b = gcb_of c -> nb a b).
  { intros b E. apply (nb_class_r a c b E). destruct R as [->|R]; [exact A|]. apply nb_join; [assumption|]. apply (nb_soft c0); assumption. }
  assert (SOFT : softv (gcb_of c) = true -> forall a', nc a' -> adj nb (a' :: of_class 0 (flat_map full g))).
  { intros X a' N'. apply (IH c a'); auto. }
  destruct (full_canonical_classes c) as [E|[(M & M')|(O & h & t & E & H & M')]].
  - rewrite E. unfold of_class at 1. cbn [List.filter]. destruct (Z.eqb_spec (ccc c) 0) as [Z|Z]; cbn [app].
    + apply adj_cons. split; [apply NB; reflexivity|]. apply (IH c c); auto.
    + apply SOFT; [|assumption]. unfold softv. rewrite (mark_mk c Z). apply orb_true_r.
  - apply walk; [apply of_class_forall; assumption|assumption|]. apply SOFT. unfold softv. rewrite M. apply orb_true_r.
  - rewrite E. unfold of_class at 1. cbn [List.filter]. fold (of_class 0 t).
    destruct (Z.eqb_spec (ccc h) 0) as [Z|Z]; [|apply mark_mk in Z; rewrite H in Z; discriminate]. cbn [app].
    apply adj_cons. split; [apply NB; congruence|]. apply walk; [apply of_class_forall; assumption|apply other_nc; assumption|].
    apply SOFT. rewrite O. reflexivity.
Qed.
Lemma chain_all g : g <> [] -> adj nb g -> Forall nc g -> adj nb (of_class 0 (flat_map full g)).
Proof.
  destruct g as [|c g]; [contradiction|]. intros _ A F. inversion F as [|? ? Nc F']; subst. cbn [flat_map]. rewrite of_class_app.
  assert (SOFT : softv (gcb_of c) = true -> forall a', nc a' -> adj nb (a' :: of_class 0 (flat_map full g))).
  { intros X a' N'. apply (chain g c a'); auto. }
  destruct (full_canonical_classes c) as [E|[(M & M')|(O & h & t & E & H & M')]].
  - rewrite E. unfold of_class at 1. cbn [List.filter]. destruct (Z.eqb_spec (ccc c) 0) as [Z|Z]; cbn [app].
    + apply (chain g c c); auto.
    + apply (adj_tail nb c). apply SOFT; [|assumption]. unfold softv. rewrite (mark_mk c Z). apply orb_true_r.
  - apply (adj_tail nb c). apply walk; [apply of_class_forall; assumption|assumption|]. apply SOFT. unfold softv. rewrite M. apply orb_true_r.
  - rewrite E. unfold of_class at 1. cbn [List.filter]. fold (of_class 0 t).
    destruct (Z.eqb_spec (ccc h) 0) as [Z|Z]; [|apply mark_mk in Z; rewrite H in Z; discriminate]. cbn [app].
    apply walk; [apply of_class_forall; assumption|apply other_nc; assumption|]. apply SOFT. rewrite O. reflexivity.
Qed.

(** ** The sorted expansion: the starters, then the marks *)
Definition marked (l : list Z) : list Z := List.filter (fun c => negb (ccc c =? 0)) l.
Lemma isort_split l : isort l = of_class 0 l ++ isort (marked l).
Proof.
  assert (M : Forall (fun c => ccc c <> 0) (isort (marked l))).
  { apply (proj2 (Forall_forall _ _)). intros x I. apply (Permutation_in _ (Permutation_sym (isort_perm _))) in I.
    apply filter_In in I. destruct I as (_ & I). lia. }
  apply sorted_class_unique; [apply isort_sorted| |].
  - assert (Q : forall s, Forall (fun c => ccc c = 0) s -> StronglySorted ccc_le (s ++ isort (marked l))).
    { induction 1 as [|x s X F IH]; cbn [app]; [apply isort_sorted|]. constructor; [exact IH|].
      apply (proj2 (Forall_forall _ _)). intros y _. apply ccc_le_iff. rewrite X. apply ccc_nonneg. }
    apply Q. apply (proj2 (Forall_forall _ _)). intros x I. apply filter_In in I. destruct I as (_ & I). lia.
  - intros k. rewrite isort_class, of_class_app, isort_class. clear M. unfold of_class, marked.
    induction l as [|x l IH]; [reflexivity|]. cbn [List.filter]. destruct (Z.eqb_spec (ccc x) 0) as [X|X]; cbn [negb List.filter].
    + destruct (Z.eqb_spec (ccc x) k); cbn [app]; rewrite IH; reflexivity.
    + destruct (Z.eqb_spec (ccc x) k) as [K|K]; [|exact IH]. rewrite IH.
      assert (Z : List.filter (fun c => ccc c =? k) (List.filter (fun c => ccc c =? 0) l) = []).
      { clear - X K. induction l as [|y l IH]; [reflexivity|]. cbn [List.filter]. destruct (Z.eqb_spec (ccc y) 0) as [Y|Y]; [|exact IH].
        cbn [List.filter]. destruct (Z.eqb_spec (ccc y) k); [exfalso; congruence|exact IH]. }
      rewrite Z. reflexivity.
Qed.
Lemma flat_nc g : Forall nc g -> Forall nc (flat_map full g).
Proof. induction 1 as [|c g N F IH]; cbn [flat_map]; [constructor|]. apply Forall_app. split; [apply full_nc; assumption|exact IH]. Qed.
Lemma isort_nc l : Forall nc l -> Forall nc (isort l).
Proof.
  intros H. apply (proj2 (Forall_forall _ _)). intros x I. apply (Permutation_in _ (Permutation_sym (isort_perm l))) in I.
  exact (proj1 (Forall_forall _ l) H x I).
Qed.
Lemma marked_mk l : Forall (fun x => mk (gcb_of x) = true) (isort (marked l)).
Proof.
  apply (proj2 (Forall_forall _ _)). intros x I. apply (Permutation_in _ (Permutation_sym (isort_perm _))) in I.
  apply filter_In in I. destruct I as (_ & I). apply mark_mk. lia.
Qed.
Lemma adj_marks l m : adj nb l -> Forall nc l -> Forall (fun x => mk (gcb_of x) = true) m -> adj nb (l ++ m).
Proof.
  intros A N F.
  assert (E : forall a, nc a -> adj nb (a :: m)).
  { intros a Na. replace m with (m ++ []) by apply app_nil_r. apply walk; [assumption|assumption|]. intros; exact I. }
  induction l as [|a [|b l] IH]; cbn [app].
  - apply (adj_tail nb 0x61). apply E. apply other_nc. vm_compute. reflexivity.
  - apply E. inversion N; assumption.
  - inversion N as [|? ? Na N']; subst. apply adj_cons in A. destruct A as (A & A'). apply adj_cons. split; [exact A|]. apply IH; assumption.
Qed.
Lemma sorted_nb g : g <> [] -> adj nb g -> Forall nc g -> adj nb (isort (flat_map full g)).
Proof.
  intros NE A N. rewrite isort_split. apply adj_marks; [apply chain_all; assumption|apply of_class_forall, flat_nc; assumption|apply marked_mk].
Qed.

(** ** Composition *)
Definition role (a y : Z) : Prop := gcb_of y = gcb_of a \/ (mk (gcb_of a) = true /\ mk (gcb_of y) = true).
Lemma comp_role a b c : comp a b = Some c -> role a c.
Proof. intros H. destruct (comp_roles a b c H) as (_ & [(A & C)|(A & C)]); [right; auto|left; congruence]. Qed.
Lemma role_trans a b c : role a b -> role b c -> role a c.
Proof. unfold role. intros [A|(A & B)] [C|(C & D)]; try rewrite A in *; try rewrite C in *; auto. Qed.
Lemma composed_nb t : forall a, adj nb (a :: t) -> adj nb (composeF a t) /\ role a (hd 0 (composeF a t)).
Proof.
  induction t as [|b t IH]; intros a A; cbn [composeF]; [split; [exact I|left; reflexivity]|].
  apply adj_cons in A. destruct A as (A & A'). destruct (comp a b) as [c|] eqn:E.
  - destruct (comp_roles a b c E) as (B & AC).
    assert (N : nc c) by (destruct AC as [(_ & X)|(_ & X)]; [apply mk_nc; assumption|apply other_nc; assumption]).
    destruct (IH c) as (X & Y).
    { destruct t as [|d t]; [exact I|]. apply adj_cons in A'. destruct A' as (A1 & A2). apply adj_cons. split; [|exact A2].
      apply nb_join; [assumption|]. apply (nb_soft b); [|assumption]. unfold softv. rewrite B. apply orb_true_r. }
    split; [exact X|]. eapply role_trans; [apply (comp_role a b c); assumption|exact Y].
  - destruct (IH b A') as (X & Y). cbn [hd]. split; [|left; reflexivity].
    destruct (composeF_head t b) as (y & ys & Ey & _). rewrite Ey in *. cbn [hd] in Y. apply adj_cons. split; [|exact X].
    destruct Y as [Y|(Y1 & Y2)]; [apply (nb_class_r a b y Y); assumption|]. apply nb_join; [|left; assumption].
    apply (nb_joins_nc a b); [assumption|left; assumption].
Qed.
Lemma composed_nc t : forall a, Forall nc (a :: t) -> Forall nc (composeF a t).
Proof.
  induction t as [|b t IH]; intros a F; cbn [composeF]; [exact F|]. inversion F as [|? ? A F']; subst. inversion F' as [|? ? B F'']; subst.
  destruct (comp a b) as [c|] eqn:E; [|constructor; [assumption|apply IH; assumption]]. apply IH. constructor; [|assumption].
  destruct (comp_roles a b c E) as (_ & [(_ & X)|(_ & X)]); [apply mk_nc; assumption|apply other_nc; assumption].
Qed.
Lemma composed_last t : forall a, gcb_of (last (composeF a t) 0) = gcb_of (last (a :: t) 0) \/ softv (gcb_of (last (composeF a t) 0)) = true.
Proof.
  induction t as [|b t IH]; intros a; [left; reflexivity|]. cbn [composeF]. destruct (comp a b) as [c|] eqn:E.
  - destruct t as [|d t].
    + right. cbn [composeF last]. destruct (comp_roles a b c E) as (_ & [(_ & X)|(_ & X)]); unfold softv; rewrite X; [apply orb_true_r|reflexivity].
    + exact (IH c).
  - destruct (composeF_head t b) as (y & ys & Ey & _). specialize (IH b). rewrite Ey in *. exact IH.
Qed.

(** ** A grapheme without controls *)
Definition piece (k : bool) (g : list Z) : list Z :=
  if k then compose (isort (flat_map full g)) else isort (flat_map full g).
Lemma flat_full_ne g : g <> [] -> flat_map full g <> [].
Proof.
  destruct g as [|c g]; [contradiction|]. intros _. cbn [flat_map]. pose proof (full_canonical_ne c) as N. destruct (full c); [contradiction|discriminate].
Qed.
Lemma compose_ne l : l <> [] -> compose l <> [].
Proof. destruct l as [|a t]; [contradiction|]. intros _. cbn [compose]. destruct (composeF_head t a) as (y & ys & -> & _). discriminate. Qed.
Lemma piece_ne k g : g <> [] -> piece k g <> [].
Proof. intros H. unfold piece. destruct k; [apply compose_ne|]; apply isort_ne, flat_full_ne; assumption. Qed.
Lemma piece_nb k g : g <> [] -> adj nb g -> Forall nc g -> adj nb (piece k g).
Proof.
  intros NE A N. pose proof (sorted_nb g NE A N) as S. unfold piece. destruct k; [|exact S].
  destruct (isort (flat_map full g)) as [|a t]; [exact I|]. apply composed_nb. exact S.
Qed.
Lemma piece_nc k g : Forall nc g -> Forall nc (piece k g).
Proof.
  intros N. assert (S : Forall nc (isort (flat_map full g))) by (apply isort_nc, flat_nc; exact N). unfold piece. destruct k; [|exact S].
  destruct (isort (flat_map full g)) as [|a t]; [exact S|]. apply composed_nc. exact S.
Qed.
(** The head keeps its class. *)
Lemma piece_head k c g : ~ joins (gcb_of c) -> adj nb (c :: g) -> Forall nc (c :: g) -> gcb_of (hd 0 (piece k (c :: g))) = gcb_of c.
Proof.
  intros J A N.
  assert (Q : exists h t, flat_map full (c :: g) = h :: t /\ gcb_of h = gcb_of c /\ ccc h = 0).
  { cbn [flat_map]. assert (Z : forall h, gcb_of h = gcb_of c -> ccc h = 0).
    { intros h E. destruct (Z.eq_dec (ccc h) 0) as [X|X]; [exact X|]. exfalso. apply J. left. rewrite <- E. apply mark_mk. exact X. }
    destruct (full_canonical_classes c) as [E|[(M & M')|(O & h & t & E & H & M')]].
    - rewrite E. exists c, (flat_map full g). auto.
    - exfalso. apply J. left. exact M.
    - rewrite E. exists h, (t ++ flat_map full g). split; [reflexivity|]. assert (X : gcb_of h = gcb_of c) by congruence. auto. }
  destruct Q as (h & t & E & H & Z). assert (S := sorted_nb (c :: g) ltac:(discriminate) A N). unfold piece. rewrite E in *.
  destruct (isort_head h t Z) as (t' & I). rewrite I in *. destruct k; [|exact H]. cbn [compose].
  destruct (composed_nb t' h S) as (_ & [R|(R & _)]); [congruence|]. exfalso. apply J. left. congruence.
Qed.
Lemma last_in (l : list Z) : l <> [] -> In (last l 0) l.
Proof. intros H. destruct (exists_last H) as (x & a & ->). rewrite last_last. apply in_or_app. right. left. reflexivity. Qed.
Lemma last_app_r (l r : list Z) : r <> [] -> last (l ++ r) 0 = last r 0.
Proof. intros H. destruct (exists_last H) as (x & a & ->). rewrite app_assoc, !last_last. reflexivity. Qed.
(** The last codepoint keeps its class or becomes a mark, or a codepoint of no class. *)
Lemma sorted_last g c : gcb_of (last (isort (flat_map full (g ++ [c]))) 0) = gcb_of c \/ softv (gcb_of (last (isort (flat_map full (g ++ [c]))) 0)) = true.
Proof.
  set (f := flat_map full (g ++ [c])). rewrite isort_split. pose proof (marked_mk f) as M. destruct (isort (marked f)) as [|x m] eqn:E.
  - assert (Z : marked f = []).
    { destruct (marked f) as [|y r] eqn:Q; [reflexivity|]. exfalso. apply (isort_ne (y :: r)); [discriminate|exact E]. }
    assert (S : of_class 0 f = f).
    { clear M E. revert Z. generalize f as l. unfold marked, of_class. induction l as [|y l IH]; [reflexivity|]. cbn [List.filter]. destruct (ccc y =? 0); cbn [negb]; [|discriminate].
      intros Z. rewrite (IH Z). reflexivity. }
    rewrite S, app_nil_r. unfold f. rewrite flat_map_app. cbn [flat_map]. rewrite app_nil_r, (last_app_r _ _ (full_canonical_ne c)).
    destruct (full_canonical_classes c) as [F|[(F & F')|(F & h & t & F' & H & T)]].
    + rewrite F. left. reflexivity.
    + right. unfold softv. rewrite (proj1 (Forall_forall _ _) F' _ (last_in _ (full_canonical_ne c))). apply orb_true_r.
    + rewrite F'. right. destruct t as [|y t]; [cbn [last]; rewrite H; reflexivity|]. change (last (h :: y :: t) 0) with (last (y :: t) 0).
      unfold softv. rewrite (proj1 (Forall_forall _ _) T _ (last_in (y :: t) ltac:(discriminate))). apply orb_true_r.
  - right. rewrite last_app_r by discriminate. unfold softv. rewrite (proj1 (Forall_forall _ _) M _ (last_in (x :: m) ltac:(discriminate))). apply orb_true_r.
Qed.
Lemma piece_last k g c : gcb_of (last (piece k (g ++ [c])) 0) = gcb_of c \/ softv (gcb_of (last (piece k (g ++ [c])) 0)) = true.
Proof.
  pose proof (sorted_last g c) as S. unfold piece. destruct k; [|exact S].
  destruct (isort (flat_map full (g ++ [c]))) as [|a t]; [exact S|]. cbn [compose].
  destruct (composed_last t a) as [E|E]; [rewrite E; exact S|right; exact E].
Qed.
(** A grapheme of controls. *)
Lemma piece_controls k g : Forall control g -> piece k g = g.
Proof.
  intros F. assert (E : flat_map full g = g).
  { induction F as [|c g C F IH]; [reflexivity|]. cbn [flat_map]. rewrite IH, (canonical_control c C). reflexivity. }
  assert (Z : isort g = g).
  { clear E. induction F as [|c g C F IH]; [reflexivity|]. cbn [isort fold_right]. fold (isort g). rewrite IH.
    destruct (control_inert c C) as (Z & _). destruct g as [|d g]; [reflexivity|]. cbn [insert]. rewrite Z. pose proof (ccc_nonneg d).
    destruct (Z.leb_spec 0 (ccc d)); [reflexivity|lia]. }
  unfold piece. rewrite E, Z. destruct k; [|reflexivity]. destruct g as [|a t]; [reflexivity|]. cbn [compose].
  clear E Z. revert a F. induction t as [|b t IH]; intros a F; [reflexivity|]. inversion F as [|? ? A F']; subst. cbn [composeF].
  destruct (control_inert a A) as (_ & X & _). rewrite X. f_equal. apply IH. exact F'.
Qed.

(** ** Where emoji modifiers stand in the text *)
Definition md (a b : Z) : Prop := gcb_of b = G_E_MODIFIER ->
  gcb_of a <> G_ZWJ /\ gcb_of a <> G_GLUE_AFTER_ZWJ /\ gcb_of a <> G_E_MODIFIER /\ Forall (fun x => mk (gcb_of x) = false) (full a).
Lemma md_mk a b : md a b -> gcb_of b = G_E_MODIFIER -> mk (gcb_of a) = false.
Proof.
  intros H E. destruct (H E) as (_ & _ & _ & F). destruct (full_canonical_classes a) as [X|[(X & F')|(X & _)]].
  - rewrite X in F. inversion F; assumption.
  - exfalso. pose proof (full_canonical_ne a) as NE. pose proof (last_in _ NE) as L.
    pose proof (proj1 (Forall_forall _ _) F _ L) as P. pose proof (proj1 (Forall_forall _ _) F' _ L) as Q. cbv beta in P, Q. congruence.
  - rewrite X. reflexivity.
Qed.
Lemma md_nb a b : brk a b = false -> md a b -> nb a b.
Proof.
  intros B M. split; [exact B|]. intros E. pose proof (md_mk a b M E) as Q. destruct (M E) as (Z & _). unfold brk in B. rewrite E in B.
  unfold modifies. destruct (gcb_of a); cbn in B, Q; try discriminate; auto.
Qed.
Definition plainv (v : gcb) : bool :=
  match v with G_OTHER | G_REGIONAL_INDICATOR | G_L | G_V | G_T | G_LV | G_LVT | G_PREPEND => true | _ => false end.
Lemma plain_before a b : nb a b -> plainv (gcb_of b) = true -> nc a -> plainv (gcb_of a) = true /\ gcb_of a <> G_OTHER.
Proof.
  unfold nb, brk, nc, control. generalize (gcb_of a) (gcb_of b). intros va vb (B & _) P N.
  destruct va; try (exfalso; apply N; auto; fail); destruct vb; cbn in P; try discriminate P; cbn in B; try discriminate B; (split; [reflexivity|discriminate]).
Qed.
Lemma plain_all g : forall a, adj nb (g ++ [a]) -> plainv (gcb_of a) = true -> Forall nc g -> Forall (fun x => plainv (gcb_of x) = true /\ gcb_of x <> G_OTHER) g.
Proof.
  induction g as [|b g IH] using rev_ind; intros a A P N; [constructor|]. apply Forall_app in N. destruct N as (N & Nb). inversion Nb as [|? ? X _]; subst.
  assert (B : nb b a). { rewrite adj_iff in A. apply (A g b a []). rewrite <- app_assoc. reflexivity. }
  destruct (plain_before b a B P X) as (P1 & P2). apply Forall_app. split; [|constructor; [split; assumption|constructor]].
  apply (IH b); [|assumption|assumption]. rewrite adj_iff in *. intros x c d y E. apply (A x c d (y ++ [a])). rewrite E, <- app_assoc. reflexivity.
Qed.
Lemma plain_full x : plainv (gcb_of x) = true -> gcb_of x <> G_OTHER -> full x = [x].
Proof.
  intros P O. destruct (full_canonical_classes x) as [E|[(M & _)|(Q & _)]]; [exact E|exfalso; destruct (gcb_of x); discriminate|contradiction].
Qed.
Lemma plain_ccc x : mk (gcb_of x) = false -> ccc x = 0.
Proof. intros P. destruct (Z.eq_dec (ccc x) 0) as [E|E]; [exact E|]. apply mark_mk in E. congruence. Qed.
Lemma no_marks l : Forall (fun x => mk (gcb_of x) = false) l -> isort l = l /\ compose l = l.
Proof.
  intros F. split.
  - induction F as [|x l X F IH]; [reflexivity|]. cbn [isort fold_right]. fold (isort l). rewrite IH. destruct l as [|y l]; [reflexivity|].
    cbn [insert]. rewrite (plain_ccc x X). pose proof (ccc_nonneg y). destruct (Z.leb_spec 0 (ccc y)); [reflexivity|lia].
  - destruct F as [|a t A F]; [reflexivity|]. cbn [compose]. clear A. revert a. induction F as [|b t B F IH]; intros a; [reflexivity|]. cbn [composeF].
    destruct (comp a b) as [c|] eqn:E; [|f_equal; apply IH]. destruct (comp_roles a b c E) as (M & _). congruence.
Qed.
Lemma plain_piece k g a : adj nb (g ++ [a]) -> Forall nc (g ++ [a]) -> plainv (gcb_of a) = true ->
  Forall (fun x => mk (gcb_of x) = false) (full a) -> gcb_of (last (piece k (g ++ [a])) 0) = gcb_of a.
Proof.
  intros A N P F. apply Forall_app in N. destruct N as (N & _). pose proof (plain_all g a A P N) as G.
  assert (E : flat_map full (g ++ [a]) = g ++ full a).
  { rewrite flat_map_app. cbn [flat_map]. rewrite app_nil_r. f_equal. clear - G. induction G as [|x g (X & Y) G IH]; [reflexivity|]. cbn [flat_map].
    rewrite IH, (plain_full x X Y). reflexivity. }
  assert (M : Forall (fun x => mk (gcb_of x) = false) (g ++ full a)).
  { apply Forall_app. split; [|exact F]. eapply Forall_impl; [|exact G]. intros x (X & _). destruct (gcb_of x); cbn in X; try discriminate X; reflexivity. }
  destruct (no_marks _ M) as (S & C). assert (Q : piece k (g ++ [a]) = g ++ full a) by (unfold piece; rewrite E, S; destruct k; [exact C|reflexivity]).
  rewrite Q, (last_app_r _ _ (full_canonical_ne a)). destruct (full_canonical_classes a) as [X|[(X & _)|(X & h & t & Y & H & T)]].
  - rewrite X. reflexivity.
  - exfalso. destruct (gcb_of a); discriminate.
  - rewrite Y in *. destruct t as [|y t]; [cbn [last]; congruence|]. exfalso. inversion F as [|? ? _ F']; subst. inversion F'; subst. inversion T; subst. congruence.
Qed.

(** ** Neighbouring graphemes *)
Lemma controls_or_none cs g : In g (seg cs) -> Forall control g \/ Forall nc g.
Proof.
  intros I. destruct g as [|c g]; [left; constructor|].
  assert (K : forall l c, (forall x a b y, c :: l = x ++ a :: b :: y -> brk a b = false) -> (control c -> Forall control (c :: l)) /\ (nc c -> Forall nc (c :: l))).
  { clear. induction l as [|d l IH]; intros c H; [split; intros X; (constructor; [exact X|constructor])|].
    assert (B : brk c d = false) by (apply (H [] c d l); reflexivity).
    destruct (IH d) as (P & Q). { intros x a b y E. apply (H (c :: x) a b y). rewrite E. reflexivity. }
    split; intros X; (constructor; [exact X|]).
    - apply P. unfold control in X |- *. unfold brk in B. destruct X as [X|[X|X]]; rewrite X in B; destruct (gcb_of d); cbn in B; try discriminate B; auto.
    - apply Q. intros D. destruct (brk_control_inside c d B D) as (Y & _). exact (X Y). }
  destruct (K g c) as (P & Q). { intros x a b y E. exact (seg_inside cs _ x a b y I E). }
  assert (D : control c \/ nc c) by (unfold nc, control; destruct (gcb_of c); (left; auto; fail) || (right; intros [X|[X|X]]; discriminate)).
  destruct D as [D|D]; [left; apply P|right; apply Q]; exact D.
Qed.
Lemma control_break a b : control a -> nc b -> brk a b = true.
Proof. unfold control, nc, brk. intros [E|[E|E]] N; rewrite E; destruct (gcb_of b) eqn:V; try reflexivity. exfalso. apply N. unfold control. auto. Qed.
Lemma break_control a b : nc a -> control b -> brk a b = true.
Proof. intros N C. destruct (brk a b) eqn:E; [reflexivity|]. destruct (brk_control_inside a b E C) as (X & _). contradiction. Qed.
Lemma breaks_not_joins a b : brk a b = true -> nc a -> ~ joins (gcb_of b).
Proof.
  unfold brk, nc, control, joins. generalize (gcb_of a) (gcb_of b). intros va vb B N [J|J].
  - destruct va; try (apply N; auto; fail); destruct vb; cbn in J; try discriminate J; cbn in B; discriminate B.
  - subst vb. destruct va; try (apply N; auto; fail); cbn in B; discriminate B.
Qed.
Lemma soft_break va vb : softv va = true -> ~ joins vb -> vb <> G_E_MODIFIER -> boundary_chain va vb = true.
Proof.
  unfold joins. intros S J M. destruct va; cbn in S; try discriminate S; destruct vb; try reflexivity; exfalso; auto.
Qed.
Lemma plain_from_break va : boundary_chain va G_E_MODIFIER = true -> va <> G_ZWJ -> va <> G_GLUE_AFTER_ZWJ -> va <> G_E_MODIFIER -> mk va = false ->
  ~ (va = G_CONTROL \/ va = G_CR \/ va = G_LF) -> plainv va = true.
Proof. intros B Z G M K C. destruct va; try reflexivity; cbn in B, K; try discriminate; exfalso; auto. Qed.
Lemma pieces_apart k cs l a b r : In (l ++ [a]) (seg cs) -> In (b :: r) (seg cs) -> adj nb (l ++ [a]) -> adj nb (b :: r) ->
  brk a b = true -> md a b -> brk (last (piece k (l ++ [a])) 0) (hd 0 (piece k (b :: r))) = true.
Proof.
  intros I1 I2 A1 A2 B M. destruct (controls_or_none cs _ I1) as [C1|N1], (controls_or_none cs _ I2) as [C2|N2].
  - rewrite !piece_controls by assumption. rewrite last_last. exact B.
  - rewrite (piece_controls k _ C1), last_last. apply control_break.
    + apply Forall_app in C1. destruct C1 as (_ & C1). inversion C1; assumption.
    + pose proof (piece_nc k _ N2) as N. pose proof (piece_ne k (b :: r) ltac:(discriminate)) as NE. destruct (piece k (b :: r)); [contradiction|]. inversion N; assumption.
  - rewrite (piece_controls k _ C2). apply break_control; [|inversion C2; assumption].
    pose proof (piece_nc k _ N1) as N. exact (proj1 (Forall_forall _ _) N _ (last_in _ (piece_ne k (l ++ [a]) ltac:(destruct l; discriminate)))).
  - assert (Na : nc a) by (apply Forall_app in N1; destruct N1 as (_ & N1); inversion N1; assumption).
    pose proof (breaks_not_joins a b B Na) as J. unfold brk. rewrite (piece_head k b r J A2 N2).
    destruct (gcb_eqb (gcb_of b) G_E_MODIFIER) eqn:V.
    + assert (E : gcb_of b = G_E_MODIFIER) by (destruct (gcb_of b); cbn in V; congruence). destruct (M E) as (M1 & M2 & M3 & M4).
      assert (P : plainv (gcb_of a) = true).
      { apply plain_from_break; try assumption; [unfold brk in B; rewrite E in B; exact B|apply (md_mk a b M E)]. }
      rewrite (plain_piece k l a A1 N1 P M4). exact B.
    + assert (E : gcb_of b <> G_E_MODIFIER) by (intros X; rewrite X in V; discriminate).
      destruct (piece_last k l a) as [L|L]; [rewrite L; exact B|]. apply soft_break; assumption.
Qed.

(** ** The segmentation of the output *)
Lemma seg_one g : g <> [] -> adj (fun a b => brk a b = false) g -> seg g = [g].
Proof.
  induction g as [|a [|b t] IH]; intros NE A; [contradiction|reflexivity|]. destruct A as (A & A'). rewrite seg_cons2, A.
  rewrite (IH ltac:(discriminate) A'). reflexivity.
Qed.
Lemma seg_pieces (p : list Z -> list Z) gs : (forall g, In g gs -> p g <> [] /\ adj (fun a b => brk a b = false) (p g)) ->
  (forall G1 g h G2, gs = G1 ++ g :: h :: G2 -> brk (last (p g) 0) (hd 0 (p h)) = true) ->
  seg (concat (map p gs)) = map p gs.
Proof.
  induction gs as [|g [|h gs] IH]; intros P Q; [reflexivity| |].
  - cbn [map concat]. rewrite app_nil_r. destruct (P g (or_introl eq_refl)) as (X & Y). apply seg_one; assumption.
  - destruct (P g (or_introl eq_refl)) as (X & Y). destruct (P h (or_intror (or_introl eq_refl))) as (X' & _).
    specialize (IH (fun z I => P z (or_intror I)) (fun G1 z w G2 E => Q (g :: G1) z w G2 (f_equal (cons g) E))).
    pose proof (Q [] g h gs eq_refl) as B. change (concat (map p (g :: h :: gs))) with (p g ++ concat (map p (h :: gs))).
    assert (R : exists c y, concat (map p (h :: gs)) = c :: y /\ hd 0 (p h) = c).
    { cbn [map concat]. destruct (p h) as [|c w]; [contradiction|]. exists c, (w ++ concat (map p gs)). split; reflexivity. }
    destruct R as (c & y & R & Hc). rewrite Hc in B. rewrite R in *. pose proof (seg_one (p g) X Y) as SO. destruct (p g) as [|a x] eqn:PG; [contradiction|].
    rewrite (seg_app x a c y B), IH, SO. cbn [map app]. rewrite PG. reflexivity.
Qed.
Lemma adj_concat P gs : adj P (concat gs) -> (forall g, In g gs -> adj P g) /\
  (forall G1 l a b r G2, gs = G1 ++ (l ++ [a]) :: (b :: r) :: G2 -> P a b).
Proof.
  intros A. rewrite adj_iff in A. split.
  - intros g I. apply in_split in I. destruct I as (G1 & G2 & ->). apply adj_iff. intros x a b y ->.
    apply (A (concat G1 ++ x) a b (y ++ concat G2)). rewrite concat_app. cbn [concat]. rewrite <- !app_assoc. reflexivity.
  - intros G1 l a b r G2 ->. apply (A (concat G1 ++ l) a b (r ++ concat G2)). rewrite concat_app. cbn [concat]. rewrite <- !app_assoc. reflexivity.
Qed.
Lemma kept k cs : adj md cs -> seg (concat (map (piece k) (seg cs))) = map (piece k) (seg cs).
Proof.
  intros A. rewrite <- (seg_concat cs) in A. apply adj_concat in A. destruct A as (A1 & A2).
  assert (NB : forall g, In g (seg cs) -> g <> [] /\ adj nb g).
  { intros g I. split; [exact (proj1 (Forall_forall _ _) (seg_nonempty cs) g I)|]. specialize (A1 g I). rewrite adj_iff in A1 |- *.
    intros x a b y E. apply md_nb; [exact (seg_inside cs g x a b y I E)|exact (A1 x a b y E)]. }
  apply seg_pieces.
  - intros g I. destruct (NB g I) as (NE & N). split; [apply piece_ne; exact NE|].
    destruct (controls_or_none cs g I) as [C|C].
    + rewrite (piece_controls k g C). apply adj_iff. intros x a b y E. exact (seg_inside cs g x a b y I E).
    + pose proof (piece_nb k g NE N C) as Q. rewrite adj_iff in Q |- *. intros x a b y E. apply (Q x a b y E).
  - intros G1 g h G2 E. assert (Ig : In g (seg cs)) by (rewrite E; apply in_or_app; right; left; reflexivity).
    assert (Ih : In h (seg cs)) by (rewrite E; apply in_or_app; right; right; left; reflexivity).
    destruct (NB g Ig) as (NEg & Ng). destruct (NB h Ih) as (NEh & Nh). destruct h as [|b r]; [contradiction|].
    destruct (exists_last NEg) as (l & a & ->). apply (pieces_apart k cs); try assumption.
    + exact (seg_between cs G1 (l ++ [a]) (b :: r) G2 l a b r E eq_refl eq_refl).
    + exact (A2 G1 l a b r G2 E).
Qed.
