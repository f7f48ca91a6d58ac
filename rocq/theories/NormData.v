(** * Proofs: facts about the tables used for normalization *)
From Verif Require Import Prelude DataTables UcdTables PropsModel Utf8Model TextModel UnicodeSpec GraphemeSpec NormSpec
  PropsProofs DecompTables DecompProofs GraphemeProofs OrderProofs ComposeProofs.
Require Import ZifyBool ZifyNat.

(** ** Grapheme break classes of marks and of controls *)
Definition in_ranges (rs : list (Z * Z * gcb)) (c : Z) : bool :=
  existsb (fun r => (fst (fst r) <=? c) && (c <=? snd (fst r))) rs.
Definition mark_ranges := List.filter (fun r => match snd r with G_EXTEND | G_SPACINGMARK => true | _ => false end) ucd_grapheme_break.
Definition control_ranges := List.filter (fun r => match snd r with G_CONTROL | G_CR | G_LF => true | _ => false end) ucd_grapheme_break.
Definition joiner (c : Z) : Prop := gcb_of c = G_EXTEND \/ gcb_of c = G_SPACINGMARK.
Definition control (c : Z) : Prop := gcb_of c = G_CONTROL \/ gcb_of c = G_CR \/ gcb_of c = G_LF.
Lemma in_mark_ranges c : in_ranges mark_ranges c = true -> joiner c.
Proof.
  unfold in_ranges, mark_ranges. intros H. apply existsb_exists in H. destruct H as ([[lo hi] v] & I & B).
  apply filter_In in I. destruct I as [I V]. cbn [fst snd] in *.
  assert (gcb_of c = v) by (apply gcb_spec; left; exists lo, hi; split; [assumption|lia]).
  unfold joiner. destruct v; try discriminate; auto.
Qed.
Lemma in_control_ranges c : control c -> in_ranges control_ranges c = true.
Proof.
  intros H. assert (G : exists v, gcb_of c = v /\ In v [G_CONTROL; G_CR; G_LF]).
  { destruct H as [H|[H|H]]; eexists; (split; [exact H|cbn; auto]). }
  destruct G as (v & G & I). apply gcb_spec in G. destruct G as [(lo & hi & J & B)|[_ ->]].
  - unfold in_ranges, control_ranges. apply existsb_exists. exists (lo, hi, v). split; [|cbn; lia].
    apply filter_In. split; [assumption|]. cbn. destruct I as [<-|[<-|[<-|[]]]]; reflexivity.
  - destruct I as [E|[E|[E|[]]]]; discriminate.
Qed.

(** A nonstarter, or a codepoint that composes with one in front of it. *)
Definition second (x : Z) : Prop := exists a d, comp a x = Some d.
Definition glue (x : Z) : Prop := ccc x <> 0 \/ second x.
Definition is_second (x : Z) : bool := match lookup seconds_tree x with Some _ => true | None => false end.
Lemma is_second_spec x : second x -> is_second x = true.
Proof.
  intros (a & d & E). apply comp_row in E. unfold is_second.
  destruct (lookup seconds_tree x) as [r|] eqn:F; [reflexivity|].
  exfalso. exact (lookup_none _ _ _ seconds_pos F _ E eq_refl).
Qed.
Definition glueb (x : Z) : bool := negb (fast_ccc x =? 0) || is_second x.
Lemma glueb_spec x : glue x -> glueb x = true.
Proof.
  unfold glueb. rewrite fast_ccc_eq. intros [H|H]; [|rewrite (is_second_spec x H); apply orb_true_r].
  destruct (Z.eqb_spec (ccc x) 0); [contradiction|reflexivity].
Qed.
Lemma marks_join : forallb (fun r => in_ranges mark_ranges (fst r)) ucd_ccc = true.
Proof. vm_cast_no_check (eq_refl true). Qed.
Lemma seconds_join : forallb (fun r => in_ranges mark_ranges (row_at r 1)) canonical_composition_mapping_data = true.
Proof. vm_cast_no_check (eq_refl true). Qed.
Lemma glue_joins x : glue x -> joiner x.
Proof.
  intros [H|(a & d & E)]; apply in_mark_ranges.
  - destruct (has_ccc_total x) as [I|[_ E]]; [|contradiction].
    pose proof marks_join as Q. rewrite forallb_forall in Q. exact (Q _ I).
  - apply comp_row in E. pose proof seconds_join as Q. rewrite forallb_forall in Q. exact (Q _ E).
Qed.

(** ** Rows *)
Lemma table_full_row keep data c : closed_table keep data ->
  table_full data c = [c] \/ In (c :: table_full data c ++ [0]) data.
Proof.
  intros (S & R & _). unfold table_full, table_resolver.
  destruct (bsearch_correct _ _ (ordered_rows data c S)) as [(r & -> & I & E)|(-> & N)]; cbn [bind]; [right|left; reflexivity].
  rewrite forallb_forall in R. specialize (R r I). destruct r as [|a r]; [discriminate|].
  apply Z.eqb_eq in E. rewrite compare_value_eq in E. cbn in E. apply Z.eqb_eq in E. subst a.
  destruct (row_ok_spec keep c r R) as (d & m & -> & _). cbn [tl]. rewrite removelast_snoc. assumption.
Qed.
Definition head_ok (row : list Z) : bool :=
  match row with c :: x :: _ => negb (glueb x) || in_ranges mark_ranges c | _ => false end.
Lemma canonical_heads_ok : forallb head_ok canonical_decomposition_mapping_data = true.
Proof. vm_cast_no_check (eq_refl true). Qed.
Lemma compat_heads_ok : forallb head_ok compatibility_and_canonical_decomposition_mapping_data = true.
Proof. vm_cast_no_check (eq_refl true). Qed.
Lemma head_joins keep data c x t : closed_table keep data -> forallb head_ok data = true ->
  table_full data c = x :: t -> glue x -> joiner c.
Proof.
  intros T H E G. destruct (table_full_row keep data c T) as [F|I].
  - rewrite F in E. injection E as <- _. apply glue_joins. assumption.
  - rewrite E in I. rewrite forallb_forall in H. specialize (H _ I). cbn [app head_ok] in H.
    rewrite (glueb_spec x G) in H. cbn [negb orb] in H. apply in_mark_ranges. assumption.
Qed.

(** ** Controls are inert *)
Definition inert (s : Z) : Prop := ccc s = 0 /\ (forall x, comp s x = None) /\ (forall x, comp x s = None).
Lemma controls_first : forallb (fun r => negb (in_ranges control_ranges (row_at r 0))) canonical_composition_mapping_data = true.
Proof. vm_cast_no_check (eq_refl true). Qed.
Lemma joiner_not_control c : joiner c -> ~ control c.
Proof. unfold joiner, control. intros [->| ->] [H|[H|H]]; discriminate. Qed.
Lemma control_inert c : control c -> inert c.
Proof.
  intros H. split; [|split].
  - destruct (Z.eq_dec (ccc c) 0) as [E|E]; [assumption|]. exfalso. apply (joiner_not_control c); [apply glue_joins; left; assumption|assumption].
  - intros x. destruct (comp c x) as [d|] eqn:E; [|reflexivity]. exfalso. apply comp_row in E.
    pose proof controls_first as Q. rewrite forallb_forall in Q. specialize (Q _ E). cbn [row_at nth] in Q.
    rewrite (in_control_ranges c H) in Q. discriminate.
  - intros x. destruct (comp x c) as [d|] eqn:E; [|reflexivity]. exfalso. apply (joiner_not_control c); [|assumption].
    apply glue_joins. right. exists x, d. assumption.
Qed.
Definition head_not_control (row : list Z) : bool := negb (in_ranges control_ranges (row_at row 0)).
Lemma canonical_not_control : forallb head_not_control canonical_decomposition_mapping_data = true.
Proof. vm_cast_no_check (eq_refl true). Qed.
Lemma compat_not_control : forallb head_not_control compatibility_and_canonical_decomposition_mapping_data = true.
Proof. vm_cast_no_check (eq_refl true). Qed.
Lemma control_full keep data c : closed_table keep data -> forallb head_not_control data = true -> control c ->
  table_full data c = [c].
Proof.
  intros T H C. destruct (table_full_row keep data c T) as [F|I]; [assumption|]. exfalso.
  rewrite forallb_forall in H. specialize (H _ I). unfold head_not_control in H. cbn [row_at nth] in H.
  rewrite (in_control_ranges c C) in H. discriminate.
Qed.

(** ** Where the rules put a boundary, decompositions do not interact *)
Lemma brk_joiner a b : brk a b = true -> joiner b -> control a.
Proof. unfold brk, joiner, control. intros H [E|E]; rewrite E in H; destruct (gcb_of a); cbn in H; try discriminate; auto. Qed.
Lemma brk_control_inside a b : brk a b = false -> control b -> control a /\ control b.
Proof. unfold brk, control. intros H [E|[E|E]]; rewrite E in *; destruct (gcb_of a); cbn in H; try discriminate; auto. Qed.
Definition apart (l r : list Z) : Prop := (exists x t, r = x :: t /\ ~ glue x) \/ Forall inert l.
Section Full.
Context (full : Z -> list Z).
Context (full_ne : forall c, full c <> []).
Context (full_head : forall c x t, full c = x :: t -> glue x -> joiner c).
Context (full_control : forall c, control c -> full c = [c]).
Lemma glue_dec x : glue x \/ ~ glue x.
Proof.
  unfold glue, second. destruct (Z.eq_dec (ccc x) 0) as [E|E]; [|left; left; assumption].
  destruct (in_dec Z.eq_dec x (map (fun r => row_at r 1) canonical_composition_mapping_data)) as [I|N].
  - left. right. apply in_map_iff in I. destruct I as (r & <- & I). destruct (comp_row_shape r I) as (a & b & c & -> & P).
    exists a, c. apply comp_spec. assumption.
  - right. intros [H|(a & d & H)]; [contradiction|]. apply comp_row in H. apply N.
    apply in_map_iff. exists [a; x; d]. auto.
Qed.
Lemma graphemes_apart cs G1 g h G2 : seg cs = G1 ++ g :: h :: G2 -> apart (flat_map full g) (flat_map full h).
Proof.
  intros E. pose proof (seg_nonempty cs) as NE. rewrite Forall_forall in NE.
  assert (Ig : In g (seg cs)) by (rewrite E; apply in_or_app; right; left; reflexivity).
  assert (Ih : In h (seg cs)) by (rewrite E; apply in_or_app; right; right; left; reflexivity).
  pose proof (NE g Ig) as Ng. pose proof (NE h Ih) as Nh.
  destruct h as [|b r]; [contradiction|]. destruct (exists_last Ng) as (l & a & ->).
  pose proof (seg_between cs G1 (l ++ [a]) (b :: r) G2 l a b r E eq_refl eq_refl) as B.
  cbn [flat_map]. destruct (full b) as [|x t] eqn:F; [exfalso; eapply full_ne; eassumption|].
  destruct (glue_dec x) as [G|G]; [right|left; exists x, (t ++ flat_map full r); auto].
  pose proof (brk_joiner a b B (full_head b x t F G)) as C.
  assert (A : Forall control (l ++ [a])).
  { clear - C Ig. assert (K : forall m y r, In (m ++ y :: r) (seg cs) -> control y -> Forall control (m ++ [y])).
    { induction m as [|z m IH] using rev_ind; intros y r I Cy; [constructor; [assumption|constructor]|].
      rewrite <- app_assoc in I. cbn [app] in I.
      destruct (brk_control_inside z y (seg_inside cs _ m z y r I eq_refl) Cy) as [Cz _].
      apply Forall_app. split; [eapply IH; eassumption|constructor; [assumption|constructor]]. }
    exact (K l a [] Ig C). }
  clear - A full_control. induction A as [|c m C _ IH]; cbn [flat_map]; [constructor|].
  rewrite (full_control c C). cbn [app]. constructor; [apply control_inert; assumption|assumption].
Qed.
End Full.
