(** * Expansion of decomposition mappings, and checks of the data tables *)
From Coq Require Import Sorting.Sorted FMapPositive.
From Verif Require Import Prelude DataTables UcdTables PropsModel TextModel UnicodeSpec PropsProofs.

Scheme expands_mut := Induction for expands Sort Prop
  with expands_all_mut := Induction for expands_all Sort Prop.
Combined Scheme expands_ind2 from expands_mut, expands_all_mut.

Definition functional (M : Z -> list Z -> Prop) : Prop := forall c l l', M c l -> M c l' -> l = l'.

Lemma expands_fun M : functional M ->
  (forall c d, expands M c d -> forall d', expands M c d' -> d = d') /\
  (forall cs d, expands_all M cs d -> forall d', expands_all M cs d' -> d = d').
Proof.
  intros F. apply expands_ind2.
  - intros c N d' H. inversion H as [|? l ? Ml]; subst; [reflexivity|]. exfalso. eapply N; eassumption.
  - intros c l d Ml _ IH d' H. inversion H as [? N|? l' ? Ml' E]; subst; [exfalso; eapply N; eassumption|].
    apply IH. rewrite (F _ _ _ Ml Ml'). assumption.
  - intros d' H. inversion H. reflexivity.
  - intros c cs d ds _ IH1 _ IH2 d' H. inversion H; subst. f_equal; auto.
Qed.
Lemma expands_unmapped M :
  (forall c d, expands M c d -> forall x l, In x d -> ~ M x l) /\
  (forall cs d, expands_all M cs d -> forall x l, In x d -> ~ M x l).
Proof.
  apply expands_ind2.
  - intros c N x l [<-|[]]. apply N.
  - intros c l d _ _ IH. exact IH.
  - intros x l [].
  - intros c cs d ds _ IH1 _ IH2 x l H. apply in_app_or in H. destruct H; eauto.
Qed.
(** A larger mapping gives the same expansion when nothing left in it is mapped. *)
Lemma expands_larger (M M' : Z -> list Z -> Prop) : (forall c l, M c l -> M' c l) ->
  (forall c d, expands M c d -> (forall x l, In x d -> ~ M' x l) -> expands M' c d) /\
  (forall cs d, expands_all M cs d -> (forall x l, In x d -> ~ M' x l) -> expands_all M' cs d).
Proof.
  intros S. apply expands_ind2.
  - intros c _ H. apply expands_none. intros l. apply H. left. reflexivity.
  - intros c l d Ml _ IH H. eapply expands_map; [apply S; eassumption|auto].
  - constructor.
  - intros c cs d ds _ IH1 _ IH2 H. constructor; [apply IH1|apply IH2]; intros x l I; apply H, in_or_app; auto.
Qed.
Lemma expands_all_app M cs d cs' d' : expands_all M cs d -> expands_all M cs' d' ->
  expands_all M (cs ++ cs') (d ++ d').
Proof.
  intros H H'. induction H; [assumption|]. cbn. rewrite <- app_assoc. constructor; assumption.
Qed.
Lemma expands_all_self M d : (forall x l, In x d -> ~ M x l) -> expands_all M d d.
Proof.
  induction d as [|x d IH]; intros H; [constructor|]. change (x :: d) with ([x] ++ d).
  constructor; [apply expands_none; intros; apply H; left; reflexivity|].
  apply IH. intros. apply H. right. assumption.
Qed.

(** ** Executable expansion *)

(** The tables as search trees, to make the checks below fast. *)
Definition tree_of {R} (key : R -> Z) (l : list R) : PositiveMap.t R :=
  fold_right (fun r t => PositiveMap.add (Z.to_pos (key r)) r t) (PositiveMap.empty R) l.
Definition lookup {R} (t : PositiveMap.t R) (c : Z) : option R :=
  if c <=? 0 then None else PositiveMap.find (Z.to_pos c) t.
Lemma lookup_some {R} (key : R -> Z) l c r : Forall (fun r => 0 < key r) l ->
  lookup (tree_of key l) c = Some r -> In r l /\ key r = c.
Proof.
  intros F. unfold lookup. destruct (Z.leb_spec c 0) as [|Hc]; [discriminate|].
  induction l as [|x l IH]; cbn [tree_of fold_right].
  - rewrite PositiveMap.gempty. discriminate.
  - inversion F as [|? ? Fx Fl]; subst. destruct (Pos.eq_dec (Z.to_pos c) (Z.to_pos (key x))) as [E|E].
    + rewrite E, PositiveMap.gss. intros Q. injection Q as <-. split; [left; reflexivity|].
      apply Z2Pos.inj in E; lia.
    + rewrite PositiveMap.gso by assumption. intros Q. destruct (IH Fl Q). split; [right; assumption|assumption].
Qed.
Lemma lookup_none {R} (key : R -> Z) l c : Forall (fun r => 0 < key r) l ->
  lookup (tree_of key l) c = None -> forall r, In r l -> key r <> c.
Proof.
  intros F. unfold lookup. destruct (Z.leb_spec c 0) as [Hc|Hc].
  - intros _ r Hr. rewrite Forall_forall in F. specialize (F r Hr). cbv beta in F. lia.
  - induction l as [|x l IH]; cbn [tree_of fold_right]; [intros _ r []|].
    inversion F as [|? ? Fx Fl]; subst. destruct (Pos.eq_dec (Z.to_pos c) (Z.to_pos (key x))) as [E|E].
    + rewrite E, PositiveMap.gss. discriminate.
    + rewrite PositiveMap.gso by assumption. intros Q r [<-|Hr]; [|exact (IH Fl Q r Hr)].
      intros C. apply E. rewrite C. reflexivity.
Qed.

(** Each codepoint has at most one mapping in UnicodeData.txt. *)
Lemma ucd_decomposition_sorted :
  adjacent (fun a b => fst (fst a) <? fst (fst b)) ucd_decomposition = true.
Proof. vm_cast_no_check (eq_refl true). Qed.
Lemma ucd_decomposition_unique c t l t' l' :
  In (c, t, l) ucd_decomposition -> In (c, t', l') ucd_decomposition -> t = t' /\ l = l'.
Proof.
  pose proof ucd_decomposition_sorted as H. apply adjacent_sorted in H.
  2:{ cbn beta. intros x y z A B. zbool. apply Z.ltb_lt. lia. }
  intros I1 I2. apply In_nth_error in I1, I2. destruct I1 as [i Hi], I2 as [j Hj].
  destruct (Nat.lt_trichotomy i j) as [L|[->|L]].
  - pose proof (sorted_nth _ _ H i j _ _ L Hi Hj) as P. cbn in P. lia.
  - rewrite Hi in Hj. injection Hj. auto.
  - pose proof (sorted_nth _ _ H j i _ _ L Hj Hi) as P. cbn in P. lia.
Qed.
Lemma ucd_decomposition_pos : Forall (fun r => 0 < fst (fst r)) ucd_decomposition.
Proof.
  assert (H : forallb (fun r => 0 <? fst (fst r)) ucd_decomposition = true)
    by (vm_cast_no_check (eq_refl true)).
  rewrite forallb_forall in H. apply Forall_forall. intros r Hr. specialize (H r Hr). lia.
Qed.

Definition decomposition_tree := tree_of (fun r => fst (fst r)) ucd_decomposition.
Definition mapping_of (keep : dtag -> bool) (c : Z) : option (list Z) :=
  match lookup decomposition_tree c with
  | Some r => if keep (snd (fst r)) then Some (snd r) else None
  | None => None
  end.
Fixpoint expand (fuel : nat) (keep : dtag -> bool) (c : Z) : option (list Z) :=
  match fuel with
  | O => None
  | S f =>
      match mapping_of keep c with
      | None => Some [c]
      | Some l => fold_right (fun x acc =>
                    match expand f keep x, acc with Some d, Some ds => Some (d ++ ds) | _, _ => None end)
                    (Some []) l
      end
  end.
Definition rel_of (keep : dtag -> bool) (c : Z) (l : list Z) : Prop :=
  exists tag, In (c, tag, l) ucd_decomposition /\ keep tag = true.

Lemma mapping_of_none keep c : mapping_of keep c = None -> forall l, ~ rel_of keep c l.
Proof.
  unfold mapping_of, decomposition_tree. destruct (lookup _ _) as [[[a t] m]|] eqn:F.
  - apply lookup_some in F; [|exact ucd_decomposition_pos]. cbn [fst snd] in *. destruct F as [I ->].
    destruct (keep t) eqn:K; [discriminate|]. intros _ l (tag & I' & K').
    destruct (ucd_decomposition_unique _ _ _ _ _ I I') as [-> _]. congruence.
  - intros _ l (tag & I & K). eapply (lookup_none _ _ _ ucd_decomposition_pos F); [eassumption|reflexivity].
Qed.
Lemma mapping_of_some keep c l : mapping_of keep c = Some l -> rel_of keep c l.
Proof.
  unfold mapping_of, decomposition_tree. destruct (lookup _ _) as [[[a t] m]|] eqn:F; [|discriminate].
  apply lookup_some in F; [|exact ucd_decomposition_pos]. cbn [fst snd] in *. destruct F as [I ->].
  destruct (keep t) eqn:K; [|discriminate]. intros E. injection E as <-. exists t. auto.
Qed.
Lemma expand_expands keep : forall fuel c d, expand fuel keep c = Some d -> expands (rel_of keep) c d.
Proof.
  induction fuel as [|f IH]; intros c d H; [discriminate|]. cbn [expand] in H.
  destruct (mapping_of keep c) as [l|] eqn:Q.
  - eapply expands_map; [apply mapping_of_some; eassumption|]. clear Q. revert d H.
    induction l as [|x l IHl]; intros d H; cbn [fold_right] in H.
    + injection H as <-. constructor.
    + destruct (expand f keep x) as [dx|] eqn:E; [|discriminate].
      destruct (fold_right _ _ l) as [ds|] eqn:Q; [|discriminate]. injection H as <-.
      constructor; [apply IH; assumption|apply IHl; reflexivity].
  - injection H as <-. apply expands_none. apply mapping_of_none. assumption.
Qed.

Lemma rel_of_functional keep : functional (rel_of keep).
Proof. intros c l l' (t & I & _) (t' & I' & _). apply (ucd_decomposition_unique c t l t' l'); assumption. Qed.

Definition keep_canonical (t : dtag) : bool := match t with Canonical => true | _ => false end.
Definition keep_compat (t : dtag) : bool := match t with Canonical | Tag_compat => true | _ => false end.
Lemma rel_canonical c l : rel_of keep_canonical c l <-> listed_canonical c l.
Proof.
  unfold rel_of, listed_canonical. split.
  - intros (t & I & K). destruct t; try discriminate. assumption.
  - intros I. exists Canonical. auto.
Qed.
Lemma rel_compat c l : rel_of keep_compat c l <-> listed_compat c l.
Proof.
  unfold rel_of, listed_compat. split.
  - intros (t & I & K). destruct t; try discriminate; auto.
  - intros [I|I]; eexists; split; try eassumption; reflexivity.
Qed.
Lemma expands_equiv (M M' : Z -> list Z -> Prop) : (forall c l, M c l <-> M' c l) ->
  (forall c d, expands M c d -> expands M' c d) /\
  (forall cs d, expands_all M cs d -> expands_all M' cs d).
Proof.
  intros E. apply expands_ind2.
  - intros c N. apply expands_none. intros l H. apply E in H. eapply N; eassumption.
  - intros c l d Ml _ IH. eapply expands_map; [apply E; eassumption|assumption].
  - constructor.
  - intros. constructor; assumption.
Qed.

(** ** The data tables are the closure of the mappings *)
Definition row_ok (keep : dtag -> bool) (row : list Z) : bool :=
  match row with
  | [] => false
  | c :: r =>
      match mapping_of keep c, expand 6 keep c with
      | Some _, Some d =>
          (length r =? S (length d))%nat && forallb (fun p => fst p =? snd p) (combine r (d ++ [0]))
          && negb (match d with [] => true | _ => false end) && forallb (fun x => 0 <? x) d
      | _, _ => false
      end
  end.
Definition heads (data : list (list Z)) := tree_of (fun row => row_at row 0) data.
Definition heads_listed (keep : dtag -> bool) (t : PositiveMap.t (list Z)) : bool :=
  forallb (fun r => negb (keep (snd (fst r))) ||
                    match lookup t (fst (fst r)) with Some _ => true | None => false end) ucd_decomposition.
Definition canonical_tree := heads canonical_decomposition_mapping_data.
Definition compat_tree := heads compatibility_and_canonical_decomposition_mapping_data.
Lemma canonical_rows_ok : forallb (row_ok keep_canonical) canonical_decomposition_mapping_data = true.
Proof. vm_cast_no_check (eq_refl true). Qed.
Lemma compat_rows_ok :
  forallb (row_ok keep_compat) compatibility_and_canonical_decomposition_mapping_data = true.
Proof. vm_cast_no_check (eq_refl true). Qed.
Lemma canonical_heads : heads_listed keep_canonical canonical_tree = true.
Proof. vm_cast_no_check (eq_refl true). Qed.
Lemma compat_heads :
  heads_listed keep_compat compat_tree = true.
Proof. vm_cast_no_check (eq_refl true). Qed.
Lemma canonical_sorted : adjacent row_lt canonical_decomposition_mapping_data = true.
Proof. vm_cast_no_check (eq_refl true). Qed.
Lemma compat_sorted :
  adjacent row_lt compatibility_and_canonical_decomposition_mapping_data = true.
Proof. vm_cast_no_check (eq_refl true). Qed.

Lemma combine_eq (a b : list Z) : length a = length b ->
  forallb (fun p => fst p =? snd p) (combine a b) = true -> a = b.
Proof.
  revert b. induction a as [|x a IH]; intros [|y b] L H; cbn in *; try lia; [reflexivity|].
  zbool. f_equal; [assumption|]. apply IH; [lia|assumption].
Qed.
Lemma row_ok_spec keep c r : row_ok keep (c :: r) = true ->
  exists d m, r = d ++ [0] /\ rel_of keep c m /\ expands (rel_of keep) c d /\ d <> [] /\ Forall (fun x => 0 < x) d.
Proof.
  unfold row_ok. destruct (mapping_of keep c) as [m|] eqn:M; [|discriminate].
  destruct (expand 6 keep c) as [d|] eqn:E; [|discriminate]. intros H. zbool.
  apply Nat.eqb_eq in H. exists d, m. split; [apply combine_eq; [rewrite app_length; cbn [length]; lia|assumption]|].
  split; [apply mapping_of_some; assumption|]. split; [eapply expand_expands; eassumption|].
  split; [intros ->; discriminate|]. apply Forall_forall. intros x Hx. rewrite forallb_forall in H0.
  specialize (H0 x Hx). lia.
Qed.

(** ** Composition *)
Lemma composition_sorted : adjacent pair_lt canonical_composition_mapping_data = true.
Proof. vm_cast_no_check (eq_refl true). Qed.
Definition comp (a b : Z) : option Z :=
  match find (fun r => compare_pair_to_row a b r =? 0) canonical_composition_mapping_data with
  | Some r => Some (row_at r 2) | None => None end.
Definition ccc_tree := tree_of fst ucd_ccc.
Lemma ucd_ccc_pos : Forall (fun r : Z * Z => 0 < fst r) ucd_ccc.
Proof.
  assert (H : forallb (fun r : Z * Z => 0 <? fst r) ucd_ccc = true)
    by (vm_cast_no_check (eq_refl true)).
  rewrite forallb_forall in H. apply Forall_forall. intros r Hr. specialize (H r Hr). lia.
Qed.
Definition fast_ccc (c : Z) : Z := match lookup ccc_tree c with Some r => snd r | None => 0 end.
Lemma fast_ccc_eq c : fast_ccc c = ccc c.
Proof.
  symmetry. apply ccc_spec. unfold fast_ccc, ccc_tree, has_ccc. destruct (lookup _ _) as [[a k]|] eqn:F.
  - apply lookup_some in F; [|exact ucd_ccc_pos]. cbn [fst snd] in *. destruct F as [I ->]. left. assumption.
  - right. split; [|reflexivity]. intros k I.
    eapply (lookup_none _ _ _ ucd_ccc_pos F); [eassumption|reflexivity].
Qed.
Definition exclusion_tree := tree_of (fun c => c) ucd_composition_exclusions.
Lemma exclusion_pos : Forall (fun r : Z => 0 < r) ucd_composition_exclusions.
Proof.
  assert (H : forallb (fun r : Z => 0 <? r) ucd_composition_exclusions = true)
    by (vm_cast_no_check (eq_refl true)).
  rewrite forallb_forall in H. apply Forall_forall. intros r Hr. specialize (H r Hr). lia.
Qed.
Definition excluded (c : Z) : bool := match lookup exclusion_tree c with Some _ => true | None => false end.
Lemma excluded_spec c : excluded c = true <-> In c ucd_composition_exclusions.
Proof.
  unfold excluded, exclusion_tree. destruct (lookup _ _) as [r|] eqn:F.
  - apply (lookup_some (fun c => c)) in F; [|exact exclusion_pos]. destruct F as [I ->]. tauto.
  - split; [discriminate|]. intros I. exfalso.
    eapply (lookup_none (fun c => c) _ _ exclusion_pos F); [eassumption|reflexivity].
Qed.
(** Composition rows by composite. *)
Definition composite_tree := tree_of (fun row => row_at row 2) canonical_composition_mapping_data.
Definition comp_row_ok (row : list Z) : bool :=
  match row with
  | [a; b; c] =>
      match mapping_of keep_canonical c with
      | Some [x; y] => (x =? a) && (y =? b)
      | _ => false end
      && (fast_ccc c =? 0) && (fast_ccc a =? 0) && negb (excluded c) && (0 <? c)
  | _ => false
  end.
Lemma comp_rows_ok : forallb comp_row_ok canonical_composition_mapping_data = true.
Proof. vm_cast_no_check (eq_refl true). Qed.
Definition comp_complete (r : Z * dtag * list Z) : bool :=
  match r with
  | (c, Canonical, [a; b]) =>
      if (fast_ccc c =? 0) && (fast_ccc a =? 0) && negb (excluded c)
      then match lookup composite_tree c with
           | Some [x; y; z] => (x =? a) && (y =? b) && (z =? c) | _ => false end
      else true
  | _ => true
  end.
Lemma comp_completeness : forallb comp_complete ucd_decomposition = true.
Proof. vm_cast_no_check (eq_refl true). Qed.
