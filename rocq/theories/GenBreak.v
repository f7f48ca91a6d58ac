(** * The generated Grapheme_Cluster_Break table *)
From Coq Require Import Ascii String Permutation Sorting.Sorted.
From Verif Require Import Prelude DataTables UnicodeSpec TextModel GenModel GenSpec PropsModel PropsProofs GenText GenProofs.

Definition head_not (p : ascii -> bool) (s : text) : Prop := match s with c :: _ => p c = false | [] => True end.
Lemma plus_none p s : head_not p s -> plus p s = [].
Proof. destruct s as [|c s]; [reflexivity|]. cbn. intros ->. reflexivity. Qed.
Lemma plus_head p w s : w <> [] -> (forall x, In x w -> p x = true) -> head_not p s ->
  exists l, plus p (w ++ s) = (w, s) :: l.
Proof.
  intros N F H. induction w as [|c w IH]; [contradiction|]. cbn [app plus]. rewrite (F c (or_introl eq_refl)).
  destruct w as [|c' w].
  - cbn [app]. rewrite plus_none by assumption. cbn. eauto.
  - destruct IH as [l E]; [discriminate|intros; apply F; right; assumption|]. rewrite E. cbn. eauto.
Qed.
Lemma plus_rest p w s : (forall x, In x w -> p x = true) -> head_not p s ->
  forall m, In m (plus p (w ++ s)) -> snd m = s \/ exists c r, snd m = c :: r /\ p c = true.
Proof.
  intros F H. induction w as [|c w IH]; intros m I; cbn [app plus] in I.
  - rewrite plus_none in I by assumption. contradiction.
  - rewrite (F c (or_introl eq_refl)) in I. apply in_app_or in I. destruct I as [I|[<-|[]]].
    + apply in_map_iff in I. destruct I as (m' & <- & I). cbn [snd]. apply IH; [|assumption]. intros. apply F. right. assumption.
    + cbn [snd]. destruct w as [|c' w]; [left; reflexivity|]. right. exists c', (w ++ s). split; [reflexivity|].
      apply F. right. left. reflexivity.
Qed.
Lemma plus_any c s : exists m l, plus any (c :: s) = m :: l.
Proof.
  change (plus any (c :: s)) with (map (fun m : text * text => (c :: fst m, snd m)) (plus any s) ++ [([c], s)]).
  destruct (map (fun m : text * text => (c :: fst m, snd m)) (plus any s)) as [|m l]; cbn [app]; eauto.
Qed.
Lemma hd_flat_map {A B} (f : A -> list B) x l y : hd_error (f x) = Some y -> hd_error (flat_map f (x :: l)) = Some y.
Proof. cbn. destruct (f x); [discriminate|]. cbn. auto. Qed.

(** ** The substitutions *)
Lemma double_range w s : (forall x, In x w -> is_upper_hex x = true) -> w <> [] ->
  double_number (w ++ "."%char :: s) = w ++ "."%char :: s.
Proof.
  intros F N. unfold double_number.
  assert (E : flat_map (fun m => map (fun r => fst m ++ lit ".." ++ fst m ++ r) (one is_space (snd m)))
    (plus is_upper_hex (w ++ "."%char :: s)) = []); [|rewrite E; reflexivity].
  assert (R := plus_rest is_upper_hex w ("."%char :: s) F eq_refl).
  induction (plus is_upper_hex (w ++ "."%char :: s)) as [|m l IH]; [reflexivity|]. cbn [flat_map].
  rewrite IH by (intros; apply R; right; assumption). rewrite app_nil_r.
  specialize (R m (or_introl eq_refl)). destruct m as [m1 m2]. cbn [fst snd] in *.
  destruct R as [->|(c & r & -> & C)]; [reflexivity|].
  apply is_upper_hex_digit, upper_digit_class in C. destruct C as (_ & _ & C). cbn [one]. rewrite C. reflexivity.
Qed.
Lemma double_one w s : (forall x, In x w -> is_upper_hex x = true) -> w <> [] ->
  double_number (w ++ " "%char :: s) = w ++ lit ".." ++ w ++ s.
Proof.
  intros F N. unfold double_number.
  destruct (plus_head is_upper_hex w (" "%char :: s) N F eq_refl) as [l ->]. reflexivity.
Qed.
Lemma range_match_line w1 w2 n name t : w1 <> [] -> w2 <> [] -> name <> [] -> (1 <= n)%nat ->
  (forall x, In x w1 -> is_upper_hex x = true) -> (forall x, In x w2 -> is_upper_hex x = true) ->
  (forall x, In x name -> is_space x = false) ->
  range_match (w1 ++ lit ".." ++ w2 ++ repeat " "%char n ++ [";"; " "]%char ++ name ++ [" "; "#"]%char ++ t)
  = Some (w1, w2, name).
Proof.
  intros N1 N2 N3 Hn F1 F2 F3. unfold range_match.
  destruct (plus_head is_upper_hex w1
    (lit ".." ++ w2 ++ repeat " "%char n ++ [";"; " "]%char ++ name ++ [" "; "#"]%char ++ t) N1 F1 eq_refl) as [l1 ->].
  apply hd_flat_map. cbn [fst snd lit list_ascii_of_string app one any flat_map]. rewrite !app_nil_r.
  destruct (plus_head is_upper_hex w2 (repeat " "%char n ++ [";"; " "]%char ++ name ++ [" "; "#"]%char ++ t) N2 F2) as [l2 E2].
  { destruct n; [lia|reflexivity]. }
  cbn [app] in E2. rewrite E2. apply hd_flat_map. cbn [fst snd].
  destruct (plus_head is_space (repeat " "%char n) ([";"; " "]%char ++ name ++ [" "; "#"]%char ++ t)) as [l3 E3].
  { destruct n; [lia|discriminate]. }
  { intros x Hx. apply repeat_spec in Hx. subst. reflexivity. }
  { reflexivity. }
  cbn [app] in E3. rewrite E3. apply hd_flat_map. cbn [snd one].
  change (Ascii.eqb ";" ";") with true. cbn [flat_map one]. change (is_space " ") with true. cbn [flat_map]. rewrite !app_nil_r.
  destruct (plus_head (fun c => negb (is_space c)) name (" "%char :: "#"%char :: t) N3) as [l4 E4].
  { intros x Hx. rewrite (F3 x Hx). reflexivity. }
  { reflexivity. }
  rewrite E4. apply hd_flat_map. cbn [snd fst].
  destruct (plus_any " "%char ("#"%char :: t)) as (m & l & ->). reflexivity.
Qed.

(** ** Lines *)
Lemma break_name_ok v name : In (v, name) break_names ->
  list_ascii_of_string name <> [] /\ (forall x, In x (list_ascii_of_string name) -> is_space x = false) /\
  hget enumerators (map upper (list_ascii_of_string name)) = Some v.
Proof.
  intros H.
  assert (C : forallb (fun p => negb (text_eqb (list_ascii_of_string (snd p)) []) &&
    forallb (fun x => negb (is_space x)) (list_ascii_of_string (snd p)) &&
    match hget enumerators (map upper (list_ascii_of_string (snd p))) with Some u => gcb_eqb u (fst p) | None => false end)
    break_names = true) by (vm_compute; reflexivity).
  rewrite forallb_forall in C. specialize (C _ H). cbn [fst snd] in C.
  apply andb_prop in C. destruct C as [C C3]. apply andb_prop in C. destruct C as [C1 C2]. split; [|split].
  - intros E. rewrite E in C1. discriminate.
  - rewrite forallb_forall in C2. intros x X. specialize (C2 x X). destruct (is_space x); [discriminate|reflexivity].
  - destruct (hget _ _) as [u|]; [|discriminate]. apply gcb_eqb_eq in C3. congruence.
Qed.
Lemma hex4_upper c x : 0 <= c -> In x (hex4 c) -> is_upper_hex x = true.
Proof. intros C H. apply hex4_digits in H; [|assumption]. apply upper_digit_class in H. tauto. Qed.
Lemma break_line_row x line : break_line_says x line -> break_line_ok x ->
  (if starts_with_number line then [range_row line] else []) = map Some (break_range x).
Proof.
  intros S O. destruct S as [lo hi n v name t I|c n v name t I|line N]; cbn [break_range map].
  - destruct O as [L Hn]. destruct (break_name_ok v name I) as (N1 & N2 & N3).
    assert (ST : starts_with_number (hex4 lo ++ ["."; "."]%char ++ hex4 hi ++ repeat " "%char n ++ [";"; " "]%char ++
       list_ascii_of_string name ++ [" "; "#"]%char ++ t) = true).
    { destruct (hex4_cons lo) as (x & s & E). rewrite E. cbn [app starts_with_number].
      apply (hex4_upper lo); [lia|]. rewrite E. left. reflexivity. }
    rewrite ST. unfold range_row.
    change (hex4 lo ++ ["."; "."]%char ++ hex4 hi ++ repeat " "%char n ++ [";"; " "]%char ++ list_ascii_of_string name ++ [" "; "#"]%char ++ t)
      with (hex4 lo ++ "."%char :: ("."%char :: hex4 hi ++ repeat " "%char n ++ [";"; " "]%char ++ list_ascii_of_string name ++ [" "; "#"]%char ++ t)).
    rewrite double_range; [|intros x; apply hex4_upper; lia|apply hex4_nonempty].
    pose proof (range_match_line (hex4 lo) (hex4 hi) n (list_ascii_of_string name) t (hex4_nonempty lo) (hex4_nonempty hi) N1 Hn
      (fun x => hex4_upper lo x ltac:(lia)) (fun x => hex4_upper hi x ltac:(lia)) N2) as R.
    cbn [lit list_ascii_of_string app] in R |- *. rewrite R, N3, !hex_hex4 by lia. reflexivity.
  - destruct O as [L Hn]. destruct (break_name_ok v name I) as (N1 & N2 & N3).
    assert (ST : starts_with_number (hex4 c ++ repeat " "%char n ++ [";"; " "]%char ++
       list_ascii_of_string name ++ [" "; "#"]%char ++ t) = true).
    { destruct (hex4_cons c) as (x & s & E). rewrite E. cbn [app starts_with_number].
      apply (hex4_upper c); [lia|]. rewrite E. left. reflexivity. }
    rewrite ST. unfold range_row. destruct n as [|n]; [lia|]. cbn [repeat]. cbn [app].
    rewrite double_one; [|intros x; apply hex4_upper; lia|apply hex4_nonempty].
    pose proof (range_match_line (hex4 c) (hex4 c) n (list_ascii_of_string name) t (hex4_nonempty c) (hex4_nonempty c) N1 ltac:(lia)
      (fun x => hex4_upper c x ltac:(lia)) (fun x => hex4_upper c x ltac:(lia)) N2) as R.
    cbn [app] in R |- *. rewrite R, N3, !hex_hex4 by lia. reflexivity.
  - destruct line as [|c line]; [reflexivity|]. cbn [starts_with_number]. destruct (is_upper_hex c) eqn:E; [|reflexivity].
    exfalso. apply is_upper_hex_digit in E. destruct E as (d & D & ->). exact (N d D eq_refl).
Qed.
Lemma break_file_rows xs lines : Forall2 break_line_says xs lines -> Forall break_line_ok xs ->
  map range_row (List.filter starts_with_number lines) = map Some (flat_map break_range xs).
Proof.
  induction 1 as [|x line xs lines S _ IH]; intros F; [reflexivity|]. inversion F as [|? ? O F']; subst.
  cbn [List.filter flat_map]. rewrite map_app, <- (break_line_row x line S O), <- (IH F').
  destruct (starts_with_number line); reflexivity.
Qed.
Definition by_start : Z * Z * gcb -> Z * Z * gcb -> bool := fun a b => fst (fst a) <? fst (fst b).
Lemma generate_break_rows xs lines : Forall2 break_line_says xs lines -> Forall break_line_ok xs ->
  generate_break lines = Some (sort_by by_start (flat_map break_range xs)).
Proof.
  intros S O. unfold generate_break. rewrite (break_file_rows xs lines S O).
  generalize (flat_map break_range xs) as l. intros l.
  assert (A : forallb (fun r : option (Z * Z * gcb) => match r with Some _ => true | None => false end) (map Some l) = true).
  { apply forallb_forall. intros r H. apply in_map_iff in H. destruct H as (y & <- & _). reflexivity. }
  rewrite A. assert (B : flat_map (fun r : option (Z * Z * gcb) => match r with Some x => [x] | None => [] end) (map Some l) = l).
  { induction l as [|y l IH]; [reflexivity|]. cbn [map flat_map app]. rewrite IH; [reflexivity|].
    cbn in A. exact A. }
  rewrite B. reflexivity.
Qed.

(** ** Looking up the ranges *)
Definition valid (r : Z * Z * gcb) : Prop := let '(lo, hi, _) := r in lo <= hi.
Definition apart (r s : Z * Z * gcb) : Prop := let '(lo, hi, _) := r in let '(lo', hi', _) := s in hi < lo' \/ hi' < lo.
Lemma disjoint_apart l : disjoint l -> forall r s, In r l -> In s l -> r = s \/ apart r s.
Proof.
  induction l as [|[[lo hi] v] l IH]; [intros _ r s []|]. intros [D1 D2] r s [<-|R] [<-|S].
  - left. reflexivity.
  - right. destruct s as [[lo' hi'] v']. eapply D1. exact S.
  - right. destruct r as [[lo' hi'] v']. specialize (D1 _ _ _ R). cbn. tauto.
  - apply IH; assumption.
Qed.
Lemma disjoint_nodup l : disjoint l -> Forall valid l -> NoDup l.
Proof.
  induction l as [|[[lo hi] v] l IH]; intros D V; [constructor|]. destruct D as [D1 D2]. inversion V as [|? ? V1 V2]; subst.
  constructor; [|auto]. intros H. specialize (D1 _ _ _ H). cbn in V1. lia.
Qed.
Lemma sorted_ranges l : disjoint l -> Forall valid l ->
  StronglySorted (fun a b => by_start a b = true) (sort_by by_start l).
Proof.
  intros D V. apply (sort_sorted (fun r => In r l /\ valid r)).
  - unfold by_start. intros x y z. lia.
  - intros x y [X Vx] [Y Vy] N. destruct (disjoint_apart l D x y X Y) as [|A]; [contradiction|].
    destruct x as [[lo hi] v], y as [[lo' hi'] v']. unfold by_start. cbn in *. lia.
  - rewrite Forall_forall in *. intros r R. auto.
  - apply disjoint_nodup; assumption.
Qed.
Lemma break_table_resolve l c v : disjoint l -> Forall valid l ->
  break_resolve_in (sort_by by_start l) c = Ok v <-> file_break l c v.
Proof.
  intros D V. assert (S := sorted_ranges l D V).
  assert (M : forall r, In r (sort_by by_start l) <-> In r l).
  { intros r. split; intros H; (eapply Permutation_in; [|exact H]); [apply Permutation_sym|]; apply sort_perm. }
  assert (O : ordered (compare_value_to_range c) (sort_by by_start l)).
  { intros i j r1 r2 L Hi Hj. pose proof (sorted_nth _ _ S i j _ _ L Hi Hj) as P. cbv beta in P.
    apply nth_error_In in Hi, Hj. apply M in Hi, Hj. rewrite Forall_forall in V.
    assert (V1 := V _ Hi). assert (V2 := V _ Hj).
    destruct (disjoint_apart l D r1 r2 Hi Hj) as [->|A]; destruct r2 as [[s2 e2] v2].
    - unfold by_start in P. cbn in P. lia.
    - destruct r1 as [[s1 e1] v1]. unfold by_start in P. cbn in P, A, V1, V2.
      unfold compare_value_to_range.
      destruct (Z.ltb_spec c s1); destruct (Z.geb_spec c s1); destruct (Z.leb_spec c e1);
      destruct (Z.ltb_spec c s2); destruct (Z.geb_spec c s2); destruct (Z.leb_spec c e2); cbn; lia. }
  unfold break_resolve_in, file_break.
  destruct (bsearch_correct _ _ O) as [(r & E & I & C)|[E C]]; rewrite E; cbn [bind].
  - destruct r as [[lo hi] u]. apply compare_range_zero in C. apply M in I. split.
    + intros Q. injection Q as <-. left. eauto.
    + intros [(lo' & hi' & I' & C')|[N _]]; [|exfalso; eapply N; eassumption].
      destruct (disjoint_apart l D _ _ I I') as [Q|Q]; [congruence|]. cbn in Q. lia.
  - assert (N : forall lo hi v', In (lo, hi, v') l -> ~ lo <= c <= hi).
    { intros lo hi v' I Q. apply (C (lo, hi, v')); [apply M; assumption|apply compare_range_zero; assumption]. }
    split.
    + intros Q. injection Q as <-. right. auto.
    + intros [(lo & hi & I & Q)|[_ ->]]; [exfalso; eapply N; eassumption|reflexivity].
Qed.
