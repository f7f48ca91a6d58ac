(** * Lines of GraphemeBreakProperty.txt without a comment *)
From Coq Require Import Ascii String Permutation Sorting.Sorted.
From Verif Require Import Prelude DataTables UnicodeSpec TextModel GenModel GenSpec PropsModel PropsProofs GenText GenProofs GenBreak.

Lemma plus_two p name x : name <> [] -> (forall y, In y (name ++ [x]) -> p y = true) ->
  exists l, plus p (name ++ [x]) = (name ++ [x], []) :: (name, [x]) :: l.
Proof.
  intros N F. induction name as [|c name IH]; [contradiction|]. cbn [app plus]. rewrite (F c (or_introl eq_refl)).
  destruct name as [|d name].
  - cbn [app plus]. rewrite F by (right; left; reflexivity). cbn. eauto.
  - destruct IH as [l E]; [discriminate|intros; apply F; right; assumption|]. cbn [app] in E |- *. rewrite E. cbn. eauto.
Qed.
(** (\S+).+ at the end of the line: the name without its last letter. *)
Lemma name_match (a b : text) name : (forall x, In x name -> is_space x = false) ->
  hd_error (flat_map (fun m4 : text * text => map (fun _ => (a, b, fst m4)) (plus any (snd m4)))
    (plus (fun c => negb (is_space c)) name)) =
  match removelast name with [] => None | n => Some (a, b, n) end.
Proof.
  intros F. destruct name as [|x name _] using rev_ind; [reflexivity|]. rewrite removelast_last.
  assert (Fx : forall y, In y (name ++ [x]) -> negb (is_space y) = true).
  { intros y Y. rewrite F; [reflexivity|assumption]. }
  destruct name as [|c name].
  - cbn [app plus]. rewrite Fx by (left; reflexivity). reflexivity.
  - destruct (plus_two (fun c => negb (is_space c)) (c :: name) x ltac:(discriminate) Fx) as [l E]. rewrite E. reflexivity.
Qed.
(** A backtracking matcher that fails behind the longest match of a class the next
    character is not in fails behind the shorter ones. *)
Lemma flat_map_nil {A B} (f : A -> list B) l : (forall x, In x l -> f x = []) -> flat_map f l = [].
Proof. induction l as [|x l IH]; [reflexivity|]. intros H. cbn. rewrite H, IH; [reflexivity| |left; reflexivity]. intros. apply H. right. assumption. Qed.


Lemma plus_suffix p w s : (forall x, In x w -> p x = true) -> head_not p s ->
  forall m, In m (plus p (w ++ s)) -> exists w', snd m = w' ++ s /\ (forall x, In x w' -> p x = true).
Proof.
  intros F H. induction w as [|c w IH]; intros m I; cbn [app plus] in I.
  - rewrite plus_none in I by assumption. contradiction.
  - rewrite (F c (or_introl eq_refl)) in I. apply in_app_or in I. destruct I as [I|[<-|[]]].
    + apply in_map_iff in I. destruct I as (m' & <- & I). cbn [fst snd].
      exact (IH (fun x X => F x (or_intror X)) m' I).
    + cbn [fst snd]. exists w. split; [reflexivity|]. intros; apply F; right; assumption.
Qed.
Lemma plus_space_none r s : head_not is_space s -> (forall x, In x r -> is_upper_hex x = true) -> plus is_space (r ++ s) = [].
Proof.
  intros H F. apply plus_none. destruct r as [|c r]; [exact H|]. cbn.
  specialize (F c (or_introl eq_refl)). apply is_upper_hex_digit, upper_digit_class in F. tauto.
Qed.

Lemma range_match_bare w1 w2 n name : w1 <> [] -> w2 <> [] -> (1 <= n)%nat ->
  (forall x, In x w1 -> is_upper_hex x = true) -> (forall x, In x w2 -> is_upper_hex x = true) ->
  (forall x, In x name -> is_space x = false) ->
  range_match (w1 ++ lit ".." ++ w2 ++ repeat " "%char n ++ [";"; " "]%char ++ name) =
  match removelast name with [] => None | m => Some (w1, w2, m) end.
Proof.
  intros N1 N2 Hn F1 F2 F3. unfold range_match.
  set (R3 := [";"; " "]%char ++ name). set (R2 := repeat " "%char n ++ R3).
  assert (HR3 : forall a b : text, hd_error (flat_map (fun m3 : text * text => flat_map (fun r => flat_map (fun r =>
      flat_map (fun m4 : text * text => map (fun _ => (a, b, fst m4)) (plus any (snd m4)))
      (plus (fun c => negb (is_space c)) r)) (one is_space r)) (one (Ascii.eqb ";") (snd m3))) (plus is_space R2)) =
      match removelast name with [] => None | m => Some (a, b, m) end /\
      (removelast name = [] -> flat_map (fun m3 : text * text => flat_map (fun r => flat_map (fun r =>
      flat_map (fun m4 : text * text => map (fun _ => (a, b, fst m4)) (plus any (snd m4)))
      (plus (fun c => negb (is_space c)) r)) (one is_space r)) (one (Ascii.eqb ";") (snd m3))) (plus is_space R2) = [])).
  { intros a b.
    assert (NM := name_match a b name F3).
    assert (Sp : forall x, In x (repeat " "%char n) -> is_space x = true).
    { intros x Hx. apply repeat_spec in Hx. subst. reflexivity. }
    destruct (plus_head is_space (repeat " "%char n) R3) as [l3 E3].
    { destruct n; [lia|discriminate]. }
    { exact Sp. }
    { reflexivity. }
    assert (Z : removelast name = [] -> flat_map (fun m3 : text * text => flat_map (fun r => flat_map (fun r =>
      flat_map (fun m4 : text * text => map (fun _ => (a, b, fst m4)) (plus any (snd m4)))
      (plus (fun c => negb (is_space c)) r)) (one is_space r)) (one (Ascii.eqb ";") (snd m3))) (plus is_space R2) = []).
    { intros E0. apply flat_map_nil. intros m M.
      destruct (plus_suffix is_space (repeat " "%char n) R3 Sp eq_refl m M) as (w' & E & F'). rewrite E.
      destruct w' as [|c w'].
      - cbn [app R3 one]. change (Ascii.eqb ";" ";") with true. cbn [flat_map one]. change (is_space " ") with true. cbn [flat_map].
        rewrite !app_nil_r. rewrite E0 in NM. destruct (flat_map _ _); [reflexivity|discriminate].
      - specialize (F' c (or_introl eq_refl)). cbn [app one]. destruct (Ascii.eqb_spec ";" c) as [<-|]; [discriminate|]. reflexivity. }
    split; [|exact Z]. destruct (removelast name) as [|y ys] eqn:E0.
    - rewrite Z by reflexivity. reflexivity.
    - unfold R2. rewrite E3. apply hd_flat_map. cbn [snd R3 app one].
      change (Ascii.eqb ";" ";") with true. cbn [flat_map one]. change (is_space " ") with true. cbn [flat_map]. rewrite !app_nil_r.
      exact NM. }
  destruct (removelast name) as [|y ys] eqn:E0.
  - rewrite flat_map_nil; [reflexivity|]. intros m1 M1.
    destruct (plus_suffix is_upper_hex w1 (lit ".." ++ w2 ++ R2) F1 eq_refl m1 M1) as (w' & E & F'). rewrite E.
    destruct w' as [|c [|d w']].
    + cbn [lit list_ascii_of_string app one any flat_map]. rewrite !app_nil_r.
      apply flat_map_nil. intros m2 M2.
      destruct (plus_suffix is_upper_hex w2 R2 F2 ltac:(unfold R2; destruct n; [lia|reflexivity]) m2 M2) as (v' & E' & F''). rewrite E'.
      destruct v' as [|c v'].
      * cbn [app]. apply (HR3 (fst m1) (fst m2)). reflexivity.
      * rewrite (plus_none is_space) by (cbn; specialize (F'' c (or_introl eq_refl));
          apply is_upper_hex_digit, upper_digit_class in F''; tauto). reflexivity.
    + reflexivity.
    + cbn [app one any flat_map]. rewrite !app_nil_r. apply flat_map_nil. intros m2 M2.
      destruct (plus_suffix is_upper_hex w' (lit ".." ++ w2 ++ R2) (fun x X => F' x (or_intror (or_intror X))) eq_refl m2 M2) as (v' & E' & F'').
      rewrite E', plus_space_none; [reflexivity|reflexivity|assumption].
  - destruct (plus_head is_upper_hex w1 (lit ".." ++ w2 ++ R2) N1 F1 eq_refl) as [l1 E1]. fold R3. fold R2. rewrite E1.
    apply hd_flat_map. cbn [fst snd lit list_ascii_of_string app one any flat_map]. rewrite !app_nil_r.
    destruct (plus_head is_upper_hex w2 R2 N2 F2) as [l2 E2]. { unfold R2. destruct n; [lia|reflexivity]. }
    rewrite E2. apply hd_flat_map. cbn [fst snd]. exact (proj1 (HR3 w1 w2)).
Qed.

(** ** The values read from such lines are never the ones in the file. *)
Definition bare_value (name : string) : option gcb :=
  match removelast (list_ascii_of_string name) with [] => None | m => hget enumerators (map upper m) end.
Lemma bare_value_wrong v name : In (v, name) break_names -> bare_value name <> Some v.
Proof.
  intros H.
  assert (C : forallb (fun p => match bare_value (snd p) with Some u => negb (gcb_eqb u (fst p)) | None => true end) break_names = true)
    by (vm_compute; reflexivity).
  rewrite forallb_forall in C. specialize (C _ H). cbn [fst snd] in C. intros E. rewrite E in C.
  assert (R : gcb_eqb v v = true) by (apply gcb_eqb_eq; reflexivity). rewrite R in C. discriminate.
Qed.
(** The row of a bare line: the bounds of the file and another value, or no row at all. *)
Definition bounds (r : Z * Z * gcb) : Z * Z := fst r.
Lemma bare_line_row x line : bare_line_says x line -> break_line_ok x ->
  starts_with_number line = true /\
  exists lo hi v, break_range x = [(lo, hi, v)] /\
    (range_row line = None \/ exists u, range_row line = Some (lo, hi, u) /\ u <> v).
Proof.
  intros B O. destruct B as [lo hi n v name I|c n v name I].
  - destruct O as [L Hn]. destruct (break_name_ok v name I) as (N1 & N2 & N3). split.
    { destruct (hex4_cons lo) as (x & s & E). rewrite E. cbn [app starts_with_number].
      apply (hex4_upper lo); [lia|]. rewrite E. left. reflexivity. }
    exists lo, hi, v. split; [reflexivity|]. unfold range_row.
    change (hex4 lo ++ ["."; "."]%char ++ hex4 hi ++ repeat " "%char n ++ [";"; " "]%char ++ list_ascii_of_string name)
      with (hex4 lo ++ "."%char :: ("."%char :: hex4 hi ++ repeat " "%char n ++ [";"; " "]%char ++ list_ascii_of_string name)).
    rewrite double_range; [|intros x; apply hex4_upper; lia|apply hex4_nonempty].
    pose proof (range_match_bare (hex4 lo) (hex4 hi) n (list_ascii_of_string name) (hex4_nonempty lo) (hex4_nonempty hi) Hn
      (fun x => hex4_upper lo x ltac:(lia)) (fun x => hex4_upper hi x ltac:(lia)) N2) as R.
    cbn [lit list_ascii_of_string app] in R |- *. rewrite R. pose proof (bare_value_wrong v name I) as W. unfold bare_value in W.
    destruct (removelast (list_ascii_of_string name)) as [|y ys]; [left; reflexivity|].
    destruct (hget enumerators (map upper (y :: ys))) as [u|]; [|left; reflexivity].
    right. exists u. rewrite !hex_hex4 by lia. split; [reflexivity|]. congruence.
  - destruct O as [L Hn]. destruct (break_name_ok v name I) as (N1 & N2 & N3). split.
    { destruct (hex4_cons c) as (x & s & E). rewrite E. cbn [app starts_with_number].
      apply (hex4_upper c); [lia|]. rewrite E. left. reflexivity. }
    exists c, c, v. split; [reflexivity|]. unfold range_row. destruct n as [|n]; [lia|]. cbn [repeat]. cbn [app].
    rewrite double_one; [|intros x; apply hex4_upper; lia|apply hex4_nonempty].
    pose proof (range_match_bare (hex4 c) (hex4 c) n (list_ascii_of_string name) (hex4_nonempty c) (hex4_nonempty c) ltac:(lia)
      (fun x => hex4_upper c x ltac:(lia)) (fun x => hex4_upper c x ltac:(lia)) N2) as R.
    cbn [app] in R |- *. rewrite R. pose proof (bare_value_wrong v name I) as W. unfold bare_value in W.
    destruct (removelast (list_ascii_of_string name)) as [|y ys]; [left; reflexivity|].
    destruct (hget enumerators (map upper (y :: ys))) as [u|]; [|left; reflexivity].
    right. exists u. rewrite !hex_hex4 by lia. split; [reflexivity|]. congruence.
Qed.

(** ** Files with both kinds of lines *)
Definition same_bounds (r s : Z * Z * gcb) : Prop := fst r = fst s.
Lemma rows_of_file xs lines rows :
  Forall2 (fun x line => break_line_says x line \/ bare_line_says x line) xs lines -> Forall break_line_ok xs ->
  map range_row (List.filter starts_with_number lines) = map Some rows ->
  Forall2 same_bounds rows (flat_map break_range xs) /\
  ((exists i x line, nth_error xs i = Some x /\ nth_error lines i = Some line /\ bare_line_says x line) ->
   exists lo hi u v, In (lo, hi, u) rows /\ In (lo, hi, v) (flat_map break_range xs) /\ u <> v /\ lo <= hi).
Proof.
  intros F. revert rows. induction F as [|x line xs lines S F IH]; intros rows O E.
  - destruct rows; [|discriminate]. split; [constructor|]. intros ([|i] & x & line & X & _); discriminate.
  - inversion O as [|? ? Ox Os]; subst. cbn [flat_map].
    cbn [List.filter] in E.
    assert (C : break_line_says x line \/ (starts_with_number line = true /\ exists lo hi v, break_range x = [(lo, hi, v)] /\ lo <= hi /\
       exists u, range_row line = Some (lo, hi, u) /\ u <> v /\ exists rows', rows = (lo, hi, u) :: rows' /\
       map range_row (List.filter starts_with_number lines) = map Some rows')).
    { destruct S as [S|S]; [left; exact S|right]. destruct (bare_line_row x line S Ox) as (ST & lo & hi & v & R & D).
      split; [assumption|]. exists lo, hi, v. split; [assumption|]. split.
      { destruct S; cbn in R, Ox; injection R as <- <- <-; lia. }
      rewrite ST in E. cbn [map] in E. destruct D as [D|(u & D & U)]; rewrite D in E.
      - destruct rows; discriminate.
      - exists u. split; [assumption|]. split; [assumption|]. destruct rows as [|r rows]; [discriminate|]. cbn [map] in E.
        injection E as E1 E2. exists rows. subst r. split; [reflexivity|assumption]. }
    destruct C as [C|(ST & lo & hi & v & R & LH & u & RR & U & rows' & -> & E')].
    + pose proof (break_line_row x line C Ox) as Q.
      assert (Q' : exists rows', rows = break_range x ++ rows' /\ map range_row (List.filter starts_with_number lines) = map Some rows').
      { destruct (starts_with_number line).
        - cbn [map] in E. destruct (break_range x) as [|r [|]]; try discriminate. cbn [map] in Q. injection Q as Q.
          rewrite Q in E. destruct rows as [|r' rows']; [discriminate|]. cbn [map] in E. injection E as E1 E2. subst r'. exists rows'. split; [reflexivity|assumption].
        - destruct (break_range x); [|discriminate]. exists rows. split; [reflexivity|assumption]. }
      destruct Q' as (rows' & -> & E'). destruct (IH rows' Os E') as [I1 I2]. split.
      * apply Forall2_app; [|assumption]. clear. induction (break_range x); constructor; [reflexivity|assumption].
      * intros ([|i] & y & l & Y & L & B).
        -- cbn in Y, L. injection Y as <-. injection L as <-. exfalso.
           destruct (bare_line_row x line B Ox) as (ST & lo & hi & v & R & D). rewrite ST, R in Q. cbn [map] in Q. injection Q as Q.
           rewrite Q in D. destruct D as [D|(u & D & U)]; [discriminate|]. injection D as <-. contradiction.
        -- destruct I2 as (lo & hi & u & v & A1 & A2 & A3); [exists i, y, l; auto|]. exists lo, hi, u, v.
           split; [apply in_or_app; right; assumption|]. split; [apply in_or_app; right; assumption|]. assumption.
    + destruct (IH rows' Os E') as [I1 I2]. rewrite R. split.
      * constructor; [reflexivity|assumption].
      * intros _. exists lo, hi, u, v. split; [left; reflexivity|]. split; [left; reflexivity|]. split; assumption.
Qed.
Lemma same_bounds_apart a b : Forall2 same_bounds a b -> (disjoint b -> disjoint a) /\ (Forall valid b -> Forall valid a).
Proof.
  induction 1 as [|x y a b S F [IH1 IH2]]; [split; auto|]. destruct x as [[lo hi] v], y as [[lo' hi'] v'].
  unfold same_bounds in S. cbn [fst] in S. injection S as <- <-. split.
  - cbn [disjoint]. intros [D1 D2]. split; [|auto]. intros l h w I.
    assert (J : exists w', In (l, h, w') b).
    { clear -F I. induction F as [|[[l1 h1] w1] [[l2 h2] w2] a b S F IH]; [contradiction|]. unfold same_bounds in S. cbn [fst] in S.
      destruct I as [I|I]; [injection I as -> -> ->; injection S as <- <-; exists w2; left; reflexivity|].
      destruct (IH I) as [w' W]. exists w'. right. assumption. }
    destruct J as [w' J]. exact (D1 _ _ _ J).
  - intros V. inversion V; subst. constructor; auto.
Qed.
Lemma generate_break_some lines table : generate_break lines = Some table ->
  exists rows, map range_row (List.filter starts_with_number lines) = map Some rows /\ table = sort_by by_start rows.
Proof.
  unfold generate_break. generalize (map range_row (List.filter starts_with_number lines)) as l. intros l.
  destruct (forallb _ l) eqn:A; [|discriminate]. intros E. injection E as <-. eexists. split; [|reflexivity].
  induction l as [|[r|] l IH]; [reflexivity| |discriminate]. cbn in A |- *. rewrite <- IH by assumption. reflexivity.
Qed.
Lemma ranges_valid xs : Forall break_line_ok xs -> Forall valid (flat_map break_range xs).
Proof.
  intros O. apply Forall_forall. intros r H. apply in_flat_map in H. destruct H as (x & I & R). rewrite Forall_forall in O. specialize (O x I).
  destruct x as [lo hi n u t|z n u t|l]; cbn in R; try (destruct R as [<-|[]]); cbn in *; try lia.
Qed.
Lemma break_table_iff xs lines :
  Forall2 (fun x line => break_line_says x line \/ bare_line_says x line) xs lines -> Forall break_line_ok xs ->
  disjoint (flat_map break_range xs) ->
  ((exists table, generate_break lines = Some table /\
     forall c v, break_resolve_in table c = Ok v <-> file_break (flat_map break_range xs) c v) <->
   forall i x line, nth_error xs i = Some x -> nth_error lines i = Some line -> ~ bare_line_says x line).
Proof.
  intros F O D. split.
  - intros (table & G & R) i x line X L B. destruct (generate_break_some lines table G) as (rows & E & ->).
    destruct (rows_of_file xs lines rows F O E) as [S W]. destruct W as (lo & hi & u & v & A1 & A2 & U & LH); [exists i, x, line; auto|].
    destruct (same_bounds_apart _ _ S) as [S1 S2].
    assert (Q : file_break rows lo v).
    { apply (break_table_resolve rows lo v (S1 D) (S2 (ranges_valid xs O))). apply R. left. exists lo, hi. split; [assumption|lia]. }
    assert (Q' : file_break rows lo u). { left. exists lo, hi. split; [assumption|lia]. }
    apply (break_table_resolve rows lo v (S1 D) (S2 (ranges_valid xs O))) in Q.
    apply (break_table_resolve rows lo u (S1 D) (S2 (ranges_valid xs O))) in Q'. rewrite Q in Q'. injection Q' as Q'. congruence.
  - intros N.
    assert (F' : Forall2 break_line_says xs lines).
    { clear O D. induction F as [|x line xs lines [S|S] F IH]; constructor; try assumption.
      - apply IH. intros i y l Y L. exact (N (Datatypes.S i) y l Y L).
      - exfalso. exact (N O x line eq_refl eq_refl S).
      - exfalso. exact (N O x line eq_refl eq_refl S). }
    eexists. split; [exact (generate_break_rows xs lines F' O)|]. intros c v. apply break_table_resolve; [assumption|]. apply ranges_valid. assumption.
Qed.
