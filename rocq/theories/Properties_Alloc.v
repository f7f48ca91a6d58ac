(** * Property C113: running out of memory while normalizing

    [normalize_exc fuel ops (FX mem sort append_exc fuel ops) b e (0, out)] (AllocModel.v) is the client's call
    [filter(s.grapheme_begin(), s.grapheme_end(), out, form)] when the [k]-th string append of the
    call can obtain memory exactly if [mem k] is true.  It ends [Returned n (tries, contents of out)] or
    [Thrown (tries, contents of out)], where [tries] counts the appends tried.
    [form_alone] (Properties_Keep.v): the form of one text alone, with enough memory.
    [segments pairwise_boundary cs gs]: [gs] are the graphemes of [cs] (C37). *)
From Coq Require Import Permutation Sorted Relations.
From Verif Require Import Prelude DataTables UcdTables PropsModel Utf8Model TextModel StdSortModel Utf8Spec UnicodeSpec GraphemeSpec TextSpec NormSpec FilterSpec
  PropsProofs DecompTables DecompProofs GraphemeProofs Uax29Proofs GraphemeText FilterProofs OrderProofs ComposeProofs NormProofs NormText NormUtf8
  TextsProofs EquivProofs LocalMarks FormsProofs SubRange RangeTree KeepGraphemes AllocModel AllocProofs
  Properties_Graphemes Properties_Normalize Properties_Sort Properties_Texts Properties_Forms Properties_Keep.
Require Import ZifyBool ZifyNat.

(** The four forms: as usual, and when memory may run out. *)
Inductive throwing_form : ((list Z -> list Z) -> (list Z -> list Z -> res (list Z)) -> nat -> cp_ops ->
    Z * Z -> list Z -> res (Z * list Z)) ->
  ((nat -> bool) -> (list Z -> list Z) -> (nat * list Z -> list Z -> res (outcome unit (nat * list Z))) -> nat -> cp_ops ->
    Z * Z -> nat * list Z -> res (outcome Z (nat * list Z))) -> (Z -> list Z -> Prop) -> Prop :=
| throwing_d : throwing_form normalization_form_d normalization_form_d_exc listed_canonical
| throwing_kd : throwing_form normalization_form_kd normalization_form_kd_exc listed_compat
| throwing_c : throwing_form normalization_form_c normalization_form_c_exc listed_canonical
| throwing_kc : throwing_form normalization_form_kc normalization_form_kc_exc listed_compat.

(** [mem] runs out at the [m]-th append and not before. *)
Definition runs_out_at (mem : nat -> bool) (m : nat) : Prop := mem m = false /\ forall i, (i < m)%nat -> mem i = true.
Definition nsum (l : list nat) : nat := fold_right Nat.add 0%nat l.
(** Appends made for the graphemes [gs]: one per codepoint read, and one per grapheme to a UTF-32 output... *)
Definition tries32 (gs : list (list Z)) : nat := nsum (map (fun g => length g + 1)%nat gs).
(** ... or one per codepoint written to a UTF-8 output ([ds]: the forms of the graphemes). *)
Definition tries8 (gs ds : list (list Z)) : nat := nsum (map (fun gd => length (fst gd) + length (snd gd))%nat (combine gs ds)).

(** The elements before the one where an operation throws: calling the operation returns on each. *)
Inductive calls_return {Elem Out} (operation : Elem -> Out -> res (outcome Z Out)) : list Elem -> Out -> list Z -> Out -> Prop :=
| cr_nil out : calls_return operation [] out [] out
| cr_cons x xs out n out1 ns out2 : operation x out = Ok (Returned n out1) -> calls_return operation xs out1 ns out2 ->
    calls_return operation (x :: xs) out (n :: ns) out2.

Lemma total_nsum {G} (cost : G -> nat) gs : total cost gs = nsum (map cost gs).
Proof. induction gs as [|g gs IH]; [reflexivity|]. cbn [total nsum fold_right map]. fold (total cost gs). fold (nsum (map cost gs)). lia. Qed.

Inductive throwing_data : ((list Z -> list Z) -> (list Z -> list Z -> res (list Z)) -> nat -> cp_ops ->
    Z * Z -> list Z -> res (Z * list Z)) ->
  ((nat -> bool) -> (list Z -> list Z) -> (nat * list Z -> list Z -> res (outcome unit (nat * list Z))) -> nat -> cp_ops ->
    Z * Z -> nat * list Z -> res (outcome Z (nat * list Z))) -> (Z -> list Z -> Prop) -> bool -> (Z -> list Z) -> Prop :=
| td_d : throwing_data normalization_form_d normalization_form_d_exc listed_canonical false full_canonical
| td_kd : throwing_data normalization_form_kd normalization_form_kd_exc listed_compat false full_compat
| td_c : throwing_data normalization_form_c normalization_form_c_exc listed_canonical true full_canonical
| td_kc : throwing_data normalization_form_kc normalization_form_kc_exc listed_compat true full_compat.
Lemma throwing_has_data F Fx listed : throwing_form F Fx listed -> exists k full, form_data F listed k full /\ throwing_data F Fx listed k full.
Proof. intros []; eexists _, _; split; constructor. Qed.
Lemma any_exc F Fx listed k full mem sort append enc acost apart (good : list Z -> Prop) ops b e cs fuel out :
  throwing_data F Fx listed k full -> std_sort_ok sort -> delimited_text ops b e cs -> (length cs < fuel)%nat ->
  count_fits listed cs ->
  enc [] = [] -> (forall x y, enc (x ++ y) = enc x ++ enc y) -> (forall l, apart l 0%nat = []) ->
  (forall l k out, good l -> append (k, out) l = Ok (ends mem k (acost l) tt (out ++ enc l) (fun i => out ++ enc (apart l i)))) ->
  let f := norm_grapheme k full sort in
  (forall g, In g (seg cs) -> good (f g)) ->
  normalize_exc fuel ops (Fx mem sort append fuel ops) b e (0%nat, out) =
  Ok (ends mem 0 (total (piece_cost acost f) (seg cs)) (zlen (flat_map f (seg cs))) (out ++ enc (flat_map f (seg cs)))
        (fun i => out ++ enc (written (piece_cost acost f) f (piece_part apart f) (seg cs) i))).
Proof.
  intros TD SO D Hf CF E1 E2 A0 AO f HG. destruct (text_of _ _ _ _ D) as (c & pos & inside & T & B).
  assert (LEN : forall l, length (sort l) = length l) by (intros; apply std_length; assumption).
  assert (X : forall r full0, (forall c, codepoint_decomposition r c [] = Ok (zlen (full0 c), full0 c)) ->
    (forall cs f, expands_all listed cs f <-> f = flat_map full0 cs) -> full = full0 ->
    (k = false -> normalize_exc fuel ops (form_decomposed_exc sort append fuel ops (codepoint_decomposition_exc mem r)) b e (0%nat, out) =
      Ok (ends mem 0 (total (piece_cost acost f) (seg cs)) (zlen (flat_map f (seg cs))) (out ++ enc (flat_map f (seg cs)))
        (fun i => out ++ enc (written (piece_cost acost f) f (piece_part apart f) (seg cs) i)))) /\
    (k = true -> normalize_exc fuel ops (form_composed_exc sort append fuel ops (codepoint_decomposition_exc mem r)) b e (0%nat, out) =
      Ok (ends mem 0 (total (piece_cost acost f) (seg cs)) (zlen (flat_map f (seg cs))) (out ++ enc (flat_map f (seg cs)))
        (fun i => out ++ enc (written (piece_cost acost f) f (piece_part apart f) (seg cs) i))))).
  { intros r full0 HD LF <-. pose proof (fits _ _ LF cs CF) as Hm. split; intros ->.
    - pose proof (normalize_decomposed_exc ops b e cs c pos inside T B mem r full HD append enc acost apart good E1 E2 A0 AO sort 0%nat out fuel Hf Hm HG) as Q.
      cbv zeta in Q. change (fun g => sort (flat_map full g)) with f in Q. rewrite Q. do 2 f_equal. unfold zlen. f_equal.
      rewrite <- (seg_concat cs) at 1. rewrite flat_map_concat. clear - LEN.
      induction (seg cs) as [|g gs IH]; [reflexivity|]. cbn [flat_map]. rewrite !app_length, IH. f_equal. symmetry. apply LEN.
    - pose proof (normalize_composed_exc ops b e cs c pos inside T B mem r full HD append enc acost apart good E1 E2 A0 AO sort 0%nat out fuel Hf Hm LEN HG) as Q.
      exact Q. }
  destruct TD.
  - exact (proj1 (X _ full_canonical (fun c => canonical_decomposition_eq c []) canonical_listed eq_refl) eq_refl).
  - exact (proj1 (X _ full_compat (fun c => compat_decomposition_eq c []) compat_listed eq_refl) eq_refl).
  - exact (proj2 (X _ full_canonical (fun c => canonical_decomposition_eq c []) canonical_listed eq_refl) eq_refl).
  - exact (proj2 (X _ full_compat (fun c => compat_decomposition_eq c []) compat_listed eq_refl) eq_refl).
Qed.
Lemma fits_piece F listed k full gs g : form_data F listed k full -> count_fits listed (concat gs) -> In g gs -> count_fits listed g.
Proof.
  intros FD (f & E & L) I. apply (data_listed _ _ _ _ FD) in E. subst f. exists (flat_map full g).
  split; [apply (data_listed _ _ _ _ FD); reflexivity|].
  apply in_split in I. destruct I as (l & r & ->). rewrite concat_app in L. cbn [concat] in L. rewrite !flat_map_app, !app_length in L. lia.
Qed.
Lemma alone_piece F listed k full sort cs g : form_data F listed k full -> std_sort_ok sort -> count_fits listed cs -> In g (seg cs) ->
  form_alone F sort g (norm_grapheme k full sort g).
Proof.
  intros FD SO CF I. unfold form_alone.
  assert (D : delimited_text (utf32_ops (string_buffer g)) 0 (zlen g) g) by (eapply delimited_string; constructor).
  rewrite (run_any32 F listed k full sort _ _ _ g (S (length g)) [] FD SO D (Nat.lt_succ_diag_r _)).
  - assert (S : seg g = [g]).
    { apply seg_one; [exact (proj1 (Forall_forall _ _) (seg_nonempty cs) g I)|]. apply adj_iff. intros x a b y E. exact (seg_inside cs g x a b y I E). }
    rewrite S. cbn [flat_map app]. rewrite app_nil_r. reflexivity.
  - apply (fits_piece F listed k full (seg cs)); [exact FD|rewrite seg_concat; exact CF|exact I].
Qed.
Lemma alone_pieces F listed k full sort cs : form_data F listed k full -> std_sort_ok sort -> count_fits listed cs ->
  Forall2 (form_alone F sort) (seg cs) (map (norm_grapheme k full sort) (seg cs)).
Proof.
  intros FD SO CF. pose proof (fun g I => alone_piece F listed k full sort cs g FD SO CF I) as H.
  induction (seg cs) as [|g gs IH]; cbn [map]; constructor; [apply H; left; reflexivity|]. apply IH. intros. apply H. right. assumption.
Qed.
Lemma nth_split_at {A} j (gs : list A) : (j < length gs)%nat -> exists g y, gs = firstn j gs ++ g :: y /\ firstn (S j) gs = firstn j gs ++ [g].
Proof.
  revert gs. induction j as [|j IH]; intros [|g gs] H; cbn in H; try lia; [exists g, gs; split; reflexivity|].
  destruct (IH gs ltac:(lia)) as (h & y & E1 & E2). exists h, y. cbn [firstn app]. split; f_equal; assumption.
Qed.

(** ** C113.  UTF-32 output: exactly what happens, for every point at which memory can run out. *)
Theorem C113_utf32_exactly : forall F Fx listed sort ops b e cs gs fuel out mem,
  throwing_form F Fx listed -> std_sort_ok sort -> delimited_text ops b e cs -> (length cs < fuel)%nat -> count_fits listed cs ->
  segments pairwise_boundary cs gs ->
  let run := normalize_exc fuel ops (Fx mem sort (utf32_append_from_utf32ne_exc mem) fuel ops) b e (0%nat, out) in
  exists ds, Forall2 (form_alone F sort) gs ds /\
    normalize fuel ops (F sort utf32_append_from_utf32ne fuel ops) b e out = Ok (zlen (concat ds), out ++ concat ds) /\
    ((forall i, (i < tries32 gs)%nat -> mem i = true) -> run = Ok (Returned (zlen (concat ds)) (tries32 gs, out ++ concat ds))) /\
    (forall m j, runs_out_at mem m -> (j < length gs)%nat -> (tries32 (firstn j gs) <= m < tries32 (firstn (S j) gs))%nat ->
       run = Ok (Thrown (S m, out ++ concat (firstn j ds)))).
Proof.
  intros F Fx listed sort ops b e cs gs fuel out mem TF SO D Hf CF S. cbv zeta. apply seg_eq in S. subst gs.
  destruct (throwing_has_data _ _ _ TF) as (k & full & FD & TD).
  set (f := norm_grapheme k full sort). exists (map f (seg cs)). split; [apply (alone_pieces F listed k full sort cs FD SO CF)|].
  rewrite <- flat_map_concat_map. split; [exact (run_any32 F listed k full sort ops b e cs fuel out FD SO D Hf CF)|].
  pose proof (any_exc F Fx listed k full mem sort (utf32_append_from_utf32ne_exc mem) (fun l => l) (fun _ => 1%nat) (fun _ _ => []) (fun _ => True)
    ops b e cs fuel out TD SO D Hf CF eq_refl (fun x y => eq_refl) (fun l => eq_refl) (utf32_append_exc mem) (fun _ _ => Logic.I)) as Q.
  cbv zeta in Q. fold f in Q. rewrite Q. clear Q. unfold ends.
  assert (TT : forall gs, total (piece_cost (fun _ => 1%nat) f) gs = tries32 gs) by (intros; apply total_nsum).
  rewrite TT. split.
  - intros A. rewrite (proj2 (attempt_none mem (tries32 (seg cs)) 0)); [reflexivity|]. intros i Hi. apply A. lia.
  - intros m j (Fm & Tm) Hj Hm. destruct (nth_split_at j (seg cs) Hj) as (g & y & E1 & E2). rewrite E2 in Hm.
    rewrite <- !TT, total_app in Hm.
    assert (TS : total (piece_cost (fun _ => 1%nat) f) (seg cs) = (total (piece_cost (fun _ => 1%nat) f) (firstn j (seg cs)) +
      (piece_cost (fun _ => 1%nat) f g + total (piece_cost (fun _ => 1%nat) f) y))%nat).
    { pose proof (total_app (piece_cost (fun _ => 1%nat) f) (firstn j (seg cs)) (g :: y)) as Z. rewrite <- E1 in Z. exact Z. }
    assert (T1 : total (piece_cost (fun _ => 1%nat) f) [g] = piece_cost (fun _ => 1%nat) f g) by (exact (Nat.add_0_r _)).
    rewrite T1 in Hm. rewrite (attempt_at mem (tries32 (seg cs)) m); [|rewrite <- TT; lia|assumption|assumption].
    do 3 f_equal. f_equal. rewrite Nat.sub_0_r, firstn_map, <- flat_map_concat_map. 
    pose proof (fun i => written_at (piece_cost (fun _ : list Z => 1%nat) f) f (piece_part (fun _ _ => []) f) (firstn j (seg cs)) g y i) as W. rewrite <- E1 in W.
    replace m with (total (piece_cost (fun _ : list Z => 1%nat) f) (firstn j (seg cs)) + (m - total (piece_cost (fun _ : list Z => 1%nat) f) (firstn j (seg cs))))%nat by lia.
    rewrite W by lia. unfold piece_part. apply app_nil_r.
Qed.
Print Assumptions C113_utf32_exactly.

(** So whatever the memory does: either the call returns with the complete result, or it throws and
    the output holds its old contents and the forms of some of the leading graphemes, whole. *)
Theorem C113_utf32_whole_graphemes : forall F Fx listed sort ops b e cs gs fuel out mem,
  throwing_form F Fx listed -> std_sort_ok sort -> delimited_text ops b e cs -> (length cs < fuel)%nat -> count_fits listed cs ->
  segments pairwise_boundary cs gs ->
  let run := normalize_exc fuel ops (Fx mem sort (utf32_append_from_utf32ne_exc mem) fuel ops) b e (0%nat, out) in
  exists ds, Forall2 (form_alone F sort) gs ds /\
    ((exists tries, run = Ok (Returned (zlen (concat ds)) (tries, out ++ concat ds))) \/
     (exists j tries, (j < length gs)%nat /\ run = Ok (Thrown (tries, out ++ concat (firstn j ds))))).
Proof.
  intros F Fx listed sort ops b e cs gs fuel out mem TF SO D Hf CF S. cbv zeta.
  destruct (C113_utf32_exactly F Fx listed sort ops b e cs gs fuel out mem TF SO D Hf CF S) as (ds & F2 & _ & R & X). exists ds. split; [exact F2|].
  destruct (attempt mem 0 (tries32 gs)) as [m|] eqn:A.
  - right. destruct (attempt_some _ _ _ _ A) as (R' & Fm & Tm). assert (Hm : (m < tries32 gs)%nat) by lia.
    assert (TT : forall l, tries32 l = total (fun g : list Z => (length g + 1)%nat) l) by (intros; symmetry; apply total_nsum).
    rewrite TT in Hm. destruct (total_split _ _ _ Hm) as (x & g & y & i & E & Hi & Em). exists (length x), (Datatypes.S m).
    split; [rewrite E, app_length; cbn; lia|]. apply X.
    + split; [assumption|]. intros i' Hi'. apply Tm. lia.
    + rewrite E, app_length. cbn. lia.
    + assert (P1 : firstn (length x) gs = x) by (rewrite E, firstn_app, firstn_all, Nat.sub_diag; apply app_nil_r).
      assert (P2 : firstn (Datatypes.S (length x)) gs = x ++ [g]).
      { replace (Datatypes.S (length x)) with (length (x ++ [g])) by (rewrite app_length; cbn; lia).
        replace gs with ((x ++ [g]) ++ y) by (rewrite E, <- app_assoc; reflexivity).
        rewrite firstn_app, firstn_all, Nat.sub_diag. apply app_nil_r. }
      rewrite !TT, P1, P2, total_app.
      assert (T1 : total (fun g : list Z => (length g + 1)%nat) [g] = (length g + 1)%nat) by exact (Nat.add_0_r _). lia.
  - left. eexists. apply R. intros i Hi. apply (proj1 (attempt_none mem _ _) A). lia.
Qed.
Print Assumptions C113_utf32_whole_graphemes.

(** Each of these happens: memory can run out after any number of graphemes. *)
Theorem C113_utf32_every_point : forall F Fx listed sort ops b e cs gs fuel out j,
  throwing_form F Fx listed -> std_sort_ok sort -> delimited_text ops b e cs -> (length cs < fuel)%nat -> count_fits listed cs ->
  segments pairwise_boundary cs gs -> (j < length gs)%nat ->
  exists mem tries ds, Forall2 (form_alone F sort) gs ds /\
    normalize_exc fuel ops (Fx mem sort (utf32_append_from_utf32ne_exc mem) fuel ops) b e (0%nat, out)
    = Ok (Thrown (tries, out ++ concat (firstn j ds))).
Proof.
  intros F Fx listed sort ops b e cs gs fuel out j TF SO D Hf CF S Hj.
  set (m := tries32 (firstn j gs)). exists (fun i => (i <? m)%nat), (Datatypes.S m).
  destruct (C113_utf32_exactly F Fx listed sort ops b e cs gs fuel out (fun i => (i <? m)%nat) TF SO D Hf CF S) as (ds & F2 & _ & _ & X).
  exists ds. split; [exact F2|]. apply (X m j).
  - split; [apply Nat.ltb_irrefl|]. intros i Hi. apply Nat.ltb_lt. exact Hi.
  - exact Hj.
  - split; [apply Nat.le_refl|]. destruct (nth_split_at j gs Hj) as (g & y & _ & E2). rewrite E2.
    assert (TT : forall l, tries32 l = total (fun g : list Z => (length g + 1)%nat) l) by (intros; symmetry; apply total_nsum).
    subst m. rewrite !TT, total_app.
    assert (T1 : total (fun g : list Z => (length g + 1)%nat) [g] = (length g + 1)%nat) by exact (Nat.add_0_r _). lia.
Qed.
Print Assumptions C113_utf32_every_point.
Example C113_example32 : (* q, dot above, dot below; U+1E69; Z: 4 + 2 + 2 appends *)
  let s := utf32_ops [0x71; 0x307; 0x323; 0x1E69; 0x5A; 0] in
  let run mem := normalize_exc 6 s (normalization_form_d_exc mem isort (utf32_append_from_utf32ne_exc mem) 6 s) 0 5 (0%nat, [0x3E]) in
  run (fun _ => true) = Ok (Returned 7 (8%nat, [0x3E; 0x71; 0x323; 0x307; 0x73; 0x323; 0x307; 0x5A])) /\
  run (fun i => (i <? 5)%nat) = Ok (Thrown (6%nat, [0x3E; 0x71; 0x323; 0x307])) /\
  run (fun i => (i <? 3)%nat) = Ok (Thrown (4%nat, [0x3E])) /\
  segments pairwise_boundary [0x71; 0x307; 0x323; 0x1E69; 0x5A] [[0x71; 0x307; 0x323]; [0x1E69]; [0x5A]].
Proof.
  split; [vm_compute; reflexivity|]. split; [vm_compute; reflexivity|]. split; [vm_compute; reflexivity|].
  replace [[0x71; 0x307; 0x323]; [0x1E69]; [0x5A]] with (seg [0x71; 0x307; 0x323; 0x1E69; 0x5A]) by (vm_compute; reflexivity). apply seg_segments.
Qed.

(** UTF-8 output: append_from_utf32ne appends one codepoint at a time, so memory can run out inside a
    grapheme: the forms of the graphemes before it are written whole, then some codepoints of its form. *)
Theorem C113_utf8_exactly : forall F Fx listed sort ops b e cs gs fuel out n complete mem,
  throwing_form F Fx listed -> std_sort_ok sort -> delimited_text ops b e cs -> (length cs < fuel)%nat -> count_fits listed cs ->
  segments pairwise_boundary cs gs ->
  normalize fuel ops (F sort utf8_append_from_utf32ne fuel ops) b e out = Ok (n, complete) ->
  let run := normalize_exc fuel ops (Fx mem sort (utf8_append_from_utf32ne_exc mem) fuel ops) b e (0%nat, out) in
  exists ds, Forall2 (form_alone F sort) gs ds /\
    ((forall i, (i < tries8 gs ds)%nat -> mem i = true) -> run = Ok (Returned n (tries8 gs ds, complete))) /\
    (forall m j g d i, runs_out_at mem m -> nth_error gs j = Some g -> nth_error ds j = Some d ->
       m = (tries8 (firstn j gs) (firstn j ds) + i)%nat -> (i < length g + length d)%nat ->
       exists w, utf8_append_from_utf32ne out (concat (firstn j ds) ++ firstn (i - length g) d) = Ok w /\
         run = Ok (Thrown (S m, w))).
Proof.
  intros F Fx listed sort ops b e cs gs fuel out n complete mem TF SO D Hf CF S R0. cbv zeta. apply seg_eq in S. subst gs.
  destruct (throwing_has_data _ _ _ TF) as (k & full & FD & TD).
  set (f := norm_grapheme k full sort). exists (map f (seg cs)). split; [apply (alone_pieces F listed k full sort cs FD SO CF)|].
  rewrite (run_any F listed k full sort _ ops b e cs fuel out FD SO utf8_output D Hf CF) in R0. fold f in R0.
  destruct (utf8_append_from_utf32ne out (flat_map f (seg cs))) as [o|u|] eqn:EO; cbn [bind] in R0; try discriminate.
  injection R0 as <- <-. destruct (utf8_append_octets _ _ _ EO) as (GD & ->).
  assert (HG : forall g, In g (seg cs) -> Forall encodable (f g)).
  { intros g I. apply (proj2 (Forall_forall _ _)). intros x Hx. apply (proj1 (Forall_forall _ _) GD). apply in_flat_map. eauto. }
  pose proof (any_exc F Fx listed k full mem sort (utf8_append_from_utf32ne_exc mem) (flat_map octets_of) (@length Z) (fun l i => firstn i l) (Forall encodable)
    ops b e cs fuel out TD SO D Hf CF eq_refl (fun x y => flat_map_app _ x y) (fun l => eq_refl) (utf8_append_exc mem) HG) as Q.
  cbv zeta in Q. fold f in Q. rewrite Q. clear Q. unfold ends.
  assert (TT : forall gs, total (piece_cost (@length Z) f) gs = tries8 gs (map f gs)).
  { clear. intros gs. rewrite total_nsum. unfold tries8. f_equal. induction gs as [|g gs IH]; [reflexivity|]. cbn [map combine fst snd]. f_equal. exact IH. }
  rewrite TT. split.
  - intros A. rewrite (proj2 (attempt_none mem (tries8 (seg cs) (map f (seg cs))) 0)); [reflexivity|]. intros i Hi. apply A. lia.
  - intros m j g d i (Fm & Tm) Eg Ed Em Hi.
    assert (Hj : (j < length (seg cs))%nat) by (apply nth_error_Some; congruence).
    rewrite (map_nth_error f _ _ Eg) in Ed. injection Ed as <-.
    destruct (nth_split_at j (seg cs) Hj) as (g' & y & E1 & _).
    assert (g' = g).
    { rewrite E1, nth_error_app2, firstn_length_le, Nat.sub_diag in Eg by (rewrite ?firstn_length_le; lia). cbn in Eg. congruence. }
    subst g'. rewrite firstn_map, <- TT in Em. rewrite firstn_map, <- flat_map_concat_map.
    assert (TS : total (piece_cost (@length Z) f) (seg cs) = (total (piece_cost (@length Z) f) (firstn j (seg cs)) +
      (piece_cost (@length Z) f g + total (piece_cost (@length Z) f) y))%nat).
    { pose proof (total_app (piece_cost (@length Z) f) (firstn j (seg cs)) (g :: y)) as X. rewrite <- E1 in X. exact X. }
    assert (Hi' : (i < piece_cost (@length Z) f g)%nat) by exact Hi.
    rewrite (attempt_at mem _ m); [|rewrite <- TT; lia|assumption|assumption].
    pose proof (written_at (piece_cost (@length Z) f) f (piece_part (fun l i => firstn i l) f) (firstn j (seg cs)) g y i Hi') as W. rewrite <- E1, <- Em in W.
    rewrite Nat.sub_0_r, W. unfold piece_part. eexists. split; [|reflexivity]. apply utf8_octets_append.
    apply Forall_app. split.
    + apply (proj2 (Forall_forall _ _)). intros x Hx. apply in_flat_map in Hx. destruct Hx as (h & Ih & Hx).
      apply (proj1 (Forall_forall _ _) (HG h ltac:(rewrite E1; apply in_or_app; left; exact Ih))). exact Hx.
    + pose proof (HG g ltac:(rewrite E1; apply in_or_app; right; left; reflexivity)) as HF.
      rewrite <- (firstn_skipn (i - length g) (f g)) in HF. apply Forall_app in HF. exact (proj1 HF).
Qed.
Print Assumptions C113_utf8_exactly.

Lemma full_not_empty F listed k full sort g : form_data F listed k full -> std_sort_ok sort -> g <> [] -> norm_grapheme k full sort g <> [].
Proof.
  intros FD SO NE.
  assert (NF : flat_map full g <> []).
  { destruct g as [|a g]; [contradiction|]. cbn [flat_map]. intros E. apply app_eq_nil in E. destruct E as (E & _).
    destruct FD; [apply (full_canonical_ne a)|apply (full_compat_ne a)|apply (full_canonical_ne a)|apply (full_compat_ne a)]; exact E. }
  assert (NS : sort (flat_map full g) <> []).
  { intros E. apply NF. apply Permutation_nil. rewrite <- E. symmetry. apply SO. }
  unfold norm_grapheme. destruct k; [apply compose_ne|]; exact NS.
Qed.
Lemma alone_fun F sort g d d' : form_alone F sort g d -> form_alone F sort g d' -> d = d'.
Proof. unfold form_alone. congruence. Qed.

(** So whatever the memory does, a UTF-8 output gets the complete result, or a beginning of it that
    ends between codepoints: append_from_utf32ne of fewer codepoints than the complete result has. *)
Theorem C113_utf8_whole_codepoints : forall F Fx listed sort ops b e cs fuel out n complete mem,
  throwing_form F Fx listed -> std_sort_ok sort -> delimited_text ops b e cs -> (length cs < fuel)%nat -> count_fits listed cs ->
  normalize fuel ops (F sort utf8_append_from_utf32ne fuel ops) b e out = Ok (n, complete) ->
  let run := normalize_exc fuel ops (Fx mem sort (utf8_append_from_utf32ne_exc mem) fuel ops) b e (0%nat, out) in
  exists d, utf8_append_from_utf32ne out d = Ok complete /\ zlen d = n /\
    ((exists tries, run = Ok (Returned n (tries, complete))) \/
     (exists j tries w, (j < length d)%nat /\ utf8_append_from_utf32ne out (firstn j d) = Ok w /\ run = Ok (Thrown (tries, w)))).
Proof.
  intros F Fx listed sort ops b e cs fuel out n complete mem TF SO D Hf CF R0. cbv zeta.
  destruct (throwing_has_data _ _ _ TF) as (k & full & FD & TD). set (f := norm_grapheme k full sort).
  exists (flat_map f (seg cs)). pose proof R0 as R1.
  rewrite (run_any F listed k full sort _ ops b e cs fuel out FD SO utf8_output D Hf CF) in R1. fold f in R1.
  destruct (utf8_append_from_utf32ne out (flat_map f (seg cs))) as [o|u|] eqn:EO; cbn [bind] in R1; try discriminate.
  injection R1 as E1 E2. subst o. split; [reflexivity|]. split; [exact E1|].
  destruct (C113_utf8_exactly F Fx listed sort ops b e cs (seg cs) fuel out n complete mem TF SO D Hf CF (seg_segments cs) R0) as (ds & F2 & R & X).
  assert (ED : ds = map f (seg cs)).
  { pose proof (alone_pieces F listed k full sort cs FD SO CF) as F3. fold f in F3. revert F2 F3. clear. generalize (seg cs) (map f (seg cs)).
    intros gs ds' F2. revert ds'. induction F2 as [|g d gs ds A _ IH]; intros ds' F3; inversion F3; subst; [reflexivity|].
    f_equal; [eapply alone_fun; eassumption|apply IH; assumption]. }
  subst ds.
  assert (TT : forall gs, total (piece_cost (@length Z) f) gs = tries8 gs (map f gs)).
  { clear. intros gs. rewrite total_nsum. unfold tries8. f_equal. induction gs as [|g gs IH]; [reflexivity|]. cbn [map combine fst snd]. f_equal. exact IH. }
  destruct (attempt mem 0 (tries8 (seg cs) (map f (seg cs)))) as [m|] eqn:A.
  - right. destruct (attempt_some _ _ _ _ A) as (R' & Fm & Tm). assert (Hm : (m < tries8 (seg cs) (map f (seg cs)))%nat) by lia.
    rewrite <- TT in Hm. destruct (total_split _ _ _ Hm) as (x & g & y & i & E & Hi & Em).
    assert (NE : f g <> []).
    { apply (full_not_empty F listed); [exact FD|exact SO|]. apply (proj1 (Forall_forall _ _) (seg_nonempty cs)). rewrite E. apply in_or_app. right. left. reflexivity. }
    destruct (X m (length x) g (f g) i) as (w & Ew & Er).
    + split; [assumption|]. intros i' Hi'. apply Tm. lia.
    + rewrite E, nth_error_app2, Nat.sub_diag by lia. reflexivity.
    + rewrite E, map_app, nth_error_app2, map_length, Nat.sub_diag by (rewrite map_length; lia). reflexivity.
    + rewrite firstn_map, <- TT, E, firstn_app, firstn_all, Nat.sub_diag. cbn [firstn]. rewrite app_nil_r. exact Em.
    + exact Hi.
    + exists (length (flat_map f x) + (i - length g))%nat, (Datatypes.S m), w.
      assert (LT : (i - length g < length (f g))%nat).
      { unfold piece_cost in Hi. destruct (f g) as [|a l]; [contradiction|]. cbn [length] in *. lia. }
      split; [rewrite E, flat_map_app; cbn [flat_map]; rewrite !app_length; lia|]. split; [|exact Er].
      rewrite <- Ew. f_equal. rewrite firstn_map, <- flat_map_concat_map, E, flat_map_app, firstn_app. cbn [flat_map].
      rewrite firstn_all2 by lia. replace (length (flat_map f x) + (i - length g) - length (flat_map f x))%nat with (i - length g)%nat by lia.
      rewrite firstn_app, firstn_app, firstn_all, !Nat.sub_diag. cbn [firstn]. rewrite app_nil_r.
      replace (i - length g - length (f g))%nat with 0%nat by lia. cbn [firstn]. rewrite app_nil_r. reflexivity.
  - left. eexists. apply R. intros i Hi. apply (proj1 (attempt_none mem _ _) A). lia.
Qed.
Print Assumptions C113_utf8_whole_codepoints.
Example C113_example8 : (* e acute in form D: 1 + 2 appends; the second codepoint does not fit *)
  let s := utf8_ops (string_buffer [0xC3; 0xA9]) in
  let run mem := normalize_exc 3 s (normalization_form_d_exc mem isort (utf8_append_from_utf32ne_exc mem) 3 s) 0 2 (0%nat, [0x3E]) in
  run (fun _ => true) = Ok (Returned 2 (3%nat, [0x3E; 0x65; 0xCC; 0x81])) /\
  run (fun i => (i <? 2)%nat) = Ok (Thrown (3%nat, [0x3E; 0x65])) /\
  run (fun i => (i <? 1)%nat) = Ok (Thrown (2%nat, [0x3E])).
Proof. split; [vm_compute; reflexivity|]. split; vm_compute; reflexivity. Qed.

(** filter itself, with any operation: an exception leaves filter exactly when one leaves the
    operation on some element after it returned on all elements before; the output is
    what that call left.  (And no element after it is visited: they do not matter.) *)
Theorem C113_filter_throws_iff : forall (It Elem Out : Type) neq deref inc (operation : Elem -> Out -> res (outcome Z Out))
    (from to : It) xs out fuel out',
  range_of neq deref inc from to xs -> (length xs < fuel)%nat ->
  (filter_exc fuel neq deref inc operation from to out = Ok (Thrown out') <->
   exists before x after ns outx, xs = before ++ x :: after /\ calls_return operation before out ns outx /\
     operation x outx = Ok (Thrown out') /\
     forall k, (0 < k <= length ns)%nat -> - 2 ^ 31 <= zsum (firstn k ns) <= 2 ^ 31 - 1).
Proof.
  intros It Elem Out neq deref inc operation from to xs out fuel out' R Hf. unfold filter_exc.
  enough (H : forall counter, filter_loop_exc fuel neq deref inc operation from to out counter = Ok (Thrown out') <->
    exists before x after ns outx, xs = before ++ x :: after /\ calls_return operation before out ns outx /\
     operation x outx = Ok (Thrown out') /\
     forall k, (0 < k <= length ns)%nat -> - 2 ^ 31 <= counter + zsum (firstn k ns) <= 2 ^ 31 - 1) by exact (H 0).
  revert out fuel Hf. induction R as [from to E|from to x from' from'' xs E Hd Hi _ IH]; intros out fuel Hf counter;
    (destruct fuel as [|fuel]; [cbn in Hf; lia|]); cbn [filter_loop_exc]; rewrite E; cbn [bind].
  - split; [discriminate|]. intros (before & x & after & ns & o & X & _). destruct before; discriminate.
  - rewrite Hd. cbn [bind]. destruct (operation x out) as [[n out1|out1]|u|] eqn:EO; cbn [bind].
    + unfold int_add. destruct ((int_min <=? counter + n) && (counter + n <=? int_max)) eqn:B; cbn [bind].
      * rewrite Hi. cbn [bind]. rewrite (IH out1 fuel ltac:(cbn in Hf; lia)).
        split; intros (before & y & after & ns & o & X & C & O & S).
        -- exists (x :: before), y, after, (n :: ns), o. split; [cbn; congruence|]. split; [econstructor; eassumption|]. split; [exact O|].
           intros [|k] Hk; [lia|]. cbn [firstn zsum fold_right]. fold (zsum (firstn k ns)). destruct k as [|k].
           ++ cbn. unfold int_min, int_max in B. lia.
           ++ rewrite Z.add_assoc. apply S. cbn in Hk. lia.
        -- destruct before as [|z before].
           { inversion C; subst. cbn in X. injection X as -> ->. congruence. }
           cbn in X. injection X as -> ->. inversion C as [|? ? ? n' o1 ns' o2 O1 C']; subst. rewrite EO in O1. injection O1 as <- <-.
           exists before, y, after, ns', o. split; [reflexivity|]. split; [assumption|]. split; [assumption|].
           intros k Hk. specialize (S (Datatypes.S k) ltac:(cbn; lia)). cbn [firstn zsum fold_right] in S. fold (zsum (firstn k ns')) in S. lia.
      * split; [discriminate|]. intros (before & y & after & ns & o & X & C & O & S). destruct before as [|z before].
        { inversion C; subst. cbn in X. injection X as -> ->. congruence. }
        cbn in X. injection X as -> ->. inversion C as [|? ? ? n' o1 ns' o2 O1 C']; subst. rewrite EO in O1. injection O1 as <- <-.
        specialize (S 1%nat ltac:(cbn; lia)). cbn in S. unfold int_min, int_max in B. lia.
    + split.
      * intros [= ->]. exists [], x, xs, [], out. split; [reflexivity|]. split; [constructor|]. split; [exact EO|]. cbn. lia.
      * intros (before & y & after & ns & o & X & C & O & S). destruct before as [|z before].
        { inversion C; subst. cbn in X. injection X as -> ->. congruence. }
        cbn in X. injection X as -> ->. inversion C; subst. congruence.
    + split; [discriminate|]. intros (before & y & after & ns & o & X & C & O & S). destruct before as [|z before].
      { inversion C; subst. cbn in X. injection X as -> ->. congruence. }
      cbn in X. injection X as -> ->. inversion C; subst. congruence.
    + split; [discriminate|]. intros (before & y & after & ns & o & X & C & O & S). destruct before as [|z before].
      { inversion C; subst. cbn in X. injection X as -> ->. congruence. }
      cbn in X. injection X as -> ->. inversion C; subst. congruence.
Qed.
Print Assumptions C113_filter_throws_iff.
Example C113_filter_example : (* an operation that throws on 6, over the utf32 text 5 6 7 *)
  filter_exc 4 (op_neq (utf32_ops [5; 6; 7; 0])) (op_deref (utf32_ops [5; 6; 7; 0])) (op_inc (utf32_ops [5; 6; 7; 0]))
    (fun c (out : list Z) => Ok (if c =? 6 then Thrown (0 :: out) else Returned 1 (c :: out))) 0 3 [] = Ok (Thrown [0; 5]).
Proof. vm_compute. reflexivity. Qed.

(** append_from_utf32ne by itself: UTF-32 all or nothing, UTF-8 codepoint by codepoint. *)
Theorem C113_append_from_utf32ne : forall mem out cps,
  (utf32_append_from_utf32ne_exc mem (0%nat, out) cps
   = Ok (if mem 0%nat then Returned tt (1%nat, out ++ cps) else Thrown (1%nat, out))) /\
  (forall complete, utf8_append_from_utf32ne out cps = Ok complete ->
   ((forall i, (i < length cps)%nat -> mem i = true) ->
      utf8_append_from_utf32ne_exc mem (0%nat, out) cps = Ok (Returned tt (length cps, complete))) /\
   (forall m, runs_out_at mem m -> (m < length cps)%nat ->
      exists w, utf8_append_from_utf32ne out (firstn m cps) = Ok w /\
        utf8_append_from_utf32ne_exc mem (0%nat, out) cps = Ok (Thrown (S m, w)))).
Proof.
  intros mem out cps. split; [unfold utf32_append_from_utf32ne_exc, string_append; destruct (mem 0%nat); reflexivity|].
  intros complete E. destruct (utf8_append_octets _ _ _ E) as (G & ->). rewrite (utf8_append_exc mem cps 0 out G). unfold ends. split.
  - intros A. rewrite (proj2 (attempt_none mem (length cps) 0)); [reflexivity|]. intros i Hi. apply A. lia.
  - intros m (Fm & Tm) Hm. rewrite (attempt_at mem _ m Hm Fm Tm), Nat.sub_0_r. eexists. split; [|reflexivity]. apply utf8_octets_append.
    rewrite <- (firstn_skipn m cps) in G. apply Forall_app in G. exact (proj1 G).
Qed.
Print Assumptions C113_append_from_utf32ne.
