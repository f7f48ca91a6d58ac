(** * Properties C104-C105: histories of operations

    [history cs gs pos (cursors, iterators) program observations final] (HistorySpec.v): what a
    client program that uses any number of codepoint and grapheme iterators of a text in any
    order is to observe.  [program] (HistoryModel.v) runs it with the operations of the
    library.  [string_in_memory], [view_in_memory]: TextSpec.v. *)
From Verif Require Import Prelude DataTables PropsModel Utf8Model TextModel HistoryModel Utf8Spec UnicodeSpec GraphemeSpec NormSpec TextSpec HistorySpec StringHistorySpec StringHistoryModel
  LawfulProofs SequenceProofs GraphemeProofs Uax29Proofs GraphemeText DecompProofs OrderProofs NormText HistoryProofs StringHistoryProofs.
Require Import ZifyBool ZifyNat.

(** The postfix -- that goes with the iterators. *)
Inductive iterators_of : cp_ops -> (Z -> res (Z * Z)) -> Prop :=
| utf8_iterators mem : iterators_of (utf8_ops mem) (utf8_postdec mem)
| utf32_iterators mem : iterators_of (utf32_ops mem) (utf32_postdec mem).
Lemma iterators_postdec ops postdec : iterators_of ops postdec -> forall p, postdec p = let* q := op_dec ops p in Ok (p, q).
Proof. intros [mem|mem] p; reflexivity. Qed.

(** ** C104.  Iterators are indexes, whatever a program does with them: every program that
    only moves iterators inside of the text and reads in front of its end runs without
    undefined behaviour and observes what it is to observe. *)
Theorem C104_histories_on_a_string : forall ops postdec b e cs gs pos xs os final fuel, iterators_of ops postdec ->
  string_in_memory ops b e cs pos -> segments pairwise_boundary cs gs -> (2 * length cs < fuel)%nat ->
  history cs gs pos (fun _ => 0%nat, fun _ => 0%nat) xs os final -> program fuel ops postdec b e xs = Ok os.
Proof.
  intros ops postdec b e cs gs pos xs os final fuel I M S Hf H. apply seg_eq in S. subst gs.
  destruct (string_inside _ _ _ _ _ M) as (pos' & inside & T & _ & SP).
  exact (program_ok ops b e cs 0 pos' inside T pos SP (boundary_nul cs) postdec (iterators_postdec _ _ I) fuel Hf xs os final H).
Qed.
Print Assumptions C104_histories_on_a_string.
Theorem C104_histories_on_a_view : forall ops postdec b e cs c gs pos xs os final fuel, iterators_of ops postdec ->
  view_in_memory ops b e cs c pos -> cs = [] \/ pairwise_boundary cs c -> segments pairwise_boundary cs gs -> (2 * length cs < fuel)%nat ->
  history cs gs pos (fun _ => 0%nat, fun _ => 0%nat) xs os final -> program fuel ops postdec b e xs = Ok os.
Proof.
  intros ops postdec b e cs c gs pos xs os final fuel I M B S Hf H. apply seg_eq in S. subst gs.
  destruct (view_inside _ _ _ _ _ _ M) as (pos' & inside & T & _ & SP).
  exact (program_ok ops b e cs c pos' inside T pos SP B postdec (iterators_postdec _ _ I) fuel Hf xs os final H).
Qed.
Print Assumptions C104_histories_on_a_view.
(** So two texts with the same codepoints cannot be told apart, whatever their encodings and
    wherever they lie (by programs that make no iterators from native positions). *)
Definition portable (x : command) : Prop := match x with At _ _ => False | _ => True end.
Lemma portable_history cs gs pos pos' st xs os st' : Forall portable xs -> history cs gs pos st xs os st' -> history cs gs pos' st xs os st'.
Proof.
  intros F H. induction H as [st|st st' st'' x xs o os S H IH]; [constructor|]. inversion F as [|a l P F']; subst.
  econstructor; [|apply IH; assumption]. destruct S; try (constructor; assumption). destruct P.
Qed.
Theorem C104_encodings_cannot_be_told_apart : forall ops postdec b e pos ops' postdec' b' e' pos' cs gs xs os final fuel,
  iterators_of ops postdec -> iterators_of ops' postdec' -> string_in_memory ops b e cs pos -> string_in_memory ops' b' e' cs pos' ->
  segments pairwise_boundary cs gs -> (2 * length cs < fuel)%nat -> Forall portable xs ->
  history cs gs pos (fun _ => 0%nat, fun _ => 0%nat) xs os final ->
  program fuel ops postdec b e xs = Ok os /\ program fuel ops' postdec' b' e' xs = Ok os.
Proof.
  intros ops postdec b e pos ops' postdec' b' e' pos' cs gs xs os final fuel I I' M M' S Hf P H. split.
  - exact (C104_histories_on_a_string _ _ _ _ _ _ _ _ _ _ _ I M S Hf H).
  - exact (C104_histories_on_a_string _ _ _ _ _ _ _ _ _ _ _ I' M' S Hf (portable_history _ _ _ pos' _ _ _ _ P H)).
Qed.
Print Assumptions C104_encodings_cannot_be_told_apart.
(** "ae\u0301\u20AC": walk to the middle of the second grapheme, from a native position inside
    of the euro sign backwards, compare. *)
Definition example_program : list command :=
  [GInc 0; GFirst 0 1; Read 1; PostInc 1 2; Read 1; Read 2; GEqualAt 0 1; At 3 5; Read 3; Dec 3; Equal 3 1; GRead 0; GInc 0; GInc 0; GEnd 1; GEqual 0 1].
Definition example_observations : list observation :=
  [Saw 0x65; Saw 0x301; Saw 0x65; Was true; Saw 0x20AC; Was true; SawGrapheme [0x65; 0x301]; Was true].
Example C104_example : exists final,
  history [0x61; 0x65; 0x301; 0x20AC] [[0x61]; [0x65; 0x301]; [0x20AC]] (fun i => zlen (utf8_text (firstn i [0x61; 0x65; 0x301; 0x20AC])))
    (fun _ => 0%nat, fun _ => 0%nat) example_program example_observations final /\
  program 9 (utf8_ops (string_buffer (utf8_text [0x61; 0x65; 0x301; 0x20AC]))) (utf8_postdec (string_buffer (utf8_text [0x61; 0x65; 0x301; 0x20AC]))) 0 7
    example_program = Ok example_observations.
Proof.
  eexists. split; [|vm_compute; reflexivity]. unfold example_program, example_observations.
  eapply (history_goes_on _ _ _ _ _ _ _ _ []); [apply does_ginc; cbn; lia|].
  eapply (history_goes_on _ _ _ _ _ _ _ _ []); [apply does_gfirst|].
  eapply (history_goes_on _ _ _ _ _ _ _ _ [_]); [apply does_read; reflexivity|].
  eapply (history_goes_on _ _ _ _ _ _ _ _ []); [apply does_postinc; cbn; lia|].
  eapply (history_goes_on _ _ _ _ _ _ _ _ [_]); [apply does_read; reflexivity|].
  eapply (history_goes_on _ _ _ _ _ _ _ _ [_]); [apply does_read; reflexivity|].
  eapply (history_goes_on _ _ _ _ _ _ _ _ [_]); [apply does_gequal_at; cbn; split; [lia|reflexivity]|].
  eapply (history_goes_on _ _ _ _ _ _ _ _ []); [apply (does_at _ _ _ _ _ 3%nat); [cbn; lia|vm_compute; split; [discriminate|reflexivity]]|].
  eapply (history_goes_on _ _ _ _ _ _ _ _ [_]); [apply does_read; reflexivity|].
  eapply (history_goes_on _ _ _ _ _ _ _ _ []); [apply does_dec; reflexivity|].
  eapply (history_goes_on _ _ _ _ _ _ _ _ [_]); [apply (does_equal _ _ _ 3 1)|].
  eapply (history_goes_on _ _ _ _ _ _ _ _ [_]); [apply does_gread; reflexivity|].
  eapply (history_goes_on _ _ _ _ _ _ _ _ []); [apply does_ginc; cbn; lia|].
  eapply (history_goes_on _ _ _ _ _ _ _ _ []); [apply does_ginc; cbn; lia|].
  eapply (history_goes_on _ _ _ _ _ _ _ _ []); [apply does_gend|].
  eapply (history_goes_on _ _ _ _ _ _ _ _ [_]); [apply (does_gequal _ _ _ 0 1)|].
  constructor.
Qed.

(** ** C105.  Strings hold texts, whatever a program does with them.

    [string_history utf8 form texts program sights texts'] (StringHistorySpec.v): what the
    strings are to hold after a program, and what it is to see.  [library_form]
    (StringHistoryProofs.v): what a normalization form makes of a utf32ne_string (C47, C48
    say what that is).  Every such program runs, for all sufficient fuel, without undefined
    behaviour, sees what it is to see and leaves the texts in their encodings. *)
Theorem C105_histories_of_strings : forall utf8 sort xs os texts, std_sort_ok sort ->
  string_history utf8 (library_form sort) (fun _ => []) xs os texts ->
  exists enough, forall fuel, (enough <= fuel)%nat -> exists strings,
    run_strings sort fuel utf8 xs (fun _ => []) = Ok (os, strings) /\
    forall r, strings r = if utf8 r then utf8_text (texts r) else texts r.
Proof.
  intros utf8 sort xs os texts SO H. destruct (run_strings_ok utf8 sort SO _ _ _ _ H) as (N & A); [intros r; constructor|].
  exists N. intros fuel Hf. apply A; [|assumption]. intros r. unfold native. destruct (utf8 r); reflexivity.
Qed.
Print Assumptions C105_histories_of_strings.
(** From any texts the strings can hold. *)
Theorem C105_histories_from_any_texts : forall utf8 sort before xs os after, std_sort_ok sort ->
  (forall r, Forall (fun c => if utf8 r : bool then 1 <= c <= 0x7FF \/ 0x2000 <= c <= 0xFFFF \/ 0x80000 <= c <= 0x10FFFF else 0 <= c <= 0x10FFFF) (before r)) ->
  string_history utf8 (library_form sort) before xs os after ->
  exists enough, forall fuel, (enough <= fuel)%nat -> exists strings,
    run_strings sort fuel utf8 xs (fun r => if utf8 r then utf8_text (before r) else before r) = Ok (os, strings) /\
    forall r, strings r = if utf8 r then utf8_text (after r) else after r.
Proof.
  intros utf8 sort before xs os after SO G H. destruct (run_strings_ok utf8 sort SO _ _ _ _ H) as (N & A).
  { intros r. eapply Forall_impl; [|exact (G r)]. unfold writable, encodable, unicode_codepoint. destruct (utf8 r); auto. }
  exists N. intros fuel Hf. apply A; [|assumption]. intros r. reflexivity.
Qed.
Print Assumptions C105_histories_from_any_texts.
(** String 0 is UTF-8, string 1 UTF-32.  "ex\u0301" is put into 0, its form C into 1, there
    the last codepoint is replaced, 1 is appended to 0, then the codepoints in 0 between two
    positions inside of codepoints. *)
Definition string_program : list string_command :=
  [Append 0 [0x65; 0x301; 0x78]; Normalize FormC 1 0; Show 1; Assign 1 1 0x20AC; AppendUtf32 0 1; AppendBetween 0 0 2 7; Check 0; ShowGraphemes 0; Assign 0 1 0x302; CopyCodepoints 1 0; Clear 0; Show 1].
Definition string_sights : list sight :=
  [Text [0xE9; 0x78]; Checked true; Graphemes [[0x65; 0x301]; [0x78]; [0xE9]; [0x20AC; 0x301]; [0x78]; [0xE9]];
   Text [0xE9; 0x20AC; 0x65; 0x302; 0x78; 0xE9; 0x20AC; 0x301; 0x78; 0xE9]].
Example C105_example : std_sort_ok isort /\
  (exists texts, string_history (fun r => Nat.eqb r 0) (library_form isort) (fun _ => []) string_program string_sights texts) /\
  exists strings, run_strings isort 20 (fun r => Nat.eqb r 0) string_program (fun _ => []) = Ok (string_sights, strings).
Proof.
  split; [exact isort_std|]. split; [|eexists; vm_compute; reflexivity].
  eexists. unfold string_program, string_sights.
  eapply (string_history_goes_on _ _ _ _ _ _ _ []); [apply does_append; repeat constructor; cbn; unfold encodable; lia|].
  eapply (string_history_goes_on _ _ _ _ _ _ _ []).
  { apply (does_normalize _ _ FormC 1 0 [0xE9; 0x78]); [discriminate| |repeat constructor; cbn; unfold unicode_codepoint; lia].
    exists normalization_form_c, listed_canonical, 2. split; [constructor|]. split; [|vm_compute; reflexivity]. exists (flat_map full_canonical [0x65; 0x301; 0x78]). split; [apply canonical_listed; reflexivity|vm_compute; discriminate]. }
  eapply (string_history_goes_on _ _ _ _ _ _ _ [_]); [apply does_show|].
  eapply (string_history_goes_on _ _ _ _ _ _ _ []); [eapply (does_assign _ _ 1 1 0x20AC 0x78); [reflexivity|cbn; unfold unicode_codepoint; lia|discriminate]|].
  eapply (string_history_goes_on _ _ _ _ _ _ _ []); [apply (does_utf32 _ _ 0 1); [reflexivity|repeat constructor; cbn; unfold encodable; lia]|].
  eapply (string_history_goes_on _ _ _ _ _ _ _ []); [apply (does_between _ _ 0 0 2 7 1 4); [reflexivity|lia| |]; (split; [vm_compute; discriminate|left; split; [cbn; lia|vm_compute; reflexivity]])|].
  eapply (string_history_goes_on _ _ _ _ _ _ _ [_]); [apply does_check; reflexivity|].
  eapply (string_history_goes_on _ _ _ _ _ _ _ [_]).
  { apply does_show_graphemes. match goal with |- segments _ ?t ?g => replace g with (seg t) by (vm_compute; reflexivity) end. apply seg_segments. }
  eapply (string_history_goes_on _ _ _ _ _ _ _ []); [eapply (does_assign _ _ 0 1 0x302 0x301); [reflexivity|cbn; unfold encodable; lia|reflexivity]|].
  eapply (string_history_goes_on _ _ _ _ _ _ _ []); [apply (does_copy_codepoints _ _ 1 0); [reflexivity|discriminate]|].
  eapply (string_history_goes_on _ _ _ _ _ _ _ []); [apply does_clear|].
  eapply (string_history_goes_on _ _ _ _ _ _ _ [_]); [apply (does_show _ _ 1)|].
  constructor.
Qed.
