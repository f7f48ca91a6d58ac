(** * Property C107: threads

    ScheduleSpec.v: schedules, [of_thread t schedule] (what thread [t] does, in its order),
    [obeys] (a thread writes only to its own strings and reads only these and shared ones),
    [uses_own] (a thread uses only its own iterators).  ScheduleModel.v: [run_threads_on_strings],
    [run_threads_on_iterators] execute a schedule.  [run_strings], [run]: one thread alone
    (C104, C105). *)
From Verif Require Import Prelude DataTables PropsModel Utf8Model TextModel HistoryModel Utf8Spec UnicodeSpec GraphemeSpec NormSpec TextSpec HistorySpec StringHistorySpec StringHistoryModel
  DecompProofs OrderProofs NormText GraphemeText Uax29Proofs StringHistoryProofs ScheduleSpec ScheduleModel ScheduleProofs Properties_Histories.
Require Import ZifyBool ZifyNat.

(** ** Strings: in every schedule every thread sees what it sees alone, and leaves its strings as
    it leaves them alone; shared strings stay as they are.  Nothing goes wrong in the schedule
    exactly if nothing goes wrong in any thread alone.  (Whatever the strings contain.) *)
Theorem C107_threads_on_strings : forall sort fuel utf8 owner schedule before,
  (forall t x, In (t, x) schedule -> obeys owner t x) ->
  ((exists os after, run_threads_on_strings sort fuel utf8 schedule before = Ok (os, after)) <->
   (forall t, exists os after, run_strings sort fuel utf8 (of_thread t schedule) before = Ok (os, after))) /\
  (forall os after, run_threads_on_strings sort fuel utf8 schedule before = Ok (os, after) ->
   forall t, exists after_t, run_strings sort fuel utf8 (of_thread t schedule) before = Ok (of_thread t os, after_t) /\
     (forall r, owner r = Some t -> after r = after_t r) /\ (forall r, owner r = None -> after r = before r)).
Proof.
  intros sort fuel utf8 owner schedule before L.
  assert (RF : forall t s, same_strings owner t s s) by (intros t s r _; reflexivity).
  assert (SY : forall t s s', same_strings owner t s s' -> same_strings owner t s' s) by (intros t s s' A r O; symmetry; apply A; assumption).
  assert (TR : forall t a b c, same_strings owner t a b -> same_strings owner t b c -> same_strings owner t a c)
    by (intros t a b c A B r O; rewrite (A r O); apply B; assumption).
  assert (U : forall os after, run_threads_on_strings sort fuel utf8 schedule before = Ok (os, after) -> forall t,
    exists after_t, run_strings sort fuel utf8 (of_thread t schedule) before = Ok (of_thread t os, after_t) /\ same_strings owner t after after_t).
  { intros os after R t. destruct (schedule_alone (execute_string sort fuel utf8) (same_strings owner) (obeys owner) RF SY TR
      (strings_others sort fuel utf8 owner) (strings_local sort fuel utf8 owner) schedule L before os after R t) as (st & A & G).
    exists st. rewrite run_strings_alone. auto. }
  split; [split|].
  - intros (os & after & R) t. destruct (U os after R t) as (st & A & _). eauto.
  - intros H. destruct (alone_schedule (execute_string sort fuel utf8) (same_strings owner) (obeys owner)
      (strings_others sort fuel utf8 owner) (strings_local sort fuel utf8 owner) schedule L before) as ([os after] & R); [|exists os, after; exact R].
    intros t. destruct (H t) as (os & after & R). rewrite run_strings_alone in R. eauto.
  - intros os after R t. destruct (U os after R t) as (st & A & G). exists st. split; [exact A|]. split; [intros r O; apply G; auto|].
    intros r O. set (fresh := S (list_max (map fst schedule))). assert (NF : of_thread fresh schedule = []).
    { assert (X : forall u, In u (map fst schedule) -> (u < fresh)%nat).
      { intros u I. pose proof (list_max_le (map fst schedule) (list_max (map fst schedule))) as Q. destruct Q as (Q & _).
        specialize (Q (le_n _)). rewrite Forall_forall in Q. specialize (Q u I). unfold fresh. lia. }
      clearbody fresh. unfold of_thread. clear - X. induction schedule as [|[u x] l IH]; [reflexivity|]. cbn [List.filter fst].
      replace (Nat.eqb u fresh) with false; [apply IH; intros v I; apply X; right; assumption|].
      symmetry. apply Nat.eqb_neq. specialize (X u (or_introl eq_refl)). lia. }
    destruct (U os after R fresh) as (st' & A' & G'). rewrite NF in A'. cbn in A'. injection A' as _ <-. apply G'. auto.
Qed.
Print Assumptions C107_threads_on_strings.

(** So the order in which the threads take turns does not matter. *)
Theorem C107_any_other_schedule : forall sort fuel utf8 owner schedule schedule' before os after,
  (forall t x, In (t, x) schedule -> obeys owner t x) ->
  (forall t, of_thread t schedule = of_thread t schedule') ->
  run_threads_on_strings sort fuel utf8 schedule before = Ok (os, after) ->
  exists os' after', run_threads_on_strings sort fuel utf8 schedule' before = Ok (os', after') /\
    (forall t, of_thread t os' = of_thread t os) /\ (forall r, after' r = after r).
Proof.
  intros sort fuel utf8 owner schedule schedule' before os after L P R.
  assert (L' : forall t x, In (t, x) schedule' -> obeys owner t x).
  { intros t x I. apply L. assert (J : In x (of_thread t schedule)).
    { rewrite P. unfold of_thread. apply in_map_iff. exists (t, x). split; [reflexivity|]. apply filter_In. split; [assumption|apply Nat.eqb_refl]. }
    unfold of_thread in J. apply in_map_iff in J. destruct J as ([u y] & E & J). apply filter_In in J. destruct J as (J & Q).
    apply Nat.eqb_eq in Q. cbn in E, Q. subst. assumption. }
  destruct (C107_threads_on_strings sort fuel utf8 owner schedule before L) as ((A & _) & B).
  destruct (C107_threads_on_strings sort fuel utf8 owner schedule' before L') as ((_ & A') & B').
  destruct A' as (os' & after' & R').
  { intros t. rewrite <- P. apply A. exists os, after. exact R. }
  exists os', after'. split; [exact R'|].
  assert (X : forall t, of_thread t os' = of_thread t os /\ (forall r, owner r = Some t -> after' r = after r)).
  { intros t. destruct (B os after R t) as (st & E & O & _). destruct (B' os' after' R' t) as (st' & E' & O' & _).
    rewrite <- P, E in E'. injection E' as E1 E2. split; [congruence|]. intros r W. rewrite (O r W), (O' r W), E2. reflexivity. }
  split; [intros t; apply X|]. intros r. destruct (owner r) as [t|] eqn:W; [apply (X t); assumption|].
  destruct (B os after R 0%nat) as (_ & _ & _ & N). destruct (B' os' after' R' 0%nat) as (_ & _ & _ & N'). rewrite (N r W), (N' r W). reflexivity.
Qed.
Print Assumptions C107_any_other_schedule.

(** With C105: threads each of which only does what C105 allows see the texts they are to see
    in every schedule, and their strings hold the texts they are to hold. *)
Theorem C107_texts_in_every_schedule : forall utf8 sort owner before schedule seen texts, std_sort_ok sort ->
  (forall r, Forall (writable utf8 r) (before r)) ->
  (forall t x, In (t, x) schedule -> obeys owner t x) ->
  (forall t, string_history utf8 (library_form sort) before (of_thread t schedule) (seen t) (texts t)) ->
  exists enough, forall fuel, (enough <= fuel)%nat -> exists os strings,
    run_threads_on_strings sort fuel utf8 schedule (fun r => if utf8 r then utf8_text (before r) else before r) = Ok (os, strings) /\
    forall t, of_thread t os = seen t /\
      forall r, owner r = Some t -> strings r = if utf8 r then utf8_text (texts t r) else texts t r.
Proof.
  intros utf8 sort owner before schedule seen texts SO G L H.
  assert (X : exists enough, forall t, forall fuel, (enough <= fuel)%nat -> exists strings,
    run_strings sort fuel utf8 (of_thread t schedule) (fun r => if utf8 r then utf8_text (before r) else before r) = Ok (seen t, strings) /\
    forall r, strings r = if utf8 r then utf8_text (texts t r) else texts t r).
  { assert (Y : forall ts, exists enough, forall t, In t ts -> forall fuel, (enough <= fuel)%nat -> exists strings,
      run_strings sort fuel utf8 (of_thread t schedule) (fun r => if utf8 r then utf8_text (before r) else before r) = Ok (seen t, strings) /\
      forall r, strings r = if utf8 r then utf8_text (texts t r) else texts t r).
    { induction ts as [|t ts (N & IH)]; [exists 0%nat; intros t []|].
      destruct (C105_histories_from_any_texts utf8 sort before _ _ _ SO G (H t)) as (M & Q).
      exists (Nat.max N M). intros u [<-|I] fuel Hf; [apply Q; lia|apply IH; [assumption|lia]]. }
    destruct (Y (map fst schedule)) as (N & Q). exists N. intros t fuel Hf. destruct (in_dec Nat.eq_dec t (map fst schedule)) as [I|I]; [apply Q; assumption|].
    assert (E : of_thread t schedule = []).
    { unfold of_thread. clear - I. induction schedule as [|[u x] l IH]; [reflexivity|]. cbn [map fst In] in I. cbn [List.filter fst].
      replace (Nat.eqb u t) with false; [apply IH; tauto|]. symmetry. apply Nat.eqb_neq. tauto. }
    specialize (H t). rewrite E in H |- *. inversion H as [T E1 E2 E3|]; subst. eexists. split; [reflexivity|reflexivity]. }
  destruct X as (N & X). exists N. intros fuel Hf.
  destruct (C107_threads_on_strings sort fuel utf8 owner schedule (fun r => if utf8 r then utf8_text (before r) else before r) L) as ((_ & A) & B).
  destruct A as (os & strings & R). { intros t. destruct (X t fuel Hf) as (s & E & _). eauto. }
  exists os, strings. split; [exact R|]. intros t. destruct (B os strings R t) as (st & E & O & _). destruct (X t fuel Hf) as (s & E' & V).
  rewrite E' in E. injection E as E1 E2. split; [congruence|]. intros r W. rewrite (O r W), <- E2. apply V.
Qed.
Print Assumptions C107_texts_in_every_schedule.

(** ** Iterators: threads with their own iterators on one text. *)
Theorem C107_threads_on_iterators : forall fuel ops postdec b e owner gowner schedule before,
  (forall t x, In (t, x) schedule -> uses_own owner gowner t x) ->
  ((exists os after, run_threads_on_iterators fuel ops postdec b e schedule before = Ok (os, after)) <->
   (forall t, exists os after, run fuel ops postdec b e (of_thread t schedule) before = Ok (os, after))) /\
  (forall os after, run_threads_on_iterators fuel ops postdec b e schedule before = Ok (os, after) ->
   forall t, exists after_t, run fuel ops postdec b e (of_thread t schedule) before = Ok (of_thread t os, after_t) /\
     (forall r, owner r = t -> fst after r = fst after_t r) /\ (forall g, gowner g = t -> snd after g = snd after_t g)).
Proof.
  intros fuel ops postdec b e owner gowner schedule before L.
  assert (RF : forall t s, same_registers owner gowner t s s) by (intros t s; split; reflexivity).
  assert (SY : forall t s s', same_registers owner gowner t s s' -> same_registers owner gowner t s' s)
    by (intros t s s' (A & B); split; intros r O; symmetry; [apply A|apply B]; assumption).
  assert (TR : forall t x y z, same_registers owner gowner t x y -> same_registers owner gowner t y z -> same_registers owner gowner t x z).
  { intros t x y z (A & A') (B & B'). split; intros r O; [rewrite (A r O); apply B|rewrite (A' r O); apply B']; assumption. }
  assert (U : forall os after, run_threads_on_iterators fuel ops postdec b e schedule before = Ok (os, after) -> forall t,
    exists after_t, run fuel ops postdec b e (of_thread t schedule) before = Ok (of_thread t os, after_t) /\ same_registers owner gowner t after after_t).
  { intros os after R t. destruct (schedule_alone (execute fuel ops postdec b e) (same_registers owner gowner) (uses_own owner gowner) RF SY TR
      (registers_others fuel ops postdec b e owner gowner) (registers_local fuel ops postdec b e owner gowner) schedule L before os after R t) as (st & A & G).
    exists st. rewrite run_alone_eq. auto. }
  split; [split|exact U].
  - intros (os & after & R) t. destruct (U os after R t) as (st & A & _). eauto.
  - intros H. destruct (alone_schedule (execute fuel ops postdec b e) (same_registers owner gowner) (uses_own owner gowner)
      (registers_others fuel ops postdec b e owner gowner) (registers_local fuel ops postdec b e owner gowner) schedule L before) as ([os after] & R); [|exists os, after; exact R].
    intros t. destruct (H t) as (os & after & R). rewrite run_alone_eq in R. eauto.
Qed.
Print Assumptions C107_threads_on_iterators.

(** With C104: threads on one text that keep their iterators inside of it observe in every
    schedule what they are to observe. *)
Theorem C107_observations_in_every_schedule : forall ops postdec b e cs gs pos owner gowner schedule seen final fuel, iterators_of ops postdec ->
  string_in_memory ops b e cs pos -> segments pairwise_boundary cs gs -> (2 * length cs < fuel)%nat ->
  (forall t x, In (t, x) schedule -> uses_own owner gowner t x) ->
  (forall t, history cs gs pos (fun _ => 0%nat, fun _ => 0%nat) (of_thread t schedule) (seen t) (final t)) ->
  exists g os after, grapheme_begin fuel ops b e = Ok g /\
    run_threads_on_iterators fuel ops postdec b e schedule (fun _ => b, fun _ => g) = Ok (os, after) /\
    forall t, of_thread t os = seen t.
Proof.
  intros ops postdec b e cs gs pos owner gowner schedule seen final fuel I M S Hf L H.
  assert (X : forall t, program fuel ops postdec b e (of_thread t schedule) = Ok (seen t))
    by (intros t; exact (C104_histories_on_a_string ops postdec b e cs gs pos _ _ _ fuel I M S Hf (H t))).
  unfold program in X. destruct (grapheme_begin fuel ops b e) as [g| |]; [|specialize (X 0%nat); discriminate X..].
  cbn [bind] in X. exists g.
  destruct (C107_threads_on_iterators fuel ops postdec b e owner gowner schedule (fun _ => b, fun _ => g) L) as ((_ & A) & B).
  assert (Y : forall t, exists after, run fuel ops postdec b e (of_thread t schedule) (fun _ => b, fun _ => g) = Ok (seen t, after)).
  { intros t. specialize (X t). destruct (run fuel ops postdec b e (of_thread t schedule) (fun _ => b, fun _ => g)) as [[o s]| |]; [|discriminate X..].
    cbn [bind] in X. injection X as ->. eauto. }
  destruct A as (os & after & R). { intros t. destruct (Y t) as (s & E). eauto. }
  exists os, after. split; [reflexivity|]. split; [exact R|]. intros t. destruct (B os after R t) as (st & E & _). destruct (Y t) as (s & E').
  rewrite E' in E. injection E as E _. congruence.
Qed.
Print Assumptions C107_observations_in_every_schedule.

(** Threads 1 and 2 share string 0; thread 1 has string 1, thread 2 strings 2 and 3. *)
Definition example_owner (r : nat) : option nat := match r with 1%nat => Some 1%nat | 2%nat | 3%nat => Some 2%nat | _ => None end.
Definition example_schedule : list (nat * string_command) :=
  [(1%nat, Normalize FormC 1 0); (2%nat, Normalize FormD 2 0); (2%nat, CopyCodepoints 3 2); (1%nat, Show 1); (2%nat, Assign 3 0 0x7A); (1%nat, Check 0); (2%nat, Show 3); (1%nat, ShowGraphemes 0)].
Definition example_schedule' : list (nat * string_command) :=
  [(2%nat, Normalize FormD 2 0); (2%nat, CopyCodepoints 3 2); (2%nat, Assign 3 0 0x7A); (2%nat, Show 3); (1%nat, Normalize FormC 1 0); (1%nat, Show 1); (1%nat, Check 0); (1%nat, ShowGraphemes 0)].
Definition example_strings (r : nat) : list Z := match r with O => utf8_text [0x65; 0x301; 0x78] | _ => [] end.
Example C107_example :
  (forall t x, In (t, x) example_schedule -> obeys example_owner t x) /\
  (forall t, of_thread t example_schedule = of_thread t example_schedule') /\
  (exists after, run_threads_on_strings isort 20 (fun r => Nat.leb r 1) example_schedule example_strings
   = Ok ([(1%nat, Text [0xE9; 0x78]); (1%nat, Checked true); (2%nat, Text [0x7A; 0x301; 0x78]); (1%nat, Graphemes [[0x65; 0x301]; [0x78]])], after)) /\
  (exists after, run_threads_on_strings isort 20 (fun r => Nat.leb r 1) example_schedule' example_strings
   = Ok ([(2%nat, Text [0x7A; 0x301; 0x78]); (1%nat, Text [0xE9; 0x78]); (1%nat, Checked true); (1%nat, Graphemes [[0x65; 0x301]; [0x78]])], after)).
Proof.
  split; [|split; [|split; eexists; vm_compute; reflexivity]].
  - intros t x I. unfold example_schedule in I. cbn [In] in I.
    repeat match type of I with _ \/ _ => destruct I as [I|I] | False => destruct I end; injection I as <- <-; split; intros r J; cbn [In writes reads] in J;
      repeat match type of J with _ \/ _ => destruct J as [<-|J] | False => destruct J end; cbn; auto.
  - intros t. destruct t as [|[|[|t]]]; reflexivity.
Qed.
