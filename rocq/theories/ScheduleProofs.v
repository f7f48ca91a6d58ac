(** * Proofs: schedules *)
From Verif Require Import Prelude Utf8Model TextModel HistorySpec HistoryModel StringHistorySpec StringHistoryModel ScheduleSpec ScheduleModel.

Section Frame.
Context {X O S : Type} (exec : X -> S -> res (list O * S)) (agree : nat -> S -> S -> Prop) (legal : nat -> X -> Prop).
Context (agree_refl : forall t s, agree t s s) (agree_sym : forall t s s', agree t s s' -> agree t s' s)
  (agree_trans : forall t a b c, agree t a b -> agree t b c -> agree t a c).
Context (others : forall t x s o s' u, legal t x -> exec x s = Ok (o, s') -> u <> t -> agree u s s').
Context (local : forall t x s1 s2 o s1', legal t x -> agree t s1 s2 -> exec x s1 = Ok (o, s1') -> exists s2', exec x s2 = Ok (o, s2') /\ agree t s1' s2').
Fixpoint run_alone (xs : list X) (s : S) : res (list O * S) :=
  match xs with
  | [] => Ok ([], s)
  | x :: xs => let* '(o, s) := exec x s in let* '(os, s) := run_alone xs s in Ok (o ++ os, s)
  end.
Lemma alone_cons x xs s o s1 os s2 : exec x s = Ok (o, s1) -> run_alone xs s1 = Ok (os, s2) -> run_alone (x :: xs) s = Ok (o ++ os, s2).
Proof. intros E R. cbn. rewrite E. cbn. rewrite R. reflexivity. Qed.
Lemma alone_inv x xs s r s2 : run_alone (x :: xs) s = Ok (r, s2) -> exists o s1 os, exec x s = Ok (o, s1) /\ run_alone xs s1 = Ok (os, s2) /\ r = o ++ os.
Proof.
  cbn. destruct (exec x s) as [[o s1]| |] eqn:E; try discriminate. cbn. destruct (run_alone xs s1) as [[os s2']| |] eqn:R; try discriminate. cbn.
  intros Q. injection Q as <- <-. exists o, s1, os. auto.
Qed.
Lemma alone_local t xs : Forall (legal t) xs -> forall s1 s2 o s1', agree t s1 s2 -> run_alone xs s1 = Ok (o, s1') ->
  exists s2', run_alone xs s2 = Ok (o, s2') /\ agree t s1' s2'.
Proof.
  induction 1 as [|x xs L F IH]; intros s1 s2 o s1' A R.
  - cbn in R. injection R as <- <-. exists s2. split; [reflexivity|assumption].
  - apply alone_inv in R. destruct R as (o1 & m1 & os & E & R & ->). destruct (local t x s1 s2 o1 m1 L A E) as (m2 & E2 & A2).
    destruct (IH m1 m2 os s1' A2 R) as (s2' & R2 & A3). exists s2'. split; [apply (alone_cons x xs s2 o1 m2 os s2' E2 R2)|assumption].
Qed.
Lemma of_thread_legal t sched : (forall u x, In (u, x) sched -> legal u x) -> Forall (legal t) (of_thread t sched).
Proof.
  intros H. apply Forall_forall. intros x I. unfold of_thread in I. apply in_map_iff in I. destruct I as ([u y] & <- & I).
  apply filter_In in I. destruct I as (I & Q). apply Nat.eqb_eq in Q. cbn in Q. subst. apply H. assumption.
Qed.
Lemma of_thread_same (t : nat) (l : list O) : of_thread t (map (pair t) l) = l.
Proof. unfold of_thread. induction l as [|a l IH]; [reflexivity|]. cbn. rewrite Nat.eqb_refl. cbn. f_equal. exact IH. Qed.
Lemma of_thread_other (t u : nat) (l : list O) : u <> t -> of_thread u (map (pair t) l) = [].
Proof.
  intros N. unfold of_thread. induction l as [|a l IH]; [reflexivity|]. cbn. replace (Nat.eqb t u) with false; [exact IH|].
  symmetry. apply Nat.eqb_neq. auto.
Qed.
Lemma of_thread_app {A} t (l r : list (nat * A)) : of_thread t (l ++ r) = of_thread t l ++ of_thread t r.
Proof. unfold of_thread. rewrite filter_app, map_app. reflexivity. Qed.
Lemma of_thread_cons_same {A} t (x : A) l : of_thread t ((t, x) :: l) = x :: of_thread t l.
Proof. unfold of_thread. cbn. rewrite Nat.eqb_refl. reflexivity. Qed.
Lemma of_thread_cons_other {A} t u (x : A) l : u <> t -> of_thread u ((t, x) :: l) = of_thread u l.
Proof. intros N. unfold of_thread. cbn. replace (Nat.eqb t u) with false; [reflexivity|]. symmetry. apply Nat.eqb_neq. auto. Qed.

(** The schedule runs: so does every thread alone, and sees the same. *)
Lemma schedule_alone sched : (forall u x, In (u, x) sched -> legal u x) -> forall s os s', run_schedule exec sched s = Ok (os, s') ->
  forall t, exists st, run_alone (of_thread t sched) s = Ok (of_thread t os, st) /\ agree t s' st.
Proof.
  induction sched as [|[u x] sched IH]; intros L s os s' R t.
  - cbn in R. injection R as <- <-. exists s. split; [reflexivity|apply agree_refl].
  - cbn in R. destruct (exec x s) as [[o s1]| |] eqn:E; try discriminate. cbn in R.
    destruct (run_schedule exec sched s1) as [[os1 s2]| |] eqn:R1; try discriminate. cbn in R. injection R as <- <-.
    destruct (IH (fun v y I => L v y (or_intror I)) s1 os1 s2 R1 t) as (st & A & G). destruct (Nat.eq_dec t u) as [->|N].
    + exists st. rewrite of_thread_cons_same, of_thread_app, of_thread_same. split; [|assumption]. apply (alone_cons x _ s o s1 _ st E A).
    + rewrite (of_thread_cons_other _ _ _ _ N), of_thread_app, (of_thread_other _ _ _ N). cbn [app].
      pose proof (others u x s o s1 t (L u x (or_introl eq_refl)) E N) as Ag.
      destruct (alone_local t _ (of_thread_legal t sched (fun v y I => L v y (or_intror I))) s1 s _ st (agree_sym _ _ _ Ag) A) as (st' & A' & G').
      exists st'. split; [exact A'|]. apply (agree_trans t s2 st st'); assumption.
Qed.
(** Every thread alone runs: so does the schedule. *)
Lemma alone_schedule sched : (forall u x, In (u, x) sched -> legal u x) -> forall s,
  (forall t, exists r, run_alone (of_thread t sched) s = Ok r) -> exists r, run_schedule exec sched s = Ok r.
Proof.
  induction sched as [|[u x] sched IH]; intros L s H.
  - eexists. reflexivity.
  - destruct (H u) as ([r s2] & A). rewrite of_thread_cons_same in A. apply alone_inv in A. destruct A as (o & s1 & os & E & A & ->).
    destruct (IH (fun v y I => L v y (or_intror I)) s1) as ([os' s'] & R).
    + intros t. destruct (Nat.eq_dec t u) as [->|N]; [exists (os, s2); exact A|].
      destruct (H t) as ([r sr] & B). rewrite (of_thread_cons_other _ _ _ _ N) in B.
      pose proof (others u x s o s1 t (L u x (or_introl eq_refl)) E N) as Ag.
      destruct (alone_local t _ (of_thread_legal t sched (fun v y I => L v y (or_intror I))) s s1 _ _ Ag B) as (st' & A' & _). exists (r, st'). exact A'.
    + exists (map (pair u) o ++ os', s'). cbn. rewrite E. cbn. rewrite R. reflexivity.
Qed.
End Frame.

(** ** Strings *)
Definition same_strings (owner : nat -> option nat) (t : nat) (S S' : store) : Prop :=
  forall r, owner r = Some t \/ owner r = None -> S r = S' r.
Lemma set_other {A} (f : nat -> A) r v q : q <> r -> set f r v q = f q.
Proof. intros N. unfold set. destruct (Nat.eqb q r) eqn:E; [apply Nat.eqb_eq in E; contradiction|reflexivity]. Qed.
Lemma set_same {A} (f : nat -> A) r v : set f r v r = v.
Proof. unfold set. rewrite Nat.eqb_refl. reflexivity. Qed.
(** What a command does to the strings: it changes only one. *)
Lemma execute_string_frame sort fuel utf8 x S o S' : execute_string sort fuel utf8 x S = Ok (o, S') -> forall r, ~ In r (writes x) -> S' r = S r.
Proof.
  intros E r N. destruct x; cbn [execute_string writes] in *;
    repeat match type of E with
    | bind ?y _ = Ok _ => let Q := fresh "Q" in destruct y as [?v| |] eqn:Q; cbn [bind] in E; try discriminate E
    | (let '(_, _) := ?v in _) = _ => destruct v
    end; injection E as <- <-; try reflexivity; apply set_other; intros ->; apply N; left; reflexivity.
Qed.
Lemma execute_string_local sort fuel utf8 x S1 S2 o S1' :
  (forall r, In r (writes x) \/ In r (reads x) -> S1 r = S2 r) -> execute_string sort fuel utf8 x S1 = Ok (o, S1') ->
  exists S2', execute_string sort fuel utf8 x S2 = Ok (o, S2') /\ forall r, In r (writes x) -> S2' r = S1' r.
Proof.
  intros A E. assert (F : Forall (fun r => S1 r = S2 r) (writes x ++ reads x)).
  { apply Forall_forall. intros r I. apply A. apply in_app_or. assumption. }
  clear A. destruct x; cbn [execute_string writes reads app] in *; unfold string_ops in *;
    repeat match goal with H : Forall _ (_ :: _) |- _ => apply Forall_cons_iff in H; destruct H as (? & H) end;
    repeat match goal with H : S1 ?r = S2 ?r |- _ => rewrite H in E; clear H end;
    repeat match type of E with
    | bind ?y _ = Ok _ => let Q := fresh "Q" in destruct y as [?v| |] eqn:Q; cbn [bind] in E |- *; try discriminate E
    | (let '(_, _) := ?v in _) = _ => destruct v
    end; injection E as <- <-; (eexists; split; [reflexivity|]); try (intros ? [<-|[]]; rewrite !set_same; reflexivity); intros ? [].
Qed.
Lemma strings_others sort fuel utf8 owner t x S o S' u : obeys owner t x -> execute_string sort fuel utf8 x S = Ok (o, S') -> u <> t -> same_strings owner u S S'.
Proof.
  intros (W & _) E N r O. symmetry. apply (execute_string_frame sort fuel utf8 x S o S' E). intros I. specialize (W r I). rewrite W in O.
  destruct O as [O|O]; [injection O as ->; apply N; reflexivity|discriminate].
Qed.
Lemma strings_local sort fuel utf8 owner t x S1 S2 o S1' : obeys owner t x -> same_strings owner t S1 S2 ->
  execute_string sort fuel utf8 x S1 = Ok (o, S1') -> exists S2', execute_string sort fuel utf8 x S2 = Ok (o, S2') /\ same_strings owner t S1' S2'.
Proof.
  intros (W & R) A E. destruct (execute_string_local sort fuel utf8 x S1 S2 o S1') as (S2' & E2 & Q); [|exact E|].
  - intros r [I|I]; apply A; [left; apply W; assumption|apply R; assumption].
  - exists S2'. split; [exact E2|]. intros r O. destruct (in_dec Nat.eq_dec r (writes x)) as [I|I]; [symmetry; apply Q; assumption|].
    rewrite (execute_string_frame _ _ _ _ _ _ _ E r I), (execute_string_frame _ _ _ _ _ _ _ E2 r I). apply A. assumption.
Qed.
Lemma run_strings_alone sort fuel utf8 xs : forall S, run_strings sort fuel utf8 xs S = run_alone (execute_string sort fuel utf8) xs S.
Proof. induction xs as [|x xs IH]; intros S; [reflexivity|]. cbn. destruct (execute_string sort fuel utf8 x S) as [[o S1]| |]; [|reflexivity|reflexivity]. cbn. rewrite IH. reflexivity. Qed.

(** ** Iterators *)
Definition same_registers (owner gowner : nat -> nat) (t : nat) (st st' : registers) : Prop :=
  (forall r, owner r = t -> fst st r = fst st' r) /\ (forall g, gowner g = t -> snd st g = snd st' g).
Lemma execute_frame fuel ops postdec b e x st o st' : execute fuel ops postdec b e x st = Ok (o, st') ->
  (forall r, ~ In r (cursors_in x) -> fst st' r = fst st r) /\ (forall g, ~ In g (graphemes_in x) -> snd st' g = snd st g).
Proof.
  destruct st as [C G]. intros E. destruct x; cbn [execute cursors_in graphemes_in] in *;
    repeat match type of E with
    | bind ?y _ = Ok _ => let Q := fresh "Q" in destruct y as [?v| |] eqn:Q; cbn [bind] in E; try discriminate E
    | (let '(_, _) := ?v in _) = _ => destruct v
    end; injection E as <- <-; cbn [fst snd]; split; intros k N; try reflexivity; cbn [In] in N;
    rewrite ?set_other; first [reflexivity | intros ->; apply N; auto].
Qed.
Lemma execute_local fuel ops postdec b e x st1 st2 o st1' :
  (forall r, In r (cursors_in x) -> fst st1 r = fst st2 r) -> (forall g, In g (graphemes_in x) -> snd st1 g = snd st2 g) ->
  execute fuel ops postdec b e x st1 = Ok (o, st1') ->
  exists st2', execute fuel ops postdec b e x st2 = Ok (o, st2') /\
    (forall r, In r (cursors_in x) -> fst st1' r = fst st2' r) /\ (forall g, In g (graphemes_in x) -> snd st1' g = snd st2' g).
Proof.
  destruct st1 as [C1 G1], st2 as [C2 G2]. cbn [fst snd]. intros A B E.
  assert (FA : Forall (fun r => C1 r = C2 r) (cursors_in x)) by (apply Forall_forall; exact A).
  assert (FB : Forall (fun r => G1 r = G2 r) (graphemes_in x)) by (apply Forall_forall; exact B).
  clear A B. destruct x; cbn [execute cursors_in graphemes_in] in *;
    repeat match goal with H : Forall _ (_ :: _) |- _ => apply Forall_cons_iff in H; destruct H as (? & H) end;
    repeat match goal with H : C1 ?r = C2 ?r |- _ => rewrite H in E; revert H | H : G1 ?r = G2 ?r |- _ => rewrite H in E; revert H end; intros;
    repeat match type of E with
    | bind ?y _ = Ok _ => let Q := fresh "Q" in destruct y as [?v| |] eqn:Q; cbn [bind] in E |- *; try discriminate E
    | (let '(_, _) := ?v in _) = _ => destruct v
    end; injection E as <- <-; (eexists; split; [reflexivity|]); cbn [fst snd In]; split; intros k I;
    repeat match type of I with _ \/ _ => destruct I as [<-|I] | False => destruct I end;
    unfold set; repeat match goal with |- context [Nat.eqb ?a ?b] => destruct (Nat.eqb a b) end; first [reflexivity|assumption].
Qed.
Lemma registers_others fuel ops postdec b e owner gowner t x st o st' u : uses_own owner gowner t x ->
  execute fuel ops postdec b e x st = Ok (o, st') -> u <> t -> same_registers owner gowner u st st'.
Proof.
  intros (W & V) E N. destruct (execute_frame _ _ _ _ _ _ _ _ _ E) as (A & B). split; intros r O; symmetry; [apply A|apply B]; intros I; apply N.
  - rewrite <- O. apply W. assumption.
  - rewrite <- O. apply V. assumption.
Qed.
Lemma registers_local fuel ops postdec b e owner gowner t x st1 st2 o st1' : uses_own owner gowner t x -> same_registers owner gowner t st1 st2 ->
  execute fuel ops postdec b e x st1 = Ok (o, st1') -> exists st2', execute fuel ops postdec b e x st2 = Ok (o, st2') /\ same_registers owner gowner t st1' st2'.
Proof.
  intros (W & V) (A & B) E. destruct (execute_local fuel ops postdec b e x st1 st2 o st1') as (st2' & E2 & P & Q); [| |exact E|].
  - intros r I. apply A, W, I.
  - intros r I. apply B, V, I.
  - exists st2'. split; [exact E2|]. destruct (execute_frame _ _ _ _ _ _ _ _ _ E) as (F1 & F2), (execute_frame _ _ _ _ _ _ _ _ _ E2) as (F3 & F4). split; intros r O.
    + destruct (in_dec Nat.eq_dec r (cursors_in x)) as [I|I]; [apply P; assumption|]. rewrite (F1 r I), (F3 r I). apply A. assumption.
    + destruct (in_dec Nat.eq_dec r (graphemes_in x)) as [I|I]; [apply Q; assumption|]. rewrite (F2 r I), (F4 r I). apply B. assumption.
Qed.
Lemma run_alone_eq fuel ops postdec b e xs : forall st, run fuel ops postdec b e xs st = run_alone (execute fuel ops postdec b e) xs st.
Proof. induction xs as [|x xs IH]; intros S; [reflexivity|]. cbn [run run_alone]. destruct (execute fuel ops postdec b e x S) as [[o S1]| |]; [|reflexivity|reflexivity]. cbn [bind]. rewrite IH. reflexivity. Qed.
