(** * Specification: threads that take turns

    Independent of the model.  A schedule is a list of pairs (thread, operation): the order in
    which the operations of all threads happen to be executed.  Every list is a schedule; the
    program of a thread is what remains if the operations of the others are dropped. *)
From Coq Require Import List ZArith.
From Verif Require Import HistorySpec StringHistorySpec.
Import ListNotations.

Definition of_thread {X} (t : nat) (schedule : list (nat * X)) : list X :=
  map snd (filter (fun p => Nat.eqb (fst p) t) schedule).

(** ** Strings.  [owner r = Some t]: only thread [t] uses string [r].  [owner r = None]: all
    threads may read it, none writes to it. *)
Definition writes (x : string_command) : list nat :=
  match x with
  | Clear r | Append r _ | AppendBetween r _ _ _ | AppendGraphemes r _ _ _ | AppendUtf32 r _
  | CopyCodepoints r _ | Normalize _ r _ | Assign r _ _ => [r]
  | Show _ | ShowGraphemes _ | Check _ => []
  end.
Definition reads (x : string_command) : list nat :=
  match x with
  | AppendBetween _ q _ _ | AppendGraphemes _ q _ _ | AppendUtf32 _ q | CopyCodepoints _ q | Normalize _ _ q => [q]
  | Show r | ShowGraphemes r | Check r => [r]
  | Clear _ | Append _ _ | Assign _ _ _ => []
  end.
Definition obeys (owner : nat -> option nat) (t : nat) (x : string_command) : Prop :=
  (forall r, In r (writes x) -> owner r = Some t) /\ (forall q, In q (reads x) -> owner q = Some t \/ owner q = None).

(** ** Iterators of one text.  [owner r], [gowner g]: the thread that has the codepoint iterator
    [r], the grapheme iterator [g]. *)
Definition cursors_in (x : command) : list nat :=
  match x with
  | Begin r | End r | At r _ | Inc r | Dec r | Read r | GEqualAt _ r | GFirst _ r | GLast _ r => [r]
  | Copy r q | PostInc r q | PostDec r q | Equal r q => [r; q]
  | GBegin _ | GEnd _ | GCopy _ _ | GInc _ | GPostInc _ _ | GEqual _ _ | GRead _ => []
  end.
Definition graphemes_in (x : command) : list nat :=
  match x with
  | GBegin g | GEnd g | GInc g | GEqualAt g _ | GFirst g _ | GLast g _ | GRead g => [g]
  | GCopy g h | GPostInc g h | GEqual g h => [g; h]
  | Begin _ | End _ | At _ _ | Copy _ _ | Inc _ | PostInc _ _ | Dec _ | PostDec _ _ | Read _ | Equal _ _ => []
  end.
Definition uses_own (owner gowner : nat -> nat) (t : nat) (x : command) : Prop :=
  (forall r, In r (cursors_in x) -> owner r = t) /\ (forall g, In g (graphemes_in x) -> gowner g = t).
