(** * Threads that take turns

    Client code, not code of the repository: executes the operations of a schedule one after
    the other with the operations of the library (HistoryModel.v, StringHistoryModel.v) and notes
    which thread saw what.  The library has no locks and no state of its own: its tables
    (src/u5e/props/*.cpp, "static data_t ...[]") are written by no function; so operations
    of different threads that touch different strings can be taken to happen one after the
    other (C++ [intro.races]). *)
From Verif Require Import Prelude Utf8Model TextModel HistorySpec HistoryModel StringHistorySpec StringHistoryModel.

Fixpoint run_schedule {X O S} (exec : X -> S -> res (list O * S)) (schedule : list (nat * X)) (st : S) : res (list (nat * O) * S) :=
  match schedule with
  | [] => Ok ([], st)
  | (t, x) :: rest =>
      let* '(o, st) := exec x st in
      let* '(os, st) := run_schedule exec rest st in
      Ok (map (pair t) o ++ os, st)
  end.
Definition run_threads_on_strings sort fuel utf8 := run_schedule (execute_string sort fuel utf8).
Definition run_threads_on_iterators fuel ops postdec b e := run_schedule (execute fuel ops postdec b e).
