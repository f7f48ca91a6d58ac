(** * Specification: texts made of lines

    Independent of the model. *)
From Coq Require Import ZArith List.
Import ListNotations.
Local Open Scope Z_scope.

(** [joined s ls]: the texts of [ls], with [s] between one and the next. *)
Fixpoint joined (s : Z) (ls : list (list Z)) : list Z :=
  match ls with
  | [] => []
  | [l] => l
  | l :: rest => l ++ s :: joined s rest
  end.
(** [lines_of s cs ls]: [ls] are the lines of [cs] when [s] ends a line (the last one may be empty). *)
Definition lines_of (s : Z) (cs : list Z) (ls : list (list Z)) : Prop :=
  ls <> [] /\ cs = joined s ls /\ forall l, In l ls -> ~ In s l.
