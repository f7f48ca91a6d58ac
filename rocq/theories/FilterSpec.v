(** * Specification: applying an operation over an iterator range

    Independent of the model of filter (only [res] is shared). *)
From Verif Require Import Prelude.

(** The elements seen by [for (; from != to; ++from) use *from]. *)
Inductive range_of {It Elem} (neq : It -> It -> res bool) (deref : It -> res (Elem * It)) (inc : It -> res It)
  : It -> It -> list Elem -> Prop :=
| range_end from to : neq from to = Ok false -> range_of neq deref inc from to []
| range_more from to x from' from'' xs : neq from to = Ok true -> deref from = Ok (x, from') ->
    inc from' = Ok from'' -> range_of neq deref inc from'' to xs -> range_of neq deref inc from to (x :: xs).
(** Calling the operation on each element in order: results and final output. *)
Inductive calls {Elem Out} (operation : Elem -> Out -> res (Z * Out)) : list Elem -> Out -> list Z -> Out -> Prop :=
| calls_nil out : calls operation [] out [] out
| calls_cons x xs out n out1 ns out2 : operation x out = Ok (n, out1) -> calls operation xs out1 ns out2 ->
    calls operation (x :: xs) out (n :: ns) out2.
Definition zsum (l : list Z) : Z := fold_right Z.add 0 l.
