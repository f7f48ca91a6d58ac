(** * More standard algorithms on codepoint iterators (libstdc++ 13)

    As in AlgoModel.v; templates in bits/, included by the headers in /repo/include/u5e. *)
From Verif Require Import Prelude Utf8Model TextModel AlgoModel.

(** __gnu_cxx::__ops::__iter_equal_to_iter, bits/predefined_ops.h:111-118: takes the iterators
    by value, so what the dereferences do to them is not seen outside. *)
Definition equal_iters (ops1 ops2 : cp_ops) (it1 it2 : Z) : res bool :=
  let* '(a, _) := op_deref ops1 it1 in
  let* '(b, _) := op_deref ops2 it2 in
  Ok (a =? b).

(** std::mismatch with four iterators, bits/stl_algobase.h:1963-1975: where each ends. *)
Fixpoint std_mismatch (fuel : nat) (ops1 ops2 : cp_ops) (first1 last1 first2 last2 : Z) : res (Z * Z) :=
  match fuel with
  | O => OutOfFuel
  | S f =>
      let* go := op_neq ops1 first1 last1 in
      let* go := (if go : bool then op_neq ops2 first2 last2 else Ok false) in
      let* go := (if go : bool then equal_iters ops1 ops2 first1 first2 else Ok false) in
      if go : bool then
        let* first1 := op_inc ops1 first1 in
        let* first2 := op_inc ops2 first2 in
        std_mismatch f ops1 ops2 first1 last1 first2 last2
      else Ok (first1, first2)
  end.

(** std::adjacent_find, bits/stl_algo.h:887-900: the loop from line 893, then the function. *)
Fixpoint adjacent_loop (fuel : nat) (ops : cp_ops) (first next last : Z) : res Z :=
  match fuel with
  | O => OutOfFuel
  | S f =>
      let* next := op_inc ops next in
      let* ne := op_neq ops next last in
      if ne : bool then
        let* same := equal_iters ops ops first next in
        if same : bool then Ok first else adjacent_loop f ops next next last
      else Ok last
  end.
Definition std_adjacent_find (fuel : nat) (ops : cp_ops) (first last : Z) : res Z :=
  let* e := op_eq ops first last in
  if e : bool then Ok last else adjacent_loop fuel ops first first last.

(** std::copy_if into a back_inserter, bits/stl_algo.h:694-712: the values stored.  std::copy
    (bits/stl_algobase.h:348-360) is the case of a predicate that is always true, std::remove_copy
    and remove_copy_if (bits/stl_algo.h:596-606) that of the negated one. *)
Fixpoint std_copy_if (fuel : nat) (ops : cp_ops) (pred : Z -> bool) (first last : Z) (result : list Z) : res (list Z) :=
  match fuel with
  | O => OutOfFuel
  | S f =>
      let* ne := op_neq ops first last in
      if ne : bool then
        let* '(c, first) := op_deref ops first in
        let* '(result, first) :=
          (if pred c then let* '(d, first) := op_deref ops first in Ok (result ++ [d], first) else Ok (result, first)) in
        let* first := op_inc ops first in
        std_copy_if f ops pred first last result
      else Ok result
  end.

(** std::unique_copy into a back_inserter: the loop of __unique_copy for forward iterators,
    bits/stl_algo.h:995-1014, from line 1008, then the function (lines 1006-1007 and the test
    for an empty range, lines 4513-4514). *)
Fixpoint unique_copy_loop (fuel : nat) (ops : cp_ops) (first next last : Z) (result : list Z) : res (list Z) :=
  match fuel with
  | O => OutOfFuel
  | S f =>
      let* next := op_inc ops next in
      let* ne := op_neq ops next last in
      if ne : bool then
        let* same := equal_iters ops ops first next in
        if same : bool then unique_copy_loop f ops first next last result
        else
          let* '(c, first) := op_deref ops next in
          unique_copy_loop f ops first next last (result ++ [c])
      else Ok result
  end.
Definition std_unique_copy (fuel : nat) (ops : cp_ops) (first last : Z) (result : list Z) : res (list Z) :=
  let* e := op_eq ops first last in
  if e : bool then Ok result
  else
    let next := first in
    let* '(c, first) := op_deref ops first in
    unique_copy_loop fuel ops first next last (result ++ [c]).
