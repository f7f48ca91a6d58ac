(** * Model of client code: the standard algorithms on codepoint iterators

    utf8_const_iterator declares itself a bidirectional iterator with difference_type int
    (utf8_iterator.hpp:31-35), so that clients hand it to <algorithm>.  This file models the
    algorithms as libstdc++ 13 defines them for bidirectional iterators (line numbers of that
    release).  Iterators are positions ([cp_ops], TextModel.v); the predicates of
    bits/predefined_ops.h take the iterator by value, so that the dereference does not
    move the iterator of the algorithm.  (For utf32ne the iterators are native random
    access iterators, for which libstdc++ has variants that are not modelled.) *)
From Verif Require Import Prelude TextModel.

(** std::distance, bits/stl_iterator_base_funcs.h:78-94; [n] is an int (utf8_iterator.hpp:34). *)
Fixpoint distance_loop (fuel : nat) (ops : cp_ops) (first last n : Z) : res Z :=
  match fuel with
  | O => OutOfFuel
  | S f =>
      let* ne := op_neq ops first last in
      if ne : bool then
        let* first := op_inc ops first in
        let* n := int_add n 1 in
        distance_loop f ops first last n
      else Ok n
  end.
Definition std_distance (fuel : nat) (ops : cp_ops) (first last : Z) : res Z :=
  distance_loop fuel ops first last 0.

(** The two loops of std::advance, bits/stl_iterator_base_funcs.h:174-179, [n] times. *)
Fixpoint advance_up (n : nat) (ops : cp_ops) (i : Z) : res Z :=
  match n with O => Ok i | S n => let* i := op_inc ops i in advance_up n ops i end.
Fixpoint advance_down (n : nat) (ops : cp_ops) (i : Z) : res Z :=
  match n with O => Ok i | S n => let* i := op_dec ops i in advance_down n ops i end.
(** std::advance for bidirectional iterators, bits/stl_iterator_base_funcs.h:166-180. *)
Definition std_advance (ops : cp_ops) (i n : Z) : res Z :=
  if n >? 0 then advance_up (Z.to_nat n) ops i else advance_down (Z.to_nat (- n)) ops i.

(** pred(it) for an iterator passed by value, bits/predefined_ops.h:266-270 and 314-318. *)
Definition at_iter (ops : cp_ops) (pred : Z -> bool) (it : Z) : res bool :=
  let* '(c, _) := op_deref ops it in Ok (pred c).

(** std::find_if (and std::find), bits/stl_algobase.h:2048-2058. *)
Fixpoint std_find_if (fuel : nat) (ops : cp_ops) (pred : Z -> bool) (first last : Z) : res Z :=
  match fuel with
  | O => OutOfFuel
  | S f =>
      let* ne := op_neq ops first last in
      if ne : bool then
        let* found := at_iter ops pred first in
        if found : bool then Ok first
        else
          let* first := op_inc ops first in
          std_find_if f ops pred first last
      else Ok first
  end.

(** std::count_if (and std::count), bits/stl_algobase.h:2121-2131; int_add as in distance. *)
Fixpoint count_loop (fuel : nat) (ops : cp_ops) (pred : Z -> bool) (first last n : Z) : res Z :=
  match fuel with
  | O => OutOfFuel
  | S f =>
      let* ne := op_neq ops first last in
      if ne : bool then
        let* yes := at_iter ops pred first in
        let* n := (if yes : bool then int_add n 1 else Ok n) in
        let* first := op_inc ops first in
        count_loop f ops pred first last n
      else Ok n
  end.
Definition std_count_if (fuel : nat) (ops : cp_ops) (pred : Z -> bool) (first last : Z) : res Z :=
  count_loop fuel ops pred first last 0.

(** std::equal, bits/stl_algobase.h:1167-1173; the dereferences move the iterators. *)
Fixpoint std_equal (fuel : nat) (ops1 ops2 : cp_ops) (first1 last1 first2 : Z) : res bool :=
  match fuel with
  | O => OutOfFuel
  | S f =>
      let* ne := op_neq ops1 first1 last1 in
      if ne : bool then
        let* '(a, first1) := op_deref ops1 first1 in
        let* '(b, first2) := op_deref ops2 first2 in
        if a =? b then
          let* first1 := op_inc ops1 first1 in
          let* first2 := op_inc ops2 first2 in
          std_equal f ops1 ops2 first1 last1 first2
        else Ok false
      else Ok true
  end.

(** std::lexicographical_compare, bits/stl_algobase.h:1291-1309, with < of the int values
    (codepoint.hpp:50); the comparison object takes the iterators by value. *)
Fixpoint std_lexicographical_compare (fuel : nat) (ops1 ops2 : cp_ops)
  (first1 last1 first2 last2 : Z) : res bool :=
  match fuel with
  | O => OutOfFuel
  | S f =>
      let* ne1 := op_neq ops1 first1 last1 in
      let* go := (if ne1 : bool then op_neq ops2 first2 last2 else Ok false) in
      if go : bool then
        let* '(a, _) := op_deref ops1 first1 in
        let* '(b, _) := op_deref ops2 first2 in
        if a <? b then Ok true
        else if b <? a then Ok false
        else
          let* first1 := op_inc ops1 first1 in
          let* first2 := op_inc ops2 first2 in
          std_lexicographical_compare f ops1 ops2 first1 last1 first2 last2
      else
        let* e1 := op_eq ops1 first1 last1 in
        if e1 : bool then op_neq ops2 first2 last2 else Ok false
  end.

(** The inner loop of std::search, bits/stl_algo.h:179-185: [Some r] for "return r",
    [None] when the loop ends. *)
Fixpoint search_match (fuel : nat) (ops1 ops2 : cp_ops) (first1 current last1 p last2 : Z) : res (option Z) :=
  match fuel with
  | O => OutOfFuel
  | S f =>
      let* '(a, _) := op_deref ops1 current in
      let* '(b, _) := op_deref ops2 p in
      if a =? b then
        let* p := op_inc ops2 p in
        let* e2 := op_eq ops2 p last2 in
        if e2 : bool then Ok (Some first1)
        else
          let* current := op_inc ops1 current in
          let* e1 := op_eq ops1 current last1 in
          if e1 : bool then Ok (Some last1)
          else search_match f ops1 ops2 first1 current last1 p last2
      else Ok None
  end.
(** The outer loop, bits/stl_algo.h:165-187. *)
Fixpoint search_loop (fuel : nat) (ops1 ops2 : cp_ops) (first1 last1 first2 p1 last2 : Z) : res Z :=
  match fuel with
  | O => OutOfFuel
  | S f =>
      let* '(v, _) := op_deref ops2 first2 in
      let* first1 := std_find_if fuel ops1 (fun c => c =? v) first1 last1 in
      let* e1 := op_eq ops1 first1 last1 in
      if e1 : bool then Ok last1
      else
        let* current := op_inc ops1 first1 in
        let* e := op_eq ops1 current last1 in
        if e : bool then Ok last1
        else
          let* r := search_match fuel ops1 ops2 first1 current last1 p1 last2 in
          match r with
          | Some r => Ok r
          | None =>
              let* first1 := op_inc ops1 first1 in
              search_loop f ops1 ops2 first1 last1 first2 p1 last2
          end
  end.
(** std::search, bits/stl_algo.h:146-189.  (Simplification: *first2 is evaluated once per
    find_if instead of once per comparison; it is always the same.) *)
Definition std_search (fuel : nat) (ops1 ops2 : cp_ops) (first1 last1 first2 last2 : Z) : res Z :=
  let* e1 := op_eq ops1 first1 last1 in
  if e1 : bool then Ok first1
  else
    let* e2 := op_eq ops2 first2 last2 in
    if e2 : bool then Ok first1
    else
      let* p1 := op_inc ops2 first2 in
      let* e := op_eq ops2 p1 last2 in
      if e : bool then
        let* '(v, _) := op_deref ops2 first2 in
        std_find_if fuel ops1 (fun c => c =? v) first1 last1
      else search_loop fuel ops1 ops2 first1 last1 first2 p1 last2.

(** std::reverse_copy into a back_inserter, bits/stl_algo.h:1159-1176: the values stored. *)
Fixpoint std_reverse_copy (fuel : nat) (ops : cp_ops) (first last : Z) (result : list Z) : res (list Z) :=
  match fuel with
  | O => OutOfFuel
  | S f =>
      let* ne := op_neq ops first last in
      if ne : bool then
        let* last := op_dec ops last in
        let* '(c, last) := op_deref ops last in
        std_reverse_copy f ops first last (result ++ [c])
      else Ok result
  end.
