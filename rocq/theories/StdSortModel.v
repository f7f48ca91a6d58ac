(** * Model of std::sort as implemented by the GNU C++ library

    The normalization forms call std::sort (normalization_form_d.hpp:34-35,
    normalization_form_kd.hpp:35-36, normalization_form_c.hpp:35-36,
    normalization_form_kc.hpp:36-37).  The C++ standard does not say what happens to
    elements that compare equal; the implementation does.  This file models libstdc++ 13,
    bits/stl_algo.h and bits/stl_heap.h (the line numbers are those of that release; the
    algorithm has been the same since gcc 4.7).  Iterators are positions in the memory
    [mem] of the string, [comp] is the comparison object. *)
From Verif Require Import Prelude DataTables PropsModel.

Section Sort.
Variable comp : Z -> Z -> res bool.

(** Comparison of two pointed-to elements (_Iter_comp_iter, bits/predefined_ops.h:145-159). *)
Definition comp_at (mem : list Z) (p q : Z) : res bool :=
  let* x := rd mem p in
  let* y := rd mem q in
  comp x y.

(** std::iter_swap, bits/stl_algobase.h:155-190 *)
Definition iter_swap (mem : list Z) (p q : Z) : res (list Z) :=
  let* x := rd mem p in
  let* y := rd mem q in
  let* mem := wr mem p y in
  wr mem q x.

(** stl_algo.h:85-103 *)
Definition move_median_to_first (mem : list Z) (result a b c : Z) : res (list Z) :=
  let* ab := comp_at mem a b in
  if ab : bool then
    let* bc := comp_at mem b c in
    if bc : bool then iter_swap mem result b
    else
      let* ac := comp_at mem a c in
      if ac : bool then iter_swap mem result c
      else iter_swap mem result a
  else
    let* ac := comp_at mem a c in
    if ac : bool then iter_swap mem result a
    else
      let* bc := comp_at mem b c in
      if bc : bool then iter_swap mem result c
      else iter_swap mem result b.

(** Loop of __unguarded_linear_insert (stl_algo.h:1799-1804) and the final store. *)
Fixpoint linear_insert_loop (fuel : nat) (mem : list Z) (val last next : Z) : res (list Z) :=
  match fuel with
  | O => OutOfFuel
  | S f =>
      let* x := rd mem next in
      let* c := comp val x in
      if c : bool then
        let* mem := wr mem last x in
        let* next' := padd mem next (-1) in
        linear_insert_loop f mem val next next'
      else wr mem last val
  end.
(** stl_algo.h:1792-1806 *)
Definition unguarded_linear_insert (mem : list Z) (last : Z) : res (list Z) :=
  let* val := rd mem last in
  let* next := padd mem last (-1) in
  linear_insert_loop (S (length mem)) mem val last next.

(** std::move_backward(first, last, result), bits/stl_algobase.h:889-904, [n] = last - first. *)
Fixpoint move_backward (n : nat) (mem : list Z) (last result : Z) : res (list Z) :=
  match n with
  | O => Ok mem
  | S n' =>
      let* last := padd mem last (-1) in
      let* result := padd mem result (-1) in
      let* x := rd mem last in
      let* mem := wr mem result x in
      move_backward n' mem last result
  end.

(** Loop of __insertion_sort (stl_algo.h:1817-1829). *)
Fixpoint insertion_loop (fuel : nat) (mem : list Z) (first last i : Z) : res (list Z) :=
  match fuel with
  | O => OutOfFuel
  | S f =>
      if i =? last then Ok mem
      else
        let* c := comp_at mem i first in
        let* mem :=
          (if c : bool then
             let* val := rd mem i in
             let* mem := move_backward (Z.to_nat (i - first)) mem i (i + 1) in
             wr mem first val
           else unguarded_linear_insert mem i) in
        insertion_loop f mem first last (i + 1)
  end.
(** stl_algo.h:1812-1830 *)
Definition insertion_sort (mem : list Z) (first last : Z) : res (list Z) :=
  if first =? last then Ok mem
  else insertion_loop (S (length mem)) mem first last (first + 1).

(** stl_algo.h:1836-1842 *)
Fixpoint unguarded_insertion_sort (fuel : nat) (mem : list Z) (i last : Z) : res (list Z) :=
  match fuel with
  | O => OutOfFuel
  | S f =>
      if i =? last then Ok mem
      else
        let* mem := unguarded_linear_insert mem i in
        unguarded_insertion_sort f mem (i + 1) last
  end.

(** stl_algo.h:1848 *)
Definition threshold : Z := 16.
(** stl_algo.h:1854-1865 *)
Definition final_insertion_sort (mem : list Z) (first last : Z) : res (list Z) :=
  if last - first >? threshold then
    let* mem := insertion_sort mem first (first + threshold) in
    unguarded_insertion_sort (S (length mem)) mem (first + threshold) last
  else insertion_sort mem first last.

(** Inner loops of __unguarded_partition (stl_algo.h:1877-1878, 1880-1881). *)
Fixpoint scan_right (fuel : nat) (mem : list Z) (first pivot : Z) : res Z :=
  match fuel with
  | O => OutOfFuel
  | S f =>
      let* c := comp_at mem first pivot in
      if c : bool then let* first := padd mem first 1 in scan_right f mem first pivot
      else Ok first
  end.
Fixpoint scan_left (fuel : nat) (mem : list Z) (last pivot : Z) : res Z :=
  match fuel with
  | O => OutOfFuel
  | S f =>
      let* c := comp_at mem pivot last in
      if c : bool then let* last := padd mem last (-1) in scan_left f mem last pivot
      else Ok last
  end.
(** stl_algo.h:1871-1887 *)
Fixpoint unguarded_partition (fuel : nat) (mem : list Z) (first last pivot : Z) : res (list Z * Z) :=
  match fuel with
  | O => OutOfFuel
  | S f =>
      let* first := scan_right (S (length mem)) mem first pivot in
      let* last := padd mem last (-1) in
      let* last := scan_left (S (length mem)) mem last pivot in
      if negb (first <? last) then Ok (mem, first)
      else
        let* mem := iter_swap mem first last in
        unguarded_partition f mem (first + 1) last pivot
  end.
(** stl_algo.h:1893-1900 *)
Definition unguarded_partition_pivot (mem : list Z) (first last : Z) : res (list Z * Z) :=
  let mid := first + (last - first) / 2 in
  let* mem := move_median_to_first mem first (first + 1) mid (last - 1) in
  unguarded_partition (S (length mem)) mem (first + 1) last first.

(** stl_heap.h:135-147; the division of C truncates. *)
Fixpoint push_heap (fuel : nat) (mem : list Z) (first hole top value : Z) : res (list Z) :=
  match fuel with
  | O => OutOfFuel
  | S f =>
      let parent := Z.quot (hole - 1) 2 in
      if hole >? top then
        let* x := rd mem (first + parent) in
        let* c := comp x value in
        if c : bool then
          let* mem := wr mem (first + hole) x in
          push_heap f mem first parent top value
        else wr mem (first + hole) value
      else wr mem (first + hole) value
  end.
(** Loop of __adjust_heap (stl_heap.h:229-237): memory, holeIndex, secondChild. *)
Fixpoint adjust_loop (fuel : nat) (mem : list Z) (first hole len second : Z) : res (list Z * Z * Z) :=
  match fuel with
  | O => OutOfFuel
  | S f =>
      if second <? Z.quot (len - 1) 2 then
        let second := 2 * (second + 1) in
        let* c := comp_at mem (first + second) (first + (second - 1)) in
        let second := (if c : bool then second - 1 else second) in
        let* x := rd mem (first + second) in
        let* mem := wr mem (first + hole) x in
        adjust_loop f mem first second len second
      else Ok (mem, hole, second)
  end.
(** stl_heap.h:224-249 *)
Definition adjust_heap (mem : list Z) (first hole len value : Z) : res (list Z) :=
  let top := hole in
  let* '(mem, hole, second) := adjust_loop (S (length mem)) mem first hole len hole in
  let* '(mem, hole) :=
    (if Z.even len && (second =? Z.quot (len - 2) 2) then
       let second := 2 * (second + 1) in
       let* x := rd mem (first + (second - 1)) in
       let* mem := wr mem (first + hole) x in
       Ok (mem, second - 1)
     else Ok (mem, hole)) in
  push_heap (S (length mem)) mem first hole top value.
(** stl_heap.h:254-267 *)
Definition pop_heap (mem : list Z) (first last result : Z) : res (list Z) :=
  let* value := rd mem result in
  let* x := rd mem first in
  let* mem := wr mem result x in
  adjust_heap mem first 0 (last - first) value.
(** Loop of __make_heap (stl_heap.h:350-361). *)
Fixpoint make_heap_loop (fuel : nat) (mem : list Z) (first len parent : Z) : res (list Z) :=
  match fuel with
  | O => OutOfFuel
  | S f =>
      let* value := rd mem (first + parent) in
      let* mem := adjust_heap mem first parent len value in
      if parent =? 0 then Ok mem
      else make_heap_loop f mem first len (parent - 1)
  end.
(** stl_heap.h:340-362 *)
Definition make_heap (mem : list Z) (first last : Z) : res (list Z) :=
  if last - first <? 2 then Ok mem
  else make_heap_loop (S (length mem)) mem first (last - first) (Z.quot (last - first - 2) 2).
(** stl_heap.h:419-427 *)
Fixpoint sort_heap (fuel : nat) (mem : list Z) (first last : Z) : res (list Z) :=
  match fuel with
  | O => OutOfFuel
  | S f =>
      if last - first >? 1 then
        let last := last - 1 in
        let* mem := pop_heap mem first last last in
        sort_heap f mem first last
      else Ok mem
  end.
(** stl_algo.h:1905-1912 with middle = last, as called by __introsort_loop; the loop of
    __heap_select (stl_algo.h:1631-1639) over [middle, last) is then empty. *)
Definition partial_sort (mem : list Z) (first last : Z) : res (list Z) :=
  let* mem := make_heap mem first last in
  sort_heap (S (length mem)) mem first last.

(** stl_algo.h:1918-1935: the next round of the while loop is a call with the decremented
    depth limit and last = cut. *)
Fixpoint introsort_loop (depth_limit : nat) (mem : list Z) (first last : Z) : res (list Z) :=
  if last - first >? threshold then
    match depth_limit with
    | O => partial_sort mem first last
    | S d =>
        let* '(mem, cut) := unguarded_partition_pivot mem first last in
        let* mem := introsort_loop d mem cut last in
        introsort_loop d mem first cut
    end
  else Ok mem.

(** stl_algo.h:1941-1952; std::__lg is the integer part of the binary logarithm. *)
Definition std_sort (mem : list Z) (first last : Z) : res (list Z) :=
  if negb (first =? last) then
    let* mem := introsort_loop (Z.to_nat (Z.log2 (last - first) * 2)) mem first last in
    final_insertion_sort mem first last
  else Ok mem.
End Sort.

(** std::sort(s.codepoint_begin(), s.codepoint_end(), canonical_combining_order)
    on a utf32ne_string with contents [l]. *)
Definition sort_by_combining_class (l : list Z) : res (list Z) :=
  std_sort canonical_combining_order l 0 (zlen l).
