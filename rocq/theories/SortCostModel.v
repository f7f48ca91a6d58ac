(** * Model: counting the comparisons of std::sort

    StdSortModel.v (libstdc++ 13) again, given a comparison object with a count ([comp_c]): the functions here add up what its
    calls cost and nothing else.  SortCostProofs.v proves that each erases to the one of StdSortModel.v. *)
From Verif Require Import Prelude DataTables PropsModel StdSortModel CostModel.

Section Sort.
Variable comp_c : Z -> Z -> counted bool.

(** Comparison of two pointed-to elements (_Iter_comp_iter, bits/predefined_ops.h:145-159). *)
Definition comp_at_c (mem : list Z) (p q : Z) : counted bool :=
  do x <- free (rd mem p);
  do y <- free (rd mem q);
  comp_c x y.

(** stl_algo.h:85-103 *)
Definition move_median_to_first_c (mem : list Z) (result a b c : Z) : counted (list Z) :=
  do ab <- comp_at_c mem a b;
  if ab : bool then
    do bc <- comp_at_c mem b c;
    if bc : bool then free (iter_swap mem result b)
    else
      do ac <- comp_at_c mem a c;
      if ac : bool then free (iter_swap mem result c)
      else free (iter_swap mem result a)
  else
    do ac <- comp_at_c mem a c;
    if ac : bool then free (iter_swap mem result a)
    else
      do bc <- comp_at_c mem b c;
      if bc : bool then free (iter_swap mem result c)
      else free (iter_swap mem result b).

(** Loop of __unguarded_linear_insert (stl_algo.h:1799-1804) and the final store. *)
Fixpoint linear_insert_loop_c (fuel : nat) (mem : list Z) (val last next : Z) : counted (list Z) :=
  match fuel with
  | O => OutOfFuel
  | S f =>
      do x <- free (rd mem next);
      do c <- comp_c val x;
      if c : bool then
        do mem <- free (wr mem last x);
        do next' <- free (padd mem next (-1));
        linear_insert_loop_c f mem val next next'
      else free (wr mem last val)
  end.
(** stl_algo.h:1792-1806 *)
Definition unguarded_linear_insert_c (mem : list Z) (last : Z) : counted (list Z) :=
  do val <- free (rd mem last);
  do next <- free (padd mem last (-1));
  linear_insert_loop_c (S (length mem)) mem val last next.

(** Loop of __insertion_sort (stl_algo.h:1817-1829). *)
Fixpoint insertion_loop_c (fuel : nat) (mem : list Z) (first last i : Z) : counted (list Z) :=
  match fuel with
  | O => OutOfFuel
  | S f =>
      if i =? last then cret mem
      else
        do c <- comp_at_c mem i first;
        do mem <-
          (if c : bool then
             do val <- free (rd mem i);
             do mem <- free (move_backward (Z.to_nat (i - first)) mem i (i + 1));
             free (wr mem first val)
           else unguarded_linear_insert_c mem i);
        insertion_loop_c f mem first last (i + 1)
  end.
(** stl_algo.h:1812-1830 *)
Definition insertion_sort_c (mem : list Z) (first last : Z) : counted (list Z) :=
  if first =? last then cret mem
  else insertion_loop_c (S (length mem)) mem first last (first + 1).

(** stl_algo.h:1836-1842 *)
Fixpoint unguarded_insertion_sort_c (fuel : nat) (mem : list Z) (i last : Z) : counted (list Z) :=
  match fuel with
  | O => OutOfFuel
  | S f =>
      if i =? last then cret mem
      else
        do mem <- unguarded_linear_insert_c mem i;
        unguarded_insertion_sort_c f mem (i + 1) last
  end.

(** stl_algo.h:1854-1865 *)
Definition final_insertion_sort_c (mem : list Z) (first last : Z) : counted (list Z) :=
  if last - first >? threshold then
    do mem <- insertion_sort_c mem first (first + threshold);
    unguarded_insertion_sort_c (S (length mem)) mem (first + threshold) last
  else insertion_sort_c mem first last.

(** Inner loops of __unguarded_partition (stl_algo.h:1877-1878, 1880-1881). *)
Fixpoint scan_right_c (fuel : nat) (mem : list Z) (first pivot : Z) : counted Z :=
  match fuel with
  | O => OutOfFuel
  | S f =>
      do c <- comp_at_c mem first pivot;
      if c : bool then do first <- free (padd mem first 1); scan_right_c f mem first pivot
      else cret first
  end.
Fixpoint scan_left_c (fuel : nat) (mem : list Z) (last pivot : Z) : counted Z :=
  match fuel with
  | O => OutOfFuel
  | S f =>
      do c <- comp_at_c mem pivot last;
      if c : bool then do last <- free (padd mem last (-1)); scan_left_c f mem last pivot
      else cret last
  end.
(** stl_algo.h:1871-1887 *)
Fixpoint unguarded_partition_c (fuel : nat) (mem : list Z) (first last pivot : Z) : counted (list Z * Z) :=
  match fuel with
  | O => OutOfFuel
  | S f =>
      do first <- scan_right_c (S (length mem)) mem first pivot;
      do last <- free (padd mem last (-1));
      do last <- scan_left_c (S (length mem)) mem last pivot;
      if negb (first <? last) then cret (mem, first)
      else
        do mem <- free (iter_swap mem first last);
        unguarded_partition_c f mem (first + 1) last pivot
  end.
(** stl_algo.h:1893-1900 *)
Definition unguarded_partition_pivot_c (mem : list Z) (first last : Z) : counted (list Z * Z) :=
  let mid := first + (last - first) / 2 in
  do mem <- move_median_to_first_c mem first (first + 1) mid (last - 1);
  unguarded_partition_c (S (length mem)) mem (first + 1) last first.

(** stl_heap.h:135-147; the division of C truncates. *)
Fixpoint push_heap_c (fuel : nat) (mem : list Z) (first hole top value : Z) : counted (list Z) :=
  match fuel with
  | O => OutOfFuel
  | S f =>
      let parent := Z.quot (hole - 1) 2 in
      if hole >? top then
        do x <- free (rd mem (first + parent));
        do c <- comp_c x value;
        if c : bool then
          do mem <- free (wr mem (first + hole) x);
          push_heap_c f mem first parent top value
        else free (wr mem (first + hole) value)
      else free (wr mem (first + hole) value)
  end.
(** Loop of __adjust_heap (stl_heap.h:229-237): memory, holeIndex, secondChild. *)
Fixpoint adjust_loop_c (fuel : nat) (mem : list Z) (first hole len second : Z) : counted (list Z * Z * Z) :=
  match fuel with
  | O => OutOfFuel
  | S f =>
      if second <? Z.quot (len - 1) 2 then
        let second := 2 * (second + 1) in
        do c <- comp_at_c mem (first + second) (first + (second - 1));
        let second := (if c : bool then second - 1 else second) in
        do x <- free (rd mem (first + second));
        do mem <- free (wr mem (first + hole) x);
        adjust_loop_c f mem first second len second
      else cret (mem, hole, second)
  end.
(** stl_heap.h:224-249 *)
Definition adjust_heap_c (mem : list Z) (first hole len value : Z) : counted (list Z) :=
  let top := hole in
  do '(mem, hole, second) <- adjust_loop_c (S (length mem)) mem first hole len hole;
  do '(mem, hole) <-
    (if Z.even len && (second =? Z.quot (len - 2) 2) then
       let second := 2 * (second + 1) in
       do x <- free (rd mem (first + (second - 1)));
       do mem <- free (wr mem (first + hole) x);
       cret (mem, second - 1)
     else cret (mem, hole));
  push_heap_c (S (length mem)) mem first hole top value.
(** stl_heap.h:254-267 *)
Definition pop_heap_c (mem : list Z) (first last result : Z) : counted (list Z) :=
  do value <- free (rd mem result);
  do x <- free (rd mem first);
  do mem <- free (wr mem result x);
  adjust_heap_c mem first 0 (last - first) value.
(** Loop of __make_heap (stl_heap.h:350-361). *)
Fixpoint make_heap_loop_c (fuel : nat) (mem : list Z) (first len parent : Z) : counted (list Z) :=
  match fuel with
  | O => OutOfFuel
  | S f =>
      do value <- free (rd mem (first + parent));
      do mem <- adjust_heap_c mem first parent len value;
      if parent =? 0 then cret mem
      else make_heap_loop_c f mem first len (parent - 1)
  end.
(** stl_heap.h:340-362 *)
Definition make_heap_c (mem : list Z) (first last : Z) : counted (list Z) :=
  if last - first <? 2 then cret mem
  else make_heap_loop_c (S (length mem)) mem first (last - first) (Z.quot (last - first - 2) 2).
(** stl_heap.h:419-427 *)
Fixpoint sort_heap_c (fuel : nat) (mem : list Z) (first last : Z) : counted (list Z) :=
  match fuel with
  | O => OutOfFuel
  | S f =>
      if last - first >? 1 then
        let last := last - 1 in
        do mem <- pop_heap_c mem first last last;
        sort_heap_c f mem first last
      else cret mem
  end.
(** stl_algo.h:1905-1912 with middle = last, as called by __introsort_loop; the loop of
    __heap_select (stl_algo.h:1631-1639) over [middle, last) is then empty. *)
Definition partial_sort_c (mem : list Z) (first last : Z) : counted (list Z) :=
  do mem <- make_heap_c mem first last;
  sort_heap_c (S (length mem)) mem first last.

(** stl_algo.h:1918-1935: the next round of the while loop is a call with the decremented
    depth limit and last = cut. *)
Fixpoint introsort_loop_c (depth_limit : nat) (mem : list Z) (first last : Z) : counted (list Z) :=
  if last - first >? threshold then
    match depth_limit with
    | O => partial_sort_c mem first last
    | S d =>
        do '(mem, cut) <- unguarded_partition_pivot_c mem first last;
        do mem <- introsort_loop_c d mem cut last;
        introsort_loop_c d mem first cut
    end
  else cret mem.

(** stl_algo.h:1941-1952; std::__lg is the integer part of the binary logarithm. *)
Definition std_sort_c (mem : list Z) (first last : Z) : counted (list Z) :=
  if negb (first =? last) then
    do mem <- introsort_loop_c (Z.to_nat (Z.log2 (last - first) * 2)) mem first last;
    final_insertion_sort_c mem first last
  else cret mem.
End Sort.

(** std::sort(s.codepoint_begin(), s.codepoint_end(), canonical_combining_order)
    on a utf32ne_string with contents [l] (normalization_form_d.hpp:34-35 and the other forms); each call of the comparison
    counts one. *)
Definition sort_by_combining_class_c (l : list Z) : counted (list Z) :=
  std_sort_c (fun a b => one (canonical_combining_order a b)) l 0 (zlen l).
