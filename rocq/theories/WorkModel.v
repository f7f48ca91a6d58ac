(** * Model: the whole work of normalization, table lookups and sorting included

    CostModel.v again, with everything counted that can grow with the text: each operation on a codepoint iterator of the
    text ( ==, !=, *, ++, -- ), each lookup in a table (the first section counts the row comparisons of one), each codepoint
    copied into a string, and the comparisons of std::sort (SortCostModel.v), each of which makes two lookups.  The sort is
    that of libstdc++ 13.  Not counted: arithmetic on single codepoints, and the element moves of std::sort. *)
From Verif Require Import Prelude DataTables PropsModel Utf8Model TextModel StdSortModel CostModel SortCostModel.

(** ** One lookup: the row comparisons of bsearch(3) *)
(** glibc, bits/stdlib-bsearch.h, as PropsModel.bsearch_loop; each call of [cmp] counts one. *)
Fixpoint bsearch_loop_c {R} (fuel : nat) (cmp : R -> Z) (base : list R) (l u : nat) : counted (option R) :=
  match fuel with
  | O => OutOfFuel
  | S f =>
      if Nat.ltb l u then
        let idx := Nat.div2 (l + u) in
        match nth_error base idx with
        | None => UB OobRead
        | Some r =>
            do c <- one (Ok (cmp r));
            if c <? 0 then bsearch_loop_c f cmp base l idx
            else if c >? 0 then bsearch_loop_c f cmp base (S idx) u
            else cret (Some r)
        end
      else cret None
  end.
Definition bsearch_c {R} (cmp : R -> Z) (base : list R) : counted (option R) :=
  bsearch_loop_c (S (length base)) cmp base 0 (length base).
(** canonical_combining_class.cpp:32-44 *)
Definition canonical_combining_class_resolve_c (input : Z) : counted Z :=
  do elem <- bsearch_c (compare_value_to_row input) canonical_combining_class_data;
  match elem with
  | None => cret 0
  | Some it => free (rd it 1)
  end.
(** canonical_decomposition_mapping.cpp:31-44 *)
Definition canonical_decomposition_mapping_resolve_c (input : Z) : counted (option (list Z)) :=
  do elem <- bsearch_c (compare_value_to_row input) canonical_decomposition_mapping_data;
  match elem with
  | None => cret None
  | Some it => cret (Some (tl it))
  end.
(** compatibility_and_canonical_decomposition_mapping.cpp:31-45 *)
Definition compatibility_and_canonical_decomposition_mapping_resolve_c (input : Z) : counted (option (list Z)) :=
  do elem <- bsearch_c (compare_value_to_row input) compatibility_and_canonical_decomposition_mapping_data;
  match elem with
  | None => cret None
  | Some it => cret (Some (tl it))
  end.
(** canonical_composition_mapping.cpp:37-51 *)
Definition canonical_composition_mapping_resolve_c (a b : Z) : counted (option Z) :=
  do elem <- bsearch_c (compare_pair_to_row a b) canonical_composition_mapping_data;
  match elem with
  | None => cret None
  | Some it => do c <- free (rd it 2); cret (Some c)
  end.
(** grapheme_cluster_break.cpp:40-52 *)
Definition grapheme_cluster_break_resolve_c (c : Z) : counted gcb :=
  do elem <- bsearch_c (compare_value_to_range c) grapheme_cluster_break_data;
  match elem with
  | None => cret G_OTHER
  | Some (_, _, v) => cret v
  end.

(** ** The whole run *)
(** A table lookup counts one here. *)
Definition lookup {A} (m : res A) : counted A := one m.
(** Something that copies [k] codepoints. *)
Definition copying {A} (k : nat) (m : res A) : counted A := do a <- free m; Ok (a, k).
(** canonical_combining_order.hpp:13-18 *)
Definition canonical_combining_order_w (a b : Z) : counted bool :=
  do ca <- lookup (canonical_combining_class_resolve a);
  do cb <- lookup (canonical_combining_class_resolve b);
  cret (ca <? cb).
(** std::sort with this order (normalization_form_d.hpp:34-35 and the other forms). *)
Definition sort_by_combining_class_w (l : list Z) : counted (list Z) :=
  std_sort_c canonical_combining_order_w l 0 (zlen l).

(** basic_grapheme_iterator.hpp:53-124 *)
Definition is_grapheme_boundary_w (a b : Z) : counted bool :=
  do va <- lookup (grapheme_cluster_break_resolve a);
  do vb <- lookup (grapheme_cluster_break_resolve b);
  cret (boundary_chain va vb).
(** basic_grapheme_iterator.hpp:142-154 *)
Fixpoint find_end_loop_w (fuel : nat) (ops : cp_ops) (end_ a eog : Z) : counted Z :=
  match fuel with
  | O => OutOfFuel
  | S f =>
      do e <- one (op_eq ops eog end_);
      if e : bool then cret eog
      else
        do '(b, eog) <- one (op_deref ops eog);
        do brk <- is_grapheme_boundary_w a b;
        if brk : bool then cret eog
        else
          do eog <- one (op_step ops eog);
          find_end_loop_w f ops end_ b eog
  end.
(** basic_grapheme_iterator.hpp:131-155 *)
Definition find_end_of_grapheme_w (fuel : nat) (ops : cp_ops) (end_ eog : Z) : counted Z :=
  do e <- one (op_eq ops eog end_);
  if e : bool then cret eog
  else
    do '(a, eog) <- one (op_deref ops eog);
    do eog <- one (op_step ops eog);
    find_end_loop_w fuel ops end_ a eog.
(** basic_grapheme_iterator.hpp:169-180 *)
Fixpoint find_start_loop_w (fuel : nat) (ops : cp_ops) (begin a where_ : Z) : counted Z :=
  match fuel with
  | O => OutOfFuel
  | S f =>
      do e <- one (op_eq ops where_ begin);
      if e : bool then cret where_
      else
        do '(b, where_) <- one (op_deref ops where_);
        do brk <- is_grapheme_boundary_w a b;
        if brk : bool then cret where_
        else
          do where_ <- one (op_dec ops where_);
          find_start_loop_w f ops begin b where_
  end.
(** basic_grapheme_iterator.hpp:157-181 *)
Definition find_start_of_grapheme_w (fuel : nat) (ops : cp_ops) (begin where_ : Z) : counted Z :=
  do e <- one (op_eq ops where_ begin);
  if e : bool then cret where_
  else
    do copy <- one (op_dec ops where_);
    do '(a, _) <- one (op_deref ops copy);
    find_start_loop_w fuel ops begin a where_.
(** basic_grapheme_iterator.hpp:187-191, basic_encodedstring.hpp:152-156 *)
Definition grapheme_begin_w (fuel : nat) (ops : cp_ops) (b e : Z) : counted gi :=
  do eog <- find_end_of_grapheme_w fuel ops e b;
  cret {| g_begin := b; g_end := e; g_where := b; g_eog := eog |}.
(** basic_grapheme_iterator.hpp:197-203, basic_encodedstring.hpp:157-162 *)
Definition grapheme_end_w (fuel : nat) (ops : cp_ops) (b e : Z) : counted gi :=
  do where_ <- find_start_of_grapheme_w fuel ops b e;
  do eog <- find_end_of_grapheme_w fuel ops e e;
  cret {| g_begin := b; g_end := e; g_where := where_; g_eog := eog |}.
(** basic_grapheme_iterator.hpp:234-244 (the statement [it++;]); comparing two iterators looks nothing up (CostModel.gi_neq_c). *)
Definition gi_step_w (fuel : nat) (ops : cp_ops) (g : gi) : counted gi :=
  do eog <- find_end_of_grapheme_w fuel ops (g_end g) (g_eog g);
  cret {| g_begin := g_begin g; g_end := g_end g; g_where := g_eog g; g_eog := eog |}.

(** codepoint_decomposition.hpp:35-62: the row is scanned and appended. *)
Definition codepoint_decomposition_w (resolver : Z -> res (option (list Z))) (input : Z) (output : list Z) : counted (Z * list Z) :=
  do mapping <- lookup (resolver input);
  match mapping with
  | None => copying 1 (Ok (1, output ++ [input]))
  | Some row => do l <- free (zero_scan row); copying (length l) (Ok (zlen l, output ++ l))
  end.
(** normalization_form_d.hpp:27-31 (and kd 27-33, c 28-33, kc 28-34) *)
Definition decompose_grapheme_w (fuel : nat) (ops : cp_ops) (resolver : Z -> res (option (list Z))) (g : Z * Z) : counted (Z * list Z) :=
  filter_loop_c fuel (fun p q => one (op_neq ops p q)) (fun p => one (op_deref ops p)) (fun p => one (op_step ops p))
    (codepoint_decomposition_w resolver) (fst g) (snd g) [] 0.
(** canonical_composition.hpp:35-70 *)
Fixpoint composition_loop_w (fuel : nat) (data : list Z) (in_ oi end_ count : Z) : counted (list Z * Z * Z) :=
  match fuel with
  | O => OutOfFuel
  | S f =>
      if in_ =? end_ then cret (data, oi, count)
      else
        do a <- free (rd data in_);
        do in1 <- free (padd data in_ 1);
        if in1 =? end_ then
          do data <- free (wr data oi a);
          do oi <- free (padd data oi 1);
          composition_loop_w f data in1 oi end_ count
        else
          do b <- free (rd data in1);
          do r <- lookup (canonical_composition_mapping_resolve a b);
          match r with
          | Some c =>
              do data <- free (wr data in1 c);
              composition_loop_w f data in1 oi end_ (count + 1)
          | None =>
              do data <- free (wr data oi a);
              do oi <- free (padd data oi 1);
              composition_loop_w f data in1 oi end_ count
          end
  end.
(** canonical_composition.hpp:35-70 *)
Definition canonical_composition_w (data : list Z) (count : Z) : counted (list Z * Z * Z) :=
  composition_loop_w (S (length data)) data 0 0 (zlen data) count.
(** normalization_form_d.hpp:23-44, normalization_form_kd.hpp:23-45. *)
Definition form_decomposed_w (append_out : list Z -> list Z -> res (list Z)) (fuel : nat) (ops : cp_ops)
  (resolver : Z -> res (option (list Z))) (g : Z * Z) (output : list Z) : counted (Z * list Z) :=
  do '(count, decomposed) <- decompose_grapheme_w fuel ops resolver g;
  do decomposed <- sort_by_combining_class_w decomposed;
  do output <- copying (length decomposed) (append_out output decomposed);
  cret (count, output).
(** normalization_form_c.hpp:24-52, normalization_form_kc.hpp:24-53. *)
Definition form_composed_w (append_out : list Z -> list Z -> res (list Z)) (fuel : nat) (ops : cp_ops)
  (resolver : Z -> res (option (list Z))) (g : Z * Z) (output : list Z) : counted (Z * list Z) :=
  do '(count, decomposed) <- decompose_grapheme_w fuel ops resolver g;
  do decomposed <- sort_by_combining_class_w decomposed;
  do '(decomposed, oi, compositions) <- canonical_composition_w decomposed 0;
  let composed := firstn (Z.to_nat oi) decomposed in
  do output <- copying (length composed) (append_out output composed);
  cret (count - compositions, output).
(** normalization_form_d.hpp:23-44, normalization_form_kd.hpp:23-45, normalization_form_c.hpp:24-52,
    normalization_form_kc.hpp:24-53: the instances. *)
Definition normalization_form_d_w append_out fuel ops := form_decomposed_w append_out fuel ops canonical_decomposition_mapping_resolve.
Definition normalization_form_kd_w append_out fuel ops := form_decomposed_w append_out fuel ops compatibility_and_canonical_decomposition_mapping_resolve.
Definition normalization_form_c_w append_out fuel ops := form_composed_w append_out fuel ops canonical_decomposition_mapping_resolve.
Definition normalization_form_kc_w append_out fuel ops := form_composed_w append_out fuel ops compatibility_and_canonical_decomposition_mapping_resolve.

(** filter(s.grapheme_begin(), s.grapheme_end(), output, operation) (examples/normalization_form_d.cpp:23-24). *)
Definition normalize_w (fuel : nat) (ops : cp_ops) (form : Z * Z -> list Z -> counted (Z * list Z)) (b e : Z) (output : list Z) : counted (Z * list Z) :=
  do from <- grapheme_begin_w fuel ops b e;
  do to <- grapheme_end_w fuel ops b e;
  filter_loop_c fuel (gi_neq_c fuel ops) (fun g => cret (gi_deref g, g)) (gi_step_w fuel ops) form from to output 0.
