(** * Model of src/u5e/props/*.cpp: binary search in the data tables *)
From Verif Require Import Prelude DataTables.

(** bsearch(3) as called by every resolve(): glibc's algorithm (bits/stdlib-bsearch.h):
    [l = 0; u = nmemb; while (l < u) { idx = (l + u) / 2; ... }].  [cmp] is the
    comparison of the key with a row.  [fuel] makes the recursion structural. *)
Fixpoint bsearch_loop {R} (fuel : nat) (cmp : R -> Z) (base : list R) (l u : nat)
  : res (option R) :=
  match fuel with
  | O => OutOfFuel
  | S f =>
      if Nat.ltb l u then
        let idx := Nat.div2 (l + u) in
        match nth_error base idx with
        | None => UB OobRead
        | Some r =>
            let c := cmp r in
            if c <? 0 then bsearch_loop f cmp base l idx
            else if c >? 0 then bsearch_loop f cmp base (S idx) u
            else Ok (Some r)
        end
      else Ok None
  end.
Definition bsearch {R} (cmp : R -> Z) (base : list R) : res (option R) :=
  bsearch_loop (S (length base)) cmp base 0 (length base).

(** it[0], it[1] in the comparisons below (canonical_combining_class.cpp:16-28 etc.).  All
    rows of the tables are long enough; past the row the value is 0 (simplification). *)
Definition row_at (row : list Z) (i : nat) : Z := nth i row 0.

(** compare_value_to_row of canonical_combining_class.cpp:16-28,
    canonical_decomposition_mapping.cpp:15-27 and
    compatibility_and_canonical_decomposition_mapping.cpp:15-27 (identical). *)
Definition compare_value_to_row (key : Z) (elem : list Z) : Z :=
  if key <? row_at elem 0 then -1
  else if key >? row_at elem 0 then 1 else 0.

(** canonical_combining_class.cpp:32-44, with the table the program was compiled with as
    a parameter.  [it\[1\]] of a row is [rd row 1]. *)
Definition class_resolve_in (data : list (list Z)) (input : Z) : res Z :=
  let* elem := bsearch (compare_value_to_row input) data in
  match elem with
  | None => Ok 0
  | Some it => rd it 1
  end.
(** canonical_combining_class.cpp:9-14 and 32-44: with the table in the repository. *)
Definition canonical_combining_class_resolve (input : Z) : res Z :=
  class_resolve_in canonical_combining_class_data input.

(** canonical_decomposition_mapping.cpp:31-44 and
    compatibility_and_canonical_decomposition_mapping.cpp:31-45 (identical but for the
    table).  The returned pointer is modelled as the rest of the row it points into
    (including the terminating zero). *)
Definition mapping_resolve_in (data : list (list Z)) (input : Z) : res (option (list Z)) :=
  let* elem := bsearch (compare_value_to_row input) data in
  match elem with
  | None => Ok None
  | Some it => Ok (Some (tl it))
  end.
(** canonical_decomposition_mapping.cpp:9-13 and 31-44 *)
Definition canonical_decomposition_mapping_resolve (input : Z) : res (option (list Z)) :=
  mapping_resolve_in canonical_decomposition_mapping_data input.
(** compatibility_and_canonical_decomposition_mapping.cpp:9-13 and 31-45 *)
Definition compatibility_and_canonical_decomposition_mapping_resolve (input : Z)
  : res (option (list Z)) :=
  mapping_resolve_in compatibility_and_canonical_decomposition_mapping_data input.

(** compare_value_to_row of canonical_composition_mapping.cpp:15-33 *)
Definition compare_pair_to_row (a b : Z) (elem : list Z) : Z :=
  if a <? row_at elem 0 then -1
  else if a >? row_at elem 0 then 1
  else if b <? row_at elem 1 then -1
  else if b >? row_at elem 1 then 1 else 0.

(** canonical_composition_mapping.cpp:37-51: [Some c] stands for returning true
    with *r_composed = c, [None] for returning false. *)
Definition composition_resolve_in (data : list (list Z)) (a b : Z) : res (option Z) :=
  let* elem := bsearch (compare_pair_to_row a b) data in
  match elem with
  | None => Ok None
  | Some it => let* c := rd it 2 in Ok (Some c)
  end.
(** canonical_composition_mapping.cpp:9-13 and 37-51 *)
Definition canonical_composition_mapping_resolve (a b : Z) : res (option Z) :=
  composition_resolve_in canonical_composition_mapping_data a b.

(** compare_value_to_range of grapheme_cluster_break.cpp:20-32 *)
Definition compare_value_to_range (key : Z) (elem : Z * Z * gcb) : Z :=
  let '(range_start, range_end, _) := elem in
  if key <? range_start then -1
  else if (key >=? range_start) && (key <=? range_end) then 0
  else 1.

(** grapheme_cluster_break.cpp:40-52, the table as a parameter *)
Definition break_resolve_in (data : list (Z * Z * gcb)) (c : Z) : res gcb :=
  let* elem := bsearch (compare_value_to_range c) data in
  match elem with
  | None => Ok G_OTHER
  | Some (_, _, v) => Ok v
  end.
(** grapheme_cluster_break.cpp:13-18 and 40-52 *)
Definition grapheme_cluster_break_resolve (c : Z) : res gcb :=
  break_resolve_in grapheme_cluster_break_data c.

(** canonical_combining_order.hpp:13-18 *)
Definition canonical_combining_order (a b : Z) : res bool :=
  let* ca := canonical_combining_class_resolve a in
  let* cb := canonical_combining_class_resolve b in
  Ok (ca <? cb).
