(** * Model: the lookups with the bsearch of any C library

    PropsModel.v has glibc's bsearch.  Here each resolve() is given the bsearch that the program is linked with. *)
From Verif Require Import Prelude DataTables PropsModel.

(** A bsearch: what it returns for a comparison with the key, and an array. *)
Definition bsearch_function : Type := forall R : Type, (R -> Z) -> list R -> res (option R).

(** What the C standard says about the array (C11 7.22.5.1): "all the elements that compare less than, all the elements that compare
    equal to, and all the elements that compare greater than the key object, in that order".  [cmp r] compares the key with element
    [r], so it is positive for the elements that are less than the key. *)
Definition c_ordered {R} (cmp : R -> Z) (base : list R) : Prop :=
  exists less equal greater, base = less ++ equal ++ greater /\
    (forall r, In r less -> cmp r > 0) /\ (forall r, In r equal -> cmp r = 0) /\ (forall r, In r greater -> cmp r < 0).
(** "returns a pointer to a matching element of the array, or a null pointer if no match is found.  If two elements compare as equal,
    which element is matched is unspecified." *)
Definition c_bsearch (bs : bsearch_function) : Prop :=
  forall R (cmp : R -> Z) base, c_ordered cmp base ->
    exists found, bs R cmp base = Ok found /\
      match found with
      | Some r => In r base /\ cmp r = 0
      | None => forall r, In r base -> cmp r <> 0
      end.

Section Lookups.
Context (bs : bsearch_function).
(** canonical_combining_class.cpp:9-14 and 32-44 *)
Definition class_resolve_with (input : Z) : res Z :=
  let* elem := bs _ (compare_value_to_row input) canonical_combining_class_data in
  match elem with
  | None => Ok 0
  | Some it => rd it 1
  end.
(** canonical_decomposition_mapping.cpp:9-13, 31-44 and compatibility_and_canonical_decomposition_mapping.cpp:9-13, 31-45 *)
Definition mapping_resolve_with (data : list (list Z)) (input : Z) : res (option (list Z)) :=
  let* elem := bs _ (compare_value_to_row input) data in
  match elem with
  | None => Ok None
  | Some it => Ok (Some (tl it))
  end.
Definition canonical_resolve_with : Z -> res (option (list Z)) := mapping_resolve_with canonical_decomposition_mapping_data.
Definition compatibility_resolve_with : Z -> res (option (list Z)) :=
  mapping_resolve_with compatibility_and_canonical_decomposition_mapping_data.
(** canonical_composition_mapping.cpp:9-13 and 37-51 *)
Definition composition_resolve_with (a b : Z) : res (option Z) :=
  let* elem := bs _ (compare_pair_to_row a b) canonical_composition_mapping_data in
  match elem with
  | None => Ok None
  | Some it => let* c := rd it 2 in Ok (Some c)
  end.
(** grapheme_cluster_break.cpp:13-18 and 40-52 *)
Definition break_resolve_with (c : Z) : res gcb :=
  let* elem := bs _ (compare_value_to_range c) grapheme_cluster_break_data in
  match elem with
  | None => Ok G_OTHER
  | Some (_, _, v) => Ok v
  end.
End Lookups.

(** Some bsearch functions: glibc's; musl's (src/stdlib/bsearch.c, from memory), which keeps a base and a number of elements; and a scan from the
    start, the simplest there is. *)
Definition glibc_bsearch : bsearch_function := fun R cmp base => bsearch cmp base.
Fixpoint musl_loop {R} (fuel : nat) (cmp : R -> Z) (base : list R) (nel : nat) : res (option R) :=
  match fuel with
  | O => OutOfFuel
  | S f =>
      match nel with
      | O => Ok None
      | _ =>
          match nth_error base (Nat.div2 nel) with
          | None => UB OobRead
          | Some r =>
              if cmp r <? 0 then musl_loop f cmp base (Nat.div2 nel)
              else if cmp r >? 0 then musl_loop f cmp (skipn (S (Nat.div2 nel)) base) (nel - (Nat.div2 nel + 1))
              else Ok (Some r)
          end
      end
  end.
Definition musl_bsearch : bsearch_function := fun R cmp base => musl_loop (S (length base)) cmp base (length base).
Definition scan_bsearch : bsearch_function := fun R cmp base => Ok (find (fun r => cmp r =? 0) base).
