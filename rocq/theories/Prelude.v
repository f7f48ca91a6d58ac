(** * Outcomes, memory and machine integers

    Shared vocabulary of the model.  Nothing here models a particular piece of
    u5e; it fixes what "undefined behaviour", "memory" and "int" mean. *)
From Coq Require Export List ZArith Lia Bool.
Export ListNotations.
Open Scope Z_scope.

(** Kinds of undefined behaviour the model can reach. *)
Inductive ub : Type :=
| OobRead      (* dereference outside the allocated buffer *)
| OobWrite     (* store outside the allocated buffer *)
| BadPointer   (* pointer arithmetic leaving [base, base+size] *)
| BadShift     (* shift count out of range / shifted value not representable *)
| ClzZero      (* __builtin_clz(0) *)
| IntOverflow  (* signed overflow *).

(** Outcome of a modelled operation. *)
Inductive res (A : Type) : Type :=
| Ok (a : A)
| UB (u : ub)
| OutOfFuel.   (* the loop has not finished within the given fuel *)
Arguments Ok {A} a.
Arguments UB {A} u.
Arguments OutOfFuel {A}.

Definition bind {A B} (x : res A) (f : A -> res B) : res B :=
  match x with Ok a => f a | UB u => UB u | OutOfFuel => OutOfFuel end.

Notation "'let*' x := e 'in' k" := (bind e (fun x => k))
  (at level 200, x name, e at level 100, k at level 200, right associativity).
Notation "'let*' ' p := e 'in' k" := (bind e (fun p => k))
  (at level 200, p pattern, e at level 100, k at level 200, right associativity).

(** Length as an integer. *)
Definition zlen {A} (l : list A) : Z := Z.of_nat (length l).

(** Read the buffer [mem] at index [p]. *)
Definition rd (mem : list Z) (p : Z) : res Z :=
  if p <? 0 then UB OobRead
  else match nth_error mem (Z.to_nat p) with
       | Some v => Ok v
       | None => UB OobRead
       end.

(** Pointer arithmetic: the result must lie in the buffer or one past it. *)
Definition padd (mem : list Z) (p d : Z) : res Z :=
  if (0 <=? p + d) && (p + d <=? zlen mem) then Ok (p + d) else UB BadPointer.

(** Replace element [n] of a list (no effect when out of range). *)
Fixpoint upd (l : list Z) (n : nat) (v : Z) : list Z :=
  match l, n with
  | [], _ => []
  | _ :: t, O => v :: t
  | x :: t, S n' => x :: upd t n' v
  end.

(** Store [v] in the buffer at index [p]. *)
Definition wr (mem : list Z) (p v : Z) : res (list Z) :=
  if (0 <=? p) && (p <? zlen mem) then Ok (upd mem (Z.to_nat p) v)
  else UB OobWrite.

(** The octets [p, q) of a buffer, as a native range copy reads them. *)
Definition slice (mem : list Z) (p q : Z) : list Z :=
  firstn (Z.to_nat (q - p)) (skipn (Z.to_nat p) mem).

(** Copying the native range [p, q): undefined unless it is a valid range. *)
Definition copy_range (mem : list Z) (p q : Z) : res (list Z) :=
  if (0 <=? p) && (p <=? q) && (q <=? zlen mem) then Ok (slice mem p q)
  else UB OobRead.

(** 32-bit int. *)
Definition int_min : Z := -2147483648.
Definition int_max : Z := 2147483647.
Definition is_int (v : Z) : Prop := int_min <= v <= int_max.

(** Reinterpretation as uint32 and as int32. *)
Definition to_u32 (v : Z) : Z := v mod 4294967296.
Definition to_i32 (v : Z) : Z :=
  let u := v mod 4294967296 in
  if u <? 2147483648 then u else u - 4294967296.
(** Conversion to unsigned char. *)
Definition to_u8 (v : Z) : Z := v mod 256.

(** Signed int addition, undefined on overflow. *)
Definition int_add (a b : Z) : res Z :=
  if (int_min <=? a + b) && (a + b <=? int_max) then Ok (a + b) else UB IntOverflow.

(** An octet. *)
Definition is_byte (b : Z) : Prop := 0 <= b < 256.
