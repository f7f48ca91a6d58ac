(** * Specification: positions of any memory, not only of a NUL-terminated string

    Independent of the model. *)
From Coq Require Import List ZArith.
From Verif Require Import Utf8Spec RangeSpec.
Import ListNotations.
Open Scope Z_scope.

(** [rs] are all the positions from [x] on and below [y] whose octets are not continuation
    octets, last first. *)
Definition leads_between (mem : list Z) (x y : Z) (rs : list Z) : Prop :=
  (forall p, In p rs <-> x <= p < y /\ ~ continuation_octet (octet mem p)) /\
  forall i j, (i < j < length rs)%nat -> nth j rs 0 < nth i rs 0.

(** The positions a client that starts at [b] and increments while it is not past [e] can
    stand at ([visited] of Utf8Spec.v is the case b = 0). *)
Inductive reached (mem : list Z) (e b : Z) : Z -> Prop :=
| reached_begin : reached mem e b b
| reached_next p r : reached mem e b p -> closest_lead mem p r -> extent mem r <= e ->
    reached mem e b (extent mem r).

(** The octets announced by the octet at [x] contain position [b]; an iterator whose octet
    at or before it is at [x] compares equal to one at [b]. *)
Definition covers (mem : list Z) (x b : Z) : Prop :=
  ~ continuation_octet (octet mem x) /\ x <= b < extent mem x.
