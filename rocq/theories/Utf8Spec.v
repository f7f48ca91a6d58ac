(** * Specification of UTF-8 (independent of the model)

    The encoding form of RFC 2279 / ISO 10646 for codepoints below 2^31; for
    U+0000..U+10FFFF it is the one of RFC 3629 and of the Unicode Standard,
    table 3-6. *)
From Coq Require Import List ZArith.
Import ListNotations.
Open Scope Z_scope.

(** Codepoints representable in UTF-8 as defined by RFC 2279. *)
Definition codepoint31 (c : Z) : Prop := 0 <= c < 2 ^ 31.
(** Codepoints of Unicode. *)
Definition unicode_codepoint (c : Z) : Prop := 0 <= c <= 0x10FFFF.

(** [6 bits starting at bit k], as a continuation octet. *)
Definition cont (c k : Z) : Z := 128 + (c / 2 ^ k) mod 64.

Definition utf8_encode (c : Z) : list Z :=
  if c <? 0x80 then [c]
  else if c <? 0x800 then [192 + c / 2 ^ 6; cont c 0]
  else if c <? 0x10000 then [224 + c / 2 ^ 12; cont c 6; cont c 0]
  else if c <? 0x200000 then [240 + c / 2 ^ 18; cont c 12; cont c 6; cont c 0]
  else if c <? 0x4000000 then [248 + c / 2 ^ 24; cont c 18; cont c 12; cont c 6; cont c 0]
  else [252 + c / 2 ^ 30; cont c 24; cont c 18; cont c 12; cont c 6; cont c 0].

(** The UTF-8 text of a sequence of codepoints. *)
Definition utf8_text (cs : list Z) : list Z := flat_map utf8_encode cs.

(** The number of octets announced by the first octet of a sequence. *)
Definition announced_len (b : Z) : Z :=
  if b <? 192 then 1 else if b <? 224 then 2 else if b <? 240 then 3
  else if b <? 248 then 4 else if b <? 252 then 5 else if b <? 254 then 6
  else if b <? 255 then 7 else 8.

(** Octets 10xxxxxx. *)
Definition continuation_octet (b : Z) : Prop := 128 <= b < 192.

(** The buffer of a std::string: its octets and the terminating NUL. *)
Definition string_buffer (s : list Z) : list Z := s ++ [0].

(** Octet at position [p] of a buffer (0 outside of it). *)
Definition octet (mem : list Z) (p : Z) : Z := nth (Z.to_nat p) mem 0.

(** [r] is the closest position at or before [p] whose octet is not a continuation. *)
Definition closest_lead (mem : list Z) (p r : Z) : Prop :=
  0 <= r <= p /\ ~ continuation_octet (octet mem r) /\
  forall k, r < k <= p -> continuation_octet (octet mem k).

(** The octet at [p] is a continuation octet that lies outside the extent
    announced by the closest preceding non-continuation octet. *)
Definition stray (mem : list Z) (p : Z) : Prop :=
  exists r, closest_lead mem p r /\ r + announced_len (octet mem r) <= p.

(** Octets that announce at most 6 octets, i.e. not 0xFE or 0xFF. *)
Definition octet_upto_FD (b : Z) : Prop := 0 <= b < 254.

(** The octet at [p] announces octets beyond the end of [s]. *)
Definition cut_short (s : list Z) (p : Z) : Prop :=
  192 <= octet s p /\ Z.of_nat (length s) < p + announced_len (octet s p).

(** All octets up to and including [p] are continuation octets. *)
Definition leading_continuation (s : list Z) (p : Z) : Prop :=
  forall i, 0 <= i <= p -> continuation_octet (octet s i).

(** A complete sequence: a non-continuation octet and as many continuation octets as it
    announces.  (Its value need not be in shortest form.) *)
Definition complete_sequence (o : list Z) : Prop :=
  exists lead tail, o = lead :: tail /\ ~ continuation_octet lead /\ Forall continuation_octet tail /\
    Z.of_nat (length o) = announced_len lead.
(** A text that is a sequence of complete sequences. *)
Definition complete_text (s : list Z) : Prop :=
  exists os, s = concat os /\ Forall complete_sequence os.

(** A sequence of which the last octets are missing. *)
Definition cut_sequence (o : list Z) : Prop :=
  exists lead tail, o = lead :: tail /\ ~ continuation_octet lead /\ Forall continuation_octet tail /\
    octet_upto_FD lead /\ Z.of_nat (length o) < announced_len lead.

(** A complete sequence that announces at most 6 octets, and the number its bits make up
    (the payload of the first octet, then 6 bits per continuation octet).  Shorter and longer
    forms of the same number are not distinguished: C0 80 is 0, E0 81 81 is U+0041. *)
Definition octet_sequence (o : list Z) : Prop := complete_sequence o /\ Forall octet_upto_FD o.
Definition sequence_value (o : list Z) : Z :=
  match o with
  | [] => 0
  | lead :: tail => fold_left (fun v b => v * 64 + b mod 64) tail
                      (if lead <? 128 then lead else lead mod 2 ^ (7 - announced_len lead))
  end.

(** The positions a client that starts at position 0 and increments while it is not past
    the end can stand at: from a position with closest lead octet [r], an increment goes to
    the end of the extent of [r]. *)
Inductive visited (mem : list Z) (e : Z) : Z -> Prop :=
| visited_begin : visited mem e 0
| visited_next p r : visited mem e p -> closest_lead mem p r ->
    r + announced_len (octet mem r) <= e -> visited mem e (r + announced_len (octet mem r)).
