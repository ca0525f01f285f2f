(** The protobuf wire format as it is documented (protobuf.dev, "Encoding"), as a grammar. *)
From Coq Require Import Ascii String.
From stdpp Require Import prelude strings list.
From Verif.Wire Require Import Format.
Open Scope Z_scope.

Definition octet (c : ascii) : Z := Z.of_nat (nat_of_ascii c).
(** base 128 varints: every byte but the last has its top bit set; the lowest seven bits come first *)
Inductive base128 : Z -> string -> Prop :=
| base128_last c : octet c < 128 -> base128 (octet c) (String c "")
| base128_more c n s : 128 <= octet c -> base128 n s -> base128 (octet c - 128 + 128 * n) (String c s).
(** ... of at most ten bytes and 64 bits *)
Definition varint (n : Z) (s : string) : Prop := base128 n s /\ (String.length s <= 10)%nat /\ n < 2^64.
(** numbers of k bytes, the lowest first *)
Inductive little_endian : nat -> Z -> string -> Prop :=
| little_none : little_endian 0 0 ""
| little_more k c n s : little_endian k n s -> little_endian (S k) (octet c + 256 * n) (String c s).

(** a value and the wire type that announces it *)
Inductive value_of : wire -> Z -> string -> Prop :=
| value_varint n s : varint n s -> value_of (Varint n) 0 s
| value_i64 n s : little_endian 8 n s -> value_of (Fixed64 n) 1 s
| value_len s l : varint (Z.of_nat (String.length s)) l -> value_of (Bytes s) 2 (l +:+ s)
| value_i32 n s : little_endian 4 n s -> value_of (Fixed32 n) 5 s.
(** a message: field after field, each a tag - number and wire type - and a value *)
Inductive message : list field -> string -> Prop :=
| message_end : message [] ""
| message_field k w t tag body fs s :
    1 <= k -> varint (8 * k + t) tag -> value_of w t body -> message fs s -> message ((k, w) :: fs) (tag +:+ (body +:+ s)).
