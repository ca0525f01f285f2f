(** CRC-64 as standards describe it (ECMA-182 for the polynomial; the catalogue of parametrised CRC algorithms calls this one
    CRC-64/XZ): a shift register of 64 bits, initially all ones, into which the message goes bit after bit, the lowest bit of
    a byte first; at the end the register is complemented and read backwards. *)
From Coq Require Import Ascii String NArith.
From stdpp Require Import prelude strings list.
Open Scope N_scope.

(** x^62 + x^57 + ... + x + 1, without the leading x^64 *)
Definition polynomial : N := 0x42F0E1EBA9EA3693.
Definition shift_in (register : N) (b : bool) : N :=
  let r := (2 * register) mod 2^64 in
  if xorb (N.testbit register 63) b then N.lxor r polynomial else r.
Definition bits_of (c : ascii) : list bool := match c with Ascii b0 b1 b2 b3 b4 b5 b6 b7 => [b0; b1; b2; b3; b4; b5; b6; b7] end.
Fixpoint message_bits (s : string) : list bool := match s with EmptyString => [] | String c s => bits_of c ++ message_bits s end.
(** h is the CRC of s *)
Definition crc_of (s : string) (h : N) : Prop :=
  h < 2^64 /\ forall i, i < 64 -> N.testbit h i = negb (N.testbit (foldl shift_in (2^64 - 1) (message_bits s)) (63 - i)).
