(** The hash by which sources are given to nodes: internal/cache/log_cache.go:166-169, with hash/crc64 of the Go
    standard library, transcribed from its source (src/hash/crc64/crc64.go). *)
From Coq Require Import Ascii String NArith.
From stdpp Require Import prelude strings list.
Open Scope N_scope.

(** crc64.go:27 ECMA *)
Definition ecma : N := 0xC96C5795D7870F42.
(** crc64.go makeTable, the inner loop: if crc&1 == 1 then (crc >> 1) ^ poly else crc >> 1 *)
Definition bit_step (crc : N) : N := if N.testbit crc 0 then N.lxor (N.shiftr crc 1) ecma else N.shiftr crc 1.
Fixpoint steps (n : nat) (crc : N) : N := match n with O => crc | S n => steps n (bit_step crc) end.
(** crc64.go makeTable: the entry at i, for i < 256 *)
Definition table (i : N) : N := steps 8 i.
(** ^crc on a uint64 *)
Definition complement (crc : N) : N := N.lxor crc (2^64 - 1).
(** crc64.go update, the loop over single bytes: tab[byte(crc)^v] ^ (crc >> 8).  (For 64 bytes and more later versions
    of the library take eight bytes at a time with tables that are computed from this one; left out.) *)
Definition byte_step (crc : N) (c : ascii) : N := N.lxor (table (N.lxor (crc mod 256) (N_of_ascii c))) (N.shiftr crc 8).
Fixpoint update (crc : N) (s : string) : N := match s with EmptyString => crc | String c s => update (byte_step crc c) s end.
(** crc64.go Checksum: Update(0, tab, data) = ^update(^0, ...) *)
Definition checksum (s : string) : N := complement (update (complement 0) s).
(** log_cache.go:167-169 hasher *)
Definition hasher (s : string) : Z := Z.of_N (checksum s).
