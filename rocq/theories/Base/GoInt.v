(** Go machine integers: int64 and uint64 with two's complement wrap around. *)
From Coq Require Import ZArith Lia.
Open Scope Z_scope.

(** Go language spec, "Integer overflow": int64 / int (64 bit) results wrap modulo 2^64. *)
Definition wrap64 (z : Z) : Z := (z + 2^63) mod 2^64 - 2^63.

(** Same for uint64. *)
Definition wrapu64 (z : Z) : Z := z mod 2^64.

Definition in64 (z : Z) : Prop := - 2^63 <= z < 2^63.
Definition inu64 (z : Z) : Prop := 0 <= z < 2^64.

Definition max_int64 : Z := 2^63 - 1.
Definition max_uint64 : Z := 2^64 - 1.

Lemma wrap64_id z : in64 z -> wrap64 z = z.
Proof. unfold in64, wrap64. intros. rewrite Z.mod_small; lia. Qed.

Lemma wrap64_range z : in64 (wrap64 z).
Proof. unfold in64, wrap64. pose proof (Z.mod_pos_bound (z + 2^63) (2^64)). lia. Qed.

Lemma wrapu64_id z : inu64 z -> wrapu64 z = z.
Proof. unfold inu64, wrapu64. intros. apply Z.mod_small; lia. Qed.

Lemma wrapu64_range z : inu64 (wrapu64 z).
Proof. unfold inu64, wrapu64. apply Z.mod_pos_bound; lia. Qed.
