(** The prune consultant (internal/cache/store/prune_consultant.go), in IEEE 754
    binary64 arithmetic as Go prescribes for float64. *)
From Coq Require Import ZArith.
From Flocq Require Import Core BinarySingleNaN.
Open Scope Z_scope.

(** float64.  Payloads of NaNs cannot be observed by this code. *)
Notation f64 := (binary_float 53 1024).
#[export] Instance prec_gt_0_53 : Prec_gt_0 53 := eq_refl.
#[export] Instance prec_lt_emax_53 : Prec_lt_emax 53 1024 := eq_refl.

(** The conversion of an integer to float64, and the operations: rounding to
    nearest, ties to even (Go specification, "Conversions"; IEEE 754). *)
Definition of_int (z : Z) : f64 := binary_normalize 53 1024 prec_gt_0_53 prec_lt_emax_53 mode_NE z 0 false.
Definition fdiv (x y : f64) : f64 := Bdiv mode_NE x y.
Definition fsub (x y : f64) : f64 := Bminus mode_NE x y.
Definition fmul (x y : f64) : f64 := Bmult mode_NE x y.
Definition fgt (x y : f64) : bool := Bltb y x.

(** The conversion int(x): truncation towards zero.  When the value is not
    representable, "the result is implementation-dependent" (Go specification):
    None. *)
Definition to_int (x : f64) : option Z :=
  if is_finite x then
    let z := Btrunc x in
    if andb (- 2 ^ 63 <=? z) (z <? 2 ^ 63) then Some z else None
  else None.

(** uint64 multiplication wraps. *)
Definition mul_u64 (a b : Z) : Z := (a * b) mod 2 ^ 64.

(** heapPercentage (prune_consultant.go:38). *)
Definition heap_percentage (heap total : Z) : f64 :=
  fdiv (of_int (mul_u64 heap 100)) (of_int total).

(** GetQuantityToPrune (prune_consultant.go:35-50).  [heap] and [total] are what
    Memory reports (uint64), [pct] is percentToFill, [count] is storeCount
    (int64).  The gauge set at line 41 is left out. *)
Definition quantity_to_prune (heap total : Z) (pct : f64) (count : Z) : option Z :=
  let hp := heap_percentage heap total in
  if fgt hp pct then
    let p := fdiv (fsub hp pct) hp in
    to_int (fmul (of_int count) p)
  else Some 0.
