(** C25: the number of envelopes the prune consultant asks for lies between 0
    and the number stored, and is 0 whenever heap use is at or below the
    configured percentage.  [B2R x] is the real number a float64 stands for.

    These theorems rest on the axioms of Coq's standard library for the real
    numbers, through Flocq; Print Assumptions lists them. *)
From Coq Require Import ZArith Reals Lra.
From Flocq Require Import Core BinarySingleNaN.
From Verif.Prune Require Import Model Proofs.
Open Scope Z_scope.

(** False in general: without a memory total the result is that of converting
    "not a number" to an integer, which the language leaves open. *)
Theorem C25_no_total_refuted : exists heap total (pct : f64) count,
  0 <= heap < 2 ^ 64 /\ 0 <= total < 2 ^ 64 /\ is_finite pct = true /\ (0 <= B2R pct <= 100)%R /\
  0 <= count < 2 ^ 63 /\ quantity_to_prune heap total pct count = None.
Proof. exact no_total. Qed.
Print Assumptions C25_no_total_refuted.

(** False in general: more is asked for than is stored. *)
Theorem C25_bound_refuted : exists heap total (pct : f64) count q,
  0 <= heap < 2 ^ 64 /\ 1 <= total < 2 ^ 64 /\ is_finite pct = true /\ (0 <= B2R pct <= 100)%R /\
  0 <= count < 2 ^ 63 /\ quantity_to_prune heap total pct count = Some q /\ count < q.
Proof. exact too_many. Qed.
Print Assumptions C25_bound_refuted.

(** False in general: heap use is exactly 100 per cent, the limit is 100 per
    cent, and envelopes are pruned. *)
Theorem C25_zero_refuted : exists heap total (pct : f64) count q,
  0 <= heap < 2 ^ 64 /\ heap * 100 < 2 ^ 64 /\ 1 <= total < 2 ^ 64 /\ is_finite pct = true /\
  (0 <= B2R pct <= 100)%R /\ 0 <= count < 2 ^ 63 /\
  (IZR (100 * heap) / IZR total <= B2R pct)%R /\
  quantity_to_prune heap total pct count = Some q /\ 0 < q.
Proof. exact not_zero. Qed.
Print Assumptions C25_zero_refuted.

(** Between 0 and the count, for every heap and memory size, every limit and up
    to 2^53 (about 9 * 10^15) envelopes.  Missing: larger counts and an unknown
    memory total, for which it is false. *)
Theorem C25_bounded_partial : forall heap total (pct : f64) count,
  0 <= heap < 2 ^ 64 -> 1 <= total < 2 ^ 64 ->
  is_finite pct = true -> (0 <= B2R pct)%R -> 0 <= count <= 2 ^ 53 ->
  exists q, quantity_to_prune heap total pct count = Some q /\ 0 <= q <= count.
Proof. exact quantity_bounded. Qed.
Print Assumptions C25_bounded_partial.

(** 0 when the exact percentage is at or below the limit, for up to 2^53 bytes
    of memory and 2^53 / 100 (about 90 terabytes) of heap.  Missing: larger
    sizes, for which it is false. *)
Theorem C25_zero_partial : forall heap total (pct : f64) count,
  0 <= heap -> heap * 100 <= 2 ^ 53 -> 1 <= total <= 2 ^ 53 ->
  is_finite pct = true -> (IZR (100 * heap) / IZR total <= B2R pct)%R ->
  quantity_to_prune heap total pct count = Some 0.
Proof. exact quantity_zero. Qed.
Print Assumptions C25_zero_partial.

(** * C83: above the limit, the consultant asks for the share of the envelopes
      by which the heap exceeds the limit. *)

(** Within 2 of the exact value, for the sizes above and up to 2^50 envelopes. *)
Theorem C83_share_partial : forall heap total (pct : f64) count,
  0 <= heap -> heap * 100 <= 2 ^ 53 -> 1 <= total <= 2 ^ 53 ->
  is_finite pct = true -> (0 <= B2R pct)%R -> 0 <= count <= 2 ^ 50 ->
  let exact := (IZR (100 * heap) / IZR total)%R in
  (B2R pct < exact)%R ->
  exists q, quantity_to_prune heap total pct count = Some q /\
    (Rabs (IZR q - IZR count * ((exact - B2R pct) / exact)) < 2)%R.
Proof. exact quantity_accurate. Qed.
Print Assumptions C83_share_partial.

(** False in general: the multiplication by 100 wraps and nothing is pruned
    although the heap fills the memory and half of it is allowed. *)
Theorem C83_wrap_refuted : exists heap total (pct : f64) count,
  0 <= heap < 2 ^ 64 /\ 1 <= total < 2 ^ 64 /\ is_finite pct = true /\ (0 <= B2R pct <= 50)%R /\
  (IZR (100 * heap) / IZR total = 100)%R /\ count = 1000 /\
  quantity_to_prune heap total pct count = Some 0.
Proof. exact wraps. Qed.
Print Assumptions C83_wrap_refuted.

(** A case that meets the hypotheses: 8 GB of heap in 10 GB of memory, half
    allowed, a million envelopes. *)
Example C25_example : quantity_to_prune 8000000000 10000000000 (of_int 50) 1000000 = Some 375000.
Proof. vm_compute. reflexivity. Qed.
Example C25_example_pct : is_finite (of_int 50) = true /\ B2R (of_int 50) = 50%R.
Proof.
  destruct (of_int_spec 50 ltac:(cbn; discriminate)) as [H1 H2]. split; [exact H1|].
  rewrite H2. apply rnd_int. cbn. discriminate.
Qed.
Example C83_example :
  (B2R (of_int 50) < IZR (100 * 8000000000) / IZR 10000000000)%R.
Proof. rewrite (proj2 C25_example_pct), mult_IZR. lra. Qed.
