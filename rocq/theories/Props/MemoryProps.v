(** Property of the memory limit (C178), followed by cases meeting its hypotheses.  Vocabulary: Store/Spec.v (all_stored,
    uncrowded, op_ok).  Programs: Prune/Loop.v: pass is one run of the truncation loop, passes several; heap_of is the heap
    in use, [base] what is not envelopes and [w] what each stored envelope takes.  [pct] is the configured percentage. *)
From Coq Require Import String ZArith Reals Lra Lia.
From stdpp Require Import prelude list.
From Verif.Base Require Import Envelope GoInt.
From Verif.Store Require Import Model Spec Witness ProofsFinal.
From Flocq Require Import Core BinarySingleNaN.
From Verif.Prune Require Import Model Proofs Loop LoopProofs.
Open Scope Z_scope.

(** ** C178 *)
(** After any history, if all that is not envelopes takes at most half of what may be used, the truncation loop brings the
    heap down to the limit: with each pass the excess over the limit and four envelopes shrinks by the factor
    1 - lo / (2 hi), where an envelope takes between lo and hi bytes.  What is removed is older than what is kept. *)
Theorem C178_passes : forall m ops s total (pct : f64) base lo hi w ticks,
  1 <= m -> uncrowded m ops -> Forall op_ok ops -> Z.of_nat (length ops + length ticks) < 2^63 ->
  run (new_store m) ops = Some s ->
  1 <= total <= 2^53 -> is_finite pct = true -> (0 <= B2R pct)%R ->
  0 <= base -> 1 <= lo <= hi -> (forall x, x ∈ all_stored s -> lo <= w x <= hi) ->
  heap_of base w s * 100 <= 2^53 -> Z.of_nat (length (all_stored s)) <= 2^50 ->
  let limit := (B2R pct * IZR total / 100)%R in
  (2 * IZR base <= limit)%R ->
  exists s' removed, passes base total pct w ticks s = Some s' /\
  Permutation (all_stored s) (removed ++ all_stored s') /\
  (forall x y, x ∈ removed -> y ∈ all_stored s' -> x.2.1 <= y.2.1) /\
  (IZR (heap_of base w s') <= limit + 4 * IZR hi +
     (1 - IZR lo / (2 * IZR hi)) ^ length ticks * Rmax 0 (IZR (heap_of base w s) - (limit + 4 * IZR hi)))%R.
Proof.
  intros m ops s total pct base lo hi w ticks Hm Hu Hok Hlen Hrun Ht Hf Hp Hb Hl Hw Hh Hc limit Hb2.
  assert (Hheld : held m ops s) by (constructor; [done|done|done|lia|done]).
  assert (Hc' : st_count s <= 2^50).
  { pose proof Hrun as Hr. apply size_exact in Hr as [_ ->]; [done|done|done|done|lia]. }
  destruct (many total pct base lo hi w Ht Hf Hp Hb Hl ticks m ops s Hheld Hlen Hw Hh Hc' Hb2) as (s' & Ep & (removed & Hperm & Hold) & Hbound).
  exists s', removed. split; [done|]. split; [done|]. split; [done|]. unfold limit. fold (LoopProofs.limit total pct).
  replace (IZR (heap_of base w s) - (LoopProofs.limit total pct + 4 * IZR hi))%R with (IZR (heap_of base w s) - LoopProofs.limit total pct - 4 * IZR hi)%R by lra.
  lra.
Qed.
Print Assumptions C178_passes.

(** One pass: nothing is removed at or below the limit; above it as much as brings envelopes of one size, if there is nothing
    else, to within two envelopes of the limit. *)
Theorem C178_pass : forall m ops s total (pct : f64) size tick,
  1 <= m -> uncrowded m ops -> Forall op_ok ops -> Z.of_nat (length ops) < 2^63 ->
  run (new_store m) ops = Some s ->
  1 <= total <= 2^53 -> is_finite pct = true -> (0 <= B2R pct)%R ->
  1 <= size -> heap_of 0 (fun _ => size) s * 100 <= 2^53 -> Z.of_nat (length (all_stored s)) <= 2^50 ->
  let limit := (B2R pct * IZR total / 100)%R in
  exists s', pass 0 total pct (fun _ => size) tick s = Some s' /\
  ((IZR (heap_of 0 (fun _ => size) s) <= limit)%R -> s' = s) /\
  ((limit < IZR (heap_of 0 (fun _ => size) s))%R ->
   (limit - 2 * IZR size <= IZR (heap_of 0 (fun _ => size) s') <= limit + 2 * IZR size)%R).
Proof.
  intros m ops s total pct size tick Hm Hu Hok Hlen Hrun Ht Hf Hp Hsz Hh Hc limit.
  assert (Hheld : held m ops s) by (by constructor).
  assert (Hc' : st_count s <= 2^50) by (pose proof Hrun as Hr; by apply size_exact in Hr as [_ ->]).
  destruct (one_pass total pct 0 size size (fun _ => size) Ht Hf Hp ltac:(lia) ltac:(lia) m ops s tick Hheld ltac:(intros x Hx; cbn; lia) Hh Hc')
    as (s' & Ep & _ & _ & Hsame & Hmore).
  exists s'. split; [done|]. split; [exact Hsame|]. intros Hgt. specialize (Hmore Hgt). cbn zeta in Hmore.
  fold (LoopProofs.limit total pct) in limit. unfold limit in *. clear limit.
  assert (L0 : (0 <= LoopProofs.limit total pct)%R).
  { unfold LoopProofs.limit. assert (0 < IZR total)%R by (apply IZR_lt; lia). apply Rmult_le_pos; [apply Rmult_le_pos; lra|lra]. }
  set (H := IZR (heap_of 0 (fun _ => size) s)) in *. set (L := LoopProofs.limit total pct) in *.
  change (bytes (fun _ => size) (all_stored s)) with (heap_of 0 (fun _ => size) s) in Hmore. fold H in Hmore.
  assert (S1 : (1 <= IZR size)%R) by (by apply IZR_le). assert (HH : (0 < H)%R) by lra.
  assert (E : (H / IZR size * (H - L) / H = (H - L) / IZR size)%R) by (field; lra). rewrite E in Hmore.
  assert (E2 : (IZR size * ((H - L) / IZR size + 2) = H - L + 2 * IZR size)%R) by (field; lra).
  assert (E3 : (IZR size * ((H - L) / IZR size - 2) = H - L - 2 * IZR size)%R) by (field; lra). rewrite E2, E3 in Hmore. lra.
Qed.
Print Assumptions C178_pass.
(** Eight envelopes of 100 bytes beside 100 bytes of other things on a machine with 1000 bytes, of which half may be used:
    two passes. *)
Definition eight : list op := (fun k => OPut (log_at k "x") "a" 0) <$> [1; 2; 3; 4; 5; 6; 7; 8].
Example C178_case : exists s, run (new_store 100) eight = Some s /\ heap_of 100 (fun _ => 100) s = 900 /\
  (exists s', passes 100 1000 (of_int 50) (fun _ => 100) [([], 0); ([], 0)] s = Some s' /\ heap_of 100 (fun _ => 100) s' = 600 /\
     (stored s' "a").*1 = [4; 5; 6; 7; 8]) /\
  (exists s', pass 0 1000 (of_int 50) (fun _ => 100) ([], 0) s = Some s' /\ heap_of 0 (fun _ => 100) s' = 500) /\
  uncrowded 100 eight /\ Forall op_ok eight /\ (2 * 100 <= B2R (of_int 50) * 1000 / 100)%R.
Proof.
  eexists. split; [vm_compute; reflexivity|]. split; [vm_compute; reflexivity|].
  split; [eexists; split; [vm_compute; reflexivity|]; split; vm_compute; reflexivity|].
  split; [eexists; split; [vm_compute; reflexivity|vm_compute; reflexivity]|].
  split; [left; lia|]. split; [repeat constructor|]. destruct (of_int_exact 50 ltac:(lia)) as [_ ->]. lra.
Qed.
