(** Concrete histories used as witnesses beside the store theorems. *)
From stdpp Require Import prelude gmap strings.
From Verif.Base Require Import GoInt Envelope.
From Verif.Store Require Import Avl AvlProofs GoHeap Model Spec.
Open Scope Z_scope.

Definition log_at (ts : Z) (inst : string) : envelope := mk_env ts "a" inst ∅ ∅ (MLog "x" false).
Definition putA (ts : Z) : op := OPut (log_at ts "0") "a" 100.
Definition putB (ts : Z) : op := OPut (log_at ts "1") "a" 100.
Definition everything (limit : Z) : query := mk_query (-1000) 100000 None None limit false.
Definition window (a b limit : Z) : query := mk_query a b None None limit false.

(** two sources, an eviction, equal timestamps and a truncation *)
Definition small_history : list op :=
  [ putA 5; putA 5; putA 7; OPut (log_at 6 "b") "b" 100; putA 9;
    OGet "a" (everything 10); OMeta; OTruncate 2 ["b"] 120; putA 12 ].

(** 4000 storage times taken from 0 on, then two more envelopes with timestamp 0 *)
Definition crowd : list op := (putA <$> seqZ 0 4000) ++ [putA 0].

(** runs of equal timestamps that overlap later timestamps *)
Definition overlap : list op := putA <$> [5; 5; 5; 6; 7; 5; 11; 12].

(** two sources; truncating one envelope leaves the global oldest behind the wrong heap slot *)
Definition two_sources : list op :=
  [ OPut (log_at 1 "0") "a" 100; OPut (log_at 2 "0") "a" 100; OPut (log_at 3 "0") "b" 100;
    OTruncate 1 [] 200 ].

Lemma opt_witness {A} (o : option A) (f : A -> bool) :
  (match o with Some a => f a | None => false end) = true -> ∃ a, o = Some a ∧ f a = true.
Proof. destruct o as [a|]; [|done]. intros H. by exists a. Qed.
