(** Vocabulary for what a running cluster still has and gives out. *)
From stdpp Require Import prelude strings list.
From Verif.Base Require Import GoInt Envelope.
From Verif.Routing Require Import Model Spec.
From Verif.Whole Require Import Model.
Open Scope Z_scope.

(** The events since node k last restarted. *)
Definition life (k : nat) (tr : list event) : list event :=
  foldl (fun acc ev => match ev with
                       | VRestart i _ => if decide (i = k) then [] else acc ++ [ev]
                       | _ => acc ++ [ev] end) [] tr.

(** The envelopes of a source that have arrived at node k. *)
Definition arrived (k : nat) (src : string) (tr : list event) : list envelope :=
  ev ← tr; match ev with VArrive j es => if decide (j = k) then of_source src es else [] | _ => [] end.

(** The envelopes of a source that will not arrive anywhere. *)
Definition lost (src : string) (tr : list event) : list envelope :=
  ev ← tr; match ev with VLose _ e => of_source src [e] | _ => [] end.

(** The bound per source of node k's store. *)
Definition bound (ms : list Z) (k : nat) (tr : list event) : Z :=
  foldl (fun m ev => match ev with VRestart i m' => if decide (i = k) then m' else m | _ => m end) (default 0 (ms !! k)) tr.

(** The table node i routes by. *)
Definition table_of (i : nat) (tr : list event) : list rinfo :=
  foldl (fun t ev => match ev with
                     | VTable j t' => if decide (j = i) then t' else t
                     | VRestart j _ => if decide (j = i) then [] else t
                     | _ => t end) [] tr.

(** ** A source that holds at most m envelopes, in time order *)
Fixpoint by_time (e : envelope) (l : list envelope) : list envelope :=
  match l with [] => [e] | x :: l' => if e_ts e <? e_ts x then e :: l else x :: by_time e l' end.
(** when it is full the earliest makes room *)
Definition keep (m : Z) (l : list envelope) (e : envelope) : list envelope :=
  by_time e (if m <=? Z.of_nat (length l) then tail l else l).

(** [holds ms k src tr l]: after these events node k may hold l of the source: what arrived is kept, the earliest make room,
    pruning takes some of the earliest, and a restart takes everything. *)
Inductive holds (ms : list Z) (k : nat) (src : string) : list event -> list envelope -> Prop :=
| holds_start : holds ms k src [] []
| holds_arrive tr l es : holds ms k src tr l ->
    holds ms k src (tr ++ [VArrive k es]) (foldl (keep (bound ms k tr)) l (of_source src es))
| holds_prune tr older newer n pri : holds ms k src tr (older ++ newer) -> holds ms k src (tr ++ [VPrune k n pri]) newer
| holds_restart tr m : holds ms k src (tr ++ [VRestart k m]) []
| holds_other tr l ev :
    match ev with VArrive j _ | VPrune j _ _ | VRestart j _ => j ≠ k | _ => True end ->
    holds ms k src tr l -> holds ms k src (tr ++ [ev]) l.

(** No two of them have the same timestamp. *)
Definition distinct_times (l : list envelope) : Prop :=
  Forall (fun e => in64 (e_ts e)) l ∧ NoDup (e_ts <$> l).

(** Whenever envelopes of the source are sent to a node, it finds in its table that node k, and no other, has the source;
    or they are sent to node k, to stay there. *)
Definition routed (hash : string -> Z) (k : nat) (src : string) (tr : list event) : Prop :=
  ∀ pre i r post, tr = pre ++ VSend i r :: post -> of_source src (get_batch r) ≠ [] ->
    if sr_local_only r then i = k else lookup (hash src) (table_of i pre) = [k].
