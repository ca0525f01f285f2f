(** The store's own metrics beside the concurrent store (Model.v): log_cache_ingress and log_cache_expired are
    fields of [shared]; here log_cache_egress and log_cache_store_size.  The size gauge is written in two
    steps that are not one atomic action: the counter is read, then the gauge is set.
    Simplified: the numbers are integers, where the code has float64 (the same below 2^53). *)
From stdpp Require Import prelude gmap strings.
From Verif.Base Require Import GoInt Envelope.
From Verif.Store Require Import Avl GoHeap Model.
From Verif.StoreConc Require Import Model.
Open Scope Z_scope.

(** internal/cache/store/store.go:122 and 233: what is left to do of
    [setStoreSize.Set(float64(atomic.LoadInt64(&store.count)))] *)
Inductive pending := ToLoad | ToSet (v : Z).

(** store.go:54-61: the two metrics, and for each call the gauge update it has begun *)
Record mconfig := mk_mc {
  mc_cfg : config;
  mc_size : Z;                      (* log_cache_store_size *)
  mc_egress : Z;                    (* log_cache_egress *)
  mc_pend : gmap nat pending }.
Definition minitial (m : Z) : mconfig := mk_mc (initial m) 0 0 ∅.

(** Does the step from [th] to [th'] go on to set the gauge?  store.go:120-122 (a Put that does not
    evict) and 231-233 (the deferred function of a truncation that had something to prune) *)
Definition sets_size (s : shared) (th th' : thread) : bool :=
  match th, th' with
  | PIn _ _ a, PRoom _ _ _ => match sh_heap s !! a with Some sg => av_size (cs_tree sg) <? sh_max s | None => false end
  | TLoop _ _, TDone => true
  | _, _ => false
  end.
(** store.go:321: what the step adds to the egress counter *)
Definition egress_of (th th' : thread) : Z :=
  match th, th' with GIn _ _ _ _, GDone _ _ res => Z.of_nat (length res) | _, _ => 0 end.

(** A label of the store's schedule, or the two halves of a gauge update *)
Inductive mlabel := MStore (l : label) | MLoad (tid : nat) | MSet (tid : nat).
Definition mstep (c : mconfig) (l : mlabel) : option mconfig :=
  if existsb is_panicked (cf_threads (mc_cfg c)) then None
  else
    match l with
    | MStore (LCall x) => c' ← cstep (mc_cfg c) (LCall x); Some (mk_mc c' (mc_size c) (mc_egress c) (mc_pend c))
    | MStore (LStep tid ch) =>
        match mc_pend c !! tid with
        | Some _ => None
        | None =>
            th ← cf_threads (mc_cfg c) !! tid;
            c' ← cstep (mc_cfg c) (LStep tid ch);
            th' ← cf_threads c' !! tid;
            Some (mk_mc c' (mc_size c) (mc_egress c + egress_of th th')
                    (if sets_size (cf_sh (mc_cfg c)) th th'
                     then <[tid := ToLoad]> (mc_pend c) else mc_pend c))
        end
    | MLoad tid =>
        match mc_pend c !! tid with
        | Some ToLoad => Some (mk_mc (mc_cfg c) (mc_size c) (mc_egress c) (<[tid := ToSet (sh_count (cf_sh (mc_cfg c)))]> (mc_pend c)))
        | _ => None
        end
    | MSet tid =>
        match mc_pend c !! tid with
        | Some (ToSet v) => Some (mk_mc (mc_cfg c) v (mc_egress c) (delete tid (mc_pend c)))
        | _ => None
        end
    end.
Fixpoint mrun (c : mconfig) (ls : list mlabel) : option mconfig :=
  match ls with [] => Some c | l :: ls' => c' ← mstep c l; mrun c' ls' end.
