(** Passes of the truncation loop on a store whose envelopes take up memory (store.go:166-179 truncationLoop, 205-251
    truncate, prune_consultant.go:35-50, memory_analyzer.go:38-57).  What Memory reports is a function of the store here:
    the heap is what everything else takes, plus what each stored envelope takes; nothing is written between passes, and the
    garbage collector has freed what is no longer referenced before the next pass reads the heap. *)
From Coq Require Import String ZArith.
From stdpp Require Import prelude list.
From Verif.Base Require Import Envelope.
From Verif.Store Require Import Model Spec.
From Verif.Prune Require Import Model.
Open Scope Z_scope.

(** the bytes a list of stored envelopes takes *)
Fixpoint bytes (w : string * (Z * envelope) -> Z) (l : list (string * (Z * envelope))) : Z :=
  match l with [] => 0 | x :: l' => w x + bytes w l' end.
Definition heap_of (base : Z) w (s : store) : Z := base + bytes w (all_stored s).

(** one pass: the consultant is asked with the heap, the memory of the machine and the count of the store *)
Definition pass (base total : Z) (pct : f64) w (tick : list string * Z) (s : store) : option store :=
  match quantity_to_prune (heap_of base w s) total pct (st_count s) with
  | Some q => truncate q tick.1 tick.2 s
  | None => None
  end.
Fixpoint passes (base total : Z) (pct : f64) w (ticks : list (list string * Z)) (s : store) : option store :=
  match ticks with
  | [] => Some s
  | tick :: ticks' => match pass base total pct w tick s with Some s' => passes base total pct w ticks' s' | None => None end
  end.
