(** Vocabulary of the properties of the blackbox (C138-C140).  Nothing here mentions how the blackbox works. *)
From Coq Require Import ZArith.
From stdpp Require Import prelude list.
Open Scope Z_scope.

(** The timestamp (nanoseconds since 1970) is a whole number of intervals after the year 1. *)
Definition aligned (interval ts : Z) : Prop := (interval | ts + 62135596800 * 1000000000).
(** The one such timestamp in force at the time [now]. *)
Definition slot (interval now ts : Z) : Prop := aligned interval ts /\ ts <= now < ts + interval.
(** [l]: the timestamps due from [start] (included) for the time [window]: each interval's one. *)
Definition due (interval start window : Z) (l : list Z) : Prop :=
  NoDup l /\ forall ts, ts ∈ l <-> aligned interval ts /\ start <= ts < start + window.
Definition second : Z := 1000000000.
