(** How reads are passed on from node to node. *)
From stdpp Require Import prelude list.
From Verif.Routing Require Import Model.
Open Scope nat_scope.

(** Node a passes a read of a source with these owners on to node b: its table names b for it, and not a itself *)
Definition passes (owners : node -> list nat) (c : list node) (a b : nat) : Prop :=
  ∃ m, c !! a = Some m ∧ a ∉ owners m ∧ b ∈ owners m.
(** a walk that does not end *)
Definition endless (owners : node -> list nat) (c : list node) (j : nat) : Prop :=
  ∃ f : nat -> nat, f 0 = j ∧ ∀ n, passes owners c (f n) (f (S n)).
