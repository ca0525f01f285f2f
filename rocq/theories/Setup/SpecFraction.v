(** What a duration like -1.5h.25s means, given what a fraction of a unit is rounded to. *)
From Coq Require Import Ascii String.
From stdpp Require Import prelude list.
From Verif.Base Require Import Dec.
From Verif.Setup Require Import SpecDuration.
Local Open Scope string_scope.
Local Open Scope Z_scope.

Section fraction.
(** [portion x k unit] is x / 10^k of the unit, rounded *)
Variable portion : Z -> Z -> Z -> Z.
(** an amount: a whole number of units, or one with up to eighteen digits after a point; there may be none before it *)
Inductive amount : string -> Z -> Prop :=
| am_whole d k u n : numeral d k -> (u, n) ∈ units -> amount (String.append d u) (k * n)
| am_point d k f x u n : (d = "" /\ k = 0) \/ numeral d k -> numeral f x -> (String.length f <= 18)%nat -> (u, n) ∈ units ->
    amount (String.append d (String.append "." (String.append f u)))
           (k * n + if decide (x = 0) then 0 else portion x (Z.of_nat (String.length f)) n)
| am_bare d k u n : numeral d k -> (u, n) ∈ units -> amount (String.append d (String.append "." u)) (k * n).
(** amounts one after the other, and their sum *)
Inductive mixed : string -> Z -> Prop :=
| mx_one s n : amount s n -> mixed s n
| mx_more s n s' n' : amount s n -> mixed s' n' -> mixed (String.append s s') (n + n').
End fraction.
