(** Vocabulary for the properties of the ring buffer and its users. *)
From stdpp Require Import prelude.
From Coq Require Import NArith.

(** What a consumer of a buffer observes: a value, or a notice that so many
    values were dropped. *)
Inductive obs (A : Type) := Got (x : A) | Dropped (k : N).
Arguments Got {A} _.
Arguments Dropped {A} _.

(** [explains xs os]: the observations account for every value of [xs], once
    and in order: each is either delivered or counted in a notice made at the
    place where it is missing. *)
Inductive explains {A} : list A -> list (obs A) -> Prop :=
  | ex_nil : explains [] []
  | ex_got x xs os : explains xs os -> explains (x :: xs) (Got x :: os)
  | ex_dropped ys k xs os :
      N.of_nat (length ys) = k -> explains xs os -> explains (ys ++ xs) (Dropped k :: os).

(** The values delivered and the number of values reported as dropped. *)
Fixpoint got {A} (os : list (obs A)) : list A :=
  match os with [] => [] | Got x :: os => x :: got os | Dropped _ :: os => got os end.
Fixpoint dropped {A} (os : list (obs A)) : N :=
  match os with [] => 0 | Got _ :: os => dropped os | Dropped k :: os => (k + dropped os)%N end.

(** The values a history of operations puts in. *)
Inductive bufop (A : Type) := Put (x : A) | Next.
Arguments Put {A} _.
Arguments Next {A}.
Fixpoint puts {A} (ops : list (bufop A)) : list A :=
  match ops with [] => [] | Put x :: ops => x :: puts ops | Next :: ops => puts ops end.

(** The envelopes carried by a list of batches. *)
Notation envelopes_of := concat (only parsing).

(** The number of envelopes in the batches that satisfy a test. *)
Definition count_in {A} (bs : list (list A)) : N := N.of_nat (length (concat bs)).

(** The batches of a list that are marked, and those that are not. *)
Definition marked {A} (l : list (bool * A)) : list A :=
  omap (fun p : bool * A => if p.1 then Some p.2 else None) l.
Definition unmarked {A} (l : list (bool * A)) : list A :=
  omap (fun p : bool * A => if p.1 then None else Some p.2) l.
