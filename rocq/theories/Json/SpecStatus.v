(** The HTTP status of a gRPC code, as gRPC documents it (google/rpc/code.proto), for a cancelled call 408. *)
From Coq Require Import ZArith List.
From stdpp Require Import prelude list.
Open Scope Z_scope.

Definition canonical : list (Z * Z) :=
  [(1, 408) (* cancelled *); (2, 500) (* unknown *); (3, 400) (* invalid argument *); (4, 504) (* deadline exceeded *);
   (5, 404) (* not found *); (6, 409) (* already exists *); (7, 403) (* permission denied *); (8, 429) (* resource exhausted *);
   (9, 400) (* failed precondition *); (10, 409) (* aborted *); (11, 400) (* out of range *); (12, 501) (* unimplemented *);
   (13, 500) (* internal *); (14, 503) (* unavailable *); (15, 500) (* data loss *); (16, 401) (* unauthenticated *)].
(** A code that gRPC does not have is an internal error *)
Definition documented (code st : Z) : Prop := (code, st) ∈ canonical \/ (code ∉ canonical.*1 /\ st = 500).
