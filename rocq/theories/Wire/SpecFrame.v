(** Vocabulary: sizes on the wire. *)
From Coq Require Import Ascii String.
From stdpp Require Import prelude strings list gmap.
From Verif.Base Require Import Envelope.
From Verif.Wire Require Import Format Model Node.
Open Scope Z_scope.

Definition bytes (s : string) : Z := Z.of_nat (String.length s).
(** four megabytes, what a gRPC peer takes unless it is told otherwise *)
Definition takes (s : string) : Prop := bytes s <= 4 * 1024 * 1024.
(** the size of an envelope as protobuf *)
Definition encoded_size (e : envelope) : Z := bytes (write_fields (enc_envelope e)).
(** the request of a call is not larger than a peer takes *)
Definition small (c : call) : Prop :=
  match c with CallSend _ b | CallRead _ b | CallMeta b => takes b | Tick _ _ _ => True end.
Global Instance takes_dec s : Decision (takes s) := Z_le_dec _ _.
Global Instance small_dec c : Decision (small c).
Proof. destruct c; cbn; apply _. Defined.

(** a text of n letters *)
Fixpoint letters (c : ascii) (k : nat) : string := match k with O => EmptyString | S k => String c (letters c k) end.
Definition many (c : ascii) (n : Z) : string := letters c (Z.to_nat n).
(** a log of n bytes *)
Definition big_log (ts : Z) (src : string) (n : Z) : envelope := mk_env ts src "" ∅ ∅ (MLog (many "x" n) false).
