(** The wire format is the documented one: C164, second part. *)
From Coq Require Import Ascii String.
From stdpp Require Import prelude strings list.
From Verif.Json Require Import Spec SpecPb.
From Verif.Wire Require Import Format Spec SpecFormat Grammar.
Open Scope string_scope.
Open Scope list_scope.
Open Scope Z_scope.

(** The bytes that are read are exactly the messages of the documented grammar, and what is read is what they say: whoever wrote them, and
    however long they made their numbers. *)
Theorem C164_format_read : forall s fs, read_fields s = Some fs <-> message fs s.
Proof. exact read_iff. Qed.
Print Assumptions C164_format_read.
(** What is written is such a message, with every number in as few bytes as it takes. *)
Theorem C164_format_write : forall fs, legal fs -> message fs (write_fields fs).
Proof. exact write_message. Qed.
Print Assumptions C164_format_write.
Theorem C164_format_short : forall n, uint64 n ->
  varint n (write_varint n) /\ forall s, base128 n s -> (String.length (write_varint n) <= String.length s)%nat.
Proof. exact write_varint_minimal. Qed.
Print Assumptions C164_format_short.
(** 150 in field 1, in two bytes and in three *)
Example C164_format_case :
  message [(1, Varint 150)] (String "008" (String "150" (String "001" ""))) /\
  read_fields (String "008" (String "150" (String "129" (String "000" "")))) = Some [(1, Varint 150)] /\
  message [(2, Bytes "hi"); (3, Fixed32 258)] (String "018" (String "002" "hi") +:+ String "029" (String "002" (String "001" (String "000" (String "000" ""))))) /\
  legal [(2, Bytes "hi"); (3, Fixed32 258)].
Proof.
  split; [apply read_iff; by vm_compute|]. split; [by vm_compute|]. split; [apply read_iff; by vm_compute|]. repeat constructor; cbn; lia.
Qed.
