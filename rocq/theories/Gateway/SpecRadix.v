(** Vocabulary: the numbers the gateway takes, and what the parameters of a read mean with them. *)
From Coq Require Import Ascii String.
From stdpp Require Import prelude strings gmap list.
From Verif.Base Require Import Envelope.
From Verif.Routing Require Import Model.
From Verif.Gateway Require Import Model Spec.
Open Scope string_scope.
Open Scope list_scope.
Open Scope Z_scope.

Definition digit_table : list (ascii * Z) :=
  [("0",0); ("1",1); ("2",2); ("3",3); ("4",4); ("5",5); ("6",6); ("7",7); ("8",8); ("9",9);
   ("a",10); ("b",11); ("c",12); ("d",13); ("e",14); ("f",15);
   ("A",10); ("B",11); ("C",12); ("D",13); ("E",14); ("F",15)]%char.
(** A non-empty string of digits in base b, and its value *)
Inductive radix (b : Z) : string -> Z -> Prop :=
| radix_one c d : (c, d) ∈ digit_table -> d < b -> radix b (String c "") d
| radix_more s n c d : radix b s n -> (c, d) ∈ digit_table -> d < b -> radix b (append s (String c "")) (b * n + d).
(** Decimal, or octal after a leading 0, or hexadecimal after 0x *)
Definition literal (x : string) (n : Z) : Prop :=
  radix 10 x n /\ (forall s, x <> String "0" s) \/
  x = "0" /\ n = 0 \/
  (exists s, x = String "0" s /\ radix 8 s n) \/
  (exists s, x = append "0x" s /\ radix 16 s n) \/
  (exists s, x = append "0X" s /\ radix 16 s n).
Definition signed_literal (x : string) (n : Z) : Prop :=
  literal x n \/ (exists s, x = append "+" s /\ literal s n) \/ (exists s, x = append "-" s /\ literal s (- n)).
(** The value of a numeric parameter: 0 if it is absent, otherwise the first one's, which must fit 64 bits *)
Definition int_taken (v : gmap string (list string)) (k : string) (n : Z) : Prop :=
  match v !! k with
  | None => n = 0
  | Some vs => exists x rest, vs = x :: rest /\ signed_literal x n /\ - 2^63 <= n < 2^63
  end.
Definition read_takes (v : gmap string (list string)) (id : string) (r : read_request) : Prop :=
  rr_source r = id /\ int_taken v "start_time" (rr_start r) /\ int_taken v "end_time" (rr_end r) /\
  int_taken v "limit" (rr_limit r) /\ types_given v "envelope_types" (rr_types r) /\
  bool_given v "descending" (rr_desc r) /\ text_given v "name_filter" (rr_name r).
