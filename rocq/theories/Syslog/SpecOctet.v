(** RFC 6587, octet counting: a frame is the length of the message in decimal, without leading zeros, a space and the message. *)
From Coq Require Import Ascii String.
From stdpp Require Import prelude list.
From Verif.Base Require Import Dec.

(** d is the decimal numeral of the length of m *)
Definition counts (d m : string) : Prop :=
  numeral d (Z.of_nat (String.length m)) ∧ String.get 0 d ≠ Some "0"%char.
Definition frame (m f : string) : Prop := ∃ d, counts d m ∧ f = append d (append " " m).
(** a frame, or one with a zero byte after the length *)
Definition loose_frame (m f : string) : Prop :=
  ∃ d, counts d m ∧ (f = append d (append " " m) ∨ f = append d (String "000" (append " " m))).
(** the text is one F after the other, of these messages *)
Inductive stream (F : string -> string -> Prop) : list string -> string -> Prop :=
| stream_nil : stream F [] EmptyString
| stream_cons m f ms s : F m f -> stream F ms s -> stream F (m :: ms) (append f s).
