(** What a duration like -1h15m30s means. *)
From Coq Require Import Ascii String.
From stdpp Require Import prelude list.
From Verif.Base Require Import Dec.
Local Open Scope string_scope.
Local Open Scope Z_scope.

(** the units, in nanoseconds *)
Definition units : list (string * Z) :=
  [("ns", 1); ("us", 1000); (String "194" (String "181" "s"), 1000); (String "206" (String "188" "s"), 1000);
   ("ms", 1000000); ("s", 1000000000); ("m", 60 * 1000000000); ("h", 3600 * 1000000000)].
(** whole numbers of units, one after the other, and their sum *)
Inductive amounts : string -> Z -> Prop :=
| am_one d k u n : numeral d k -> (u, n) ∈ units -> amounts (String.append d u) (k * n)
| am_more d k u n s t : numeral d k -> (u, n) ∈ units -> amounts s t -> amounts (String.append (String.append d u) s) (k * n + t).
(** with a sign in front, or just zero *)
Inductive spells : string -> Z -> Prop :=
| sp_plain s n : amounts s n -> spells s n
| sp_plus s n : amounts s n -> spells (String "+" s) n
| sp_minus s n : amounts s n -> spells (String "-" s) (- n)
| sp_zero s : s = "0" \/ s = "+0" \/ s = "-0" -> spells s 0.
