(** What the texts of times (RFC 3339) and of durations (Prometheus) mean. *)
From Coq Require Import Ascii String.
From stdpp Require Import prelude list.
From Verif.Base Require Import GoInt Dec.
Local Open Scope string_scope.
Local Open Scope Z_scope.

(** ** The calendar *)
(** RFC 3339, appendix C *)
Definition leap (y : Z) : Prop := (4 | y) /\ (~ (100 | y) \/ (400 | y)).
Inductive month_length (y : Z) : Z -> Z -> Prop :=
| long m : m ∈ [1; 3; 5; 7; 8; 10; 12] -> month_length y m 31
| short m : m ∈ [4; 6; 9; 11] -> month_length y m 30
| february : ~ leap y -> month_length y 2 28
| leap_february : leap y -> month_length y 2 29.
Notation date := (Z * Z * Z)%type. (* year, month, day *)
Definition real (x : date) : Prop := let '(y, m, d) := x in exists n, month_length y m n /\ 1 <= d <= n.
Inductive next_day : date -> date -> Prop :=
| within y m d n : month_length y m n -> 1 <= d < n -> next_day (y, m, d) (y, m, d + 1)
| new_month y m n : month_length y m n -> 1 <= m < 12 -> next_day (y, m, n) (y, m + 1, 1)
| new_year y : next_day (y, 12, 31) (y + 1, 1, 1).
(** the date that lies n days after 1 January 1970 *)
Inductive dated : Z -> date -> Prop :=
| epoch : dated 0 (1970, 1, 1)
| later n x y : dated n x -> next_day x y -> dated (n + 1) y
| earlier n x y : dated n y -> next_day x y -> dated (n - 1) x.

(** ** RFC 3339 *)
Definition digits_of (k : nat) (s : string) (n : Z) : Prop := numeral s n /\ String.length s = k.
(** the part of a second after it, in nanoseconds: up to nine digits *)
Inductive fraction : string -> Z -> Prop :=
| whole : fraction "" 0
| part k f n : digits_of k f n -> (k <= 9)%nat -> fraction (String "." f) (n * 10 ^ (9 - Z.of_nat k)).
(** seconds east of UTC; [P] tells how hours and minutes are written *)
Inductive zone (P : string -> Z -> Prop) : string -> Z -> Prop :=
| utc : zone P "Z" 0
| east a b h m : P a h -> P b m -> zone P ("+" ++ a ++ ":" ++ b) (h * 3600 + m * 60)
| west a b h m : P a h -> P b m -> zone P ("-" ++ a ++ ":" ++ b) (- (h * 3600 + m * 60)).
(** [hour] tells how the hour is written, [P] the parts of the zone: the text, and nanoseconds since 1970 *)
Inductive moment (hour P : string -> Z -> Prop) : string -> Z -> Prop :=
| at_moment Y M D h mi se f z y mo d ho mn sc ns off n :
    digits_of 4 Y y -> digits_of 2 M mo -> digits_of 2 D d -> hour h ho -> digits_of 2 mi mn -> digits_of 2 se sc ->
    real (y, mo, d) -> dated n (y, mo, d) -> ho < 24 -> mn < 60 -> sc < 60 -> fraction f ns -> zone P z off ->
    moment hour P (Y ++ "-" ++ M ++ "-" ++ D ++ "T" ++ h ++ ":" ++ mi ++ ":" ++ se ++ f ++ z)
      ((n * 86400 + ho * 3600 + mn * 60 + sc - off) * 1000000000 + ns).
(** as RFC 3339 has it (without leap seconds, lower case letters and more than nine digits; hours of a zone up to 59) *)
Definition rfc3339 : string -> Z -> Prop :=
  moment (digits_of 2) (fun s n => digits_of 2 s n /\ n < 60).
(** as the library has it: the hour may have one digit; the parts of the zone may be any two digits, or a sign and a digit *)
Definition some_hour (s : string) (n : Z) : Prop := digits_of 1 s n \/ digits_of 2 s n.
Definition some_offset (s : string) (n : Z) : Prop := signed_numeral s n /\ String.length s = 2%nat.
Definition loose3339 : string -> Z -> Prop := moment some_hour some_offset.

(** ** Durations: a whole number of one unit *)
Definition second : Z := 1000000000.
Definition prometheus_units : list (string * Z) :=
  [("ms", 1000000); ("s", second); ("m", 60 * second); ("h", 3600 * second); ("d", 24 * 3600 * second);
   ("w", 7 * 24 * 3600 * second); ("y", 365 * 24 * 3600 * second)].
(** the number and the unit of a duration *)
Definition duration_of (s : string) (n unit : Z) : Prop := exists d u, numeral d n /\ (u, unit) ∈ prometheus_units /\ s = d ++ u.
