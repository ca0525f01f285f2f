(** What a query string means, said without the functions of the model. *)
From Coq Require Import Ascii String.
From stdpp Require Import prelude strings list.
Open Scope string_scope.
Open Scope list_scope.

(** [c] is a hexadecimal digit, of either case, and its value is [n]. *)
Definition hex (c : ascii) (n : nat) : Prop :=
  String.get n "0123456789abcdef" = Some c \/ String.get n "0123456789ABCDEF" = Some c.

(** The text which a percent-encoded word stands for: a plus sign is a space, a percent sign and two
    hexadecimal digits are the byte they number, any other byte is itself.  A word with a percent sign not
    followed by two hexadecimal digits stands for nothing. *)
Inductive stands_for : string -> string -> Prop :=
| for_nothing : stands_for "" ""
| for_space w s : stands_for w s -> stands_for (String "+" w) (String " " s)
| for_byte a b x y w s : hex a x -> hex b y -> stands_for w s ->
    stands_for (String "%" (String a (String b w))) (String (ascii_of_nat (16 * x + y)) s)
| for_itself c w s : c <> "+"%char -> c <> "%"%char -> stands_for w s -> stands_for (String c w) (String c s).

(** [c] does not occur in [w]. *)
Definition without (c : ascii) (w : string) : Prop := forall a b, w <> append a (String c b).

(** [q] cut at its ampersands and semicolons *)
Inductive pieces : string -> list string -> Prop :=
| one_piece w : without "&" w -> without ";" w -> pieces w [w]
| more_pieces w c q ws : without "&" w -> without ";" w -> c = "&"%char \/ c = ";"%char -> pieces q ws ->
    pieces (append w (String c q)) (w :: ws).

(** A piece gives the parameter [k] the value [x]: key=value, cut at the first equals sign, or a key alone,
    with the empty value. *)
Inductive gives : string -> string -> string -> Prop :=
| gives_value a b k x : without "=" a -> stands_for a k -> stands_for b x -> gives (append a (String "=" b)) k x
| gives_alone w k : w <> "" -> without "=" w -> stands_for w k -> gives w k "".

(** The values of the parameter [k], in the order of the pieces *)
Inductive values_of (k : string) : list string -> list string -> Prop :=
| values_none : values_of k [] []
| values_more w x ws xs : gives w k x -> values_of k ws xs -> values_of k (w :: ws) (x :: xs)
| values_skip w ws xs : (forall x, ~ gives w k x) -> values_of k ws xs -> values_of k (w :: ws) xs.
Definition says (q k : string) (xs : list string) : Prop := exists ws, pieces q ws /\ values_of k ws xs.
