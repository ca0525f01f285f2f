(** Vocabulary: texts of the same number, and how many digits one has. *)
From Coq Require Import Ascii String.
From stdpp Require Import prelude strings.
From Verif.Base Require Import Envelope Dec.
From Verif.Auth Require Import SpecDocs.
From Verif.Json Require Import Pb.
From Verif.Float Require Import Spec.
Open Scope string_scope.
Open Scope Z_scope.

(** the text is a decimal of up to n significant digits: zeros before the first and after the last digit do not count *)
Definition up_to (n : Z) (t : string) : Prop :=
  exists m k, stands_for t m k /\ Spec.digits (m * 10 ^ Z.max k 0) (10 ^ Z.max (- k) 0) n.
(** it is not beyond the greatest float64 (1.8e308) ... *)
Definition not_huge (t : string) : Prop := exists m k, stands_for t m k /\ ~ out_of_range (m * 10 ^ Z.max k 0) (10 ^ Z.max (- k) 0).
(** ... and not under 2^-1022 (2.3e-308), from where on float64 has fewer bits *)
Definition not_tiny (t : string) : Prop := exists m k, stands_for t m k /\ 10 ^ Z.max (- k) 0 <= m * 10 ^ Z.max k 0 * 2 ^ 1022.
(** two texts of one number *)
Definition same_number (t t' : string) : Prop := exists m k m' k', stands_for t m k /\ stands_for t' m' k' /\
  m * 10 ^ Z.max k 0 * 10 ^ Z.max (- k') 0 = m' * 10 ^ Z.max k' 0 * 10 ^ Z.max (- k) 0.
(** the text is the word (in small letters), each letter small or capital *)
Inductive any_case : string -> string -> Prop :=
| case_nil : any_case "" ""
| case_small c w s : any_case w s -> any_case (String c w) (String c s)
| case_capital c c' w s : (97 <= nat_of_ascii c <= 122)%nat -> (nat_of_ascii c = nat_of_ascii c' + 32)%nat -> any_case w s -> any_case (String c w) (String c' s).
(** strconv.ParseFloat's decimals: digits before or after a point or both, and an exponent or none; n * 10^k *)
Inductive go_exponent_text : string -> Z -> Prop :=
| ge_none : go_exponent_text "" 0
| ge_some (c sign s : string) v : c ∈ ["e"; "E"] -> sign ∈ [""; "+"] -> numeral s v -> go_exponent_text (append c (append sign s)) v
| ge_minus (c s : string) v : c ∈ ["e"; "E"] -> numeral s v -> go_exponent_text (append c (append "-" s)) (- v).
Inductive go_number : string -> Z -> Z -> Prop :=
| gn_whole i e n x : numeral i n -> go_exponent_text e x -> go_number (append i e) n x
| gn_point i f e n x : numeral (append i f) n -> go_exponent_text e x -> go_number (append i (append "." (append f e))) n (x - Z.of_nat (String.length f)).
(** the float64 that a text is: the nearest to a decimal in range, infinite, or NaN *)
Inductive go_value : string -> f64 -> Prop :=
| gv_number (sign : string) (neg : bool) t n k b : (sign, neg) ∈ [("", false); ("+", false); ("-", true)] -> go_number t n k ->
    nearest (n * 10 ^ Z.max k 0) (10 ^ Z.max (- k) 0) b -> ~ out_of_range (n * 10 ^ Z.max k 0) (10 ^ Z.max (- k) 0) ->
    go_value (append sign t) (if neg then 2^63 + b else b)
| gv_infinite (sign : string) (neg : bool) (w t : string) : (sign, neg) ∈ [("", false); ("+", false); ("-", true)] -> w ∈ ["inf"; "infinity"] -> any_case w t ->
    go_value (append sign t) (if neg then minus_inf else inf)
| gv_nan t : any_case "nan" t -> go_value t nan.
