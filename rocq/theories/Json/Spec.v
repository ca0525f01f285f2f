(** Vocabulary: UTF-8 text (Unicode standard, table 3-7), and trees whose numbers are JSON numbers. *)
From Coq Require Import Ascii String.
From stdpp Require Import prelude strings list.
From Verif.Base Require Import Str.
From Verif.Marshaler Require Import Model.
From Verif.Json Require Import Text.
Open Scope string_scope.
Open Scope list_scope.

Definition range (lo hi : nat) (c : ascii) : Prop := (lo <= nat_of_ascii c <= hi)%nat.
Inductive utf8 : string -> Prop :=
| utf8_nil : utf8 ""
| utf8_1 a s : range 0 127 a -> utf8 s -> utf8 (String a s)
| utf8_2 a b s : range 194 223 a -> range 128 191 b -> utf8 s -> utf8 (String a (String b s))
| utf8_3 a b c s : range 224 224 a /\ range 160 191 b \/ range 225 236 a /\ range 128 191 b \/
    range 237 237 a /\ range 128 159 b \/ range 238 239 a /\ range 128 191 b ->
    range 128 191 c -> utf8 s -> utf8 (String a (String b (String c s)))
| utf8_4 a b c d s : range 240 240 a /\ range 144 191 b \/ range 241 243 a /\ range 128 191 b \/
    range 244 244 a /\ range 128 143 b ->
    range 128 191 c -> range 128 191 d -> utf8 s -> utf8 (String a (String b (String c (String d s)))).

(** The numbers of JSON: [-] digits without a superfluous leading zero [. digits] [e [sign] digits] *)
Inductive digit_run : string -> Prop :=
| run_one c : range 48 57 c -> digit_run (String c "")
| run_more c s : range 48 57 c -> digit_run s -> digit_run (String c s).
Inductive exponent_text : string -> Prop :=
| exp_none : exponent_text ""
| exp_some e sign s : e ∈ ["e"; "E"] -> sign ∈ [""; "+"; "-"] -> digit_run s -> exponent_text (append e (append sign s)).
Inductive fraction_text : string -> Prop :=
| frac_none : fraction_text ""
| frac_some s : digit_run s -> fraction_text (append "." s).
Inductive number_text : string -> Prop :=
| number_intro sign whole frac exp : sign ∈ [""; "-"] -> digit_run whole -> (forall s, whole = String "0" s -> s = "") ->
    fraction_text frac -> exponent_text exp -> number_text (append sign (append whole (append frac exp))).

(** A tree that can be written, and that comes back unchanged *)
Inductive writable : json -> Prop :=
| w_null : writable JNull
| w_bool b : writable (JBool b)
| w_num t : number_text t -> writable (JNum t)
| w_str s : utf8 s -> writable (JStr s)
| w_arr l : Forall writable l -> writable (JArr l)
| w_obj l : Forall (fun kj => utf8 kj.1 /\ writable kj.2) l -> writable (JObj l).
