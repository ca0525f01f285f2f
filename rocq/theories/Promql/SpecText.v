(** Text as a list of Unicode characters: vocabulary for what happens to metric names. *)
From Coq Require Import Ascii String NArith.
From stdpp Require Import prelude strings.
Open Scope N_scope.

(** A character is a Unicode scalar value *)
Definition scalar (cp : N) : Prop := cp < 55296 \/ 57344 <= cp < 1114112.
(** UTF-8 (RFC 3629) *)
Definition encode (cp : N) : string :=
  if cp <? 128 then String (ascii_of_N cp) ""
  else if cp <? 2048 then String (ascii_of_N (192 + cp / 64)) (String (ascii_of_N (128 + cp mod 64)) "")
  else if cp <? 65536 then
    String (ascii_of_N (224 + cp / 4096)) (String (ascii_of_N (128 + cp / 64 mod 64)) (String (ascii_of_N (128 + cp mod 64)) ""))
  else
    String (ascii_of_N (240 + cp / 262144)) (String (ascii_of_N (128 + cp / 4096 mod 64))
      (String (ascii_of_N (128 + cp / 64 mod 64)) (String (ascii_of_N (128 + cp mod 64)) ""))).
Fixpoint utf8 (cps : list N) : string :=
  match cps with [] => "" | cp :: r => append (encode cp) (utf8 r) end.

Definition letter (cp : N) : bool := ((65 <=? cp) && (cp <=? 90)) || ((97 <=? cp) && (cp <=? 122)).
Definition digit (cp : N) : bool := (48 <=? cp) && (cp <=? 57).
(** The same number of characters: letters stay, digits stay except at the front, all others are underscores *)
Definition underscored (cps : list N) : list N :=
  match cps with
  | [] => []
  | c :: r => (if letter c then c else 95) :: map (fun c => if letter c || digit c then c else 95) r
  end.
