(** Model of time.ParseDuration (Go 1.12), which go-envstruct uses for the settings of type time.Duration in
    cmd/blackbox/config.go:11-14, cmd/cf-auth-proxy/config.go:32-33, cmd/log-cache/config.go:17, cmd/scheduler/config.go:14 and
    cmd/syslog-server/config.go:19.  [portion x k unit] is int64(float64(x) * (float64(unit) / 10^k)), the digits after a
    point; it is a parameter. *)
From Coq Require Import Ascii String.
From stdpp Require Import prelude list.
From Verif.Base Require Import GoInt Str Dec.
Open Scope Z_scope.

Section duration.
Variable portion : Z -> Z -> Z -> Z.

(** time.leadingInt: None when the number does not fit *)
Fixpoint leading_int (x : Z) (s : string) : option (Z * string) :=
  match s with
  | String c s' =>
      if is_digit c then
        if (2^63 - 1) / 10 <? x then None
        else let y := x * 10 + digit_val c in
             if 2^63 <=? y then None else leading_int y s'
      else Some (x, s)
  | EmptyString => Some (x, s)
  end.
(** time.leadingFraction: what does not fit is passed over *)
Fixpoint leading_fraction (x k : Z) (over : bool) (s : string) : Z * Z * string :=
  match s with
  | String c s' =>
      if is_digit c then
        let y := x * 10 + digit_val c in
        if over || ((2^63 - 1) / 10 <? x) || (2^63 <=? y) then leading_fraction x k true s'
        else leading_fraction y (k + 1) false s'
      else (x, k, s)
  | EmptyString => (x, k, s)
  end.
(** the unit: everything up to the next digit or point *)
Fixpoint leading_unit (s : string) : string * string :=
  match s with
  | String c s' => if is_digit c || ceqb c "." then (EmptyString, s)
                   else let '(u, r) := leading_unit s' in (String c u, r)
  | EmptyString => (EmptyString, s)
  end.
(** time.unitMap; the two micro signs are U+00B5 and U+03BC in UTF-8 *)
Definition micro1 : string := String "194" (String "181" "s").
Definition micro2 : string := String "206" (String "188" "s").
Definition unit_of (u : string) : option Z :=
  if String.eqb u "ns" then Some 1
  else if String.eqb u "us" || String.eqb u micro1 || String.eqb u micro2 then Some 1000
  else if String.eqb u "ms" then Some 1000000
  else if String.eqb u "s" then Some 1000000000
  else if String.eqb u "m" then Some 60000000000
  else if String.eqb u "h" then Some 3600000000000
  else None.

(** the loop; d is the sum so far *)
Fixpoint terms (fuel : nat) (d : Z) (s : string) : option Z :=
  match fuel, s with
  | O, _ | _, EmptyString => Some d
  | S fuel', String c _ =>
      if negb (is_digit c || ceqb c ".") then None
      else
        '(v, s1) ← leading_int 0 s;
        let pre := negb (String.length s1 =? String.length s)%nat in
        let '(x, k, s2, post) :=
          match s1 with
          | String c1 s1' =>
              if ceqb c1 "." then let '(x, k, s2) := leading_fraction 0 0 false s1' in (x, k, s2, negb (String.length s2 =? String.length s1')%nat)
              else (0, 0, s1, false)
          | EmptyString => (0, 0, s1, false)
          end in
        if negb pre && negb post then None
        else
          let '(u, s3) := leading_unit s2 in
          match u with EmptyString => None | _ =>
          unit ← unit_of u;
          if (2^63 - 1) / unit <? v then None
          else
            let v1 := v * unit in
            let v2 := if 0 <? x then v1 + portion x k unit else v1 in
            if 2^63 <=? v2 then None
            else if 2^63 <=? d + v2 then None
            else terms fuel' (d + v2) s3
          end
  end.
(** time.ParseDuration *)
Definition parse_duration (s : string) : option Z :=
  let '(neg, s1) :=
    match s with
    | String c s' => if ceqb c "-" then (true, s') else if ceqb c "+" then (false, s') else (false, s)
    | EmptyString => (false, s)
    end in
  if String.eqb s1 "0" then Some 0
  else match s1 with EmptyString => None | _ =>
    d ← terms (String.length s1) 0 s1;
    Some (if neg then - d else d)
  end.
End duration.
