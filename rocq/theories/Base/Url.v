(** The parts of Go's net/url which the clients, the authorisation proxy and the gateway use on
    query strings.  net/url is the Go standard library; transcribed from its source
    (src/net/url/url.go, Go 1.11-1.16: both '&' and ';' separate parameters).  *)
From Coq Require Import Ascii String.
From stdpp Require Import prelude strings gmap sorting.
From Verif.Base Require Import Str.

(** url.go shouldEscape(c, encodeQueryComponent) = false: letters, digits and - _ . ~ *)
Definition unreserved (c : ascii) : bool :=
  let n := nat_of_ascii c in
  ((97 <=? n) && (n <=? 122)) || ((65 <=? n) && (n <=? 90)) || ((48 <=? n) && (n <=? 57))
  || (n =? 45) || (n =? 95) || (n =? 46) || (n =? 126).

(** url.go "0123456789ABCDEF"[n] *)
Definition hex_digit (n : nat) : ascii :=
  if n <? 10 then ascii_of_nat (48 + n) else ascii_of_nat (55 + n).

(** url.go ishex / unhex *)
Definition unhex (c : ascii) : option nat :=
  let n := nat_of_ascii c in
  if (48 <=? n) && (n <=? 57) then Some (n - 48)
  else if (97 <=? n) && (n <=? 102) then Some (n - 87)
  else if (65 <=? n) && (n <=? 70) then Some (n - 55)
  else None.

(** url.go QueryEscape = escape(s, encodeQueryComponent) *)
Fixpoint query_escape (s : string) : string :=
  match s with
  | EmptyString => EmptyString
  | String c s' =>
      if ceqb c " " then String "+" (query_escape s')
      else if unreserved c then String c (query_escape s')
      else String "%" (String (hex_digit (nat_of_ascii c / 16))
                        (String (hex_digit (nat_of_ascii c mod 16)) (query_escape s')))
  end.

(** url.go QueryUnescape = unescape(s, encodeQueryComponent); None is the EscapeError *)
Fixpoint query_unescape (s : string) : option string :=
  match s with
  | EmptyString => Some EmptyString
  | String c s' =>
      if ceqb c "%" then
        match s' with
        | String a (String b s'') =>
            x ← unhex a; y ← unhex b; r ← query_unescape s'';
            Some (String (ascii_of_nat (16 * x + y)) r)
        | _ => None
        end
      else if ceqb c "+" then r ← query_unescape s'; Some (String " " r)
      else r ← query_unescape s'; Some (String c r)
  end.

(** url.go type Values map[string][]string *)
Notation values := (gmap string (list string)).

(** url.go Values.Get: the first value, "" if none *)
Definition vget (k : string) (v : values) : string :=
  match v !! k with Some (x :: _) => x | _ => EmptyString end.

(** url.go Values.Set *)
Definition vset (k x : string) (v : values) : values := <[k := [x]]> v.

(** url.go Values.Add *)
Definition vadd (k x : string) (v : values) : values :=
  <[k := default [] (v !! k) ++ [x]]> v.

(** url.go parseQuery, one parameter: an empty one is skipped; '=' separates key and value;
    a malformed escape drops the parameter (the error is recorded and the loop continues). *)
Definition parse_param (p : string) : option (string * string) :=
  match p with
  | EmptyString => None
  | _ => let '(k, x) := match cut "=" p with Some kv => kv | None => (p, EmptyString) end in
         k' ← query_unescape k; x' ← query_unescape x; Some (k', x')
  end.

(** url.go parseQuery; URL.Query() ignores the error and uses what was parsed. *)
Definition parse_query (q : string) : values :=
  foldl (fun v '(k, x) => vadd k x v) ∅
        (omap parse_param (split_on (fun c => ceqb c "&" || ceqb c ";") q)).

(** the key/value list which Values.Encode writes: keys sorted, values in order *)
Definition encode_pairs (v : values) : list (string * string) :=
  k ← sort_strings ((map_to_list v).*1); pair k <$> default [] (v !! k).

(** url.go Values.Encode *)
Definition encode_query (v : values) : string :=
  join "&" ((fun '(k, x) => append (query_escape k) (String "=" (query_escape x))) <$> encode_pairs v).
