(** The three documents the proxy decodes, concretely: UAA's keys (uaa_client.go:256-272), a token's claims
    (uaa_client.go:274-290) and CAPI's pages (capi_client.go:205-208, 248-271).  What encoding/json does with a
    tree is transcribed from its published source (decode.go, fold.go); text is read by Json/Text.v.
    A value of the wrong kind is an error that encoding/json reports when it is through; as the callers drop
    what was decoded then, decoding stops here at once. *)
From Coq Require Import Ascii String.
From stdpp Require Import prelude gmap strings list.
From Verif.Base Require Import Str Url Dec.
From Verif.Marshaler Require Import Model.
From Verif.Json Require Import Text.
From Verif.Auth Require Import Model.
Open Scope string_scope.
Open Scope list_scope.
Open Scope Z_scope.

(** ** decode.go *)

(** fold.go equalFoldRight: is the member's name that of the field, up to case?  U+212A, the sign of Kelvin,
    is a k, and U+017F, the long s, an s.  The other functions of fold.go are this one for names without k and s. *)
Fixpoint fold_eq (name key : string) : bool :=
  match name, key with
  | EmptyString, EmptyString => true
  | String a name, String b key =>
      if (nat_of_ascii b <? 128)%nat then ceqb (lower a) (lower b) && fold_eq name key
      else if ceqb (lower a) "s" then
        match key with
        | String c key => (nat_of_ascii b =? 197)%nat && (nat_of_ascii c =? 191)%nat && fold_eq name key
        | EmptyString => false
        end
      else if ceqb (lower a) "k" then
        match key with
        | String c (String d key) =>
            (nat_of_ascii b =? 226)%nat && (nat_of_ascii c =? 132)%nat && (nat_of_ascii d =? 170)%nat && fold_eq name key
        | _ => false
        end
      else false
  | _, _ => false
  end.
(** decodeState.value: what becomes of the Go value there was; None: an error *)
Definition dec_string (old : string) (j : json) : option string :=
  match j with JStr s => Some s | JNull => Some old | _ => None end.
(** decodeState.object, into a struct: member after member.  No two fields of the structs here have names
    that are the same up to case, so that the order of preference does not matter. *)
Fixpoint dec_members {T} (field : string -> T -> json -> option T) (old : T) (ms : list (string * json)) : option T :=
  match ms with
  | [] => Some old
  | (k, j) :: ms => new ← field k old j; dec_members field new ms
  end.
Definition dec_struct {T} (field : string -> T -> json -> option T) (old : T) (j : json) : option T :=
  match j with JObj ms => dec_members field old ms | JNull => Some old | _ => None end.
(** A slice: its elements, and those still in the array behind it *)
Record slice T := Slice { sl_elems : list T; sl_stale : list T }.
Arguments Slice {T}.
Arguments sl_elems {T}.
Arguments sl_stale {T}.
(** decodeState.array, into a slice: every element is decoded into what its place in the array holds; the
    places of a new array hold zero values.  [olds]: what the places from here on hold. *)
Fixpoint dec_elems {T} (zero : T) (elem : T -> json -> option T) (olds : list T) (js : list json) : option (slice T) :=
  match js with
  | [] => Some (Slice [] olds)
  | j :: js =>
      x ← elem (default zero (head olds)) j;
      l ← dec_elems zero elem (tail olds) js;
      Some (Slice (x :: sl_elems l) (sl_stale l))
  end.
Definition dec_slice {T} (zero : T) (elem : T -> json -> option T) (old : slice T) (j : json) : option (slice T) :=
  match j with
  | JArr [] => Some (Slice [] [])
  | JArr js => dec_elems zero elem (sl_elems old ++ sl_stale old) js
  | JNull => Some (Slice [] [])
  | _ => None
  end.

(** ** Numbers *)

(** Where the digits at the beginning of a text end, and their value *)
Fixpoint span_digits (acc : Z) (s : string) : Z * string :=
  match s with
  | String c r => if is_digit c then span_digits (acc * 10 + Z.of_nat (nat_of_ascii c - 48)) r else (acc, s)
  | EmptyString => (acc, s)
  end.
(** A number of JSON: m and k for m * 10^k.  The text is taken to be a number (Text.is_number). *)
Definition exponent_of (s : string) : Z :=
  match s with
  | String _ r =>
      match r with
      | String g r' => if ceqb g "-" then - fst (span_digits 0 r') else if ceqb g "+" then fst (span_digits 0 r') else fst (span_digits 0 r)
      | EmptyString => 0
      end
  | EmptyString => 0
  end.
Definition decimal_of (s : string) : Z * Z :=
  let '(m, r) := span_digits 0 s in
  match r with
  | String c r' =>
      if ceqb c "." then
        let '(m', r'') := span_digits m r' in
        (m', exponent_of r'' - Z.of_nat (String.length r' - String.length r''))
      else (m, exponent_of r)
  | EmptyString => (m, 0)
  end.
(** strconv.ParseFloat(_, 64) of p/q > 0, correctly rounded: n * 2^e, or an error if out of range *)
Definition nearest_float (p q : Z) : option (Z * Z) :=
  let l := Z.log2 p - Z.log2 q in
  let l := if q * 2 ^ Z.max l 0 <=? p * 2 ^ Z.max (- l) 0 then l else l - 1 in
  let e := Z.max (l - 52) (-1074) in
  let p' := p * 2 ^ Z.max (- e) 0 in
  let q' := q * 2 ^ Z.max e 0 in
  let n := p' / q' in
  let r := p' mod q' in
  let n := if (q' <? 2 * r) || ((2 * r =? q') && Z.odd n) then n + 1 else n in
  if 2 ^ 1024 <=? n * 2 ^ Z.max e 0 then None else Some (n, e).
(** int64(_), on amd64: what does not fit becomes the least number *)
Definition to_int64 (n : Z) : Z := if (- 2 ^ 63 <=? n) && (n <? 2 ^ 63) then n else - 2 ^ 63.
Definition truncated (neg : bool) (n e : Z) : Z :=
  let a := n * 2 ^ Z.max e 0 / 2 ^ Z.max (- e) 0 in to_int64 (if neg then - a else a).
(** uaa_client.go:277, 287: a number read into a float64 and converted to int64 *)
Definition seconds_of (t : string) : option Z :=
  let '(neg, s) := match t with String c r => if ceqb c "-" then (true, r) else (false, t) | EmptyString => (false, t) end in
  let '(m, k) := decimal_of s in
  if m =? 0 then Some 0
  else '(n, e) ← nearest_float (m * 10 ^ Z.max k 0) (10 ^ Z.max (- k) 0); Some (truncated neg n e).
Definition dec_seconds (old : Z) (j : json) : option Z :=
  match j with JNum t => seconds_of t | JNull => Some old | _ => None end.

(** ** The documents *)

(** uaa_client.go:256-259 tokenKey *)
Definition key_field (k : string) (old : string * string) (j : json) : option (string * string) :=
  if fold_eq "kid" k then x ← dec_string old.1 j; Some (x, old.2)
  else if fold_eq "value" k then x ← dec_string old.2 j; Some (old.1, x)
  else Some old.
(** uaa_client.go:261-263 tokenKeys *)
Definition keys_field (k : string) (old : slice (string * string)) (j : json) : option (slice (string * string)) :=
  if fold_eq "keys" k then dec_slice ("", "") (dec_struct key_field) old j else Some old.
(** uaa_client.go:265-272 unmarshalTokenKeys *)
Definition read_keys (text : string) : option (list (string * string)) :=
  j ← read_first text; l ← dec_struct keys_field (Slice [] []) j; Some (sl_elems l).

(** uaa_client.go:274-279 decodedToken *)
Record token_doc := TokenDoc { td_value : string; td_scope : slice string; td_exp : Z }.
Definition token_field (k : string) (old : token_doc) (j : json) : option token_doc :=
  if fold_eq "value" k then x ← dec_string (td_value old) j; Some (TokenDoc x (td_scope old) (td_exp old))
  else if fold_eq "scope" k then x ← dec_slice "" dec_string (td_scope old) j; Some (TokenDoc (td_value old) x (td_exp old))
  else if fold_eq "exp" k then x ← dec_seconds (td_exp old) j; Some (TokenDoc (td_value old) (td_scope old) x)
  else Some old.
(** uaa_client.go:281-290 decodeToken *)
Definition read_claims (text : string) : option claims :=
  j ← read_first text; d ← dec_struct token_field (TokenDoc "" (Slice [] []) 0) j;
  Some (Claims (sl_elems (td_scope d)) (td_exp d)).

(** capi_client.go:205-208 resource *)
Definition resource_field (k : string) (old : resource) (j : json) : option resource :=
  if fold_eq "guid" k then x ← dec_string (rs_guid old) j; Some (Resource x (rs_name old))
  else if fold_eq "name" k then x ← dec_string (rs_name old) j; Some (Resource (rs_guid old) x)
  else Some old.
(** capi_client.go:248-255 *)
Definition next_field (k : string) (old : string) (j : json) : option string :=
  if fold_eq "href" k then dec_string old j else Some old.
Definition pagination_field (k : string) (old : string) (j : json) : option string :=
  if fold_eq "next" k then dec_struct next_field old j else Some old.
Definition page_field (k : string) (old : string * slice resource) (j : json) : option (string * slice resource) :=
  if fold_eq "pagination" k then x ← dec_struct pagination_field old.1 j; Some (x, old.2)
  else if fold_eq "resources" k then x ← dec_slice (Resource "" "") (dec_struct resource_field) old.2 j; Some (old.1, x)
  else Some old.
(** capi_client.go:257 *)
Definition read_page (text : string) : option (list resource * string) :=
  j ← read_first text; p ← dec_struct page_field ("", Slice [] []) j; Some (sl_elems p.2, p.1).

(** The libraries of the proxy with these decoders *)
Definition with_json (L : lib) : lib :=
  Lib (key L) (meta_info L) (jose_headers L) (jose_verify L) (rsa_key L) read_keys read_claims read_page
    (url_parse L) (promql_parse L) (promql_print L) (clean_path L).
