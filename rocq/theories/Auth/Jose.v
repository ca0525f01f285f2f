(** The tokens of the proxy, concretely: jose.Decode as uaa_client.go:180-193 calls it.  The package
    (github.com/dvsekhvalnov/jose2go) is not in the repository; this is transcribed from its published source:
    compact/compact.go, base64url/base64url.go and verify and decrypt of jose.go.  RSA stays abstract. *)
From Coq Require Import Ascii String.
From stdpp Require Import prelude gmap strings list.
From Verif.Base Require Import Str Url Dec.
From Verif.Marshaler Require Import Model.
From Verif.Json Require Import Text Pb.
From Verif.Auth Require Import Model Docs.
Open Scope string_scope.
Open Scope list_scope.
Open Scope Z_scope.

(** ** base64url/base64url.go *)
Fixpoint replace_chars (f : ascii -> string) (s : string) : string :=
  match s with EmptyString => "" | String c r => append (f c) (replace_chars f r) end.
(** strings.Replace of - and _ by + and /, and back *)
Definition from_url (c : ascii) : string :=
  if ceqb c "-" then "+" else if ceqb c "_" then "/" else String c "".
Definition to_url (c : ascii) : string :=
  if ceqb c "+" then "-" else if ceqb c "/" then "_" else if ceqb c "=" then "" else String c "".
Definition fill (s : string) : string :=
  match (String.length s mod 4)%nat with 2%nat => append s "==" | 3%nat => append s "=" | _ => s end.
(** Decode *)
Definition url_decode (s : string) : option string := decode64 (fill (replace_chars from_url s)).
(** Encode *)
Definition url_encode (s : string) : string := replace_chars to_url (encode64 s).

(** ** compact/compact.go *)
(** Parse *)
Definition compact_parse (token : string) : option (list string) := mapM url_decode (split "." token).
(** Serialize, of two parts *)
Definition compact_two (a b : string) : string := append (url_encode a) (append "." (url_encode b)).

(** ** jose.go *)
(** json.Unmarshal into a map[string]interface{}: of members with one name the last counts; a number which is no
    float64 is an error wherever it stands *)
Fixpoint finite (j : json) : bool :=
  match j with
  | JNum t => bool_decide (is_Some (seconds_of t))
  | JArr l => forallb finite l
  | JObj l => forallb (fun kv => finite kv.2) l
  | _ => true
  end.
Definition last_member (k : string) (ms : list (string * json)) : option json :=
  fold_left (fun o kv => if bool_decide (kv.1 = k) then Some kv.2 else o) ms None.
Definition header_map (text : string) : option (list (string * json)) :=
  match read_whole text with
  | Some (JObj ms) => if finite (JObj ms) then Some ms else None
  | Some JNull => Some []
  | _ => None
  end.
Definition as_header (o : option json) : header :=
  match o with None => HMissing | Some (JStr s) => HString s | Some _ => HOther end.
(** jwsHashers, jwaAlgorithms and jweEncryptors: the names registered *)
Definition jws_names : list string :=
  ["none"; "HS256"; "HS384"; "HS512"; "RS256"; "RS384"; "RS512"; "PS256"; "PS384"; "PS512"; "ES256"; "ES384"; "ES512"].
Definition jwa_names : list string :=
  ["dir"; "RSA1_5"; "RSA-OAEP"; "RSA-OAEP-256"; "A128KW"; "A192KW"; "A256KW"; "A128GCMKW"; "A192GCMKW"; "A256GCMKW";
   "ECDH-ES"; "ECDH-ES+A128KW"; "ECDH-ES+A192KW"; "ECDH-ES+A256KW";
   "PBES2-HS256+A128KW"; "PBES2-HS384+A192KW"; "PBES2-HS512+A256KW"].
Definition jwe_names : list string :=
  ["A128CBC-HS256"; "A192CBC-HS384"; "A256CBC-HS512"; "A128GCM"; "A192GCM"; "A256GCM"].
(** Decode up to the call of the key function, which gets the headers: verify for three parts, decrypt for five *)
Definition headers_of (token : string) : option (header * header) :=
  match compact_parse token with
  | Some [h; _; _] =>
      ms ← header_map h;
      match last_member "alg" ms with
      | Some (JStr alg) =>
          if bool_decide (alg ∈ jws_names) then Some (HString alg, as_header (last_member "kid" ms)) else None
      | _ => None
      end
  | Some [h; _; _; _; _] =>
      ms ← header_map h;
      match last_member "alg" ms, last_member "enc" ms with
      | Some (JStr alg), Some (JStr enc) =>
          if bool_decide (alg ∈ jwa_names) && bool_decide (enc ∈ jwe_names)
          then Some (HString alg, as_header (last_member "kid" ms)) else None
      | _, _ => None
      end
  | _ => None
  end.
(** verify after the key function: the header and the payload are serialised anew, and the signature is checked
    against that text.  [rs256 key text signature]: rsa.VerifyPKCS1v15 of the SHA-256 of the text. *)
Definition verified {K} (rs256 : K -> string -> string -> bool) (token : string) (k : K) : option string :=
  match compact_parse token with
  | Some [h; p; s] => if rs256 k (compact_two h p) s then Some p else None
  | _ => None
  end.

(** The libraries of the proxy with these tokens *)
Definition with_jose (L : lib) (rs256 : key L -> string -> string -> bool) : lib :=
  Lib (key L) (meta_info L) headers_of (verified rs256) (rsa_key L) (json_keys L) (json_claims L) (json_page L)
    (url_parse L) (promql_parse L) (promql_print L) (clean_path L).
