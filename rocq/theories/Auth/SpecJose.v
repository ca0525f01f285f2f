(** RFC 4648, section 5 (base64url) and RFC 7515 (JSON web signatures, compact). *)
From Coq Require Import Ascii String.
From stdpp Require Import prelude strings list.
From Verif.Marshaler Require Import Model.
From Verif.Json Require Import SpecBase64 SpecGrammar.
Open Scope string_scope.
Open Scope list_scope.

Definition url_alphabet : list ascii := list_ascii_of_string "ABCDEFGHIJKLMNOPQRSTUVWXYZabcdefghijklmnopqrstuvwxyz0123456789-_".
(** [text] is the base64url text of the bytes [s]: characters for the bits of [s], six at a time, filled up with zeros *)
Definition base64url_text (s text : string) : Prop :=
  exists digits zeros,
    Forall (fun d => d < 64) digits /\
    list_ascii_of_string text = omap (fun d => url_alphabet !! d) digits /\
    mjoin (binary 6 <$> digits) = mjoin ((fun c => binary 8 (nat_of_ascii c)) <$> list_ascii_of_string s) ++ replicate zeros false /\
    zeros < 6.
(** what is signed: the texts of header and payload with a dot between them *)
Definition signing_input (header payload input : string) : Prop :=
  exists h p, base64url_text header h /\ base64url_text payload p /\ input = append h (append "." p).
(** the token: what is signed, a dot, the text of the signature *)
Definition jws (header payload signature token : string) : Prop :=
  exists input s, signing_input header payload input /\ base64url_text signature s /\ token = append input (append "." s).
(** the last member of this name *)
Definition last_of (name : string) (ms : list (string * json)) (v : json) : Prop :=
  exists before after, ms = before ++ (name, v) :: after /\ forall v', (name, v') ∉ after.
(** the header is a JSON object with this value at this name *)
Definition header_says (header name : string) (v : json) : Prop :=
  exists ms, json_text header (JObj ms) /\ last_of name ms v.
