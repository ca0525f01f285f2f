(** Vocabulary of what UAA's and CAPI's documents say, in terms of their JSON trees. *)
From Coq Require Import Ascii String.
From stdpp Require Import prelude gmap strings list.
From Verif.Base Require Import Str Dec.
From Verif.Marshaler Require Import Model.
From Verif.Auth Require Import Model Spec.
Open Scope string_scope.
Open Scope list_scope.
Open Scope Z_scope.

(** A member goes by a name: the same letters in either case; the sign of Kelvin (U+212A) for a k and the long
    s (U+017F) for an s *)
Inductive goes_by : string -> string -> Prop :=
| gb_nil : goes_by "" ""
| gb_letter a b name key : same_letter a b -> (nat_of_ascii b < 128)%nat -> goes_by name key ->
    goes_by (String a name) (String b key)
| gb_kelvin a name key : same_letter a "k" -> goes_by name key ->
    goes_by (String a name) (String "226" (String "132" (String "170" key)))
| gb_long_s a name key : same_letter a "s" -> goes_by name key ->
    goes_by (String a name) (String "197" (String "191" key)).
(** The members of an object have one of this name; it is there once, or not at all *)
Definition none_by (name : string) (ms : list (string * json)) : Prop :=
  forall key j, (key, j) ∈ ms -> ~ goes_by name key.
Definition once (name : string) (j : json) (ms : list (string * json)) : Prop :=
  exists before key after, ms = before ++ (key, j) :: after /\ goes_by name key /\ none_by name before /\ none_by name after.
(** a string is there, once, or there is none *)
Definition text_or_none (name : string) (ms : list (string * json)) (s : string) : Prop :=
  once name (JStr s) ms \/ ((none_by name ms \/ once name JNull ms) /\ s = "").

(** ** UAA's keys: {"keys": [{"kid": ..., "value": ...}, ...]}, and whatever else there is *)
Definition key_doc (j : json) (k : string * string) : Prop :=
  exists ms, j = JObj ms /\ text_or_none "kid" ms k.1 /\ text_or_none "value" ms k.2.
Definition keys_doc (j : json) (ks : list (string * string)) : Prop :=
  exists ms js, j = JObj ms /\ once "keys" (JArr js) ms /\ Forall2 key_doc js ks.

(** ** A token's claims: {"scope": [...], "exp": ...}; [t] is the number of exp as written *)
Definition claims_doc (j : json) (scopes : list string) (t : string) : Prop :=
  exists ms, j = JObj ms /\ once "scope" (JArr (JStr <$> scopes)) ms /\ once "exp" (JNum t) ms /\ none_by "value" ms.

(** ** CAPI's pages: {"pagination": {"next": {"href": ...}}, "resources": [{"guid": ..., "name": ...}, ...]};
    the next page is null on the last one *)
Definition resource_doc (j : json) (r : resource) : Prop :=
  exists ms, j = JObj ms /\ text_or_none "guid" ms (rs_guid r) /\ text_or_none "name" ms (rs_name r).
Definition next_doc (j : json) (href : string) : Prop :=
  exists ms, j = JObj ms /\
    ((exists ms', once "next" (JObj ms') ms /\ text_or_none "href" ms' href) \/
     ((none_by "next" ms \/ once "next" JNull ms) /\ href = "")).
Definition page_doc (j : json) (rs : list resource) (href : string) : Prop :=
  exists ms js jn, j = JObj ms /\ once "pagination" jn ms /\ next_doc jn href /\
    once "resources" (JArr js) ms /\ Forall2 resource_doc js rs.

(** ** Whatever the document *)
(** a member, by this name, is an array with this element *)
Definition array_has (name : string) (x : json) (j : json) : Prop :=
  exists ms key js, j = JObj ms /\ (key, JArr js) ∈ ms /\ goes_by name key /\ x ∈ js.
Definition object_has (name : string) (x : json) (j : json) : Prop :=
  exists ms key, j = JObj ms /\ (key, x) ∈ ms /\ goes_by name key.

(** the objects of an array have this text by this name; what is missing is the empty text *)
Definition listed_text (arr name : string) (j : json) (s : string) : Prop :=
  s = "" \/ exists x, array_has arr x j /\ object_has name (JStr s) x.

(** ** Numbers *)
(** A decimal, its digits without the point, and how many are behind it *)
Inductive decimal_text : string -> Z -> Z -> Prop :=
| dt_whole s n : numeral s n -> decimal_text s n 0
| dt_point s f n i x : numeral s i -> numeral f x -> numeral (append s f) n ->
    decimal_text (append s (String "." f)) n (Z.of_nat (String.length f)).
(** A number of JSON that is not negative: it stands for n * 10^k *)
Inductive stands_for : string -> Z -> Z -> Prop :=
| nt_plain s n k : decimal_text s n k -> stands_for s n (- k)
| nt_exp s n k e x v : decimal_text s n k -> e = "e"%char \/ e = "E"%char -> numeral x v ->
    stands_for (append s (String e x)) n (v - k)
| nt_plus s n k e x v : decimal_text s n k -> e = "e"%char \/ e = "E"%char -> numeral x v ->
    stands_for (append s (String e (String "+" x))) n (v - k)
| nt_minus s n k e x v : decimal_text s n k -> e = "e"%char \/ e = "E"%char -> numeral x v ->
    stands_for (append s (String e (String "-" x))) n (- v - k).
(** [z] differs from n * 10^k by less than one *)
Definition close_to (z n k : Z) : Prop :=
  (z - 1) * 10 ^ Z.max (- k) 0 < n * 10 ^ Z.max k 0 < (z + 1) * 10 ^ Z.max (- k) 0.

(** ** Kinds of values *)
Definition text_like (j : json) : Prop := j = JNull \/ exists s, j = JStr s.
Definition number_like (j : json) : Prop := j = JNull \/ exists t, j = JNum t.
Definition list_like (elem : json -> Prop) (j : json) : Prop := j = JNull \/ exists js, j = JArr js /\ Forall elem js.
Definition object_like (members : list (string * (json -> Prop))) (j : json) : Prop :=
  j = JNull \/ exists ms, j = JObj ms /\
    forall name (P : json -> Prop) key x, (name, P) ∈ members -> (key, x) ∈ ms -> goes_by name key -> P x.
Definition keys_like : json -> Prop := object_like [("keys", list_like (object_like [("kid", text_like); ("value", text_like)]))].
Definition claims_like : json -> Prop := object_like [("value", text_like); ("scope", list_like text_like); ("exp", number_like)].
Definition page_like : json -> Prop :=
  object_like [("pagination", object_like [("next", object_like [("href", text_like)])]);
               ("resources", list_like (object_like [("guid", text_like); ("name", text_like)]))].
