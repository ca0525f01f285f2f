(** Vocabulary for the properties of the client library over HTTP. *)
From Coq Require Import Ascii String.
From stdpp Require Import prelude strings gmap list.
From Verif.Base Require Import GoInt Envelope Str Url Dec.
From Verif.Routing Require Import Model.
From Verif.Gateway Require Import Model.
From Verif.Marshaler Require Import Model.
From Verif.Http Require Import Model.
Open Scope string_scope.
Open Scope list_scope.
Open Scope Z_scope.

(** ** Semantic versions, https://semver.org: major.minor.patch[-prerelease][+build] *)

(** a decimal number without superfluous leading zeros, of 64 bits *)
Definition number_text (s : string) (n : Z) : Prop :=
  numeral s n /\ n < 2 ^ 64 /\ (forall s', s = String "0" s' -> s' = "").
(** letters, digits and dashes *)
Definition word (s : string) : Prop := s <> "" /\ forall a c b, s = append a (String c b) ->
  is_digit c = true \/ c = "-"%char \/ (97 <= nat_of_ascii c <= 122)%nat \/ (65 <= nat_of_ascii c <= 90)%nat.
Definition all_digits (s : string) : Prop := forall a c b, s = append a (String c b) -> is_digit c = true.
(** a part of a prerelease: a number, or a word that is not all digits *)
Definition pre_text (s : string) : Prop := (exists n, number_text s n) \/ (word s /\ ~ all_digits s).
(** parts separated by dots *)
Inductive dotted (P : string -> Prop) : string -> list string -> Prop :=
| dot_one s : P s -> dotted P s [s]
| dot_more s t l : P s -> dotted P t l -> dotted P (append s (String "." t)) (s :: l).
Inductive pre_part : string -> list string -> Prop :=
| no_pre : pre_part "" []
| some_pre s l : dotted pre_text s l -> pre_part (String "-" s) l.
Inductive build_part : string -> Prop :=
| no_build : build_part ""
| some_build s l : dotted word s l -> build_part (String "+" s).
Inductive version_text : string -> version -> Prop :=
| version_text_intro ma mi pa pr bu major minor patch pre :
    number_text ma major -> number_text mi minor -> number_text pa patch -> pre_part pr pre -> build_part bu ->
    version_text (append ma (String "." (append mi (String "." (append pa (append pr bu)))))) (Version major minor patch pre).

(** Version 2.0.0 or later; the prereleases of 2.0.0 are before it *)
Definition since_2_0_0 (v : version) : Prop :=
  3 <= v_major v \/
  v_major v = 2 /\ (1 <= v_minor v \/ v_minor v = 0 /\ (1 <= v_patch v \/ v_patch v = 0 /\ v_pre v = [])).

Section Spec.
Context (D : codec).

(** ** What the info page says *)
(** a document whose field is a string *)
Definition doc_says (body k s : string) : Prop :=
  exists l, first_json D body = Some (JObj l) /\ field k l = Some (JStr s).
Definition says_version (resp : response) (v : version) : Prop :=
  exists s, resp.1 = 200 /\ doc_says resp.2 "version" s /\ version_text s v.
(** The path of the API for a server whose info page answers like this: a server without one is old, and
    the API moved with version 2.0.0 *)
Inductive api_base (resp : response) : string -> Prop :=
| base_no_info : resp.1 = 404 -> api_base resp "/v1"
| base_new v : says_version resp v -> since_2_0_0 v -> api_base resp "/api/v1"
| base_old v : says_version resp v -> ~ since_2_0_0 v -> api_base resp "/v1".

Definition is_err {A} (r : res A) : Prop := exists e, r = Err e.
(** what a 200 with a body that can be decoded gives; and an error says whether there was no answer, or an answer with
    another status *)
Definition delivered {A} (decode : string -> option A) (o : option response) (r : res A) : Prop :=
  (forall a, r = Ok a <-> exists body, o = Some (200, body) /\ decode body = Some a) /\
  (r = Err Unreachable <-> o = None) /\
  (forall n, r = Err (BadStatus n) <-> n <> 200 /\ exists body, o = Some (n, body)).

(** ** Assumptions about the libraries *)
(** bytes that stand for themselves between the quotes of a JSON string: printable ASCII but for quote
    and backslash *)
Definition plain (s : string) : Prop := forall a c b, s = append a (String c b) ->
  (32 <= nat_of_ascii c <= 126)%nat /\ nat_of_ascii c <> 34%nat /\ nat_of_ascii c <> 92%nat.
(** an object with two strings, as text *)
Definition quoted (s : string) : string := String (ascii_of_nat 34) (append s (String (ascii_of_nat 34) "")).
Definition two_strings (k1 s1 k2 s2 : string) : string :=
  append "{" (append (quoted k1) (append ":" (append (quoted s1) (append "," (append (quoted k2) (append ":" (append (quoted s2)
    (append "}" (String (ascii_of_nat 10) ""))))))))).
(** encoding/json reads it as that *)
Definition reads_info : Prop := forall k1 s1 k2 s2, plain k1 -> plain s1 -> plain k2 -> plain s2 ->
  first_json D (two_strings k1 s1 k2 s2) = Some (JObj [(k1, JStr s1); (k2, JStr s2)]).
(** the documents the gateway writes for query results and errors are read back as they were written *)
Definition reads_results (L : lib) : Prop :=
  (forall a j, marshal L a = Some j -> first_json D (write_json D j) = Some j /\ whole_json D (write_json D j) = Some j) /\
  (forall msg, whole_json D (write_json D (error_doc L msg)) = Some (error_doc L msg)).
(** runtime.HTTPStatusFromCode gives 200 for OK only *)
Definition errors_not_200 : Prop := forall code, code <> 0 -> http_status D code <> 200.

(** ** Queries *)
(** The request a caller of the client asks for: of repeated options the last counts *)
Definition last_time (f : promql_option -> option Z) (opts : list promql_option) : string :=
  match last (omap f opts) with Some t => write_time D t | None => "" end.
Definition asked_instant (query : string) (opts : list promql_option) : instant_request :=
  Instant query (last_time (fun o => match o with PTime t => Some t | _ => None end) opts).
Definition asked_range (query : string) (opts : list promql_option) : range_request :=
  Range query (last_time (fun o => match o with PStart t => Some t | _ => None end) opts)
              (last_time (fun o => match o with PEnd t => Some t | _ => None end) opts)
              (default "" (last (omap (fun o => match o with PStep s => Some s | _ => None end) opts))).

(** An exchange failed *)
Definition lost (tr : list (request * option response)) : Prop := exists r, (r, None) ∈ tr.
End Spec.

(** ** Answers to queries *)
Section Answers.
Context (D : codec) (L : lib).

(** The parts of a document which the gateway wrote for a result *)
Definition shows (a : query_result L) (q : raw_result) : Prop :=
  rw_status q = "success" /\ rw_error_type q = "" /\ rw_error q = "" /\
  marshal L a = Some (JObj [("status", JStr "success");
    ("data", JObj (("resultType", JStr (rw_type q)) :: match rw_result q with Some j => [("result", j)] | None => [] end))]).
(** The report of a failure *)
Definition reports (msg : string) (q : raw_result) : Prop := q = Raw "error" "" None "internal" (clean L msg).
(** What a caller is told of the backend's outcome.  Texts are told with the statuses 400 and 500. *)
Definition told (status : Z) (msg : string) (r : res raw_result) : Prop :=
  if decide (status = 400 \/ status = 500) then exists q, r = Ok q /\ reports msg q else r = Err (BadStatus status).
Definition raw_verdict (out : outcome (query_result L)) (r : res raw_result) : Prop :=
  match out with
  | Done a => (exists q, r = Ok q /\ shows a q) \/ (marshal L a = None /\ exists msg, told (http_status D 2) msg r)
  | Failed code msg => code <> 0 /\ told (http_status D code) msg r
  end.
End Answers.
