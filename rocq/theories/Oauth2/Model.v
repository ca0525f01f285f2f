(** Model of pkg/client/oauth2_http_client.go: the HTTP client that adds an Authorization header. *)
From Coq Require Import Ascii String.
From stdpp Require Import prelude gmap strings list.
From Verif.Base Require Import Str Url.
Open Scope string_scope.
Open Scope list_scope.
Open Scope Z_scope.

(** net/http Response: the status code and the rest; None: an error instead of a response *)
Definition response := option (Z * string).

(** oauth2_http_client.go:16-27 Oauth2HTTPClient: its configuration.  [cf_addr_ok] says whether
    http.NewRequest takes the address. *)
Record config := Config {
  cf_addr_ok : bool; cf_client : string; cf_secret : string; cf_username : string; cf_password : string }.

(** A POST to /oauth/token of the configured address: the user info of its URL (sent as basic
    authentication) and its form *)
Record token_request := TokenRequest { tr_user : option (string * string); tr_form : string }.

Section Model.
Context (json_token : string -> option (string * string)). (* encoding/json: token_type and access_token *)
Context (C : config).

(** oauth2_http_client.go:118-145 getClientToken: the request *)
Definition client_request : token_request :=
  TokenRequest (Some (cf_client C, cf_secret C))
    (encode_query (vset "grant_type" "client_credentials" (vset "client_id" (cf_client C) ∅))).

(** oauth2_http_client.go:147-174 getUserToken: the request *)
Definition user_request : token_request :=
  TokenRequest None
    (encode_query (vset "password" (cf_password C) (vset "username" (cf_username C) (vset "grant_type" "password"
      (vset "client_secret" (cf_secret C) (vset "client_id" (cf_client C) ∅)))))).

(** oauth2_http_client.go:111-116 getToken *)
Definition request_for : token_request :=
  if bool_decide (cf_username C = "") then client_request else user_request.

(** oauth2_http_client.go:176-199 doTokenRequest: the token an answer gives *)
Definition token_of (r : response) : option string :=
  match r with
  | None => None
  | Some (status, body) =>
      if bool_decide (status = 200) then
        match json_token body with
        | Some (ty, access) => Some (append ty (append " " access))
        | None => None
        end
      else None
  end.

(** oauth2_http_client.go:104: the answer makes the client forget its token *)
Definition rejects (r : response) : bool :=
  match r with
  | None => false
  | Some (status, _) => bool_decide (status < 200) || bool_decide (300 <= status)
  end.

(** ** One call of Do *)

(** What remains of a call.  The Authorization header of a request: absent, or its values. *)
Inductive pc :=
| Start (header : option (list string))     (* line 86 *)
| Test                                      (* the mutex is held: line 122 or 151 *)
| Load                                      (* the mutex is held: line 123, 152 or 198, [c.token] is read to be returned *)
| Ask                                       (* the mutex is held: line 131 or 163 *)
| Store (token : string)                    (* the mutex is held: line 197 *)
| Unlock (token : option string)            (* the deferred Unlock of line 120 or 149 *)
| Send (token : string)                     (* line 97 *)
| Clear (r : response)                      (* line 105, the mutex is not held *)
| Done (r : response).

(** What is seen of a call from outside: requests for tokens and to the server with their answers, and, for
    the histories below, accesses to [c.token]. *)
Inductive act :=
| APost (q : token_request) (r : response)
| ASend (header : option (list string)) (r : response)
| ALoad (token : string)
| AStore (token : string)
| AOther.

(** The mutex and [c.token], a Go string, whose loads and stores are taken to be atomic even when they race
    (line 105) *)
Record mem := Mem { m_locked : bool; m_token : string }.

(** oauth2_http_client.go:85-109 Do with getClientToken, getUserToken and doTokenRequest, access by access *)
Inductive move : pc -> mem -> act -> pc -> mem -> Prop :=
| m_given h r m : (* 86-89 *)
    move (Start (Some h)) m (ASend (Some h) r) (Done r) m
| m_lock token : (* 91, 119 or 148 *)
    move (Start None) (Mem false token) AOther Test (Mem true token)
| m_have m : m_token m <> "" -> (* 122, 151 *)
    move Test m (ALoad (m_token m)) Load m
| m_have_not m : m_token m = "" ->
    move Test m (ALoad (m_token m)) Ask m
| m_load m : (* 123, 152, 198 *)
    move Load m (ALoad (m_token m)) (Unlock (Some (m_token m))) m
| m_bad_addr m : cf_addr_ok C = false -> (* 131-138, 163-170 *)
    move Ask m AOther (Unlock None) m
| m_post r m : cf_addr_ok C = true -> (* 177-195 *)
    move Ask m (APost request_for r) (match token_of r with Some t => Store t | None => Unlock None end) m
| m_store t m : (* 197 *)
    move (Store t) m (AStore t) Load (Mem (m_locked m) t)
| m_unlock t m : (* 120, 149, 92-94 *)
    move (Unlock t) m AOther (match t with Some t => Send t | None => Done None end) (Mem false (m_token m))
| m_send t r m : (* 96-104 *)
    move (Send t) m (ASend (Some [t]) r) (if rejects r then Clear r else Done r) m
| m_clear r m : (* 105-106 *)
    move (Clear r) m (AStore "") (Done r) (Mem (m_locked m) "").

(** ** Concurrent calls *)
(** The calls made so far, each with the header it was given and what remains of it, and what happened *)
Record sys := Sys { s_mem : mem; s_calls : list (option (list string) * pc); s_log : list (nat * act) }.
Definition initial : sys := Sys (Mem false "") [] [].
Inductive step : sys -> sys -> Prop :=
| step_call m cs h header : step (Sys m cs h) (Sys m (cs ++ [(header, Start header)]) h)
| step_move m cs h i header p a p' m' :
    cs !! i = Some (header, p) -> move p m a p' m' ->
    step (Sys m cs h) (Sys m' (<[i := (header, p')]> cs) (h ++ [(i, a)])).
Definition reachable : sys -> Prop := rtc step initial.
End Model.
