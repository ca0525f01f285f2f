(** Vocabulary of the properties of the OAuth2 HTTP client. *)
From Coq Require Import Ascii String.
From stdpp Require Import prelude gmap strings list.
From Verif.Base Require Import Str Url.
From Verif.Oauth2 Require Import Model.
Open Scope string_scope.
Open Scope list_scope.
Open Scope Z_scope.

(** What call i did *)
Definition own (i : nat) (h : list (nat * act)) : list act := (filter (fun x => x.1 = i) h).*2.

(** An answer of the OAuth2 server which gives a token *)
Definition gives (json_token : string -> option (string * string)) (r : response) (token : string) : Prop :=
  exists body ty access, r = Some (200, body) /\ json_token body = Some (ty, access) /\
    token = append ty (append " " access).
(** The OAuth2 server gave this token *)
Definition issued (json_token : string -> option (string * string)) (h : list (nat * act)) (token : string) : Prop :=
  exists i q r, (i, APost q r) ∈ h /\ gives json_token r token.

(** A response whose status is not 2xx *)
Definition rejected (r : response) : Prop := exists status rest, r = Some (status, rest) /\ ~ (200 <= status < 300).

Global Instance rejected_dec r : Decision (rejected r).
Proof.
  destruct r as [[st rest]|].
  - destruct (decide (200 <= st < 300)); [right|left].
    + by intros (st' & rest' & [= <- <-] & ?).
    + by exists st, rest.
  - right. by intros (st & rest & ? & _).
Defined.

(** The server refused a request that carried a token of the client's: its status was not 2xx.  Calls given an
    Authorization header of their own do not count. *)
Definition rejection (s : sys) (x : nat * act) : bool :=
  match x.2, s_calls s !! x.1 with
  | ASend _ r, Some (None, _) => bool_decide (rejected r)
  | _, _ => false
  end.
Definition rejections (s : sys) : nat := length (filter (fun x => rejection s x = true) (s_log s)).
(** How many tokens the OAuth2 server gave *)
Definition tokens_given (json_token : string -> option (string * string)) (s : sys) : nat :=
  length (omap (fun x => match x.2 with APost _ r => token_of json_token r | _ => None end) (s_log s)).

(** Call i is over *)
Definition over (s : sys) (i : nat) : Prop := exists header r, s_calls s !! i = Some (header, Done r).

(** The requests call i made, with their answers, in order *)
Definition is_request (a : act) : bool := match a with APost _ _ | ASend _ _ => true | _ => false end.
Definition requests (i : nat) (s : sys) : list act := filter (fun a => is_request a = true) (own i (s_log s)).

(** While call i was under way, the refusal of another call's token made the client forget the token it had *)
Definition interfered (i : nat) (h : list (nat * act)) : Prop :=
  exists h1 a h2 k h3, h = h1 ++ (i, a) :: h2 ++ (k, AStore "") :: h3 /\ k <> i /\
    exists t r, (k, ASend (Some [t]) r) ∈ h /\ rejected r.

(** A request for a token that presents the credentials of the configuration: those of the user, if there is
    one, else those of the client *)
Definition presents (C : config) (q : token_request) : Prop :=
  match q with
  | TokenRequest user form =>
      if bool_decide (cf_username C = "") then
        user = Some (cf_client C, cf_secret C) /\
        parse_query form = {[ "client_id" := [cf_client C]; "grant_type" := ["client_credentials"] ]}
      else
        user = None /\
        parse_query form = {[ "client_id" := [cf_client C]; "client_secret" := [cf_secret C];
                              "grant_type" := ["password"]; "username" := [cf_username C]; "password" := [cf_password C] ]}
  end.

(** Call i was made without an Authorization header *)
Definition needs_token (s : sys) (i : nat) : Prop := exists p, s_calls s !! i = Some (None, p).
