(** Vocabulary of the authorisation properties: evidence in the history of what UAA, CAPI and the clock
    said. *)
From Coq Require Import Ascii String.
From stdpp Require Import prelude gmap strings list.
From Verif.Base Require Import Str Url.
From Verif.Promql Require Import Model.
From Verif.Auth Require Import Model System.
Open Scope string_scope.
Open Scope list_scope.
Open Scope Z_scope.

Global Instance url_eq_dec : EqDecision url.
Proof. solve_decision. Defined.

Section Spec.
Context (L : lib) (C : config).

(** What one goroutine did *)
Definition own (i : nat) (h : list (nat * act L)) : list (act L) :=
  (filter (fun x => x.1 = i) h).*2.

(** ** Tokens *)

(** UAA published key k under key id kid *)
Definition published (h : list (nat * act L)) (kid : string) (k : key L) : Prop :=
  exists j body ks pem, (j, AUaa (Some (Reply 200 body))) ∈ h /\
    json_keys L body = Some ks /\ (kid, pem) ∈ ks /\ rsa_key L pem = Some k.

(** The token an Authorization header carries: what follows the word bearer, in any case, and white space;
    without them, all of it *)
Definition letter_cases : list (ascii * ascii) :=
  [("a","A"); ("b","B"); ("c","C"); ("d","D"); ("e","E"); ("f","F"); ("g","G"); ("h","H"); ("i","I"); ("j","J"); ("k","K");
   ("l","L"); ("m","M"); ("n","N"); ("o","O"); ("p","P"); ("q","Q"); ("r","R"); ("s","S"); ("t","T"); ("u","U"); ("v","V");
   ("w","W"); ("x","X"); ("y","Y"); ("z","Z")]%char.
Definition same_letter (a b : ascii) : Prop := a = b \/ (a, b) ∈ letter_cases \/ (b, a) ∈ letter_cases.
(** tab, newline, form feed, carriage return, space *)
Definition white (c : ascii) : bool := bool_decide (c ∈ ["009"; "010"; "012"; "013"; " "]%char).
Inductive same_letters : string -> string -> Prop :=
| sl_nil : same_letters "" ""
| sl_cons a b s t : same_letter a b -> same_letters s t -> same_letters (String a s) (String b t).
Inductive carries : string -> string -> Prop :=
| carries_bearer word spaces token :
    same_letters word "bearer" -> spaces <> "" -> str_all white spaces = true ->
    (forall c rest, token = String c rest -> white c = false) ->
    carries (append word (append spaces token)) token
| carries_bare s :
    (forall word c rest, s = append word (String c rest) -> same_letters word "bearer" -> white c = false) ->
    carries s s.

(** Goroutine i found the token good: RS256, signed by a key UAA published for its key id, and not expired
    when i looked at the clock *)
Definition vouched (h : list (nat * act L)) (i : nat) (auth : string) (c : claims) : Prop :=
  exists token kid k payload t,
    carries auth token /\ jose_headers L token = Some (HString "RS256", HString kid) /\
    published h kid k /\ jose_verify L token k = Some payload /\ json_claims L payload = Some c /\
    (i, ANow t) ∈ h /\ t <= cl_exp c * 1000000000.
Definition admin (c : claims) : Prop := "logs.admin" ∈ cl_scopes c \/ "doppler.firehose" ∈ cl_scopes c.

(** ** CAPI *)

(** A request to CAPI and its answer *)
Definition call := (url * string * option reply)%type.
Definition calls (l : list (act L)) : list call :=
  omap (fun a => match a with ACapi u tok r => Some (u, tok, r) | _ => None end) l.

(** The pages of a listing from u on: each names the next, which is asked from the same host; rs is what
    they list together *)
Inductive pages (tok : string) : url -> list call -> list resource -> Prop :=
| pages_last u body rs : json_page L body = Some (rs, "") ->
    pages tok u [(u, tok, Some (Reply 200 body))] rs
| pages_more u body rs href v cs rs' : json_page L body = Some (rs, href) -> href <> "" ->
    url_parse L href = Some v ->
    pages tok (Url (u_scheme u) (u_host u) (u_path v) (u_query v)) cs rs' ->
    pages tok u ((u, tok, Some (Reply 200 body)) :: cs) (rs ++ rs').

(** An answer that is not a page *)
Definition bad_answer (r : option reply) : Prop :=
  match r with
  | None => True
  | Some r => r_status r <> 200 \/ json_page L (r_body r) = None \/
              exists rs href, json_page L (r_body r) = Some (rs, href) /\ href <> "" /\ url_parse L href = None
  end.
(** A listing one of whose pages fails *)
Inductive pages_fail (tok : string) : url -> list call -> Prop :=
| fail_here u r : bad_answer r -> pages_fail tok u [(u, tok, r)]
| fail_later u body rs href v cs : json_page L body = Some (rs, href) -> href <> "" ->
    url_parse L href = Some v ->
    pages_fail tok (Url (u_scheme u) (u_host u) (u_path v) (u_query v)) cs ->
    pages_fail tok u ((u, tok, Some (Reply 200 body)) :: cs).

(** The user's complete list: all apps, then all service instances *)
Definition listed (tok : string) (cs : list call) (ids : list string) : Prop :=
  exists u v c1 c2 rs1 rs2,
    url_parse L (append (cf_capi C) "/v3/apps") = Some u /\
    url_parse L (append (cf_capi C) "/v3/service_instances") = Some v /\
    cs = c1 ++ c2 /\ pages tok u c1 rs1 /\ pages tok v c2 rs2 /\ ids = rs_guid <$> (rs1 ++ rs2).
Definition list_fails (tok : string) (cs : list call) : Prop :=
  match url_parse L (append (cf_capi C) "/v3/apps") with
  | None => cs = []
  | Some u =>
      pages_fail tok u cs \/
      exists c1 c2 rs, cs = c1 ++ c2 /\ pages tok u c1 rs /\
        match url_parse L (append (cf_capi C) "/v3/service_instances") with
        | None => c2 = []
        | Some v => pages_fail tok v c2
        end
  end.

(** Source id [id] was authorised for token tok when goroutine i decided: some goroutine j obtained the
    user's complete list, which has id in it, and then looked at the clock (ts).  If j is not i, i looked at
    the clock later and found the lifetime since then not over. *)
Definition authorised (h : list (nat * act L)) (i : nat) (tok id : string) : Prop :=
  exists j h1 ts h2 before cs ids,
    h = h1 ++ (j, ANow ts) :: h2 /\ calls (own j h1) = before ++ cs /\ listed tok cs ids /\ id ∈ ids /\
    (j = i \/ exists t, (i, ANow t) ∈ h2 /\ t < ts + cf_cache C).

(** What asking CAPI for the user's list came to: nothing, if it failed *)
Definition list_answer (tok : string) (cs : list call) (ids : list string) : Prop :=
  listed tok cs ids \/ (list_fails tok cs /\ ids = []).

(** How often the list was asked for, for token tok: the requests for its first page *)
Definition first_page (tok : string) (x : nat * act L) : bool :=
  match x.2, url_parse L (append (cf_capi C) "/v3/apps") with
  | ACapi u t _, Some v => bool_decide (u = v) && bool_decide (t = tok)
  | _, _ => false
  end.
Definition times_listed (h : list (nat * act L)) (tok : string) : nat := length (filter (fun x => first_page tok x) h).

(** Source id [id] was refused to token tok when goroutine i decided: some goroutine j obtained the user's
    list, which does not have id in it, and then looked at the clock (ts).  If j is not i, i looked at the
    clock later and found the lifetime since then not over, and the list had been asked for four times. *)
Definition refused (h : list (nat * act L)) (i : nat) (tok id : string) : Prop :=
  exists j h1 ts h2 before cs ids,
    h = h1 ++ (j, ANow ts) :: h2 /\ calls (own j h1) = before ++ cs /\ list_answer tok cs ids /\ id ∉ ids /\
    (j = i \/
     ((exists t, (i, ANow t) ∈ h2 /\ t < ts + cf_cache C) /\
      (url_parse L (append (cf_capi C) "/v3/apps") <> None -> (4 <= times_listed h tok)%nat))).

(** Goroutine i had reason to doubt the token: it is not one, it is not RS256, no key was known by its key
    id, or one was known, but the signature is bad, the claims are not claims, or it had expired *)
Definition doubted (h : list (nat * act L)) (i : nat) (auth : string) : Prop :=
  exists token, carries auth token /\
    (jose_headers L token = None \/
     (exists alg kid, jose_headers L token = Some (alg, kid) /\ alg <> HString "RS256") \/
     exists kid, jose_headers L token = Some (HString "RS256", HString kid) /\
       ((i, AKeyLoad kid None) ∈ h \/
        exists k, published h kid k /\
          (jose_verify L token k = None \/
           exists payload, jose_verify L token k = Some payload /\
             (json_claims L payload = None \/
              exists c t, json_claims L payload = Some c /\ (i, ANow t) ∈ h /\ cl_exp c * 1000000000 < t)))).

(** CAPI's answer to the question which apps have one of these names; none, if the listing failed *)
Definition apps_named (tok : string) (names : list string) (cs : list call) (rs : list resource) : Prop :=
  match url_parse L (append (cf_capi C) "/v3/apps") with
  | None => cs = [] /\ rs = []
  | Some u => exists q, parse_query q !! "names" = Some [join "," names] /\
      let v := Url (u_scheme u) (u_host u) (u_path u) q in
      pages tok v cs rs \/ (pages_fail tok v cs /\ rs = [])
  end.

(** Two expressions that differ in their selectors' matchers only, which are related by R *)
Inductive rewritten (R : list matcher -> list matcher -> Prop) : expr -> expr -> Prop :=
| rw_selector b i ms ms' : R ms ms' -> rewritten R (ESelector b i ms) (ESelector b i ms')
| rw_node i cs cs' : Forall2 (rewritten R) cs cs' -> rewritten R (ENode i cs) (ENode i cs').

End Spec.
Arguments own {_}.
Arguments calls {_}.
