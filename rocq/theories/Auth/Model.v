(** Model of internal/auth/{uaa_client,capi_client,cf_auth_middleware}.go: the authorisation proxy.

    Every function is a program: a possibly infinite tree whose nodes are the effects the function
    performs (clock readings, HTTP requests, accesses to the shared maps) and whose branches are their
    results.  Goroutines interleave at effects (Auth/System.v). *)
From Coq Require Import Ascii String.
From stdpp Require Import prelude gmap strings list.
From Verif.Base Require Import Str Url.
From Verif.Promql Require Import Model.
Open Scope string_scope.
Open Scope list_scope.
Open Scope Z_scope.

(** ** What is not in the repository *)

(** net/url URL: the parts the code touches.  User, Opaque and Fragment are left out. *)
Record url := Url { u_scheme : string; u_host : string; u_path : string; u_query : string }.

(** net/http Response: status code and body *)
Record reply := Reply { r_status : Z; r_body : string }.

(** a value of map[string]interface{}: absent, a string, or something else *)
Inductive header := HMissing | HString (s : string) | HOther.

(** capi_client.go:205-208 resource *)
Record resource := Resource { rs_guid : string; rs_name : string }.

(** uaa_client.go:273-279 decodedToken: the scopes, and int64(exp) *)
Record claims := Claims { cl_scopes : list string; cl_exp : Z }.

(** The libraries: jose2go, encoding/pem with crypto/x509, encoding/json on the three documents
    decoded, net/url.Parse, the Prometheus parser and printer, gorilla/mux cleanPath; and the type of
    the backend's meta entries. *)
Record lib := Lib {
  key : Type;
  meta_info : Type;
  jose_headers : string -> option (header * header);     (* alg and kid; None: not a token *)
  jose_verify : string -> key -> option string;          (* the payload, if the RS256 signature is good *)
  rsa_key : string -> option key;                        (* PEM to RSA public key *)
  json_keys : string -> option (list (string * string)); (* tokenKeys: kid and value *)
  json_claims : string -> option claims;
  json_page : string -> option (list resource * string); (* resources and pagination.next.href *)
  url_parse : string -> option url;
  promql_parse : string -> option expr;
  promql_print : expr -> string;
  clean_path : string -> string }.

Section Model.
Context (L : lib).

(** capi_client.go:83-87 authorizedSourceIds *)
Record entry := Entry { en_ids : list string; en_retry : Z; en_expires : Z }.

(** The configuration: the CAPI address, cacheExpirationInterval, minimumRefreshInterval (ns) *)
Record config := Config { cf_capi : string; cf_cache : Z; cf_refresh : Z }.
Context (C : config).

(** ** Effects *)
Inductive eff : Type -> Type :=
| Now : eff Z                                            (* time.Now(), in ns *)
| UaaGet : eff (option reply)                            (* GET <uaa>/token_keys; None: no response *)
| CapiGet (u : url) (token : string) : eff (option reply)
| MetaGet : eff (option (gmap string (meta_info L)))     (* metaFetcher.Meta *)
| KeyLoad (kid : string) : eff (option (key L))          (* publicKeys.Load / Store / Range / Delete *)
| KeyStore (kid : string) (k : key L) : eff unit
| KeyRange : eff (list string)
| KeyDelete (kid : string) : eff unit
| LastLoad : eff Z                                       (* lastQueryTime *)
| LastCas (old new : Z) : eff bool
| CacheLoad (token : string) : eff (option entry)        (* tokenCache.Load / Store / Range / Delete *)
| CacheStore (token : string) (e : entry) : eff unit
| CacheRange : eff (list (string * entry))
| CacheDelete (token : string) : eff unit
| Order (s : gset string) : eff (list string)            (* iterating over a Go map: any order *)
| Spawn : eff unit.                                      (* go c.RefreshTokenKeys() *)

CoInductive prog (A : Type) : Type :=
| Ret (a : A)
| Panic
| Tau (p : prog A)
| Vis {X : Type} (e : eff X) (k : X -> prog A).
Arguments Ret {A}.
Arguments Panic {A}.
Arguments Tau {A}.
Arguments Vis {A X}.

CoFixpoint bind {A B} (p : prog A) (f : A -> prog B) : prog B :=
  match p with
  | Ret a => f a
  | Panic => Panic
  | Tau p => Tau (bind p f)
  | Vis e k => Vis e (fun x => bind (k x) f)
  end.
Definition do {X} (e : eff X) : prog X := Vis e Ret.

(** for { ... }: the body either goes round again or leaves with a result *)
CoFixpoint loop {S B} (body : S -> prog (S + B)) (p : prog (S + B)) : prog B :=
  match p with
  | Ret (inl s) => Tau (loop body (body s))
  | Ret (inr b) => Ret b
  | Panic => Panic
  | Tau p => Tau (loop body p)
  | Vis e k => Vis e (fun x => loop body (k x))
  end.
Definition forever {S B} (body : S -> prog (S + B)) (s : S) : prog B := loop body (body s).

Notation "'let!' x := p 'in' q" := (bind p (fun x => q)) (at level 200, x name, p at level 100, q at level 200).

(** ** uaa_client.go *)

(** uaa_client.go:121-149: the loop over the keys received.  Some ids: the previously known key ids
    UAA did not list; None: it stopped with an error. *)
Fixpoint store_keys (ks : list (string * string)) (current : list string) : prog (option (list string)) :=
  match ks with
  | [] => Ret (Some current)
  | (kid, value) :: ks =>
      if bool_decide (value = "") then Ret None
      else match rsa_key L value with
           | None => Ret None
           | Some k =>
               let! _ := do (KeyStore kid k) in
               store_keys ks (filter (fun x => x ≠ kid) current)
           end
  end.

(** uaa_client.go:151-153 *)
Fixpoint delete_keys (kids : list string) : prog unit :=
  match kids with
  | [] => Ret tt
  | kid :: kids => let! _ := do (KeyDelete kid) in delete_keys kids
  end.

(** uaa_client.go:78-156 RefreshTokenKeys; the result says whether it returned a nil error.
    time.Unix(0, last).Add(interval) and UnixNano are taken without int64 overflow, the configured UAA
    URL is taken to be valid, and sync.Map's Range to be a snapshot. *)
Definition refresh : prog bool :=
  let! last := do LastLoad in
  let! t := do Now in
  if bool_decide (t < last + cf_refresh C) then Ret true
  else
    let! t' := do Now in
    let! _ := do (LastCas last t') in
    let! resp := do UaaGet in
    match resp with
    | None => Ret false
    | Some r =>
        if bool_decide (r_status r = 200) then
          match json_keys L (r_body r) with
          | None => Ret false
          | Some ks =>
              let! current := do KeyRange in
              let! left := store_keys ks current in
              match left with
              | None => Ret false
              | Some ids => let! _ := delete_keys ids in Ret true
              end
          end
        else Ret false
    end.

(** uaa_client.go:233-247 loadOrFetchPublicKey *)
Definition load_or_fetch (kid : string) : prog (option (key L)) :=
  let! k := do (KeyLoad kid) in
  match k with
  | Some k => Ret (Some k)
  | None => let! _ := refresh in do (KeyLoad kid)
  end.

(** uaa_client.go:249-253 trimBearer: the regexp (?i)^bearer\s+ *)
Definition lower (c : ascii) : ascii :=
  let n := nat_of_ascii c in
  if ((65 <=? n) && (n <=? 90))%nat then ascii_of_nat (n + 32) else c.
Fixpoint strip_word (w s : string) : option string :=
  match w, s with
  | EmptyString, _ => Some s
  | String a w, String b s => if ceqb a (lower b) then strip_word w s else None
  | String _ _, EmptyString => None
  end.
Definition re_space (c : ascii) : bool :=
  let n := nat_of_ascii c in ((n =? 9) || (n =? 10) || (n =? 12) || (n =? 13) || (n =? 32))%nat.
Fixpoint skip_spaces (s : string) : string :=
  match s with
  | String c s' => if re_space c then skip_spaces s' else s
  | EmptyString => EmptyString
  end.
Definition trim_bearer (s : string) : string :=
  match strip_word "bearer" s with
  | Some (String c s') => if re_space c then skip_spaces s' else s
  | _ => s
  end.

(** cf_auth_middleware.go:28-32 Oauth2ClientContext *)
Record user := User { us_admin : bool; us_token : string; us_expires : Z }.

(** uaa_client.go:207-225: what happens to a token whose signature is good.  The expiry is in seconds;
    time.Time is taken without overflow. *)
Definition admin_scope (s : string) : bool :=
  bool_decide (s = "doppler.firehose") || bool_decide (s = "logs.admin").
Definition accept (token payload : string) : prog (option user) :=
  match json_claims L payload with
  | None => Ret None
  | Some c =>
      let! t := do Now in
      if bool_decide (cl_exp c * 1000000000 < t) then Ret None
      else Ret (Some (User (existsb admin_scope (cl_scopes c)) token (cl_exp c)))
  end.

(** uaa_client.go:175-231 Read.  A missing or non-string alg or kid fails a type assertion. *)
Definition uaa_read (token : string) : prog (option user) :=
  if bool_decide (token = "") then Ret None
  else
    match jose_headers L (trim_bearer token) with
    | None => let! _ := do Spawn in Ret None
    | Some (HString alg, kid) =>
        if bool_decide (alg = "RS256") then
          match kid with
          | HString kid =>
              let! k := load_or_fetch kid in
              match k with
              | None => Ret None
              | Some k =>
                  match jose_verify L (trim_bearer token) k with
                  | None => let! _ := do Spawn in Ret None
                  | Some payload => accept token payload
                  end
              end
          | _ => Panic
          end
        else Ret None
    | Some (_, _) => Panic
    end.

(** ** capi_client.go *)

(** capi_client.go:299-318 doRequest (latencies are measured, not modelled further) *)
Definition do_request (u : url) (token : string) : prog (option reply) :=
  let! _ := do Now in
  let! r := do (CapiGet u token) in
  let! _ := do Now in
  Ret r.

(** capi_client.go:230-272 doResourceRequest: the resources and the next page *)
Definition page_of (u : url) (r : option reply) : option (list resource * option url) :=
  match r with
  | None => None
  | Some r =>
      if bool_decide (r_status r = 200) then
        match json_page L (r_body r) with
        | None => None
        | Some (rs, href) =>
            if bool_decide (href = "") then Some (rs, None)
            else match url_parse L href with
                 | None => None
                 | Some v => Some (rs, Some (Url (u_scheme u) (u_host u) (u_path v) (u_query v)))
                 end
        end
      else None
  end.
Definition do_resource_request (u : url) (token : string) : prog (option (list resource * option url)) :=
  let! r := do_request u token in Ret (page_of u r).

(** capi_client.go:210-228 doPaginatedResourceRequest *)
Definition page_step (token : string) (st : url * list resource)
  : prog ((url * list resource) + option (list resource)) :=
  let! page := do_resource_request st.1 token in
  Ret (match page with
       | None => inr None
       | Some (rs, None) => inr (Some (st.2 ++ rs))
       | Some (rs, Some u) => inl (u, st.2 ++ rs)
       end).
Definition paginated (u : url) (token : string) : prog (option (list resource)) :=
  forever (page_step token) (u, []).

(** capi_client.go:140-173 AvailableSourceIDs; http.NewRequest parses the URL *)
Definition available (token : string) : prog (list string) :=
  match url_parse L (append (cf_capi C) "/v3/apps") with
  | None => Ret []
  | Some u =>
      let! apps := paginated u token in
      match apps with
      | None => Ret []
      | Some apps =>
          match url_parse L (append (cf_capi C) "/v3/service_instances") with
          | None => Ret []
          | Some u' =>
              let! services := paginated u' token in
              match services with
              | None => Ret []
              | Some services => Ret ((rs_guid <$> apps) ++ (rs_guid <$> services))
              end
          end
      end
  end.

(** capi_client.go:175-203 GetRelatedSourceIds *)
Definition add_guid (m : gmap string (list string)) (r : resource) : gmap string (list string) :=
  <[rs_name r := default [] (m !! rs_name r) ++ [rs_guid r]]> m.
Definition names_query (q : string) (names : list string) : string :=
  encode_query (vset "per_page" "5000" (vset "names" (join "," names) (parse_query q))).
Definition related (names : list string) (token : string) : prog (gmap string (list string)) :=
  match names with
  | [] => Ret ∅
  | _ =>
      match url_parse L (append (cf_capi C) "/v3/apps") with
      | None => Ret ∅
      | Some u =>
          let! rs := paginated (Url (u_scheme u) (u_host u) (u_path u) (names_query (u_query u) names)) token in
          match rs with
          | None => Ret ∅
          | Some rs => Ret (foldl add_guid ∅ rs)
          end
      end
  end.

(** capi_client.go:130-138 isContained *)
Definition contained (ids : list string) (id : string) : bool := bool_decide (id ∈ ids).

(** capi_client.go:113-127 IsAuthorized: asking CAPI and remembering the answer *)
Definition fetch (id token : string) (retry : Z) : prog bool :=
  let! ids := available token in
  let! t := do Now in
  let! _ := do (CacheStore token (Entry ids retry (t + cf_cache C))) in
  Ret (contained ids id).

(** capi_client.go:89-128 IsAuthorized *)
Definition is_authorized (id token : string) : prog bool :=
  let! s := do (CacheLoad token) in
  match s with
  | None => fetch id token 0
  | Some e =>
      let! t := do Now in
      if bool_decide (t < en_expires e) then
        if contained (en_ids e) id then Ret true
        else if bool_decide (3 <= en_retry e) then Ret false
        else fetch id token (en_retry e + 1)
      else fetch id token 0
  end.

(** capi_client.go:283-297 pruneTokens; the ticker may fire at any time *)
Fixpoint prune_entries (now : Z) (es : list (string * entry)) : prog unit :=
  match es with
  | [] => Ret tt
  | (tok, e) :: es =>
      if bool_decide (en_expires e < now) then let! _ := do (CacheDelete tok) in prune_entries now es
      else prune_entries now es
  end.
Definition prune_step (_ : unit) : prog (unit + Empty_set) :=
  let! now := do Now in
  let! es := do CacheRange in
  let! _ := prune_entries now es in
  Ret (inl tt).

(** ** cf_auth_middleware.go *)

(** net/http Request: URL.Path, URL.RawQuery and the first Authorization header ("" if none) *)
Record request := Request { rq_path : string; rq_query : string; rq_auth : string }.

(** What the client or the backend gets to see: a status with an empty body, a 301, a bad_data body
    with status 400, the request passed on to the backend, a meta body *)
Inductive outcome :=
| Status (code : Z)
| Redirect
| BadData
| Forward (path query : string)
| MetaBody (m : gmap string (meta_info L)).

(** cf_auth_middleware.go:77-105 *)
Definition read_handler (id : string) (r : request) : prog outcome :=
  if bool_decide (rq_auth r = "") then Ret (Status 404)
  else
    let! c := uaa_read (rq_auth r) in
    match c with
    | None => Ret (Status 404)
    | Some c =>
        if us_admin c then Ret (Forward (rq_path r) (rq_query r))
        else
          let! ok := is_authorized id (us_token c) in
          Ret (if (ok : bool) then Forward (rq_path r) (rq_query r) else Status 404)
    end.

(** cf_auth_middleware.go:217-227 authorizeSourceIds *)
Fixpoint authorize_ids (ids : list string) (token : string) : prog (list string) :=
  match ids with
  | [] => Ret []
  | id :: ids =>
      let! ok := is_authorized id token in
      let! rest := authorize_ids ids token in
      Ret (if (ok : bool) then id :: rest else rest)
  end.

(** cf_auth_middleware.go:152-165: the loop over the requested source ids.  None: 404 was written. *)
Fixpoint expand (ids : list string) (sets : gmap string (list string)) (c : user)
  : prog (option (gmap string (list string))) :=
  match ids with
  | [] => Ret (Some sets)
  | id :: ids =>
      let all := default [] (sets !! id) ++ [id] in
      if us_admin c then expand ids (<[id := all]> sets) c
      else
        let! allowed := authorize_ids all (us_token c) in
        match allowed with
        | [] => Ret None
        | _ => expand ids (<[id := allowed]> sets) c
        end
  end.

(** cf_auth_middleware.go:107-182 *)
Definition query_handler (r : request) : prog outcome :=
  if bool_decide (rq_auth r = "") then Ret (Status 404)
  else
    match promql_parse L (vget "query" (parse_query (rq_query r))) with
    | None => Ret BadData
    | Some e =>
        let! ids := do (Order (id_set (expr_ids e))) in
        match ids with
        | [] => Ret BadData
        | _ =>
            let! c := uaa_read (rq_auth r) in
            match c with
            | None => Ret (Status 404)
            | Some c =>
                let! sets := related ids (rq_auth r) in
                let! sets := expand ids sets c in
                match sets with
                | None => Ret (Status 404)
                | Some sets =>
                    Ret (Forward (rq_path r)
                      (encode_query (vset "query" (promql_print L (replace_ids sets e)) (parse_query (rq_query r)))))
                end
            end
        end
    end.

(** cf_auth_middleware.go:229-245 onlyAuthorized, given the user's list *)
Definition intersection (ids : list string) (m : gmap string (meta_info L)) : gmap string (meta_info L) :=
  foldl (fun acc id => match m !! id with Some v => <[id := v]> acc | None => acc end) ∅ ids.

(** cf_auth_middleware.go:184-210 *)
Definition meta_handler (r : request) : prog outcome :=
  if bool_decide (rq_auth r = "") then Ret (Status 404)
  else
    let! c := uaa_read (rq_auth r) in
    match c with
    | None => Ret (Status 404)
    | Some c =>
        let! m := do MetaGet in
        match m with
        | None => Ret (Status 502)
        | Some m =>
            if us_admin c then Ret (MetaBody m)
            else let! ids := available (rq_auth r) in Ret (MetaBody (intersection ids m))
        end
    end.

(** cf_auth_middleware.go:74-215 Middleware: gorilla/mux redirects unclean paths, then takes the first
    route that matches; the regexp .* does not match a newline. *)
Definition newline : ascii := ascii_of_nat 10.
Definition read_id (path : string) : option string :=
  match strip_prefix "/api/v1/read/" path with
  | Some id => if has_char newline id then None else Some id
  | None => None
  end.
Definition serve (r : request) : prog outcome :=
  if bool_decide (clean_path L (rq_path r) = rq_path r) then
    match read_id (rq_path r) with
    | Some id => read_handler id r
    | None =>
        if bool_decide (rq_path r = "/api/v1/query") || bool_decide (rq_path r = "/api/v1/query_range")
        then query_handler r
        else if bool_decide (rq_path r = "/api/v1/meta") then meta_handler r
        else if bool_decide (rq_path r = "/api/v1/info") then Ret (Forward (rq_path r) (rq_query r))
        else Ret (Status 404)
    end
  else Ret Redirect.

End Model.
