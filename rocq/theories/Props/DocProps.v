(** C169: what the proxy reads in the documents of UAA and CAPI.  Vocabulary: Auth/SpecDocs.v (the documents, in terms of
    their JSON trees), Auth/Spec.v.  Decoders: Auth/Docs.v; text is read by Json/Text.v. *)
From Coq Require Import Ascii String.
From stdpp Require Import prelude gmap strings list.
From Verif.Base Require Import Str Url Dec.
From Verif.Marshaler Require Import Model.
From Verif.Json Require Import Text Spec TextProofs ValueProofs.
From Verif.Auth Require Import Model System Spec Trace Local Global Run Docs SpecDocs DocsProofs DocsMore DocsOrigin.
Open Scope string_scope.
Open Scope list_scope.
Open Scope Z_scope.

(** ** Documents as they are documented, with whatever other members in whatever order *)
Theorem C169_keys : forall text j ks, read_first text = Some j -> keys_doc j ks -> read_keys text = Some ks.
Proof. exact keys_read. Qed.
Print Assumptions C169_keys.
(** The expiry of a whole number of seconds is exact. *)
Theorem C169_claims : forall text j scopes t n, read_first text = Some j -> claims_doc j scopes t ->
  numeral t n -> n < 2 ^ 53 -> read_claims text = Some (Claims scopes n).
Proof. intros text j scopes t n Hr Hd Ht Hn. eapply claims_read; [done..|]. by apply seconds_exact. Qed.
Print Assumptions C169_claims.
(** Any other number below 2^53: the expiry is less than a second off. *)
Theorem C169_claims_close : forall text j scopes t n k, read_first text = Some j -> claims_doc j scopes t ->
  stands_for t n k -> n * 10 ^ Z.max k 0 < 2 ^ 53 * 10 ^ Z.max (- k) 0 ->
  exists z, read_claims text = Some (Claims scopes z) /\ close_to z n k.
Proof.
  intros text j scopes t n k Hr Hd Ht Hn. destruct (seconds_close t n k Ht Hn) as (z & Hz & Hc). exists z. split; [|done]. by eapply claims_read.
Qed.
Print Assumptions C169_claims_close.
Theorem C169_page : forall text j rs href, read_first text = Some j -> page_doc j rs href -> read_page text = Some (rs, href).
Proof. exact page_read. Qed.
Print Assumptions C169_page.

(** ** Whatever the text: nothing is read that is not there *)
Theorem C169_scope_origin : forall text c s, read_claims text = Some c -> s ∈ cl_scopes c ->
  s = "" \/ exists j, read_first text = Some j /\ array_has "scope" (JStr s) j.
Proof. exact scopes_origin. Qed.
Print Assumptions C169_scope_origin.
Theorem C169_guid_origin : forall text rs href r, read_page text = Some (rs, href) -> r ∈ rs ->
  exists j, read_first text = Some j /\ listed_text "resources" "guid" j (rs_guid r) /\ listed_text "resources" "name" j (rs_name r).
Proof. exact guid_origin. Qed.
Print Assumptions C169_guid_origin.
Theorem C169_key_origin : forall text ks k, read_keys text = Some ks -> k ∈ ks ->
  exists j, read_first text = Some j /\ listed_text "keys" "kid" j k.1 /\ listed_text "keys" "value" j k.2.
Proof. exact key_origin. Qed.
Print Assumptions C169_key_origin.
(** A document with a value of another kind at one of these places is not read at all: a scope that is a text, an
    expiry that is a text, a guid that is a number. *)
Theorem C169_kinds : forall text j, read_first text = Some j ->
  (read_keys text <> None -> keys_like j) /\ (read_claims text <> None -> claims_like j) /\ (read_page text <> None -> page_like j).
Proof.
  intros text j Hr. split_and!; intros H.
  - destruct (read_keys text) eqn:E; [|done]. by eapply keys_kind_ok.
  - destruct (read_claims text) eqn:E; [|done]. by eapply claims_kind_ok.
  - destruct (read_page text) eqn:E; [|done]. by eapply page_kind_ok.
Qed.
Print Assumptions C169_kinds.

(** ** The proxy *)
(** If a read is passed on, UAA answered with a document listing the key and its id; the token's payload, signed with
    that key, is a document that has an expiry, a number that is not negative; the proxy's clock was not a second past it;
    and the payload has one of the two scopes in an array called scope, or CAPI answered a request made with the token
    with a document that lists the source id among its resources. *)
Theorem C169_read : forall L C clock i r p q s id,
  rq_path r = append "/api/v1/read/" id -> has_char newline id = false ->
  (forall n t, (n, ANow t) ∈ s_log s -> 0 < t) ->
  finishes (with_json L) C clock i (KServe r) (RHttp (Forward p q)) s ->
  exists token kid pem k payload j,
    carries (rq_auth r) token /\ jose_headers L token = Some (HString "RS256", HString kid) /\
    (exists n body jk, (n, AUaa (Some (Reply 200 body))) ∈ s_log s /\ read_first body = Some jk /\
       listed_text "keys" "kid" jk kid /\ listed_text "keys" "value" jk pem) /\
    rsa_key L pem = Some k /\ jose_verify L token k = Some payload /\ read_first payload = Some j /\
    (exists t n e now, object_has "exp" (JNum t) j /\ stands_for t n e /\ (i, ANow now) ∈ s_log s /\
       (n * 10 ^ Z.max e 0 < 2 ^ 53 * 10 ^ Z.max (- e) 0 ->
        now * 10 ^ Z.max (- e) 0 < (n * 10 ^ Z.max e 0 + 10 ^ Z.max (- e) 0) * 1000000000)) /\
    (array_has "scope" (JStr "logs.admin") j \/ array_has "scope" (JStr "doppler.firehose") j \/
     exists n u body jp, (n, ACapi u (rq_auth r) (Some (Reply 200 body))) ∈ s_log s /\ read_first body = Some jp /\
       listed_text "resources" "guid" jp id).
Proof.
  intros L C clock i r p q s id Hp Hnl Hpos Hf.
  apply read_ok with (id := id) in Hf as (_ & _ & c & Hv & Ha); [|done|done].
  destruct Hv as (token & kid & k & payload & now & Hc & Hh & (n & body & ks & pem & Hu & Hks & Hin & Hk) & Hsig & Hcl & Hnow & Hexp).
  cbn [with_json json_keys json_claims rsa_key jose_headers jose_verify] in Hh, Hks, Hk, Hsig, Hcl.
  assert (H0 : cl_exp c <> 0) by (specialize (Hpos _ _ Hnow); lia).
  destruct (exp_origin _ _ Hcl H0) as (j & t & Hj & Hobj & Ht).
  exists token, kid, pem, k, payload, j. split; [done|]. split; [done|]. split.
  { destruct (key_origin _ _ _ Hks Hin) as (jk & Hjk & H1 & H2). by exists n, body, jk. }
  split; [done|]. split; [done|]. split; [done|]. split.
  { assert (Hnum : number_text t).
    { apply first_numeric in Hj. destruct Hobj as (ms & key & -> & Hm & _). inversion Hj as [| | | | |l Hl]; subst.
      rewrite Forall_forall in Hl. specialize (Hl _ Hm). by inversion Hl. }
    apply number_stands in Hnum as [(m & e & Hs)|(t' & m & e & -> & Hs)].
    - exists t, m, e, now. split; [done|]. split; [done|]. split; [done|]. intros Hb.
      destruct (seconds_close _ _ _ Hs Hb) as (z & Ez & Hz1 & Hz2). rewrite Ht in Ez. injection Ez as Ez. subst z.
      assert (Hd : 0 < 10 ^ Z.max (- e) 0) by (apply Z.pow_pos_nonneg; lia).
      set (d := 10 ^ Z.max (- e) 0) in *. set (v := m * 10 ^ Z.max e 0) in *. nia.
    - exfalso. eapply seconds_negative in Ht; [|eauto]. specialize (Hpos _ _ Hnow). lia. }
  destruct Ha as [[Ha|Ha]|Ha].
  - left. apply (scopes_origin _ _ _ Hcl) in Ha as [Ha|(j' & Hj' & Ha)]; [done|]. rewrite Hj in Hj'. by injection Hj' as <-.
  - right. left. apply (scopes_origin _ _ _ Hcl) in Ha as [Ha|(j' & Hj' & Ha)]; [done|]. rewrite Hj in Hj'. by injection Hj' as <-.
  - right. right. destruct Ha as (n' & h1 & ts & h2 & before & cs & ids & E & Ec & Hl & Hid & _).
    eapply listed_guids in Hl as (u & body' & ps & href & Hin' & Hpage & Hg); [|exact Hid].
    apply elem_of_list_fmap in Hg as (res & -> & Hres). cbn [with_json json_page] in Hpage.
    destruct (guid_origin _ _ _ _ Hpage Hres) as (jp & Hjp & Hg & _). exists n', u, body', jp. split; [|done].
    rewrite E. apply elem_of_app. left. apply own_elem, calls_elem. rewrite Ec. apply elem_of_app. by right.
Qed.
Print Assumptions C169_read.

(** ** Cases *)
Definition keys_text : string :=
  "{""keys"": [{""kty"":""RSA"", ""kid"":""k1"", ""value"":""PEM1"", ""n"":""x""}, {""kid"":""k2"",""value"":""PEM2""}]}".
Definition user_text : string := "{""sub"":""u"", ""scope"":[""openid"",""logs.read""], ""exp"":1000, ""iat"":900.5}".
Definition first_text : string :=
  "{""pagination"":{""total_results"":2,""next"":{""href"":""http://elsewhere/p2""}},""resources"":[{""guid"":""app-a"",""name"":""a"",""state"":""STARTED""}]}".
Definition last_text : string :=
  "{""pagination"":{""next"":null},""resources"":[{""guid"":""app-b"",""name"":""b"",""relationships"":{}}]}".
Definition none_text : string := "{""pagination"":{""next"":null},""resources"":[]}".
Ltac apart_names := let k := fresh in let j := fresh in let H := fresh in let Hg := fresh in
  intros k j H Hg; apply fold_iff in Hg; repeat (apply elem_of_cons in H as [[= -> ->]|H]; [by vm_compute in Hg|]); by apply elem_of_nil in H.
Ltac at_place b k a := exists b, k, a; split; [reflexivity|]; split; [by apply fold_iff; vm_compute|]; split; apart_names.
Example C169_case_keys : exists j, read_first keys_text = Some j /\ keys_doc j [("k1", "PEM1"); ("k2", "PEM2")].
Proof.
  eexists. split; [vm_compute; reflexivity|]. do 2 eexists. split; [reflexivity|]. split.
  { at_place (@nil (string * json)) "keys" (@nil (string * json)). }
  constructor; [|constructor; [|constructor]]; (eexists; split; [reflexivity|]); split; left.
  - at_place [("kty", JStr "RSA")] "kid" [("value", JStr "PEM1"); ("n", JStr "x")].
  - at_place [("kty", JStr "RSA"); ("kid", JStr "k1")] "value" [("n", JStr "x")].
  - at_place (@nil (string * json)) "kid" [("value", JStr "PEM2")].
  - at_place [("kid", JStr "k2")] "value" (@nil (string * json)).
Qed.
Example C169_case_claims : exists j, read_first user_text = Some j /\ claims_doc j ["openid"; "logs.read"] "1000" /\ numeral "1000" 1000 /\
  stands_for "1.0005e3" 10005 (-1) /\ read_claims "{""Scope"":[""logs.admin""],""exp"":1.0005E3}" = Some (Claims ["logs.admin"] 1000) /\
  read_claims "{""scope"":""logs.admin"",""exp"":1000}" = None.
Proof.
  eexists. split; [vm_compute; reflexivity|]. split.
  { eexists. split; [reflexivity|]. split; [|split].
    - at_place [("sub", JStr "u")] "scope" [("exp", JNum "1000"); ("iat", JNum "900.5")].
    - at_place [("sub", JStr "u"); ("scope", JArr [JStr "openid"; JStr "logs.read"])] "exp" [("iat", JNum "900.5")].
    - apart_names. }
  split; [by apply digits_numeral|]. split; [|by vm_compute].
  apply (nt_exp "1.0005" 10005 4 "e" "3" 3); [|by left|by apply digits_numeral].
  apply (dt_point "1" "0005" 10005 1 5); by apply digits_numeral.
Qed.
Example C169_case_page : exists j, read_first first_text = Some j /\ page_doc j [Resource "app-a" "a"] "http://elsewhere/p2".
Proof.
  eexists. split; [vm_compute; reflexivity|]. do 3 eexists. split; [reflexivity|]. split; [|split; [|split]].
  - eexists [], "pagination", _. split; [reflexivity|]. split; [by apply fold_iff; vm_compute|]. split; apart_names.
  - eexists. split; [reflexivity|]. left. exists [("href", JStr "http://elsewhere/p2")]. split.
    + at_place [("total_results", JNum "2")] "next" (@nil (string * json)).
    + left. at_place (@nil (string * json)) "href" (@nil (string * json)).
  - eexists [_], "resources", []. split; [reflexivity|]. split; [by apply fold_iff; vm_compute|]. split; apart_names.
  - constructor; [|constructor]. eexists. split; [reflexivity|]. split; left.
    + at_place (@nil (string * json)) "guid" [("name", JStr "a"); ("state", JStr "STARTED")].
    + at_place [("guid", JStr "app-a")] "name" [("state", JStr "STARTED")].
Qed.
(** A member that is there twice is read twice, the second time over what the first left: a null keeps it. *)
Example C169_twice : read_claims "{""scope"":[""logs.admin""],""scope"":[null],""exp"":1000}" = Some (Claims ["logs.admin"] 1000).
Proof. by vm_compute. Qed.
(** The proxy of Auth/Run.v with these documents. *)
Definition doc_lib : lib := with_json {|
  key := string; meta_info := Z;
  jose_headers := table [("good", (HString "RS256", HString "k1"))];
  jose_verify := fun tok k => table [("good/K1", user_text)] (append tok (append "/" k));
  rsa_key := table [("PEM1", "K1"); ("PEM2", "K2")];
  json_keys := fun _ => None; json_claims := fun _ => None; json_page := fun _ => None;
  url_parse := fun s => Some (Url "https" "capi" s "");
  promql_parse := toy_parse; promql_print := toy_print; clean_path := id |}.
Definition doc_ok (body : string) : answer doc_lib := XReply (Some (Reply 200 body)).
Definition doc_page (t : Z) (body : string) : list (answer doc_lib) := [XTime t; doc_ok body; XTime t].
Definition doc_script : list (choice doc_lib) :=
  (Step 0 <$> [XNone; XTime 100; XTime 100; XNone; doc_ok keys_text; XNone; XNone; XNone]) ++
  [Arrive (KServe (read_request "app-b" "Bearer good"))] ++
  (Step 2 <$> [XNone; XTime 101; XNone] ++ doc_page 102 first_text ++ [XNone] ++ doc_page 102 last_text ++ doc_page 102 none_text ++ [XTime 103]).
Example C169_case_read : exists s,
  finishes doc_lib toy_config 100 2 (KServe (read_request "app-b" "Bearer good")) (RHttp (Forward "/api/v1/read/app-b" "limit=5")) s /\
  (forall n t, (n, ANow t) ∈ s_log s -> 0 < t).
Proof.
  destruct (scripted_finishes toy_config 100 doc_script (Step 2 XNone) 2 (KServe (read_request "app-b" "Bearer good"))
              (fun o s => (match o with RHttp (Forward p q) => bool_decide (p = "/api/v1/read/app-b") && bool_decide (q = "limit=5") | _ => false end) &&
                          forallb (fun x => match x.2 with ANow t => 0 <? t | _ => true end) (s_log s))) as (o & s & Hf & Ht).
  { vm_compute. reflexivity. }
  apply andb_prop in Ht as [Ho Hl]. exists s. split.
  - destruct o as [[| | |p q|]| | |]; try done. apply andb_prop in Ho as [E1 E2].
    apply bool_decide_eq_true in E1 as ->. by apply bool_decide_eq_true in E2 as ->.
  - intros n t Hin. rewrite forallb_forall in Hl. apply elem_of_list_In, Hl in Hin. cbn in Hin. by apply Z.ltb_lt in Hin.
Qed.
