(** Properties of the authorisation proxy (C48-C50, C52-C55, C85-C90), each followed by a case meeting its
    hypotheses.  Vocabulary: Auth/Spec.v.  Programs: Auth/Model.v.  Executions: Auth/System.v. *)
From Coq Require Import Ascii String.
From stdpp Require Import prelude gmap strings list.
From Verif.Base Require Import Str Url.
From Verif.Promql Require Import Model Spec.
From Verif.Auth Require Import Model System Spec Trace Local Global Throttle Pace Safety Decide Run Endless.
Open Scope string_scope.
Open Scope list_scope.
Open Scope Z_scope.

Definition forwards (p q : string) (o : result toy) : bool :=
  match o with RHttp (Forward p' q') => bool_decide (p' = p) && bool_decide (q' = q) | _ => false end.
Definition says (b : bool) (o : result toy) : bool := match o with RBool b' => eqb b b' | _ => false end.

(** ** C48 *)
(** A read request is passed on unchanged, and only if its token is vouched for by a key UAA published and
    its owner is an admin or authorised for the source id in the path. *)
Theorem C48_read : forall L C clock i r p q s id,
  rq_path r = append "/api/v1/read/" id -> has_char newline id = false ->
  finishes L C clock i (KServe r) (RHttp (Forward p q)) s ->
  p = rq_path r /\ q = rq_query r /\
  exists c, vouched L (s_log s) i (rq_auth r) c /\ (admin c \/ authorised L C (s_log s) i (rq_auth r) id).
Proof. intros L C. exact read_ok. Qed.
Print Assumptions C48_read.
(** Nothing else but queries and the info page is ever passed on. *)
Theorem C48_routes : forall L C clock i r p q s,
  finishes L C clock i (KServe r) (RHttp (Forward p q)) s ->
  (exists id, rq_path r = append "/api/v1/read/" id /\ has_char newline id = false) \/
  rq_path r ∈ ["/api/v1/query"; "/api/v1/query_range"; "/api/v1/info"].
Proof. intros L C. exact forward_routes. Qed.
Print Assumptions C48_routes.
Definition read_script : list (choice toy) :=
  startup ++ [Arrive (KServe (read_request "app-b" "Bearer good"))] ++
  go 2 ([◦; at_time 101; ◦] ++ listing 102 ++ [at_time 103]).
Example C48_case : exists s,
  finishes toy toy_config 100 2 (KServe (read_request "app-b" "Bearer good")) (RHttp (Forward "/api/v1/read/app-b" "limit=5")) s.
Proof.
  destruct (scripted_finishes toy_config 100 read_script (Step 2 ◦) 2 (KServe (read_request "app-b" "Bearer good"))
              (fun o _ => forwards "/api/v1/read/app-b" "limit=5" o)) as (o & s & Hf & Ht).
  { vm_compute. reflexivity. }
  exists s. destruct o as [[| | |p q|]| | |]; try done. cbn in Ht. apply andb_prop in Ht as [E1 E2].
  apply bool_decide_eq_true in E1 as ->. by apply bool_decide_eq_true in E2 as ->.
Qed.

(** ** C49 *)
(** A source id containing a bar, listed by CAPI, opens the door to the ids it is made of: the backend is
    asked for "secret", which CAPI never listed. *)
Definition query_script : list (choice toy) :=
  startup ++ [Arrive (KServe (Request "/api/v1/query" "query=%3Dx" "Bearer good"))] ++
  go 2 ([◦; ◦; at_time 101] ++ page 102 "pipe" ++
        [◦] ++ page 103 "pipe" ++ page 103 "none" ++ [at_time 103; ◦] ++
        [◦; at_time 104] ++
        [◦; at_time 105] ++ page 105 "pipe" ++ page 105 "none" ++ [at_time 106]).
Definition never_lists (id : string) (h : list (nat * act toy)) : bool :=
  forallb (fun x => match x.2 with
                    | ACapi _ _ (Some r) => match json_page toy (r_body r) with
                                            | Some (rs, _) => negb (bool_decide (id ∈ rs_guid <$> rs))
                                            | None => true end
                    | _ => true end) h.
Lemma never_authorised C id h i tok : never_lists id h = true -> ~ authorised toy C h i tok id.
Proof.
  intros Hn (j & h1 & ts & h2 & before & cs & ids & E & Ec & Hl & Hx & _).
  eapply listed_guids in Hl as (v & body & ps & href & Hin & Hj & Hg); [|exact Hx].
  unfold never_lists in Hn. rewrite forallb_forall in Hn.
  assert (Hin' : (j, ACapi v tok (Some (Reply 200 body))) ∈ h).
  { rewrite E. apply elem_of_app. left. apply own_elem, calls_elem. rewrite Ec. apply elem_of_app. by right. }
  apply elem_of_list_In, Hn in Hin'. cbn [snd r_body] in Hin'. rewrite Hj in Hin'.
  apply negb_true_iff, bool_decide_eq_false in Hin'. done.
Qed.
Definition open_door : Prop := exists L C clock i r p q s e ms id,
  (forall text e sets e', promql_parse L text = Some e -> promql_parse L (promql_print L (replace_ids sets e)) = Some e' ->
     e' = replace_ids sets e) /\
  rq_path r = "/api/v1/query" /\ finishes L C clock i (KServe r) (RHttp (Forward p q)) s /\
  promql_parse L (vget "query" (parse_query q)) = Some e /\
  (forall c, vouched L (s_log s) i (rq_auth r) c -> ~ admin c) /\
  selector_of e ms /\ asks ms id /\ ~ authorised L C (s_log s) i (rq_auth r) id.
Lemma toy_round_trip text e sets e' : toy_parse text = Some e -> toy_parse (toy_print (replace_ids sets e)) = Some e' ->
  e' = replace_ids sets e.
Proof.
  assert (H : forall t v e'', (t = MatchEqual \/ t = MatchRegexp) ->
    toy_parse (toy_print (ESelector false "" [mk_matcher "source_id" t v])) = Some e'' -> e'' = ESelector false "" [mk_matcher "source_id" t v]).
  { intros t v e'' [->| ->]; cbn; by intros [= <-]. }
  assert (Ht : forall x, type_for x = MatchEqual \/ type_for x = MatchRegexp) by (intros x; unfold type_for; destruct (_ <? _)%nat; auto).
  destruct text as [|c v]; [done|]. cbn. destruct (ceqb c "="); [|destruct (ceqb c "~"); [|done]].
  - intros [= <-]. cbn [replace_ids fmap list_fmap]. unfold replace_matcher. cbn [lm_name lm_type].
    rewrite bool_decide_true by done. unfold replace_equal. cbn [lm_name lm_type lm_value].
    destruct (sets !! v) as [x|]; apply H; auto.
  - intros [= <-]. cbn [replace_ids fmap list_fmap]. unfold replace_matcher. cbn [lm_name lm_type].
    rewrite bool_decide_true by done. unfold replace_regexp. cbn [lm_name lm_type lm_value]. apply H. auto.
Qed.
Lemma table_elem {A} (l : list (string * A)) s x : table l s = Some x -> (s, x) ∈ l.
Proof. apply elem_of_list_to_map_2. Qed.
Lemma toy_user h i c : vouched toy h i "Bearer good" c -> ~ admin c.
Proof.
  intros (token & kid & k & payload & t & Hca & Hh & (j & body & ks & pem & _ & _ & _ & Hk) & Hv & Hc & _).
  apply carries_fun in Hca. vm_compute in Hca. subst token.
  apply table_elem in Hk. apply table_elem in Hc. apply table_elem in Hv.
  change ((pem, k : string) ∈ [("PEM1", "K1"); ("PEM2", "K2")]) in Hk.
  rewrite !elem_of_cons, elem_of_nil in Hk. rewrite !elem_of_cons, elem_of_nil in Hc. rewrite !elem_of_cons, elem_of_nil in Hv.
  destruct Hk as [[= -> ->]|[[= -> ->]|[]]].
  - destruct Hv as [[= ->]|[[=]|[[=]|[]]]]. destruct Hc as [[= ->]|[[=]|[]]].
    intros [H|H]; cbn in H; apply elem_of_list_singleton in H; done.
  - by destruct Hv as [[=]|[[=]|[[=]|[]]]].
Qed.
Lemma door : open_door.
Proof.
  destruct (scripted_finishes toy_config 100 query_script (Step 2 ◦) 2 (KServe (Request "/api/v1/query" "query=%3Dx" "Bearer good"))
              (fun o s => forwards "/api/v1/query" "query=~x%7Csecret%7Cy" o && never_lists "secret" (s_log s))) as (o & s & Hf & Ht).
  { vm_compute. reflexivity. }
  apply andb_prop in Ht as [Ho Hn]. destruct o as [[| | |p q|]| | |]; try done. cbn in Ho. apply andb_prop in Ho as [E1 E2].
  apply bool_decide_eq_true in E1 as ->. apply bool_decide_eq_true in E2 as ->.
  exists toy, toy_config, 100, 2%nat, (Request "/api/v1/query" "query=%3Dx" "Bearer good"), "/api/v1/query", "query=~x%7Csecret%7Cy", s.
  exists (ESelector false "" [mk_matcher "source_id" MatchRegexp "x|secret|y"]), [mk_matcher "source_id" MatchRegexp "x|secret|y"], "secret".
  split; [exact toy_round_trip|]. split; [done|]. split; [exact Hf|]. split.
  { assert (E : vget "query" (parse_query "query=~x%7Csecret%7Cy") = "~x|secret|y") by (vm_compute; reflexivity).
    rewrite E. vm_compute. reflexivity. }
  split; [intros c; apply toy_user|]. split; [constructor|]. split; [|by apply never_authorised].
  exists (mk_matcher "source_id" MatchRegexp "x|secret|y"). split; [left|]. split; [done|]. right. split; [done|].
  apply (alt_split _ _ ["x"; "secret"; "y"]); [done|by repeat constructor|right; left].
Qed.
Theorem C49_bar_refuted : exists L C clock i r p q s e ms id,
  (forall text e sets e', promql_parse L text = Some e -> promql_parse L (promql_print L (replace_ids sets e)) = Some e' ->
     e' = replace_ids sets e) /\
  rq_path r = "/api/v1/query" /\ finishes L C clock i (KServe r) (RHttp (Forward p q)) s /\
  promql_parse L (vget "query" (parse_query q)) = Some e /\
  (forall c, vouched L (s_log s) i (rq_auth r) c -> ~ admin c) /\
  selector_of e ms /\ asks ms id /\ ~ authorised L C (s_log s) i (rq_auth r) id.
Proof. exact door. Qed.
Print Assumptions C49_bar_refuted.
(** If the PromQL printer writes what the parser reads back and CAPI lists no source id with a bar: the
    query passed on differs from the request in its query text only, its token is vouched for, and its
    owner is an admin or authorised for every source id asked for by a selector of the expression the
    backend reads from it. *)
Theorem C49_query_partial : forall L C clock i r p q s e,
  (forall text e sets e', promql_parse L text = Some e -> promql_parse L (promql_print L (replace_ids sets e)) = Some e' ->
     e' = replace_ids sets e) ->
  (forall j u tok body rs href x, (j, ACapi u tok (Some (Reply 200 body))) ∈ s_log s ->
     json_page L body = Some (rs, href) -> x ∈ rs_guid <$> rs -> has_char "|" x = false) ->
  rq_path r ∈ ["/api/v1/query"; "/api/v1/query_range"] ->
  finishes L C clock i (KServe r) (RHttp (Forward p q)) s ->
  promql_parse L (vget "query" (parse_query q)) = Some e ->
  p = rq_path r /\ length (default [] (parse_query q !! "query")) = 1%nat /\
  (forall k, k <> "query" -> parse_query q !! k = parse_query (rq_query r) !! k) /\
  exists c, vouched L (s_log s) i (rq_auth r) c /\
    (admin c \/ forall ms id, selector_of e ms -> asks ms id -> authorised L C (s_log s) i (rq_auth r) id).
Proof. intros L C. exact query_ok. Qed.
Print Assumptions C49_query_partial.
Definition query_good : list (choice toy) :=
  startup ++ [Arrive (KServe (Request "/api/v1/query" "query=%3Da&time=7" "Bearer good"))] ++
  go 2 ([◦; ◦; at_time 101] ++ page 102 "apps1" ++ [◦] ++ page 102 "none" ++
        [◦] ++ listing 103 ++ [at_time 103; ◦] ++ [◦; at_time 104] ++ listing 104 ++ [at_time 105]).
Definition no_bars (h : list (nat * act toy)) : bool :=
  forallb (fun x => match x.2 with
                    | ACapi _ _ (Some r) => match json_page toy (r_body r) with
                                            | Some (rs, _) => forallb (fun x => negb (has_char "|" x)) (rs_guid <$> rs)
                                            | None => true end
                    | _ => true end) h.
Example C49_case : exists s,
  finishes toy toy_config 100 2 (KServe (Request "/api/v1/query" "query=%3Da&time=7" "Bearer good"))
    (RHttp (Forward "/api/v1/query" "query=%3Dapp-a&time=7")) s /\ no_bars (s_log s) = true /\
  promql_parse toy (vget "query" (parse_query "query=%3Dapp-a&time=7")) =
    Some (ESelector false "" [mk_matcher "source_id" MatchEqual "app-a"]).
Proof.
  destruct (scripted_finishes toy_config 100 query_good (Step 2 ◦) 2 (KServe (Request "/api/v1/query" "query=%3Da&time=7" "Bearer good"))
              (fun o s => forwards "/api/v1/query" "query=%3Dapp-a&time=7" o && no_bars (s_log s))) as (o & s & Hf & Ht).
  { vm_compute. reflexivity. }
  apply andb_prop in Ht as [Ho Hn]. destruct o as [[| | |p q|]| | |]; try done. cbn in Ho. apply andb_prop in Ho as [E1 E2].
  apply bool_decide_eq_true in E1 as ->. apply bool_decide_eq_true in E2 as ->. exists s. split; [done|]. split; [done|].
  assert (E : vget "query" (parse_query "query=%3Dapp-a&time=7") = "=app-a") by (vm_compute; reflexivity).
  rewrite E. vm_compute. reflexivity.
Qed.

(** ** C50 *)
(** A meta answer is given to vouched-for tokens only.  An admin gets the backend's answer; anyone else
    exactly the entries of the sources CAPI then lists for them, and none if the listing fails. *)
Theorem C50_meta : forall L C clock i r m s,
  finishes L C clock i (KServe r) (RHttp (MetaBody m)) s ->
  exists c l1 l2 backend, vouched L (s_log s) i (rq_auth r) c /\
    own i (s_log s) = l1 ++ AMeta (Some backend) :: l2 /\
    ((admin c /\ m = backend) \/
     (~ admin c /\ exists ids,
        (listed L C (rq_auth r) (calls l2) ids \/ (list_fails L C (rq_auth r) (calls l2) /\ ids = [])) /\
        forall id, m !! id = if decide (id ∈ ids) then backend !! id else None)).
Proof. intros L C. exact meta_ok. Qed.
Print Assumptions C50_meta.
Definition backend_meta : gmap string Z := {["app-a" := 1; "other" := 2; "svc-c" := 3]}.
Definition meta_script : list (choice toy) :=
  startup ++ [Arrive (KServe (Request "/api/v1/meta" "" "Bearer good"))] ++
  go 2 ([◦; at_time 101; XMeta (L := toy) (Some backend_meta)] ++ page 102 "apps1" ++ [◦] ++ page 102 "apps2" ++
        [at_time 102; ok "services"]).
Example C50_case : exists m s,
  finishes toy toy_config 100 2 (KServe (Request "/api/v1/meta" "" "Bearer good")) (RHttp (MetaBody m)) s /\
  m = {["app-a" := 1; "svc-c" := 3]}.
Proof.
  destruct (scripted_finishes toy_config 100 meta_script (Step 2 (at_time 102)) 2 (KServe (Request "/api/v1/meta" "" "Bearer good"))
     (fun o _ => match o with RHttp (MetaBody m) => bool_decide (m = ({["app-a" := 1; "svc-c" := 3]} : gmap string (meta_info toy))) | _ => false end))
    as (o & s & Hf & Ht).
  { vm_compute. reflexivity. }
  destruct o as [[| | |p q|m]| | |]; try done. apply bool_decide_eq_true in Ht. by exists m, s.
Qed.

(** ** C52 *)
(** The lifetime counts from the end of the listing: with a slow second request, a source id is accepted
    although CAPI listed it longer ago than the lifetime. *)
Definition fresh (L : lib) (C : config) (h : list (nat * act L)) (i : nat) (tok id : string) : Prop :=
  exists h1 j u body rs href h2,
    h = h1 ++ (j, ACapi u tok (Some (Reply 200 body))) :: h2 /\ json_page L body = Some (rs, href) /\ id ∈ rs_guid <$> rs /\
    forall j1 t1 h3 h4 t2, h2 = h3 ++ (j1, ANow t1) :: h4 -> (i, ANow t2) ∈ h4 -> t2 <= t1 + cf_cache C.
Definition slow_script : list (choice toy) :=
  [Arrive (KAuthorize "app-b" "Bearer good")] ++ go 2 ([◦] ++ page 100 "apps2" ++ page 1000 "services" ++ [at_time 1000]).
Definition slow_log : list (nat * act toy) :=
  let u p := Url "https" "capi" (append "https://capi" p) "" in
  pair 2%nat <$> [ACacheLoad "Bearer good" None;
    ANow 100; ACapi (u "/v3/apps") "Bearer good" (Some (Reply 200 "apps2")); ANow 100;
    ANow 1000; ACapi (u "/v3/service_instances") "Bearer good" (Some (Reply 200 "services")); ANow 1000;
    ANow 1000; ACacheStore "Bearer good" (Entry ["app-b"; "svc-c"] 0 1030)].
Lemma stale : exists L C clock i id tok s,
  finishes L C clock i (KAuthorize id tok) (RBool true) s /\ ~ fresh L C (s_log s) i tok id.
Proof.
  destruct (scripted_finishes toy_config 100 slow_script (Step 2 ◦) 2 (KAuthorize "app-b" "Bearer good")
              (fun o s => says true o && bool_decide (s_log s = slow_log))) as (o & s & Hf & Ht).
  { vm_compute. reflexivity. }
  apply andb_prop in Ht as [Ho Hl]. apply bool_decide_eq_true in Hl. destruct o as [|[]| |]; try done.
  exists toy, toy_config, 100, 2%nat, "app-b", "Bearer good", s. split; [done|]. rewrite Hl.
  intros (h1 & j & u & body & rs & href & h2 & E & Hj & Hid & Hfr). unfold slow_log in E. cbn [fmap list_fmap] in E.
  do 2 (destruct h1 as [|? h1]; [discriminate E|]; injection E as _ E).
  destruct h1 as [|? h1].
  - injection E as _ _ _ E. subst h2. specialize (Hfr 2%nat 100 [] _ 1000 eq_refl ltac:(left)). cbn in Hfr. lia.
  - injection E as _ E. do 2 (destruct h1 as [|? h1]; [discriminate E|]; injection E as _ E).
    destruct h1 as [|? h1].
    + injection E as _ _ Eb _. subst body. vm_compute in Hj. injection Hj as <- <-. cbn in Hid.
      apply elem_of_list_singleton in Hid. done.
    + injection E as _ E. do 3 (destruct h1 as [|? h1]; [discriminate E|]; injection E as _ E). by destruct h1.
Qed.
Theorem C52_age_refuted : exists L C clock i id tok s,
  finishes L C clock i (KAuthorize id tok) (RBool true) s /\ ~ fresh L C (s_log s) i tok id.
Proof. exact stale. Qed.
Print Assumptions C52_age_refuted.
(** IsAuthorized says yes only if a complete listing for that very token contains the source id, and the
    lifetime since the end of that listing is not over; a failed listing authorises nothing. *)
Theorem C52_cache_partial : forall L C clock i id tok s,
  finishes L C clock i (KAuthorize id tok) (RBool true) s -> authorised L C (s_log s) i tok id.
Proof. intros L C. exact authorize_ok. Qed.
Print Assumptions C52_cache_partial.
(** a second call is answered from the first one's listing *)
Definition cached_script : list (choice toy) :=
  [Arrive (KAuthorize "app-a" "Bearer good")] ++ go 2 ([◦] ++ listing 101 ++ [at_time 102; ◦]) ++
  [Arrive (KAuthorize "svc-c" "Bearer good")] ++ go 3 [◦].
Example C52_case : exists s,
  finishes toy toy_config 100 3 (KAuthorize "svc-c" "Bearer good") (RBool true) s /\ own 3 (s_log s) =
    [ACacheLoad "Bearer good" (Some (Entry ["app-a"; "app-b"; "svc-c"] 0 132)); ANow 131].
Proof.
  destruct (scripted_finishes toy_config 100 cached_script (Step 3 (at_time 131)) 3 (KAuthorize "svc-c" "Bearer good")
              (fun o s => says true o && bool_decide (own 3 (s_log s) =
    [ACacheLoad "Bearer good" (Some (Entry ["app-a"; "app-b"; "svc-c"] 0 132)); ANow 131]))) as (o & s & Hf & Ht).
  { vm_compute. reflexivity. }
  apply andb_prop in Ht as [Ho Hl]. apply bool_decide_eq_true in Hl. destruct o as [|[]| |]; try done. by exists s.
Qed.

(** ** C53 *)
(** A listing that succeeds has the resources of all pages, one that meets a bad page fails. *)
Lemma paging {L : lib} n u tok l o : tr n (paginated L u tok) l (Ret o) ->
  match o with Some rs => pages L tok u (calls l) rs | None => pages_fail L tok u (calls l) end.
Proof.
  intros H. apply paginated_tr in H as [_ H]. specialize (H o eq_refl). destruct o; [|done].
  by destruct H as (rs & -> & H).
Qed.
Theorem C53_pages : forall L n u tok l o, tr n (paginated L u tok) l (Ret o) ->
  match o with Some rs => pages L tok u (calls l) rs | None => pages_fail L tok u (calls l) end.
Proof. exact @paging. Qed.
Print Assumptions C53_pages.
(** Every request to CAPI goes to the configured host, whatever the pages say, and carries the token of
    the request it is made for. *)
Theorem C53_confined : forall L C clock s i u tok r, reachable L C clock s -> (i, ACapi u tok r) ∈ s_log s ->
  (exists path v, path ∈ ["/v3/apps"; "/v3/service_instances"] /\ url_parse L (append (cf_capi C) path) = Some v /\
     u_scheme u = u_scheme v /\ u_host u = u_host v) /\
  exists kd p, s_threads s !! i = Some (kd, p) /\
    match kd with KServe r => rq_auth r = tok | KAuthorize _ t => t = tok | KRead t => t = tok | _ => "" = tok end.
Proof.
  intros L C clock s i u tok r Hr Hin. destruct (capi_confined _ _ _ _ _ _ Hr Hin) as (Hc & kd & p & Hi & Hk).
  split; [exact Hc|]. exists kd, p. split; [done|]. by destruct kd.
Qed.
Print Assumptions C53_confined.
Example C53_case : exists s, reachable toy toy_config 100 s /\
  (2%nat, ACapi (Url "https" "capi" "http://elsewhere/p2" "") "Bearer good" (Some (Reply 200 "apps2"))) ∈ s_log s.
Proof.
  destruct (reaches_ok toy_config 100 read_script (fun s => bool_decide
     ((2%nat, ACapi (Url "https" "capi" "http://elsewhere/p2" "") "Bearer good" (Some (Reply 200 "apps2"))) ∈ s_log s)))
    as (s & Hr & Ht); [vm_compute; reflexivity|].
  exists s. split; [done|]. by apply bool_decide_eq_true in Ht.
Qed.

(** ** C54 *)
(** A token is accepted only if it is vouched for; the context it gives has its expiry, and is an admin's
    exactly if one of the two scopes is there. *)
Theorem C54_token : forall L C clock i auth u s,
  finishes L C clock i (KRead auth) (RUser (Some u)) s ->
  us_token u = auth /\ exists c, vouched L (s_log s) i auth c /\ us_expires u = cl_exp c /\ (us_admin u = true <-> admin c).
Proof. intros L C. exact uaa_ok. Qed.
Print Assumptions C54_token.
Definition token_script : list (choice toy) := startup ++ [Arrive (KRead "bEaReR  root"); Step 2 ◦].
Example C54_case : exists s,
  finishes toy toy_config 100 2 (KRead "bEaReR  root") (RUser (Some (User true "bEaReR  root" 1000))) s.
Proof.
  destruct (scripted_finishes toy_config 100 token_script (Step 2 (at_time 1000000000000)) 2 (KRead "bEaReR  root")
     (fun o _ => match o with RUser u => bool_decide (u = Some (User true "bEaReR  root" 1000)) | _ => false end))
    as (o & s & Hf & Ht).
  { vm_compute. reflexivity. }
  destruct o as [| |u|]; try done. apply bool_decide_eq_true in Ht as ->. by exists s.
Qed.

(** ** C55 *)
(** Calls made one after the other ask UAA for keys at most once per interval: t1 and t2 are the last clock
    readings before two requests to UAA. *)
Theorem C55_throttle : forall L C m l m', session (L := L) (C := C) m l m' -> 0 <= cf_refresh C ->
  forall a t1 b1 r1 a2 t2 b2 r2 c,
  l = a ++ ANow t1 :: b1 ++ AUaa r1 :: a2 ++ ANow t2 :: b2 ++ AUaa r2 :: c ->
  (forall t, ANow t ∉ b1) -> (forall t, ANow t ∉ b2) ->
  t1 + cf_refresh C <= t2.
Proof. intros L C m l m' H Hpos. exact (spaced_two _ _ _ Hpos (session_spaced _ _ _ H)). Qed.
Print Assumptions C55_throttle.
(** a bad token, tried three times, makes UAA be asked twice *)
Fixpoint sequence (calls : list (kind * list (answer toy))) (m : mem toy) : option (list (act toy) * mem toy) :=
  match calls with
  | [] => Some ([], m)
  | (kd, xs) :: calls =>
      match run_prog 30 (start toy toy_config kd) m xs with
      | Some (l, m1, _) => match sequence calls m1 with Some (l', m') => Some (l ++ l', m') | None => None end
      | None => None
      end
  end.
Lemma sequence_session calls : forall m l m', sequence calls m = Some (l, m') -> session (L := toy) (C := toy_config) m l m'.
Proof.
  induction calls as [|[kd xs] calls IH]; intros m l m'; cbn [sequence]; [intros [= <- <-]; constructor|].
  destruct (run_prog _ _ m xs) as [[[l1 m1] o1]|] eqn:E1; [|done].
  destruct (sequence calls m1) as [[l2 m2]|] eqn:E2; [|done]. intros [= <- <-].
  econstructor; [by eapply run_prog_runs|by apply IH].
Qed.
Lemma sequence_test calls m (test : list (act toy) -> bool) :
  match sequence calls m with Some (l, _) => test l | None => false end = true ->
  exists l m', session (L := toy) (C := toy_config) m l m' /\ test l = true.
Proof.
  intros H. destruct (sequence calls m) as [[l m']|] eqn:E; [|done]. exists l, m'. split; [by eapply sequence_session|done].
Qed.
Example C55_case : exists l m, session (L := toy) (C := toy_config) empty_mem l m /\
  omap (fun x => match x with AUaa _ => Some true | ANow _ => Some false | _ => None end) l =
    [false; false; true; false; false; false; true].
Proof.
  destruct (sequence_test [(KRead "second", [at_time 100; at_time 100; ok "k1"]); (KRead "second", [at_time 130]);
                           (KRead "second", [at_time 160; at_time 161; ok "k1"])] empty_mem
    (fun l => bool_decide (omap (fun x => match x with AUaa _ => Some true | ANow _ => Some false | _ => None end) l =
                           [false; false; true; false; false; false; true]))) as (l & m & Hs & Ht).
  { vm_compute. reflexivity. }
  exists l, m. split; [exact Hs|]. by apply bool_decide_eq_true in Ht.
Qed.

(** ** C85: key refreshes under concurrency *)
(** Requests that run at the same time all ask: the failed update of the last query time is ignored. *)
Definition race_script : list (choice toy) :=
  go 0 [◦; at_time 100] ++ [Arrive KRefresh] ++ go 2 [◦; at_time 100; at_time 100; ◦; ok "k1"] ++ go 0 [at_time 100; ◦; ok "k1"].
Lemma race : exists L C clock s h1 i r1 h2 j r2 h3,
  0 < cf_refresh C /\ reachable L C clock s /\ s_log s = h1 ++ (i, AUaa r1) :: h2 ++ (j, AUaa r2) :: h3 /\
  forall k t, (k, ANow t) ∈ s_log s -> t = clock.
Proof.
  set (log := [(0%nat, ALastLoad 0); (0%nat, ANow 100); (2%nat, ALastLoad 0); (2%nat, ANow 100); (2%nat, ANow 100);
     (2%nat, ALastCas 0 100 true); (2%nat, AUaa (Some (Reply 200 "k1"))); (0%nat, ANow 100); (0%nat, ALastCas 0 100 false);
     (0%nat, AUaa (Some (Reply 200 "k1")))] : list (nat * act toy)).
  destruct (reaches_ok toy_config 100 race_script (fun s => bool_decide (s_log s = log))) as (s & Hr & Ht); [vm_compute; reflexivity|].
  apply bool_decide_eq_true in Ht. exists toy, toy_config, 100, s.
  exists (take 6 log), 2%nat, (Some (Reply 200 "k1")), [(0%nat, ANow 100); (0%nat, ALastCas 0 100 false)], 0%nat, (Some (Reply 200 "k1")), [].
  split; [done|]. split; [done|]. split; [by rewrite Ht|]. intros k t H. rewrite Ht in H. unfold log in H.
  rewrite !elem_of_cons, elem_of_nil in H. naive_solver.
Qed.
Theorem C85_concurrent_refuted : exists L C clock s h1 i r1 h2 j r2 h3,
  0 < cf_refresh C /\ reachable L C clock s /\ s_log s = h1 ++ (i, AUaa r1) :: h2 ++ (j, AUaa r2) :: h3 /\
  forall k t, (k, ANow t) ∈ s_log s -> t = clock.
Proof. exact race. Qed.
Print Assumptions C85_concurrent_refuted.
(** A refresh that starts after another one has recorded its time n asks only an interval after n. *)
Theorem C85_paced_partial : forall L C clock s h1 j o n h2 i v h3 r h4, 0 <= cf_refresh C -> reachable L C clock s ->
  s_log s = h1 ++ (j, ALastCas o n true) :: h2 ++ (i, ALastLoad v) :: h3 ++ (i, AUaa r) :: h4 ->
  (forall v', (i, ALastLoad v') ∉ h3) ->
  exists t, (i, ANow t) ∈ h3 /\ n + cf_refresh C <= t.
Proof. intros L C. exact pace_ok. Qed.
Print Assumptions C85_paced_partial.
Definition paced_script : list (choice toy) :=
  startup ++ [Arrive KRefresh] ++ go 2 [◦; at_time 165; at_time 166; ◦; ok "k1"].
Example C85_case : exists s, reachable toy toy_config 100 s /\ s_log s =
  take 3 (s_log s) ++ (0%nat, ALastCas 0 100 true) :: take 3 (drop 4 (s_log s)) ++ (2%nat, ALastLoad 100) ::
    [(2%nat, ANow 165); (2%nat, ANow 166); (2%nat, ALastCas 100 166 true)] ++ (2%nat, AUaa (Some (Reply 200 "k1"))) :: [].
Proof.
  destruct (reaches_ok toy_config 100 paced_script (fun s => bool_decide (s_log s =
  take 3 (s_log s) ++ (0%nat, ALastCas 0 100 true) :: take 3 (drop 4 (s_log s)) ++ (2%nat, ALastLoad 100) ::
    [(2%nat, ANow 165); (2%nat, ANow 166); (2%nat, ALastCas 100 166 true)] ++ (2%nat, AUaa (Some (Reply 200 "k1"))) :: [])))
    as (s & Hr & Ht); [vm_compute; reflexivity|].
  apply bool_decide_eq_true in Ht. by exists s.
Qed.

(** ** C86: revoked keys *)
(** A key UAA no longer lists can come back: the slower of two refreshes stores what it got first.  And a
    refresh which meets a key it cannot read keeps everything. *)
Definition revive_script : list (choice toy) :=
  go 0 [◦; at_time 100; at_time 100; ◦; ok "k1,k2"] ++ [Arrive KRefresh] ++
  go 2 [◦; at_time 200; at_time 200; ◦; ok "k1"; ◦; ◦] ++ go 0 [◦; ◦; ◦].
Definition keep_script : list (choice toy) :=
  go 0 [◦; at_time 100; at_time 100; ◦; ok "k1,k2"; ◦; ◦; ◦] ++ [Arrive KRefresh] ++
  go 2 [◦; at_time 200; at_time 200; ◦; ok "k1,bad"; ◦; ◦].
Definition finished (s : sys toy) : bool :=
  match stage_of s 0, stage_of s 2 with Done _, Done _ => true | _, _ => false end.
(** the last answer of UAA, and what it says about the key id *)
Definition last_answer (L : lib) (h : list (nat * act L)) (body : string) : Prop :=
  exists h1 i h2, h = h1 ++ (i, AUaa (Some (Reply 200 body))) :: h2 /\ forall j r, (j, AUaa r) ∉ h2.
Lemma revived : exists L C clock s kid k body ks, reachable L C clock s /\
  (forall i kd p, s_threads s !! i = Some (kd, p) -> kd = KPrune \/ exists o, p = Ret o) /\
  last_answer L (s_log s) body /\ json_keys L body = Some ks /\ kid ∉ ks.*1 /\ m_keys (s_mem s) !! kid = Some k.
Proof.
  set (log_a := [(0%nat, ALastLoad 0); (0%nat, ANow 100); (0%nat, ANow 100); (0%nat, ALastCas 0 100 true); (0%nat, AUaa (Some (Reply 200 "k1,k2")));
    (2%nat, ALastLoad 100); (2%nat, ANow 200); (2%nat, ANow 200); (2%nat, ALastCas 100 200 true)] : list (nat * act toy)).
  set (log_b := [(2%nat, AKeyRange []); (2%nat, AKeyStore (L := toy) "k1" "K1"); (0%nat, AKeyRange ["k1"]); (0%nat, AKeyStore (L := toy) "k1" "K1"); (0%nat, AKeyStore (L := toy) "k2" "K2")] : list (nat * act toy)).
  destruct (reaches_ok toy_config 100 revive_script (fun s => finished s && (length (s_threads s) =? 3)%nat && bool_decide (kind_of s 1 = Some KPrune) &&
     bool_decide (s_log s = log_a ++ (2%nat, AUaa (Some (Reply 200 "k1"))) :: log_b) && bool_decide (m_keys (s_mem s) !! "k2" = Some "K2"))) as (s & Hr & Ht).
  { vm_compute. reflexivity. }
  repeat match goal with H : _ && _ = true |- _ => apply andb_prop in H as [? ?] end.
  repeat match goal with H : bool_decide _ = true |- _ => apply bool_decide_eq_true in H end.
  exists toy, toy_config, 100, s, "k2", "K2", "k1", [("k1", "PEM1")]. split; [done|]. split.
  - intros i kd p Hi. destruct i as [|[|[|i]]].
    + right. unfold finished, stage_of in *. rewrite Hi in *. destruct p; try done. eauto.
    + left. unfold kind_of in *. rewrite Hi in *. cbn in *. by simplify_eq.
    + right. unfold finished, stage_of in *. rewrite Hi in *. destruct (s_threads s !! 0%nat) as [[? []]|]; try done. destruct p; try done. eauto.
    + apply lookup_lt_Some in Hi. match goal with H : (_ =? _)%nat = true |- _ => apply Nat.eqb_eq in H; unfold thread in *; lia end.
  - split; [|split; [vm_compute; reflexivity|split; [|done]]].
    + exists log_a, 2%nat, log_b. split; [done|]. intros j r Hj. unfold log_b in Hj. rewrite !elem_of_cons, elem_of_nil in Hj. naive_solver.
    + cbn. rewrite elem_of_list_singleton. done.
Qed.
Theorem C86_revoked_refuted : exists L C clock s kid k body ks, reachable L C clock s /\
  (forall i kd p, s_threads s !! i = Some (kd, p) -> kd = KPrune \/ exists o, p = Ret o) /\
  last_answer L (s_log s) body /\ json_keys L body = Some ks /\ kid ∉ ks.*1 /\ m_keys (s_mem s) !! kid = Some k.
Proof. exact revived. Qed.
Print Assumptions C86_revoked_refuted.
(** A refresh that is not interrupted and reports no error leaves exactly the keys UAA listed. *)
Theorem C86_refresh_partial : forall L C m l m' body ks, runs (refresh L C) m l m' true ->
  AUaa (Some (Reply 200 body)) ∈ l -> json_keys L body = Some ks ->
  forall kid k, m_keys m' !! kid = Some k <->
    exists ks1 pem ks2, ks = ks1 ++ (kid, pem) :: ks2 /\ rsa_key L pem = Some k /\ kid ∉ ks2.*1.
Proof.
  intros L C m l m' body ks H Hin Hks kid k. rewrite (refresh_keys m l m' body ks H Hin Hks kid k). split.
  - intros [ks1 kid' pem k' ks2 Hr Hn]. eauto 10.
  - intros (ks1 & pem & ks2 & -> & Hr & Hn). by constructor.
Qed.
Print Assumptions C86_refresh_partial.
Example C86_case : exists l m, runs (refresh toy toy_config) (Mem {["k0" := "K0"; "k1" := "Kold"]} 0 ∅ 100 : mem toy) l m true /\
  AUaa (Some (Reply 200 "k1,k2")) ∈ l /\ m_keys m = {["k1" := "K1"; "k2" := "K2"]}.
Proof.
  assert (H : match run_prog 30 (refresh toy toy_config) (Mem {["k0" := "K0"; "k1" := "Kold"]} 0 ∅ 100 : mem toy) [at_time 100; at_time 100; ok "k1,k2"] with
     | Some (l, m, b) => (b : bool) && bool_decide (AUaa (Some (Reply 200 "k1,k2")) ∈ l) && bool_decide (m_keys m = ({["k1" := "K1"; "k2" := "K2"]} : gmap string (key toy)))
     | None => false end = true) by (vm_compute; reflexivity).
  destruct (run_prog _ _ _ _) as [[[l m] b]|] eqn:E; [|done]. apply run_prog_runs in E.
  apply andb_prop in H as [H H2]. apply andb_prop in H as [-> H1]. apply bool_decide_eq_true in H1, H2. by exists l, m.
Qed.

(** ** C87: listings end *)
(** CAPI can keep a request paging for ever. *)
Lemma endless : exists L C clock kd i, forall n : nat, exists s p, reachable L C clock s /\ s_threads s !! i = Some (kd, p) /\
  (forall o, p <> Ret o) /\ (n <= length (calls (own i (s_log s))))%nat.
Proof. exists toy, toy_config, 100. exact endless_paging. Qed.
Theorem C87_listing_refuted : exists L C clock kd i, forall n : nat, exists s p, reachable L C clock s /\ s_threads s !! i = Some (kd, p) /\
  (forall o, p <> Ret o) /\ (n <= length (calls (own i (s_log s))))%nat.
Proof. exact endless. Qed.
Print Assumptions C87_listing_refuted.
(** While CAPI answers the same request the same way (f) and the pages it names end or one of them is bad,
    a listing asks for those pages only, in order. *)
Theorem C87_listing_partial : forall L (f : url -> option reply) tok u cs,
  ((exists rs, pages L tok u cs rs) \/ pages_fail L tok u cs) -> (forall v t r, (v, t, r) ∈ cs -> f v = r) ->
  forall n l q, tr n (paginated L u tok) l q -> (forall v t r, (v, t, r) ∈ calls l -> f v = r) ->
  calls l `prefix_of` cs.
Proof. intros L f tok u cs H1 H2 n l q. apply listing_prefix; done. Qed.
Print Assumptions C87_listing_partial.

(** ** C88: malformed tokens *)
(** A token without a key id in its header makes the handler panic. *)
Lemma crash : exists L C clock s r i, reachable L C clock s /\ s_threads s !! i = Some (KServe r, Panic).
Proof.
  destruct (reaches_ok toy_config 100 (startup ++ [Arrive (KServe (read_request "app-a" "Bearer nokid"))])
    (fun s => bool_decide (kind_of s 2 = Some (KServe (read_request "app-a" "Bearer nokid"))) && match stage_of s 2 with Crashed => true | _ => false end)) as (s & Hr & Ht).
  { vm_compute. reflexivity. }
  apply andb_prop in Ht as [Hk Hst]. apply bool_decide_eq_true in Hk. unfold kind_of, stage_of in *.
  destruct (s_threads s !! 2%nat) as [[kd []]|] eqn:E; try done. cbn in Hk. simplify_eq.
  exists toy, toy_config, 100, s, (read_request "app-a" "Bearer nokid"), 2%nat. done.
Qed.
Theorem C88_panic_refuted : exists L C clock s r i, reachable L C clock s /\ s_threads s !! i = Some (KServe r, Panic).
Proof. exact crash. Qed.
Print Assumptions C88_panic_refuted.
(** If jose finds an algorithm in the token and, should it be RS256, a key id, then the request does not
    panic; nor does any refresh, or the pruner. *)
Theorem C88_no_panic_partial : forall L C clock s i kd p, reachable L C clock s -> s_threads s !! i = Some (kd, p) ->
  (match kd with KServe r => Some (rq_auth r) | KRead auth => Some auth | _ => None end = None \/
   exists auth, match kd with KServe r => Some (rq_auth r) | KRead auth => Some auth | _ => None end = Some auth /\
     forall token alg kid, carries auth token -> jose_headers L token = Some (alg, kid) ->
       exists a, alg = HString a /\ (a = "RS256" -> exists k, kid = HString k)) ->
  p <> Panic.
Proof.
  intros L C clock s i kd p Hr Hi H ->. eapply no_panic; [exact Hr| |exact Hi].
  destruct H as [H|(auth & H & Hp)]; destruct kd; cbn [kind_auth]; intros Hne; try done; injection H as <-; exact Hp.
Qed.
Print Assumptions C88_no_panic_partial.
Example C88_case : exists s p, reachable toy toy_config 100 s /\ s_threads s !! 2%nat = Some (KServe (read_request "app-a" "Bearer good"), p) /\
  forall token alg kid, carries "Bearer good" token -> jose_headers toy token = Some (alg, kid) ->
    exists a, alg = HString a /\ (a = "RS256" -> exists k, kid = HString k).
Proof.
  destruct (reaches_ok toy_config 100 (startup ++ [Arrive (KServe (read_request "app-a" "Bearer good"))])
    (fun s => bool_decide (kind_of s 2 = Some (KServe (read_request "app-a" "Bearer good"))))) as (s & Hr & Ht); [vm_compute; reflexivity|].
  apply bool_decide_eq_true in Ht. unfold kind_of in Ht. destruct (s_threads s !! 2%nat) as [[kd p]|] eqn:E; [|done].
  cbn in Ht. simplify_eq. exists s, p. split; [done|]. split; [done|]. intros token alg kid Hc Hh.
  apply carries_fun in Hc. vm_compute in Hc. subst token. vm_compute in Hh. injection Hh as <- <-. eauto.
Qed.

(** ** C89: the decision *)
(** A request for one source with a good token, nothing cached and not interrupted: an admin's is passed
    on; anyone else's is passed on exactly if the listing it makes has the source id, otherwise it is
    answered with 404. *)
Theorem C89_decision : forall L C r id m l m' o c token kid k payload,
  clean_path L (rq_path r) = rq_path r -> rq_path r = append "/api/v1/read/" id -> has_char newline id = false ->
  carries (rq_auth r) token -> rq_auth r <> "" -> jose_headers L token = Some (HString "RS256", HString kid) ->
  m_keys m !! kid = Some k -> jose_verify L token k = Some payload -> json_claims L payload = Some c ->
  m_cache m !! rq_auth r = None ->
  runs (serve L C r) m l m' o -> (forall t, ANow t ∈ l -> t <= cl_exp c * 1000000000) ->
  (admin c /\ o = Forward (rq_path r) (rq_query r)) \/
  (~ admin c /\
   ((exists ids, listed L C (rq_auth r) (calls l) ids /\
       o = if decide (id ∈ ids) then Forward (rq_path r) (rq_query r) else Status 404) \/
    (list_fails L C (rq_auth r) (calls l) /\ o = Status 404))).
Proof.
  intros L C r id m l m' o c token kid k payload Hcl Hp Hn Hca Hne Hh Hk Hv Hj Hc H Ht.
  eapply decide_read; try done. by exists token, kid, k, payload.
Qed.
Print Assumptions C89_decision.
(** ** C90: no call to CAPI while the listing is fresh *)
Theorem C90_cached : forall L C r id m l m' o c e token kid k payload,
  clean_path L (rq_path r) = rq_path r -> rq_path r = append "/api/v1/read/" id -> has_char newline id = false ->
  carries (rq_auth r) token -> rq_auth r <> "" -> jose_headers L token = Some (HString "RS256", HString kid) ->
  m_keys m !! kid = Some k -> jose_verify L token k = Some payload -> json_claims L payload = Some c ->
  m_cache m !! rq_auth r = Some e -> id ∈ en_ids e ->
  runs (serve L C r) m l m' o -> (forall t, ANow t ∈ l -> t <= cl_exp c * 1000000000 /\ t < en_expires e) ->
  o = Forward (rq_path r) (rq_query r) /\ forall u tok rep, ACapi u tok rep ∉ l.
Proof.
  intros L C r id m l m' o c e token kid k payload Hcl Hp Hn Hca Hne Hh Hk Hv Hj Hc Hin H Ht.
  eapply decide_cached in H as [Hcalls ->]; try done; [|by exists token, kid, k, payload].
  split; [done|]. intros u tok rep Hu. apply elem_of_list_split in Hu as (l1 & l2 & ->).
  rewrite calls_app in Hcalls. by destruct (calls l1).
Qed.
Print Assumptions C90_cached.
Lemma two_runs {A B} n1 n2 (p1 : prog toy A) (p2 : prog toy B) m xs1 xs2 (test : list (act toy) -> mem toy -> A -> B -> bool) :
  match run_prog n1 p1 m xs1 with
  | Some (l1, m1, o1) => match run_prog n2 p2 m1 xs2 with Some (_, _, o2) => test l1 m1 o1 o2 | None => false end
  | None => false
  end = true ->
  exists l1 m1 o1 l2 m2 o2, runs p1 m l1 m1 o1 /\ runs p2 m1 l2 m2 o2 /\ test l1 m1 o1 o2 = true.
Proof.
  destruct (run_prog n1 p1 m xs1) as [[[l1 m1] o1]|] eqn:E1; [|done].
  destruct (run_prog n2 p2 m1 xs2) as [[[l2 m2] o2]|] eqn:E2; [|done].
  apply run_prog_runs in E1, E2. intros H. by exists l1, m1, o1, l2, m2, o2.
Qed.
(** a stranger's source is refused, then one's own is served from the cache *)
Example C89_case : exists l1 m1 l2 m2,
  runs (serve toy toy_config (read_request "other" "Bearer good")) (Mem {["k1" := "K1"]} 0 ∅ 100 : mem toy) l1 m1 (Status 404) /\
  runs (serve toy toy_config (read_request "app-b" "Bearer good")) m1 l2 m2 (Forward "/api/v1/read/app-b" "limit=5") /\
  length (calls l1) = 3%nat /\ m_keys m1 = {["k1" := "K1"]} /\ (exists e, m_cache m1 !! "Bearer good" = Some e /\ "app-b" ∈ en_ids e).
Proof.
  destruct (two_runs 60 60 (serve toy toy_config (read_request "other" "Bearer good")) (serve toy toy_config (read_request "app-b" "Bearer good"))
    (Mem {["k1" := "K1"]} 0 ∅ 100)
    ([at_time 101] ++ page 102 "apps1" ++ page 102 "apps2" ++ page 102 "services" ++ [at_time 103]) [at_time 104; at_time 104]
    (fun l1 m1 o1 o2 =>
       match o1 with Status s => bool_decide (s = 404) | _ => false end &&
       match o2 with Forward p q => bool_decide (p = "/api/v1/read/app-b") && bool_decide (q = "limit=5") | _ => false end &&
       (length (calls l1) =? 3)%nat && bool_decide (m_keys m1 = ({["k1" := "K1"]} : gmap string (key toy))) &&
       match m_cache m1 !! "Bearer good" with Some e => bool_decide ("app-b" ∈ en_ids e) | None => false end))
    as (l1 & m1 & o1 & l2 & m2 & o2 & H1 & H2 & H); [vm_compute; reflexivity|].
  repeat match goal with H : _ && _ = true |- _ => apply andb_prop in H as [? ?] end.
  destruct o1 as [st| | | |]; try done. destruct o2 as [| | |p q|]; try done.
  destruct (m_cache m1 !! "Bearer good") as [e|] eqn:Ee; [|done].
  repeat match goal with H : _ && _ = true |- _ => apply andb_prop in H as [? ?] end.
  repeat match goal with H : bool_decide _ = true |- _ => apply bool_decide_eq_true in H end. subst st p q.
  exists l1, m1, l2, m2. split; [done|]. split; [done|]. split; [by apply Nat.eqb_eq|]. split; [done|]. by exists e.
Qed.
