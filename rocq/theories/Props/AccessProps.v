(** Properties of the access log (C56, C91, C92, C96), each followed by a case meeting its hypotheses.
    Vocabulary: AccessLog/Spec.v.  Functions: AccessLog/Model.v. *)
From Coq Require Import Ascii String.
From stdpp Require Import prelude strings list.
From Verif.Base Require Import GoInt Str.
From Verif.AccessLog Require Import Spec Model Proofs Fields.
Open Scope string_scope.
Open Scope list_scope.

(** ** C56 *)
(** The path is logged percent-decoded: with %0A in it a client writes whole records of its choosing,
    here one that says that someone else read someone's logs. *)
Definition victim : areq := AReq "/api/v1/read/secret" "" "GET" "id" "" "10.0.0.1:1234".
Definition forger : areq :=
  AReq (append "/x" (String newline (append (cef victim 1000000 "10.0.0.2" "8083") (String newline "")))) "" "GET" "" "" "10.9.9.9:99".
Lemma forged : exists r now host port r' now' before after,
  Forall (fun s => lines s = 0%nat) [a_query r; a_method r; a_id r; a_forwarded r; a_remote r; host; port] /\
  a_remote r' <> a_remote r /\
  log_access r now host port = append before (String (ascii_of_nat 10) (append (log_access r' now' host port) after)).
Proof.
  exists forger, 2000000%Z, "10.0.0.2", "8083", victim, 1000000%Z.
  exists (append "CEF:0|cloud_foundry|log_cache|1.0|GET /x" "").
  eexists. split; [by repeat constructor|]. split; [done|]. vm_compute. reflexivity.
Qed.
Theorem C56_forged_refuted : exists r now host port r' now' before after,
  Forall (fun s => lines s = 0%nat) [a_query r; a_method r; a_id r; a_forwarded r; a_remote r; host; port] /\
  a_remote r' <> a_remote r /\
  log_access r now host port = append before (String (ascii_of_nat 10) (append (log_access r' now' host port) after)).
Proof. exact forged. Qed.
Print Assumptions C56_forged_refuted.
(** net/http accepts no newline in a method, a raw query or a header.  Then a request without a newline in
    its decoded path, and no other, writes exactly one line, and its newline is the last byte. *)
Theorem C56_one_line_partial : forall r now host port,
  Forall (fun s => lines s = 0%nat) [a_query r; a_method r; a_id r; a_forwarded r; a_remote r; host; port] ->
  (lines (log_access r now host port) = 1%nat <-> lines (a_path r) = 0%nat) /\
  exists text, log_access r now host port = append text (String (ascii_of_nat 10) "").
Proof.
  intros r now host port H. rewrite (log_lines r now host port H). split; [lia|]. by eexists.
Qed.
Print Assumptions C56_one_line_partial.
Example C56_case :
  Forall (fun s => lines s = 0%nat) [a_query victim; a_method victim; a_id victim; a_forwarded victim; a_remote victim; "10.0.0.2"; "8083"] /\
  lines (a_path victim) = 0%nat.
Proof. split; [by repeat constructor|done]. Qed.

(** ** C91 *)
(** Requests that differ can have the same record: a space is not escaped, and a byte 0 is shown as the
    replacement character. *)
Lemma collision : exists r r' now host port,
  a_path r = a_path r' /\ a_method r = a_method r' /\ a_id r = a_id r' /\ remote_info r <> remote_info r' /\
  log_access r now host port = log_access r' now host port.
Proof.
  exists (AReq "/a" "" "GET" "" "1.2.3.4 spt=9:5" ""), (AReq "/a" "" "GET" "" "1.2.3.4:9 spt=5" ""), 0%Z, "h", "p".
  split; [done|]. split; [done|]. split; [done|]. split; [by vm_compute|]. vm_compute. reflexivity.
Qed.
Theorem C91_same_record_refuted : exists r r' now host port,
  a_path r = a_path r' /\ a_method r = a_method r' /\ a_id r = a_id r' /\ remote_info r <> remote_info r' /\
  log_access r now host port = log_access r' now host port.
Proof. exact collision. Qed.
Print Assumptions C91_same_record_refuted.
(** Without spaces and zero bytes, the record determines the method, the path with its query, the request
    id, the client's address, the proxy's own, and the millisecond. *)
Theorem C91_record_partial : forall r now host port r' now' host' port',
  Forall (fun s => count " " s = 0%nat /\ count (ascii_of_nat 0) s = 0%nat)
    [a_path r; a_query r; a_method r; a_id r; a_forwarded r; a_remote r; host; port] ->
  Forall (fun s => count " " s = 0%nat /\ count (ascii_of_nat 0) s = 0%nat)
    [a_path r'; a_query r'; a_method r'; a_id r'; a_forwarded r'; a_remote r'; host'; port'] ->
  in64 now -> in64 now' -> log_access r now host port = log_access r' now' host' port' ->
  a_method r = a_method r' /\ full_path r = full_path r' /\ a_id r = a_id r' /\ remote_info r = remote_info r' /\
  host = host' /\ port = port' /\ Z.quot now 1000000 = Z.quot now' 1000000.
Proof.
  intros r now host port r' now' host' port' H H' Hi Hi' E.
  apply Forall_and in H as [Hs Hn]. apply Forall_and in H' as [Hs' Hn'].
  apply (cef_inj r now host port r' now' host' port'); [done..|].
  apply append_inj_r in E. done.
Qed.
Print Assumptions C91_record_partial.
Example C91_case :
  Forall (fun s => count " " s = 0%nat /\ count (ascii_of_nat 0) s = 0%nat)
    [a_path victim; a_query victim; a_method victim; a_id victim; a_forwarded victim; a_remote victim; "10.0.0.2"; "8083"] /\
  cef victim 1234567890 "10.0.0.2" "8083" =
    "CEF:0|cloud_foundry|log_cache|1.0|GET /api/v1/read/secret|GET /api/v1/read/secret|0|rt=1234 cs1Label=userAuthenticationMechanism cs1=oauth-access-token cs2Label=vcapRequestId cs2=id request=/api/v1/read/secret requestMethod=GET src=10.0.0.1 spt=1234 dst=10.0.0.2 dpt=8083".
Proof. split; [by repeat constructor|]. vm_compute. reflexivity. Qed.

(** ** C92 *)
(** A bare IPv6 address, as X-Forwarded-For carries it, is not recorded at all. *)
Theorem C92_ipv6_refuted : exists r, a_forwarded r = "2001:db8::1" /\ remote_info r = ("", "").
Proof. exists (AReq "/" "" "GET" "" "2001:db8::1" "10.0.0.1:80"). split; [done|]. vm_compute. reflexivity. Qed.
Print Assumptions C92_ipv6_refuted.
(** The source recorded is the first address of X-Forwarded-For, or without that header the peer's, if it is
    a name or IPv4 address with or without port, or a bracketed IPv6 address with port. *)
Theorem C92_source_partial : forall r addr host port, address addr host port -> addr <> "" ->
  (a_forwarded r = addr /\ count "," addr = 0%nat) \/
  (exists rest, a_forwarded r = append addr (String "," rest) /\ count "," addr = 0%nat) \/
  (a_forwarded r = "" /\ a_remote r = addr) ->
  remote_info r = (host, port).
Proof. exact remote_address. Qed.
Print Assumptions C92_source_partial.
Example C92_case : address "[2001:db8::1]:443" "2001:db8::1" "443" /\ address "10.0.0.1" "10.0.0.1" "" /\
  remote_info (AReq "/" "" "GET" "" "10.0.0.1,10.0.0.2" "peer:1") = ("10.0.0.1", "").
Proof.
  split; [exact (addr_six "2001:db8::1" "443" eq_refl eq_refl eq_refl eq_refl eq_refl)|]. split; [by constructor|]. vm_compute. reflexivity.
Qed.

(** ** C96 *)
(** With a space in the path the record has a second src field, of the client's choosing. *)
Theorem C96_second_field_refuted : exists r now host port,
  a_path r = "/x src=10.0.0.9 y" /\ remote_info r = ("10.0.0.1", "1234") /\
  field (log_access r now host port) "src" "10.0.0.9" /\ field (log_access r now host port) "src" "10.0.0.1".
Proof.
  exists (AReq "/x src=10.0.0.9 y" "" "GET" "" "" "10.0.0.1:1234"), 0%Z, "10.0.0.2", "8083".
  split; [done|]. split; [done|]. split.
  - exists "CEF:0|cloud_foundry|log_cache|1.0|GET /x", " "%char. eexists. split; [by left|]. split; [done|]. split; [done|].
    vm_compute. reflexivity.
  - exists "CEF:0|cloud_foundry|log_cache|1.0|GET /x src=10.0.0.9 y|GET /x src=10.0.0.9 y|0|rt=0 cs1Label=userAuthenticationMechanism cs1=oauth-access-token cs2Label=vcapRequestId cs2= request=/x src=10.0.0.9 y requestMethod=GET", " "%char.
    eexists. split; [by left|]. split; [done|]. split; [done|]. vm_compute. reflexivity.
Qed.
Print Assumptions C96_second_field_refuted.
(** Without spaces, newlines and zero bytes, and for a path that begins with a slash: every field occurs
    exactly once, and it holds HTML for the value it is named after; the header names method and path and
    the time is in milliseconds. *)
Theorem C96_fields_partial : forall r now host port,
  Forall (fun s => count " " s = 0%nat /\ lines s = 0%nat /\ count (ascii_of_nat 0) s = 0%nat)
    [a_path r; a_query r; a_method r; a_id r; a_forwarded r; a_remote r; host; port] ->
  (exists p, a_path r = String "/" p) ->
  let whole := if decide (a_query r = "") then a_path r else append (a_path r) (append "?" (a_query r)) in
  (forall name v,
    (name, v) ∈ [("cs2", a_id r); ("request", whole); ("requestMethod", a_method r); ("src", (remote_info r).1);
                 ("spt", (remote_info r).2); ("dst", host); ("dpt", port)] ->
    exists t, stands_for t v /\ forall t', field (log_access r now host port) name t' <-> t' = t) /\
  exists m w rest, stands_for m (a_method r) /\ stands_for w whole /\
    log_access r now host port =
      append "CEF:0|cloud_foundry|log_cache|1.0|" (append m (append " " (append w (append "|" (append m (append " " (append w
        (append "|0|rt=" (append (Dec.format_int (Z.quot now 1000000)) (append " " rest)))))))))).
Proof.
  intros r now host port H Hp whole.
  assert (Ew : whole = full_path r).
  { unfold whole, full_path. case_bool_decide as E; [by rewrite decide_True|by rewrite decide_False]. }
  assert (Hs : clean_of " " r host port) by (eapply Forall_impl; [exact H|]; by intros ? (? & _ & _)).
  assert (Hl : clean_of newline r host port) by (eapply Forall_impl; [exact H|]; by intros ? (_ & ? & _)).
  assert (Hn : clean_of nul r host port) by (eapply Forall_impl; [exact H|]; by intros ? (_ & _ & ?)).
  rewrite Ew. clear whole Ew H. unfold clean_of in Hn. rewrite !Forall_cons in Hn.
  destruct Hn as (Hpa & Hq & Hm & Hi & Hf & Hr & Hh & Hpo & _).
  destruct (remote_none nul r) as [H1 H2]; [done..|].
  assert (Hfp : count nul (full_path r) = 0%nat) by (rewrite full_path_count by done; lia).
  split.
  - intros name v Hin.
    assert (Hin' : (name, v) ∈ pairs r host port) by (unfold pairs; do 3 (apply elem_of_cons; right); exact Hin).
    exists (html_escape v). split; [|intros t'; by eapply fields_ok].
    apply stands_escape. rewrite !elem_of_cons, elem_of_nil in Hin.
    destruct Hin as [E|[E|[E|[E|[E|[E|[E|[]]]]]]]]; injection E as _ ->; done.
  - exists (html_escape (a_method r)), (html_escape (full_path r)), (append (join " " (word <$> pairs r host port)) (String newline "")). split; [by apply stands_escape|].
    split; [by apply stands_escape|]. unfold log_access. rewrite cef_tokens, tokens_pairs. unfold lead. cbn [app].
    set (rest := word <$> pairs r host port). assert (Hne : exists a b, rest = a :: b) by (by eexists _, _).
    destruct Hne as (a & b & ->). cbn [join]. fold (to_millis now).
    repeat first [rewrite !append_assoc | progress match goal with |- context [append (String ?c ?a) ?b] =>
      change (append (String c a) b) with (String c (append a b)) end].
    reflexivity.
Qed.
Print Assumptions C96_fields_partial.
Example C96_case :
  let r := AReq "/api/v1/read/a" "limit=5&descending=true" "GET" "id" "10.0.0.1,10.0.0.2" "peer:1" in
  Forall (fun s => count " " s = 0%nat /\ lines s = 0%nat /\ count (ascii_of_nat 0) s = 0%nat)
    [a_path r; a_query r; a_method r; a_id r; a_forwarded r; a_remote r; "10.0.0.3"; "8083"] /\
  field (log_access r 5000000 "10.0.0.3" "8083") "request" "/api/v1/read/a?limit=5&amp;descending=true" /\
  field (log_access r 5000000 "10.0.0.3" "8083") "src" "10.0.0.1".
Proof.
  split; [repeat constructor|].
  assert (Hs : Forall (fun s => count " " s = 0%nat /\ lines s = 0%nat)
    ["/api/v1/read/a"; "limit=5&descending=true"; "GET"; "id"; "10.0.0.1,10.0.0.2"; "peer:1"; "10.0.0.3"; "8083"]) by (by repeat constructor).
  assert (H1 : forall n v, (n, v) ∈ pairs (AReq "/api/v1/read/a" "limit=5&descending=true" "GET" "id" "10.0.0.1,10.0.0.2" "peer:1") "10.0.0.3" "8083" ->
     field (log_access (AReq "/api/v1/read/a" "limit=5&descending=true" "GET" "id" "10.0.0.1,10.0.0.2" "peer:1") 5000000 "10.0.0.3" "8083") n (html_escape v)).
  { intros n v. apply pair_field; (eapply Forall_impl; [exact Hs|]; by intros ? [? ?]). }
  split; [apply (H1 "request" "/api/v1/read/a?limit=5&descending=true")|apply (H1 "src" "10.0.0.1")];
    apply (bool_decide_unpack _); vm_compute; exact I.
Qed.
