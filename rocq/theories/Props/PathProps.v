(** Redirects of unclean paths (C175), by proxy and gateway, each followed by a case meeting its hypotheses.
    Vocabulary: Gateway/SpecPath.v.  Functions: Gateway/Model.v, Auth/Model.v. *)
From Coq Require Import Ascii String.
From stdpp Require Import prelude gmap strings list.
From Verif.Base Require Import GoInt Envelope Str Url UrlProofs Dec.
From Verif.Promql Require Import Model Spec.
From Verif.Routing Require Import Model.
From Verif.Auth Require Import Model System Spec Trace Local Global Safety Run.
From Verif.Gateway Require Import Model Spec Proofs Decode Route Exact Queries SpecPath PathProofs.
From Verif.Props Require Import AuthProps GatewayProps.
Open Scope string_scope.
Open Scope list_scope.

(** ** C175 *)
(** Where a request is sent instead: to the one plain path that names the same place and, unless this is the
    root, ends in a slash exactly if the path asked for does. *)
Theorem C175_target : forall p p',
  http_clean p = p' <->
  plain p' /\ (forall place, names p' place <-> names p place) /\ (~ names p [] -> (slashed p' <-> slashed p)).
Proof.
  intros p p'. split.
  - intros <-. split; [apply clean_plain|]. split; [apply clean_names|apply clean_slashed].
  - intros (Hp & Hn & Hs). apply plain_unique; [apply clean_plain|done| |].
    + intros pl. by rewrite clean_names, Hn.
    + rewrite clean_names. intros H. by rewrite clean_slashed, Hs.
Qed.
Print Assumptions C175_target.
(** every path names one place *)
Theorem C175_place : forall p, exists place, forall place', names p place' <-> place' = place.
Proof. intros p. exists (place_of p). apply names_iff_place. Qed.
Print Assumptions C175_place.
(** The gateway answers a request with a redirect exactly if its path is not plain; a request sent to
    the target of a redirect is not redirected again. *)
Theorem C175_gateway : forall G p kvs,
  (serve G p kvs = Moved <-> ~ plain p) /\ serve G (http_clean p) kvs <> Moved.
Proof.
  intros G p kvs.
  assert (L : forall p, serve G p kvs = Moved <-> ~ plain p).
  { intros p0. unfold serve. destruct (decide (http_clean p0 = p0)) as [E|E];
      [rewrite (bool_decide_eq_true_2 _ E)|rewrite (bool_decide_eq_false_2 _ E)]; cbn [negb].
    - split; [|intros H; destruct H; rewrite <-E; apply clean_plain]. intros H. exfalso. revert H.
      destruct (bool_decide _); [done|]. destruct (components G p0) as [cs|]; [|done]. unfold route, or_invalid.
      repeat case_match; done.
    - split; [|done]. intros _ H. by apply E, clean_of_plain. }
  split; [apply L|]. rewrite L. intros H. apply H, clean_plain.
Qed.
Print Assumptions C175_gateway.
(** What the proxy forwards, the gateway does not redirect. *)
Theorem C175_forwarded : forall G L C clock i r p q s o,
  clean_path L (rq_path r) = http_clean (rq_path r) ->
  finishes L C clock i (KServe r) (RHttp (Forward p q)) s ->
  serves G p q o -> p = rq_path r /\ plain p /\ o <> Moved.
Proof.
  intros G L C clock i r p q s o Hc Hf (kvs & _ & Hs).
  assert (Ep : p = rq_path r).
  { destruct (forward_routes _ _ _ _ _ _ Hf) as [(id & Hp & Hn)|Hr].
    - by destruct (C48_read L C clock i r p q s id Hp Hn Hf) as (-> & _).
    - rewrite !elem_of_cons, elem_of_nil in Hr. destruct Hr as [Hr|[Hr|[Hr|[]]]].
      1,2: eapply query_forward; [|exact Hf]; rewrite Hr; set_solver.
      apply finishes_inv in Hf as [_ [n H]]. apply serve_tr, serve_not_redirect in H; [|done].
      rewrite Hr in H. cbn in H. apply tr_ret in H as [_ [= -> _]]. done. }
  assert (Hcl : http_clean p = p).
  { subst p. rewrite <-Hc. apply finishes_inv in Hf as [_ [n H]]. apply serve_tr in H. unfold Auth.Model.serve in H.
    destruct (bool_decide _) eqn:E in H; [by apply bool_decide_eq_true in E|]. by apply tr_ret in H as [_ ?]. }
  split; [done|]. assert (Hpl : plain p) by (rewrite <-Hcl; apply clean_plain). split; [done|].
  intros ->. by apply C175_gateway in Hs.
Qed.
Print Assumptions C175_forwarded.
(** dots, doubled slashes and steps up; a directory; above the root; a plain path which stays *)
Example C175_case :
  http_clean "/api/./v1//read/x/../app-b" = "/api/v1/read/app-b" /\ http_clean "api/v1/" = "/api/v1/" /\
  http_clean "/../.." = "/" /\ http_clean "/a/.." = "/" /\ http_clean "/a/b/.." = "/a" /\
  plain "/api/v1/read/app-b" /\ names "/a/../b/" ["b"] /\
  serve (gw true true) "/api//v1/info" [] = Moved /\ serve (gw true true) "/api/v1/info" [] = InfoPage /\
  clean_path toy (rq_path plain_request) = http_clean (rq_path plain_request).
Proof.
  split_and!; try (vm_compute; reflexivity).
  - assert (E : http_clean "/api/v1/read/app-b" = "/api/v1/read/app-b") by (vm_compute; reflexivity).
    pose proof (clean_plain "/api/v1/read/app-b") as H. by rewrite E in H.
  - apply names_iff_place. vm_compute. reflexivity.
Qed.
