(** Refusals after CAPI has recovered from an outage. *)
From Coq Require Import Ascii String.
From stdpp Require Import prelude gmap strings list.
From Verif.Base Require Import Str Url.
From Verif.Promql Require Import Model.
From Verif.Auth Require Import Model System Spec Trace Local Global Complete.
Open Scope string_scope.
Open Scope list_scope.
Open Scope Z_scope.

Section Outage.
Context {L : lib} {C : config}.
Implicit Types (h : list (nat * act L)) (tok id : string).

(** Source id [id] was refused on the strength of a complete list of the user's sources, as CAPI gave it. *)
Definition refused_by_list h (i : nat) tok id : Prop :=
  exists j h1 ts h2 before cs ids,
    h = h1 ++ (j, ANow ts) :: h2 /\ calls (own j h1) = before ++ cs /\ listed L C tok cs ids /\ id ∉ ids /\
    (j = i \/ exists t, (i, ANow t) ∈ h2 /\ t < ts + cf_cache C).

Lemma pages_fail_bad tok u cs : pages_fail L tok u cs -> exists v r, (v, tok, r) ∈ cs /\ bad_answer L r.
Proof.
  induction 1 as [u r Hb|u body rs href v cs _ _ _ _ (w & r & Hin & Hb)].
  - exists u, r. split; [left|done].
  - exists w, r. split; [by right|done].
Qed.
Lemma list_fails_bad tok cs :
  url_parse L (append (cf_capi C) "/v3/apps") <> None ->
  url_parse L (append (cf_capi C) "/v3/service_instances") <> None ->
  list_fails L C tok cs -> exists v r, (v, tok, r) ∈ cs /\ bad_answer L r.
Proof.
  intros Hu Hv. unfold list_fails. destruct (url_parse L (append (cf_capi C) "/v3/apps")) as [u|]; [|done].
  intros [H|(c1 & c2 & rs & -> & _ & H)]; [by eapply pages_fail_bad|].
  destruct (url_parse L _) as [v|]; [|done]. apply pages_fail_bad in H as (w & r & Hin & Hb).
  exists w, r. split; [apply elem_of_app; by right|done].
Qed.
Lemma call_in_log j h u tok r : (u, tok, r) ∈ calls (own j h) -> (j, ACapi u tok r) ∈ h.
Proof.
  unfold calls. intros H. apply elem_of_list_omap in H as (a & Ha & E). destruct a; try done. injection E as -> -> ->.
  by apply own_elem.
Qed.

Lemma refused_recovered h i tok id T :
  url_parse L (append (cf_capi C) "/v3/apps") <> None ->
  url_parse L (append (cf_capi C) "/v3/service_instances") <> None ->
  (forall j u r, (j, ACapi u tok r) ∈ h -> bad_answer L r -> j <> i /\ forall t, (j, ANow t) ∈ h -> t <= T) ->
  (forall t, (i, ANow t) ∈ h -> T + cf_cache C <= t) ->
  refused L C h i tok id -> refused_by_list h i tok id.
Proof.
  intros Hu Hv Hbad Hi (j & h1 & ts & h2 & before & cs & ids & E & Ec & Ha & Hid & Hwhen).
  exists j, h1, ts, h2, before, cs, ids. split; [done|]. split; [done|].
  assert (Hw : j = i \/ exists t, (i, ANow t) ∈ h2 /\ t < ts + cf_cache C) by (destruct Hwhen as [?|[? _]]; auto).
  destruct Ha as [Hl|[Hf ->]]; [done|]. exfalso.
  apply list_fails_bad in Hf as (v & r & Hin & Hb); [|done|done].
  assert (Hlog : (j, ACapi v tok r) ∈ h).
  { rewrite E. apply elem_of_app. left. apply call_in_log. rewrite Ec. apply elem_of_app. by right. }
  destruct (Hbad _ _ _ Hlog Hb) as [Hne Hts]. destruct Hw as [?|(t & Ht & Hlt)]; [done|].
  specialize (Hts ts). specialize (Hi t). rewrite E in Hts, Hi.
  assert (ts <= T) by (apply Hts; apply elem_of_app; right; left).
  assert (T + cf_cache C <= t) by (apply Hi; apply elem_of_app; right; by right). lia.
Qed.
End Outage.
