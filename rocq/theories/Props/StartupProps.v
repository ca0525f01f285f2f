(** C162: the proxy starts only with UAA's keys, and keeps the keys it has while UAA is of no use.
    Vocabulary: Auth/SpecStartup.v. *)
From Coq Require Import Ascii String.
From stdpp Require Import prelude gmap strings list.
From Verif.Base Require Import Str Url.
From Verif.Promql Require Import Model Spec.
From Verif.Auth Require Import Model System Spec Throttle SpecStartup Startup Run.
From Verif.Props Require Import AuthProps.
Open Scope string_scope.
Open Scope list_scope.
Open Scope Z_scope.

(** cmd/cf-auth-proxy/main.go:47-51: the first refresh, before any request is served; the process exits if it
    reports an error.  It reports none exactly if UAA answered 200 with a list of RSA keys, and then the proxy knows
    exactly the keys of the list, of equal ids the last. *)
Theorem C162_start : forall L C m l m' ok, runs (refresh L C) m l m' ok ->
  m_last m = 0 -> (forall t, ANow t ∈ l -> cf_refresh C <= t) ->
  (ok = true <-> exists body ks, listed L l body ks /\ usable L ks) /\
  (ok = true -> exists body ks, listed L l body ks /\ forall kid k, m_keys m' !! kid = Some k <->
     exists ks1 pem ks2, ks = ks1 ++ (kid, pem) :: ks2 /\ rsa_key L pem = Some k /\ kid ∉ ks2.*1).
Proof.
  intros L C m l m' ok H Hm Ht. destruct (refresh_cases _ _ _ _ H) as [([_ (t & Hin & Hlt)] & _)|[(_ & Hno & _ & ->)|(_ & body & ks & Hl & Hone & Hu & _)]].
  - apply Ht in Hin. lia.
  - split; [|done]. split; [done|]. intros (body & ks & Hl & _). by destruct (Hno body ks).
  - split.
    + rewrite Hu. split; [intros Hx; by exists body, ks|]. intros (body' & ks' & Hl' & Hx). by rewrite <- (Hone _ _ Hl').
    + intros ->. exists body, ks. split; [done|]. destruct Hl as [H1 H2]. by apply (C86_refresh_partial L C m l m' body ks).
Qed.
Print Assumptions C162_start.
(** While UAA does not answer with a list of keys, the proxy keeps those it has. *)
Theorem C162_outage : forall L C m l m' ok, runs (refresh L C) m l m' ok ->
  (forall body ks, ~ listed L l body ks) -> m_keys m' = m_keys m.
Proof.
  intros L C m l m' ok H Hno. destruct (refresh_cases _ _ _ _ H) as [(_ & E & _)|[(_ & _ & E & _)|(_ & body & ks & Hl & _)]]; [done|done|].
  by destruct (Hno body ks).
Qed.
Print Assumptions C162_outage.
(** A refresh less than the interval after the last one asks nobody, changes nothing and reports no error. *)
Theorem C162_throttled : forall L C m l m' ok, runs (refresh L C) m l m' ok ->
  (forall t, ANow t ∈ l -> t < m_last m + cf_refresh C) -> (forall r, AUaa r ∉ l) /\ m_keys m' = m_keys m /\ ok = true.
Proof.
  intros L C m l m' ok H Ht. by apply refresh_soon in H.
Qed.
Print Assumptions C162_throttled.
(** If the list has a key in it that is of no use, no key is lost; a key may have been replaced by one of the list. *)
Theorem C162_bad_key : forall L C m l m' body ks ok, runs (refresh L C) m l m' ok -> listed L l body ks -> ~ usable L ks ->
  ok = false /\ forall kid k, m_keys m !! kid = Some k -> exists k', m_keys m' !! kid = Some k' /\
    (k' = k \/ exists pem, (kid, pem) ∈ ks /\ rsa_key L pem = Some k').
Proof.
  intros L C m l m' body ks ok H Hl Hu. destruct (refresh_cases _ _ _ _ H) as [([Hno _] & _)|[(_ & Hno & _)|(_ & body' & ks' & _ & Hone & Hok & Hk)]].
  - destruct Hl as [Hl _]. by destruct (Hno _ Hl).
  - by destruct (Hno body ks).
  - rewrite (Hone _ _ Hl) in *. destruct ok; [by destruct Hu; apply Hok|]. split; [done|]. by apply Hk.
Qed.
Print Assumptions C162_bad_key.

(** Met by: a start with two keys, a start without UAA, and a list with an empty key in it. *)
Definition fresh : mem toy := Mem ∅ 0 ∅ 100.
Example C162_case :
  (exists l m, runs (refresh toy toy_config) fresh l m true /\ m_keys m = {["k1" := "K1"; "k2" := "K2"]} /\ (forall t, ANow t ∈ l -> cf_refresh toy_config <= t)) /\
  (exists l m, runs (refresh toy toy_config) fresh l m false /\ forall body ks, ~ listed toy l body ks) /\
  (exists l m, runs (refresh toy toy_config) (Mem {["k2" := "K2"]} 0 ∅ 100) l m false /\ listed toy l "k1,bad" [("k1", "PEM1"); ("k3", "?")] /\
     m_keys m = {["k1" := "K1"; "k2" := "K2"]}) /\
  (exists l m, runs (refresh toy toy_config) (Mem ∅ 90 ∅ 100) l m true /\ forall t, ANow t ∈ l -> t < 90 + cf_refresh toy_config).
Proof.
  split; [|split; [|split]].
  - assert (H : match run_prog 30 (refresh toy toy_config) fresh [at_time 100; at_time 100; ok "k1,k2"] with
       | Some (l, m, b) => (b : bool) && bool_decide (m_keys m = ({["k1" := "K1"; "k2" := "K2"]} : gmap string (key toy))) &&
           forallb (fun x => match x with ANow t => bool_decide (cf_refresh toy_config <= t) | _ => true end) l
       | None => false end = true) by (vm_compute; reflexivity).
    destruct (run_prog _ _ _ _) as [[[l m] b]|] eqn:E; [|done]. apply run_prog_runs in E.
    apply andb_prop in H as [H H2]. apply andb_prop in H as [-> H1]. apply bool_decide_eq_true in H1. exists l, m. split; [done|]. split; [done|].
    intros t Hin. rewrite forallb_forall in H2. apply elem_of_list_In, H2 in Hin. by apply bool_decide_eq_true in Hin.
  - assert (H : match run_prog 30 (refresh toy toy_config) fresh [at_time 100; at_time 100; XReply None] with
       | Some (l, m, b) => negb b && forallb (fun x => match x with AUaa (Some _) => false | _ => true end) l
       | None => false end = true) by (vm_compute; reflexivity).
    destruct (run_prog _ _ _ _) as [[[l m] b]|] eqn:E; [|done]. apply run_prog_runs in E.
    apply andb_prop in H as [H1 H2]. destruct b; [done|]. exists l, m. split; [done|].
    intros body ks [Hin _]. rewrite forallb_forall in H2. apply elem_of_list_In, H2 in Hin. done.
  - assert (H : match run_prog 30 (refresh toy toy_config) (Mem {["k2" := "K2"]} 0 ∅ 100) [at_time 100; at_time 100; ok "k1,bad"] with
       | Some (l, m, b) => negb b && bool_decide (AUaa (Some (Reply 200 "k1,bad")) ∈ l) && bool_decide (m_keys m = ({["k1" := "K1"; "k2" := "K2"]} : gmap string (key toy)))
       | None => false end = true) by (vm_compute; reflexivity).
    destruct (run_prog _ _ _ _) as [[[l m] b]|] eqn:E; [|done]. apply run_prog_runs in E.
    apply andb_prop in H as [H H2]. apply andb_prop in H as [H0 H1]. destruct b; [done|]. apply bool_decide_eq_true in H1, H2. exists l, m.
    split; [done|]. split; [|done]. split; [done|]. by vm_compute.
  - assert (H : match run_prog 30 (refresh toy toy_config) (Mem ∅ 90 ∅ 100) [at_time 100] with
       | Some (l, m, b) => b && forallb (fun x => match x with ANow t => bool_decide (t < 90 + cf_refresh toy_config) | _ => true end) l
       | None => false end = true) by (vm_compute; reflexivity).
    destruct (run_prog _ _ _ _) as [[[l m] b]|] eqn:E; [|done]. apply run_prog_runs in E.
    apply andb_prop in H as [-> H2]. exists l, m. split; [done|].
    intros t Hin. rewrite forallb_forall in H2. apply elem_of_list_In, H2 in Hin. by apply bool_decide_eq_true in Hin.
Qed.
