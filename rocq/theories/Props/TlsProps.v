(** C141-C143: who talks to whom.  Vocabulary: Tls/Spec.v; crypto/tls as in Tls/Model.v. *)
From Coq Require Import ZArith Lia.
From Coq Require Import Ascii String.
From stdpp Require Import prelude gmap strings list.
From Verif.Base Require Import GoInt.
From Verif.Tls Require Import Model Spec.
Open Scope string_scope.
Open Scope Z_scope.

(** The shape of what the functions return, when they do. *)
Lemma mutual_inv F ca crt key cn c : mutual_config F ca crt key cn = Some c ->
  exists pool pair, f_read F ca = Some pool /\ f_ca_ok F pool = true /\ load_pair F crt key = Some pair /\
  c = mk_config [pair] (Some pool) cn false tls12 (Some [0xc02f; 0xc030]) NoClientCert None.
Proof.
  unfold mutual_config. destruct (load_pair F crt key) as [pair|]; [|done]. destruct (f_read F ca) as [pool|] eqn:E; [|done].
  destruct (f_ca_ok F pool) eqn:E2; [|done]. intros [= <-]. exists pool, pair. done.
Qed.
Lemma ca_inv F path ca : load_ca F path = Some ca -> f_read F path = Some ca.
Proof. unfold load_ca. destruct (f_read F path) as [x|]; [|done]. destruct (f_ca_ok F x); [|done]. by intros [= ->]. Qed.

(** ** C141 *)
(** Whatever a component takes for a node has the key of a certificate for log-cache of the configured CA; the connection is
    TLS 1.2 or later, and up to 1.2 one of the two suites; and a node with such a certificate is accepted. *)
Theorem C141_nodes : ∀ verifies default_min default_suites F comp t c host p v suite,
  node_dial F comp t = Some c ->
  client_accepts verifies default_min default_suites c host p v suite ->
  holds_certificate verifies F (t_ca t) "log-cache" p ∧ tls12 <= v ∧ (v = tls12 -> suite = 0xc02f ∨ suite = 0xc030).
Proof.
  intros verifies dm ds F comp t c host p v suite Hc (Hv & Hs & shown & H1 & H2 & H3).
  apply mutual_inv in Hc as (pool & pair & Hp & _ & _ & ->). cbn in *.
  split; [|split].
  - exists pool, shown. split_and!; [done..|]. specialize (H3 eq_refl). exact H3.
  - destruct Hv as [[Hv _] _]. exact Hv.
  - intros ->. destruct Hs as [_ Hs]. specialize (Hs ltac:(lia)). set_solver.
Qed.
Print Assumptions C141_nodes.
(** The other direction, so that the handshake is not merely refused to all. *)
Theorem C141_accepts : ∀ (verifies : option pem -> string -> cert -> Prop) default_min default_suites F comp t c host p,
  node_dial F comp t = Some c ->
  holds_certificate verifies F (t_ca t) "log-cache" p -> p_versions p tls12 -> p_suites p 0xc030 ->
  client_accepts verifies default_min default_suites c host p tls12 0xc030.
Proof.
  intros verifies dm ds F comp t c host p Hc (ca & crt & H1 & H2 & H3 & H4) Hv Hs.
  apply mutual_inv in Hc as (pool & pair & Hp & _ & _ & ->). rewrite Hp in H1. injection H1 as <-.
  split; [split; [unfold tls12, tls13; cbn; lia|done]|]. split; [split; [done|]; intros _; cbn; set_solver|].
  exists crt. split_and!; [done..|]. intros _. exact H4.
Qed.
Print Assumptions C141_accepts.
(** No component starts without its three files. *)
Theorem C141_files : ∀ F comp t,
  node_dial F comp t = None <->
  ¬ ∃ ca crt key pair, f_read F (t_ca t) = Some ca ∧ f_ca_ok F ca = true ∧ f_read F (t_cert t) = Some crt ∧
                       f_read F (t_key t) = Some key ∧ f_pair F crt key = Some pair.
Proof.
  intros F comp t. unfold node_dial, credentials, mutual_config, load_pair. split.
  - intros H (ca & crt & key & pair & E1 & E2 & E3 & E4 & E5). by rewrite E1, E2, E3, E4, E5 in H.
  - intros H. destruct (f_read F (t_cert t)) as [crt|] eqn:E3; [|done]. destruct (f_read F (t_key t)) as [key|] eqn:E4; [|done].
    destruct (f_pair F crt key) as [pair|] eqn:E5; [|done]. destruct (f_read F (t_ca t)) as [ca|] eqn:E1; [|done].
    destruct (f_ca_ok F ca) eqn:E2; [|done]. destruct H. eauto 10.
Qed.
Print Assumptions C141_files.

Definition try_files : files := mk_files (fun f => if decide (f = "") then None else Some f) (fun c k => Some (mk_cert c k)) (fun _ => true).
Definition try_verifies (roots : option pem) (name : string) (c : cert) : Prop := roots = Some "ca.pem" ∧ cert_der c = name.
Example C141_case : ∃ c, node_dial try_files Gateway (mk_tls "ca.pem" "gw.pem" "gw.key") = Some c ∧
  client_accepts try_verifies tls10 (fun _ => True) c "10.0.0.3" (mk_peer [mk_cert "log-cache" "k"] (fun k => k = "k") (fun _ => True) (fun _ => True)) tls12 0xc02f ∧
  ¬ (∃ v s, client_accepts try_verifies tls10 (fun _ => True) c "10.0.0.3" (mk_peer [mk_cert "log-cache" "k"] (fun _ => False) (fun _ => True) (fun _ => True)) v s).
Proof.
  eexists. split; [reflexivity|]. split.
  - split; [split; [vm_compute; split; discriminate|done]|]. split; [split; [done|intros _; cbn; set_solver]|].
    eexists. split; [left|]. split; [done|]. by intros _.
  - by intros (v & s & _ & _ & shown & _ & ? & _).
Qed.

(** ** C142 *)
(** A node asks its callers for no certificate: anyone who can reach it is served. *)
Theorem C142_strangers_refuted : ∀ verifies default_min default_suites F t c,
  node_serve F t = Some c -> server_accepts verifies default_min default_suites c stranger tls12 0xc030.
Proof.
  intros verifies dm ds F t c H. apply mutual_inv in H as (pool & pair & _ & _ & _ & ->).
  split; [split; [unfold tls12, tls13; cbn; lia|done]|]. split; [split; [done|intros _; cbn; set_solver]|]. done.
Qed.
Print Assumptions C142_strangers_refuted.
Example C142_case : ∃ c, node_serve try_files (mk_tls "ca.pem" "n.pem" "n.key") = Some c.
Proof. eexists. reflexivity. Qed.
(** What is left: a call that is served is TLS 1.2 or later, with one of the suites. *)
Theorem C142_served_partial : ∀ verifies default_min default_suites F t c p v suite,
  node_serve F t = Some c -> server_accepts verifies default_min default_suites c p v suite ->
  tls12 <= v ∧ (v = tls12 -> suite = 0xc02f ∨ suite = 0xc030).
Proof.
  intros verifies dm ds F t c p v suite H (Hv & Hs & _). apply mutual_inv in H as (pool & pair & _ & _ & _ & ->). cbn in *.
  split; [destruct Hv as [[Hv _] _]; exact Hv|]. intros ->. destruct Hs as [_ Hs]. specialize (Hs ltac:(lia)). set_solver.
Qed.
Print Assumptions C142_served_partial.

(** ** C143 *)
(** The proxy's calls to UAA and CAPI: verified, for the address called and for the configured name, unless switched off. *)
Theorem C143_uaa_partial : ∀ verifies default_min default_suites F caPath c host p v suite,
  host ≠ "" -> uaa_dial F false caPath = Some c -> client_accepts verifies default_min default_suites c host p v suite ->
  holds_certificate verifies F caPath host p ∧ tls12 <= v.
Proof.
  intros verifies dm ds F caPath c host p v suite Hh. unfold uaa_dial. destruct (load_ca F caPath) as [ca|] eqn:E; [|done].
  intros [= <-] (Hv & _ & shown & H1 & H2 & H3). cbn in *. specialize (H3 eq_refl).
  split; [|by destruct Hv as [[Hv _] _]]. exists ca, shown. split; [by apply ca_inv|]. done.
Qed.
Print Assumptions C143_uaa_partial.
Theorem C143_capi_partial : ∀ verifies default_min default_suites F caPath cn c host p v suite,
  cn ≠ "" -> capi_dial F false caPath cn = Some c -> client_accepts verifies default_min default_suites c host p v suite ->
  holds_certificate verifies F caPath cn p ∧ tls12 <= v.
Proof.
  intros verifies dm ds F caPath cn c host p v suite Hh. unfold capi_dial. destruct (load_ca F caPath) as [ca|] eqn:E; [|done].
  intros [= <-] (Hv & _ & shown & H1 & H2 & H3). cbn in *. specialize (H3 eq_refl). rewrite decide_False in H3 by done.
  split; [|by destruct Hv as [[Hv _] _]]. exists ca, shown. split; [by apply ca_inv|]. done.
Qed.
Print Assumptions C143_capi_partial.
(** The gateway is verified whatever SKIP_CERT_VERIFY says, but the version is left to the Go release. *)
Theorem C143_gateway_partial : ∀ verifies default_min default_suites F caPath c host p v suite,
  gateway_dial F caPath = Some c -> client_accepts verifies default_min default_suites c host p v suite ->
  holds_certificate verifies F caPath host p ∧ default_min <= v.
Proof.
  intros verifies dm ds F caPath c host p v suite. unfold gateway_dial. destruct (load_ca F caPath) as [ca|] eqn:E; [|done].
  intros [= <-] (Hv & _ & shown & H1 & H2 & H3). cbn in *. specialize (H3 eq_refl).
  split; [|by destruct Hv as [[Hv _] _]]. exists ca, shown. split; [by apply ca_inv|]. done.
Qed.
Print Assumptions C143_gateway_partial.
Theorem C143_old_refuted : ∀ F caPath certPath keyPath d s, gateway_dial F caPath = Some d -> gateway_serve F certPath keyPath = Some s ->
  ∃ verifies p, client_accepts verifies tls10 (fun _ => True) d "gateway" p tls10 0xc014 ∧ server_accepts verifies tls10 (fun _ => True) s stranger tls10 0xc014.
Proof.
  intros F caPath certPath keyPath d s Hd Hs. exists (fun _ _ _ => True), (mk_peer [mk_cert "x" "k"] (fun _ => True) (fun _ => True) (fun _ => True)).
  unfold gateway_dial in Hd. destruct (load_ca F caPath) as [ca|]; [|done]. injection Hd as <-.
  unfold gateway_serve in Hs. destruct (load_pair F certPath keyPath) as [pair|]; [|done]. injection Hs as <-.
  split.
  - split; [split; [vm_compute; split; discriminate|done]|]. split; [done|]. eexists. split; [left|]. done.
  - split; [split; [vm_compute; split; discriminate|done]|]. split; [done|]. done.
Qed.
Print Assumptions C143_old_refuted.
(** With verification switched off any certificate will do: the keys that tokens are checked with come from anyone. *)
Theorem C143_skip : ∀ verifies default_min default_suites F caPath c host k v suite,
  uaa_dial F true caPath = Some c -> default_min <= tls12 -> v = tls12 -> suite = 0xc030 ->
  client_accepts verifies default_min default_suites c host (mk_peer [k] (fun x => x = cert_key k) (fun _ => True) (fun _ => True)) v suite.
Proof.
  intros verifies dm ds F caPath c host k v suite. unfold uaa_dial. destruct (load_ca F caPath) as [ca|] eqn:E; [|done].
  intros [= <-] _ -> ->. split; [split; [vm_compute; split; discriminate|done]|]. split; [split; [done|intros _; cbn; set_solver]|].
  exists k. split; [left|]. done.
Qed.
Print Assumptions C143_skip.
Example C143_case : ∃ u c g, uaa_dial try_files false "ca.pem" = Some u ∧ capi_dial try_files false "ca.pem" "cc" = Some c ∧ gateway_dial try_files "ca.pem" = Some g ∧
  client_accepts try_verifies tls10 (fun _ => True) c "10.0.0.9" (mk_peer [mk_cert "cc" "k"] (fun k => k = "k") (fun _ => True) (fun _ => True)) tls12 0xc030.
Proof.
  do 3 eexists. do 3 (split; [reflexivity|]).
  split; [split; [vm_compute; split; discriminate|done]|]. split; [split; [done|intros _; cbn; set_solver]|].
  eexists. split; [left|]. split; [done|]. by intros _.
Qed.
