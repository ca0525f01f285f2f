(** What the client library makes of answers, and of the gateway's answers. *)
From Coq Require Import Ascii String.
From stdpp Require Import prelude strings gmap list.
From Verif.Base Require Import GoInt Envelope Str Url UrlProofs Dec.
From Verif.Routing Require Import Model.
From Verif.Gateway Require Import Model Spec Proofs Decode Route Queries.
From Verif.Marshaler Require Import Model Spec Proofs.
From Verif.Http Require Import Model Spec Semver.
Open Scope string_scope.
Open Scope list_scope.
Open Scope Z_scope.

Section Client.
Context (D : codec).

Lemma string_field_some k j s : s <> "" -> string_field k j = Some s <-> exists l, j = JObj l /\ field k l = Some (JStr s).
Proof.
  intros Hs. unfold string_field. split.
  - destruct j as [| | | | |l]; try done; [by intros [= <-]|]. destruct (field k l) as [[]|] eqn:E; try done; try (by intros [= <-]).
    intros [= ->]. eauto.
  - intros (l & -> & E). by rewrite E.
Qed.
Lemma doc_says_iff body k s : s <> "" -> first_json D body ≫= string_field k = Some s <-> doc_says D body k s.
Proof.
  intros Hs. unfold doc_says. destruct (first_json D body) as [j|]; cbn.
  - rewrite string_field_some by done. naive_solver.
  - naive_solver.
Qed.
Lemma version_nonempty s v : version_text s v -> s <> "".
Proof. intros H. apply semver_iff in H. by intros ->. Qed.

Lemma version_of_ok o v : version_of D o = Ok v -> exists resp, o = Some resp /\
  api_base D resp (if gte_2_0_0 v then "/api/v1" else "/v1").
Proof.
  unfold version_of. destruct o as [[status body]|]; [|done]. intros H. eexists. split; [done|].
  destruct (Z.eqb_spec status 404) as [->|_].
  { injection H as <-. cbn. by constructor. }
  destruct (Z.eqb_spec status 200) as [->|_]; cbn in H; [|done].
  destruct (first_json D body ≫= string_field "version") as [s|] eqn:E; [|done].
  destruct (semver_parse s) as [v'|] eqn:Ev; [|done]. injection H as ->. apply semver_iff in Ev.
  apply doc_says_iff in E; [|by eapply version_nonempty].
  assert (S : says_version D (200, body) v) by (by exists s).
  destruct (gte_2_0_0 v) eqn:Eg.
  - apply (base_new _ _ v S). by eapply gte_iff.
  - apply (base_old _ _ v S). intros Hs. eapply gte_iff in Hs; [|exact Ev]. congruence.
Qed.
Lemma says_version_of resp v : says_version D resp v -> version_of D (Some resp) = Ok v.
Proof.
  intros (s & E1 & E2 & Ev). destruct resp as [status body]. cbn in *. subst status. cbn.
  apply doc_says_iff in E2; [|by eapply version_nonempty]. rewrite E2. apply semver_iff in Ev. by rewrite Ev.
Qed.
Lemma version_of_err o e : version_of D o = Err e -> forall resp base, o = Some resp -> ~ api_base D resp base.
Proof.
  intros H resp base -> Hb. destruct Hb as [E|v S|v S].
  - destruct resp as [status body]. cbn in E. subst status. done.
  - apply says_version_of in S. congruence.
  - apply says_version_of in S. congruence.
Qed.
Lemma on_200_delivered {A} (decode : string -> option A) o : delivered decode o (on_200 decode o).
Proof.
  unfold delivered, on_200. destruct o as [[status body]|].
  - destruct (Z.eqb_spec status 200) as [->|Hne]; cbn.
    + destruct (decode body) eqn:E; naive_solver.
    + naive_solver.
  - naive_solver.
Qed.

(** the shape of what Read and Meta do *)
Lemma with_base_talks {A} srv (dec : string -> option A) (f : string -> request) tr r :
  talks srv (with_base D (fun base => Get (f base) (fun o => Ret (on_200 dec o)))) tr r ->
  (exists o, tr = [(info_request, o)] /\ srv info_request o /\ (exists e, version_of D o = Err e) /\ is_err r) \/
  (exists o v o2, let base := if gte_2_0_0 v then "/api/v1" else "/v1" in
     tr = [(info_request, o); (f base, o2)] /\ srv info_request o /\ srv (f base) o2 /\ version_of D o = Ok v /\ r = on_200 dec o2).
Proof.
  intros H. unfold with_base in H. inversion H as [|? ? o tr' ? Hs Ht]; subst. destruct (version_of D o) as [v|e] eqn:E.
  - inversion Ht as [|? ? o2 tr2 ? Hs2 Ht2]; subst. inversion Ht2; subst. right. exists o, v, o2. done.
  - inversion Ht; subst. left. exists o. split; [done|]. split; [done|]. split; eauto. by eexists.
Qed.
Lemma with_base_asks {A} srv (dec : string -> option A) (f : string -> request) tr r :
  talks srv (with_base D (fun base => Get (f base) (fun o => Ret (on_200 dec o)))) tr r ->
  (exists o, tr = [(("/api/v1/info", ""), o)] /\ (forall resp base, o = Some resp -> ~ api_base D resp base) /\ is_err r) \/
  (exists resp base o, tr = [(("/api/v1/info", ""), Some resp); (f base, o)] /\ api_base D resp base /\ delivered dec o r).
Proof.
  intros [(o & -> & _ & [e He] & Hr)|(o & v & o2 & -> & _ & _ & Hv & ->)]%with_base_talks.
  - left. exists o. split; [done|]. split; [|done]. by eapply version_of_err.
  - right. destruct (version_of_ok o v Hv) as (resp & -> & Hb). do 3 eexists. split; [done|]. split; [done|]. apply on_200_delivered.
Qed.

Lemma signed_nonempty s n : signed_numeral s n -> s <> "".
Proof. intros [Hn|[(? & -> & _)|(? & -> & _)]]; [by apply numeral_nonempty in Hn|done|done]. Qed.
Lemma uptime_talks srv tr r : talks srv (vm_uptime D) tr r ->
  exists o, tr = [(("/api/v1/info", ""), o)] /\ srv ("/api/v1/info", "") o /\
  forall u, r = Ok u <-> exists body s, o = Some (200, body) /\ doc_says D body "vm_uptime" s /\ signed_numeral s u /\ - 2^63 <= u < 2^63.
Proof.
  intros H. unfold vm_uptime in H. inversion H as [|? ? o tr' ? Hs Ht]; subst. inversion Ht; subst. clear H Ht.
  exists o. split; [done|]. split; [done|]. intros u. destruct o as [[status body]|].
  2: { split; [done|]. by intros (? & ? & ? & _). }
  destruct (Z.eqb_spec status 200) as [->|n]; cbn.
  2: { split; [done|]. by intros (? & ? & [= -> _] & _). }
  destruct (first_json D body ≫= string_field "vm_uptime") as [s|] eqn:E.
  - case_bool_decide as Es.
    + subst s. split; [done|]. intros (b & s & [= <-] & Hd & Hn & _). apply signed_nonempty in Hn.
      apply doc_says_iff in Hd; [|done]. congruence.
    + assert (Ed : doc_says D body "vm_uptime" s) by (by apply doc_says_iff).
      split.
      * intros Hp. exists body, s. split; [done|]. split; [done|]. apply parse_int_spec. destruct (parse_int s) as [n|]; [|done]. by injection Hp as ->.
      * intros (b & s' & [= <-] & Hd & Hn). destruct Ed as (l & El & Ef), Hd as (l' & El' & Ef').
        assert (s' = s) as -> by congruence. apply (parse_int_spec s u) in Hn. by rewrite Hn.
  - split; [done|]. intros (b & s & [= <-] & Hd & Hn & _). apply signed_nonempty in Hn.
    apply doc_says_iff in Hd; [|done]. congruence.
Qed.

(** ** Options of queries *)
Definition sets (k : string) (o : promql_option) : option string :=
  match o with
  | PTime t => if bool_decide (k = "time") then Some (write_time D t) else None
  | PStart t => if bool_decide (k = "start") then Some (write_time D t) else None
  | PEnd t => if bool_decide (k = "end") then Some (write_time D t) else None
  | PStep s => if bool_decide (k = "step") then Some s else None
  end.
Lemma apply_lookup v o k : apply_promql D v o !! k = match sets k o with Some x => Some [x] | None => v !! k end.
Proof.
  destruct o as [t|t|t|s]; cbn [apply_promql sets]; unfold vset; case_bool_decide as E.
  all: first [subst k; by rewrite lookup_insert | by rewrite lookup_insert_ne].
Qed.
Lemma promql_lookup (v : values) opts k :
  foldl (apply_promql D) v opts !! k = match last (omap (sets k) opts) with Some x => Some [x] | None => v !! k end.
Proof.
  induction opts as [|o opts IH] using rev_ind; [done|]. rewrite foldl_snoc, omap_app, last_app, apply_lookup. cbn.
  destruct (sets k o); cbn; [done|]. apply IH.
Qed.
Lemma first_of_last v opts k : v !! k = None -> first_of k (foldl (apply_promql D) v opts) = default "" (last (omap (sets k) opts)).
Proof. intros H. unfold first_of. rewrite promql_lookup, H. by destruct (last _). Qed.
Lemma last_omap_map {A B C} (f : A -> option B) (g : B -> C) l : last (omap (fun x => g <$> f x) l) = g <$> last (omap f l).
Proof.
  induction l as [|x l IH] using rev_ind; [done|]. rewrite !omap_app, !last_app. cbn. destruct (f x); cbn; [done|]. apply IH.
Qed.
Lemma last_time_eq f opts : last_time D f opts = default "" (last (omap (fun o => write_time D <$> f o) opts)).
Proof. unfold last_time. rewrite last_omap_map. by destruct (last _). Qed.
Lemma omap_same {A B} (f g : A -> option B) (l : list A) : (forall x, f x = g x) -> omap f l = omap g l.
Proof. intros H. induction l as [|x l IH]; [done|]. cbn. by rewrite H, IH. Qed.

Ltac by_last := rewrite ?last_time_eq; do 2 f_equal; apply omap_same; by intros [].
Lemma grpc_instant_asked query opts : grpc_instant D query opts = asked_instant D query opts.
Proof. unfold grpc_instant, asked_instant. f_equal. rewrite first_of_last by done. by_last. Qed.
Lemma grpc_range_asked query opts : grpc_range D query opts = asked_range D query opts.
Proof. unfold grpc_range, asked_range. f_equal; (rewrite first_of_last by done); by_last. Qed.

Definition query_values (query : string) opts : values := foldl (apply_promql D) (vset "query" query ∅) opts.
Lemma query_values_nonempty query opts : map_Forall (fun _ xs => xs <> []) (query_values query opts).
Proof.
  intros k xs. unfold query_values. rewrite promql_lookup. destruct (last _); [by intros [= <-]|].
  unfold vset. intros [[_ <-]|[_ ?]]%lookup_insert_Some; done.
Qed.
Lemma query_parse path query opts : parse_query ((http_query D path query opts).2) = query_values query opts.
Proof. apply parse_encode, query_values_nonempty. Qed.
Lemma query_values_keys query opts k : is_Some (query_values query opts !! k) -> k ∈ ["query"; "time"; "start"; "end"; "step"].
Proof.
  intros [xs H]. unfold query_values in H. rewrite promql_lookup in H. destruct (last _) as [x|] eqn:E.
  - apply last_omap_elem in E as (o & _ & Ho). unfold sets in Ho. destruct o; case_bool_decide; subst; try done; set_solver.
  - unfold vset in H. apply lookup_insert_Some in H as [[<- _]|[_ ?]]; [set_solver|done].
Qed.
Lemma query_values_query query opts : vget "query" (query_values query opts) = query.
Proof.
  unfold vget, query_values. rewrite promql_lookup. replace (omap _ opts) with (@nil string); [done|].
  symmetry. induction opts as [|[] opts IH]; [done|..]; cbn; done.
Qed.
Lemma query_values_get query opts k : k <> "query" -> vget k (query_values query opts) = first_of k (foldl (apply_promql D) ∅ opts).
Proof.
  intros Hk. unfold vget, first_of, query_values. rewrite !promql_lookup. destruct (last _); [done|].
  unfold vset. by rewrite lookup_insert_ne.
Qed.
End Client.
