(** Documented parameters of queries and of the list of sources. *)
From Coq Require Import Ascii String.
From stdpp Require Import prelude strings gmap list.
From Verif.Base Require Import GoInt Envelope Str Url UrlProofs Dec.
From Verif.Routing Require Import Model.
From Verif.Gateway Require Import Model Spec Proofs Decode Route.
Open Scope string_scope.
Open Scope list_scope.
Open Scope Z_scope.

Lemma is_field_own G f j : is_field G f f j = true.
Proof. unfold is_field. by rewrite bool_decide_eq_true_2. Qed.
Lemma plain_field {M} G (field : string -> option (list string -> M -> option M)) n set kvs vs m :
  has_char "[" n = false -> has_char "." n = false -> field n = Some set ->
  populate G (fun _ => false) field ((n, vs) :: kvs) m = set vs m ≫= populate G (fun _ => false) field kvs.
Proof. intros H1 H2 E. cbn [populate]. by rewrite populate1_plain, E. Qed.

Definition get (kvs : list (string * list string)) (n d : string) : string :=
  match (list_to_map kvs : gmap string (list string)) !! n with Some vs => first vs | None => d end.
Lemma get_cons_eq n vs kvs d : get ((n, vs) :: kvs) n d = first vs.
Proof. unfold get. cbn. by rewrite lookup_insert. Qed.
Lemma get_cons_ne n k vs kvs d : k <> n -> get ((k, vs) :: kvs) n d = get kvs n d.
Proof. unfold get. cbn. intros H. by rewrite lookup_insert_ne. Qed.
Lemma get_fresh n kvs d : n ∉ kvs.*1 -> get kvs n d = d.
Proof. intros H. unfold get. by rewrite not_elem_of_list_to_map_1. Qed.

Lemma populate_instant G kvs : NoDup (kvs.*1) -> Forall (fun kv => kv.1 ∈ ["query"; "time"] /\ kv.2 <> []) kvs -> forall a b,
  populate G (fun _ => false) (instant_field G) kvs (Instant a b, "") = Some (Instant (get kvs "query" a) (get kvs "time" b), "").
Proof.
  induction kvs as [|[k vs] kvs IH]; intros Hnd Hk a b; [done|].
  apply Forall_cons in Hk as [[Hk Hne] Hks]. cbn [fst snd fmap list_fmap] in *. apply NoDup_cons in Hnd as [Hf Hnd].
  destruct vs as [|v vs]; [done|]. specialize (IH Hnd Hks). rewrite !elem_of_cons, elem_of_nil in Hk. destruct Hk as [->|[->|[]]].
  - erewrite plain_field; [|done|done|unfold instant_field; by rewrite is_field_own]. cbn. rewrite IH.
    rewrite get_cons_eq, (get_cons_ne "time"), (get_fresh "query") by done. done.
  - erewrite plain_field; [|done|done|unfold instant_field; destruct G as [[] ? ? ? ? ? ? ? ?]; reflexivity]. cbn. rewrite IH.
    rewrite get_cons_eq, (get_cons_ne "query"), (get_fresh "time") by done. done.
Qed.
Lemma populate_range G kvs : NoDup (kvs.*1) -> Forall (fun kv => kv.1 ∈ ["query"; "start"; "end"; "step"] /\ kv.2 <> []) kvs -> forall a b c d,
  populate G (fun _ => false) (range_field G) kvs (Range a b c d, "") =
    Some (Range (get kvs "query" a) (get kvs "start" b) (get kvs "end" c) (get kvs "step" d), "").
Proof.
  induction kvs as [|[k vs] kvs IH]; intros Hnd Hk a b c d; [done|].
  apply Forall_cons in Hk as [[Hk Hne] Hks]. cbn [fst snd fmap list_fmap] in *. apply NoDup_cons in Hnd as [Hf Hnd].
  destruct vs as [|v vs]; [done|]. specialize (IH Hnd Hks). rewrite !elem_of_cons, elem_of_nil in Hk. destruct Hk as [->|[->|[->|[->|[]]]]].
  - erewrite plain_field; [|done|done|unfold range_field; by rewrite is_field_own]. cbn. rewrite IH.
    rewrite get_cons_eq, !(get_cons_ne _ "query"), (get_fresh "query") by done. done.
  - erewrite plain_field; [|done|done|unfold range_field; destruct G as [[] ? ? ? ? ? ? ? ?]; reflexivity]. cbn. rewrite IH.
    rewrite get_cons_eq, !(get_cons_ne _ "start"), (get_fresh "start") by done. done.
  - erewrite plain_field; [|done|done|unfold range_field; destruct G as [[] ? ? ? ? ? ? ? ?]; reflexivity]. cbn. rewrite IH.
    rewrite get_cons_eq, !(get_cons_ne _ "end"), (get_fresh "end") by done. done.
  - erewrite plain_field; [|done|done|unfold range_field; destruct G as [[] ? ? ? ? ? ? ? ?]; reflexivity]. cbn. rewrite IH.
    rewrite get_cons_eq, !(get_cons_ne _ "step"), (get_fresh "step") by done. done.
Qed.

Section Params.
Context (q : string) (kvs : list (string * list string)) (Hp : kvs ≡ₚ map_to_list (parse_query q)).
Lemma get_vget n : get kvs n "" = vget n (parse_query q).
Proof. destruct (params_map _ _ Hp) as [_ E]. rewrite vget_first, <-E. done. Qed.
Lemma kvs_shape (ks : list string) : (forall k, is_Some (parse_query q !! k) -> k ∈ ks) -> Forall (fun kv => kv.1 ∈ ks /\ kv.2 <> []) kvs.
Proof.
  intros H. apply Forall_forall. intros [k vs] Hin. apply (params_elem (parse_query q)) in Hin; [|done]. cbn. split.
  - apply H. by eexists.
  - eapply parse_query_nonempty, Hin.
Qed.
End Params.

Lemma instant_exact G q o : (forall k, is_Some (parse_query q !! k) -> k ∈ ["query"; "time"]) ->
  serves G "/api/v1/query" q o <-> o = AskInstant (Instant (vget "query" (parse_query q)) (vget "time" (parse_query q))).
Proof.
  intros Hk. assert (H : forall kvs, kvs ≡ₚ map_to_list (parse_query q) -> request_instant G kvs =
    Some (Instant (vget "query" (parse_query q)) (vget "time" (parse_query q)))).
  { intros kvs Hp. unfold request_instant. destruct (params_map _ _ Hp) as [Hnd _].
    rewrite populate_instant by (done || by eapply kvs_shape). by rewrite !(get_vget q kvs Hp). }
  split.
  - intros (kvs & Hp & Hs). apply served_query in Hs. by rewrite H in Hs.
  - intros ->. exists (map_to_list (parse_query q)). split; [done|]. rewrite (served_query G _ _ eq_refl). by rewrite H.
Qed.
Lemma range_exact G q o : (forall k, is_Some (parse_query q !! k) -> k ∈ ["query"; "start"; "end"; "step"]) ->
  serves G "/api/v1/query_range" q o <->
  o = AskRange (Range (vget "query" (parse_query q)) (vget "start" (parse_query q)) (vget "end" (parse_query q)) (vget "step" (parse_query q))).
Proof.
  intros Hk. assert (H : forall kvs, kvs ≡ₚ map_to_list (parse_query q) -> request_range G kvs =
    Some (Range (vget "query" (parse_query q)) (vget "start" (parse_query q)) (vget "end" (parse_query q)) (vget "step" (parse_query q)))).
  { intros kvs Hp. unfold request_range. destruct (params_map _ _ Hp) as [Hnd _].
    rewrite populate_range by (done || by eapply kvs_shape). by rewrite !(get_vget q kvs Hp). }
  split.
  - intros (kvs & Hp & Hs). apply served_range in Hs. by rewrite H in Hs.
  - intros ->. exists (map_to_list (parse_query q)). split; [done|]. rewrite (served_range G _ _ eq_refl). by rewrite H.
Qed.
Lemma served_meta G kvs : serve G "/api/v1/meta" kvs = or_invalid AskMeta (request_meta G kvs).
Proof. unfold serve, components. reflexivity. Qed.
Lemma parse_bool_iff x b : parse_bool x = Some b <->
  b = true /\ x ∈ ["1"; "t"; "T"; "TRUE"; "true"; "True"] \/ b = false /\ x ∈ ["0"; "f"; "F"; "FALSE"; "false"; "False"].
Proof.
  unfold parse_bool. case_bool_decide as H1; [|case_bool_decide as H2].
  - split; [intros [= <-]; by left|]. intros [[-> _]|[-> H]]; [done|]. exfalso.
    rewrite !elem_of_cons, elem_of_nil in H1. destruct H1 as [->|[->|[->|[->|[->|[->|[]]]]]]];
    rewrite !elem_of_cons, elem_of_nil in H; naive_solver.
  - split; [intros [= <-]; by right|]. by intros [[-> ?]|[-> ?]].
  - split; [done|]. by intros [[-> ?]|[-> ?]].
Qed.
Lemma meta_exact G q b : (forall k, is_Some (parse_query q !! k) -> k = "local_only") ->
  serves G "/api/v1/meta" q (AskMeta (MetaReq b)) <-> bool_given (parse_query q) "local_only" b.
Proof.
  intros Hk. assert (H : forall kvs, kvs ≡ₚ map_to_list (parse_query q) ->
    request_meta G kvs = Some (MetaReq b) <-> bool_given (parse_query q) "local_only" b).
  { intros kvs Hp. destruct (params_map _ _ Hp) as [Hnd Hm]. unfold bool_given.
    destruct kvs as [|[k vs] kvs].
    - rewrite <-Hm. change (list_to_map [] !! "local_only") with (@None (list string)). cbn. split; [by intros [= <-]|by intros ->].
    - assert (k = "local_only") as ->.
      { apply Hk. exists vs. apply (params_elem _ _ _ _ Hp). left. }
      assert (kvs = []) as ->.
      { destruct kvs as [|[k' vs'] kvs]; [done|]. exfalso. cbn in Hnd. apply NoDup_cons in Hnd as [Hf _]. apply Hf.
        assert (k' = "local_only") as ->; [|left]. apply Hk. exists vs'. apply (params_elem _ _ _ _ Hp). right. left. }
      assert (El : parse_query q !! "local_only" = Some vs) by (apply (params_elem _ _ _ _ Hp); left).
      rewrite El. unfold request_meta.
      erewrite plain_field; [|done|done|unfold meta_field; by rewrite is_field_own].
      unfold scalar. destruct vs as [|x vs]; [by split; [|intros (? & ? & ? & _)]|]. cbn [mbind option_bind].
      destruct (parse_bool x) as [b'|] eqn:Eb.
      + cbn. split.
        * intros [= ->]. exists x, vs. split; [done|]. by apply parse_bool_iff.
        * intros (y & ys & [= <- <-] & Hy%parse_bool_iff). rewrite Hy in Eb. by injection Eb as ->.
      + cbn. split; [done|]. intros (y & ys & [= <- <-] & Hy%parse_bool_iff). by rewrite Hy in Eb. }
  split.
  - intros (kvs & Hp & Hs). rewrite served_meta in Hs. unfold or_invalid in Hs.
    destruct (request_meta G kvs) as [[b']|] eqn:E; [|done]. injection Hs as ->. by apply (H kvs Hp).
  - intros Hb. exists (map_to_list (parse_query q)). split; [done|]. rewrite served_meta.
    apply (H _ (reflexivity _)) in Hb. by rewrite Hb.
Qed.
Lemma text_given_vget q k x : text_given (parse_query q) k x <-> vget k (parse_query q) = x.
Proof.
  unfold text_given, vget. destruct (parse_query q !! k) as [vs|] eqn:E; [|split; congruence].
  apply parse_query_nonempty in E. destruct vs as [|v vs]; [done|]. split; [by intros [rest [= -> _]]|]. intros <-. by exists vs.
Qed.
