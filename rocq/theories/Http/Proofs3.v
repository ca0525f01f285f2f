(** Queries through the client library and the gateway. *)
From Coq Require Import Ascii String.
From stdpp Require Import prelude strings gmap list.
From Verif.Base Require Import GoInt Envelope Str Url UrlProofs Dec.
From Verif.Routing Require Import Model.
From Verif.Gateway Require Import Model Spec Proofs Decode Route Queries.
From Verif.Marshaler Require Import Model Spec Proofs.
From Verif.Http Require Import Model Spec Semver Proofs Proofs2.
Open Scope string_scope.
Open Scope list_scope.
Open Scope Z_scope.

Section Queries.
Context (D : codec) (L : lib) (W : gateway L).
Hypothesis HR : reads_results D L.
Hypothesis HS : errors_not_200 D.

Lemma marshal_shape a j : marshal L a = Some j -> exists ty o,
  j = JObj [("status", JStr "success"); ("data", JObj (("resultType", JStr ty) :: match o with Some x => [("result", x)] | None => [] end))] /\
  dec_raw j = Some (Raw "success" ty o "" "").
Proof.
  unfold marshal. destruct a as [a|].
  - destruct (match a with RScalar _ => _ | RVector _ => _ | RMatrix _ => _ end) as [[ty x]|]; cbn; [|done]. intros [= <-].
    exists ty, (Some x). split; reflexivity.
  - intros [= <-]. exists "", None. split; reflexivity.
Qed.
Lemma raw_error msg : dec_raw (error_doc L msg) = Some (Raw "error" "" None "internal" (clean L msg)).
Proof. reflexivity. Qed.

(** what PromQLRaw makes of an answer *)
Definition raw_of (o : option response) : res raw_result :=
  match o with
  | None => Err Unreachable
  | Some (status, body) =>
      if status =? 404 then Err (BadStatus 404)
      else if negb (status =? 200) && negb (status =? 400) && negb (status =? 500) then Err (BadStatus status)
      else match whole_json D body ≫= dec_raw with Some r => Ok r | None => Err Undecodable end
  end.
Lemma raw_told code msg : code <> 0 -> told L (http_status D code) msg (raw_of (Some (http_status D code, write_json D (error_doc L msg)))).
Proof.
  intros Hc%HS. unfold told, raw_of. set (st := http_status D code) in *. destruct HR as [_ HE].
  destruct (decide (st = 400 \/ st = 500)) as [Hd|Hd].
  - eexists. split; [|reflexivity]. rewrite HE. cbn. by destruct Hd as [-> | ->].
  - destruct (Z.eqb_spec st 404) as [->|]; [done|]. destruct (Z.eqb_spec st 200); [done|]. destruct (Z.eqb_spec st 400); [tauto|].
    destruct (Z.eqb_spec st 500); [tauto|]. done.
Qed.
Lemma raw_verdict_of out o : query_answer D L out o -> raw_verdict D L out (raw_of o).
Proof.
  unfold query_answer, raw_verdict. destruct out as [a|code msg].
  - destruct (marshal L a) as [j|] eqn:E.
    + intros ->. left. destruct (marshal_shape a j E) as (ty & x & Ej & Er). cbn. destruct HR as [HJ _].
      rewrite (proj2 (HJ a j E)). cbn. rewrite Er. eexists. split; [done|]. unfold shows. cbn. by rewrite E, Ej.
    + intros [msg ->]. right. split; [done|]. exists msg. by apply raw_told.
  - intros [Hc ->]. split; [done|]. by apply raw_told.
Qed.
Lemma raw_talks srv path query opts tr r : talks srv (promql_raw D path query opts) tr r ->
  exists o, tr = [(http_query D path query opts, o)] /\ srv (http_query D path query opts) o /\ r = raw_of o.
Proof. intros H. inversion H as [|? ? o tr' ? Hs Ht]; subst. inversion Ht; subst. eauto. Qed.

Lemma raw_instant_through query opts tr r :
  talks (answers D L W) (promql_raw D "/api/v1/query" query opts) tr r ->
  (is_err r /\ lost tr) \/ exists out, b_instant W (asked_instant D query opts) out /\ raw_verdict D L out r.
Proof.
  intros (o & -> & Ho & ->)%raw_talks.
  apply (answers_instant _ _ _ _ (asked_instant D query opts)) in Ho as [->|(out & Hb & Ho)]; [| |done|intros s; apply instant_serves].
  - left. split; [by eexists|]. eexists. left.
  - right. exists out. split; [done|]. by apply raw_verdict_of.
Qed.
Lemma raw_range_through query opts tr r :
  talks (answers D L W) (promql_raw D "/api/v1/query_range" query opts) tr r ->
  (is_err r /\ lost tr) \/ exists out, b_range W (asked_range D query opts) out /\ raw_verdict D L out r.
Proof.
  intros (o & -> & Ho & ->)%raw_talks.
  apply (answers_range _ _ _ _ (asked_range D query opts)) in Ho as [->|(out & Hb & Ho)]; [| |done|intros s; apply range_serves].
  - left. split; [by eexists|]. eexists. left.
  - right. exists out. split; [done|]. by apply raw_verdict_of.
Qed.

Hypothesis HF : exact_short L.
Hypothesis H3 : stable3 L.
(** the verdict of the decoding functions: only a result, which says the same *)
Lemma decoded_result range out o : (forall a, out = Done (Some a) -> clean_result L a) -> query_answer D L out o ->
  match out with
  | Done (Some a) =>
      match on_200 (fun body => first_json D body ≫= unmarshal L range) o with
      | Ok r => exists a', r = Some a' /\ same_result L a a'
      | Err _ => ~ good_result L a \/ (range = true /\ forall m, a <> RMatrix m)
      end
  | _ => is_err (on_200 (fun body => first_json D body ≫= unmarshal L range) o)
  end.
Proof.
  intros Hc. assert (Hbad : forall code msg, code <> 0 ->
    is_err (on_200 (fun body => first_json D body ≫= unmarshal L range) (Some (http_status D code, write_json D (error_doc L msg))))).
  { intros code msg Hn%HS. unfold on_200. destruct (Z.eqb_spec (http_status D code) 200); [done|]. by eexists. }
  destruct out as [[a|]|code msg]; cbn [query_answer].
  - specialize (Hc a eq_refl). destruct (marshal L (Some a)) as [j|] eqn:E.
    + intros ->. cbn [on_200]. change (negb (200 =? 200)) with false. cbn iota. destruct HR as [HJ _]. rewrite (proj1 (HJ _ j E)). cbn [mbind option_bind].
      destruct (marshal_round L HF H3 a j Hc E) as (a' & U & Sm & Ur). destruct range.
      * rewrite Ur. destruct a; [right; split; [done|]; intros m; discriminate..|]. by exists a'.
      * rewrite U. by exists a'.
    + intros [msg ->]. unfold on_200. destruct (Z.eqb_spec (http_status D 2) 200) as [E2|]; [by apply HS in E2|]. cbn [negb]. left. intros Hg%marshal_good. rewrite E in Hg. by destruct Hg.
  - change (marshal L None) with (Some (JObj [("status", JStr "success"); ("data", JObj [("resultType", JStr "")])])). cbn iota. intros ->.
    cbn [on_200]. change (negb (200 =? 200)) with false. cbn iota. destruct HR as [HJ _]. rewrite (proj1 (HJ None _ eq_refl)). cbn. destruct range; by eexists.
  - intros [Hn ->]. by apply Hbad.
Qed.
Lemma get_talks {A} srv req (f : option response -> A) tr r : talks srv (Get req (fun o => Ret (f o))) tr r ->
  exists o, tr = [(req, o)] /\ srv req o /\ r = f o.
Proof. intros H. inversion H as [|? ? o tr' ? Hs Ht]; subst. inversion Ht; subst. eauto. Qed.
Lemma promql_through query opts tr r :
  (forall a, b_instant W (asked_instant D query opts) (Done (Some a)) -> clean_result L a) ->
  talks (answers D L W) (promql D L query opts) tr r ->
  (is_err r /\ lost tr) \/ exists out, b_instant W (asked_instant D query opts) out /\
    match out with
    | Done (Some a) => match r with Ok x => exists a', x = Some a' /\ same_result L a a' | Err _ => ~ good_result L a end
    | _ => is_err r
    end.
Proof.
  intros Hc (o & -> & Ho & ->)%get_talks.
  apply (answers_instant _ _ _ _ (asked_instant D query opts)) in Ho as [->|(out & Hb & Ho)]; [| |done|intros s; apply instant_serves].
  - left. split; [by eexists|]. eexists. left.
  - right. exists out. split; [done|]. apply (decoded_result false) in Ho; [|intros a ->; by apply Hc].
    destruct out as [[a|]|]; try done. destruct (on_200 _ _); [done|]. by destruct Ho as [?|[? _]].
Qed.
Lemma promql_range_through query opts tr r :
  (forall a, b_range W (asked_range D query opts) (Done (Some a)) -> clean_result L a) ->
  talks (answers D L W) (promql_range D L query opts) tr r ->
  (is_err r /\ lost tr) \/ exists out, b_range W (asked_range D query opts) out /\
    match out with
    | Done (Some a) => match r with Ok x => exists a', x = Some a' /\ same_result L a a' | Err _ => ~ good_result L a \/ forall m, a <> RMatrix m end
    | _ => is_err r
    end.
Proof.
  intros Hc (o & -> & Ho & ->)%get_talks.
  apply (answers_range _ _ _ _ (asked_range D query opts)) in Ho as [->|(out & Hb & Ho)]; [| |done|intros s; apply range_serves].
  - left. split; [by eexists|]. eexists. left.
  - right. exists out. split; [done|]. apply (decoded_result true) in Ho; [|intros a ->; by apply Hc].
    destruct out as [[a|]|]; try done. destruct (on_200 _ _); [done|]. destruct Ho as [?|[_ ?]]; tauto.
Qed.
End Queries.
