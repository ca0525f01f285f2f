(** C159: the HTTP status says what happened.  Vocabulary: Json/SpecStatus.v, Http/Spec.v. *)
From Coq Require Import Ascii String.
From stdpp Require Import prelude strings gmap list.
From Verif.Base Require Import GoInt Envelope Str Url Dec.
From Verif.Routing Require Import Model.
From Verif.Gateway Require Import Model Spec.
From Verif.Marshaler Require Import Model Spec.
From Verif.Http Require Import Model Spec.
From Verif.Json Require Import Text Pb Codec SpecStatus StatusProofs.
From Verif.Props Require Import MarshalerProps GatewayProps HttpProps JsonProps.
Open Scope string_scope.
Open Scope list_scope.
Open Scope Z_scope.

(** What the status st says of an outcome: 200 is success, and a failure has the documented status of its code;
    an answer that cannot be written (no text of it) is a failure with the code Unknown *)
Definition says {A} (writable : A -> Prop) (out : outcome A) (st : Z) : Prop :=
  match out with
  | Done a => (writable a /\ st = 200) \/ (~ writable a /\ documented 2 st)
  | Failed code _ => code <> 0 /\ documented code st
  end.
(** What the status st says of a request that the gateway understood as a *)
Definition tells (L : lib) (W : gateway L) (a : served) (st : Z) : Prop :=
  match a with
  | Moved => True
  | InfoPage => st = 200
  | NoRoute => st = 404
  | Invalid => documented 3 st
  | AskRead q => exists out, b_read W q out /\ says (fun _ => True) out st
  | AskMeta q => exists out, b_meta W q out /\ says (fun _ => True) out st
  | AskInstant q => exists out, b_instant W q out /\ says (fun x => is_Some (marshal L x)) out st
  | AskRange q => exists out, b_range W q out /\ says (fun x => is_Some (marshal L x)) out st
  end.
Theorem C159_gateway : forall F time L W r st body,
  answers (go_codec F time) L W r (Some (st, body)) ->
  exists a, serves (g_lib W) r.1 r.2 a /\ tells L W a st.
Proof.
  intros F time L W r st body H. inversion H; subst; eexists; (split; [eassumption|]); cbn [tells]; try done;
    repeat match goal with E : error_answer _ _ _ _ _ _ |- _ => destruct E as [E _]; cbn [fst http_status go_codec] in E; apply status_documented in E; [|done] end;
    try done; eexists; (split; [eassumption|]); cbn [says]; eauto.
  - right. split; [|done]. intros [j Hj]. congruence.
  - right. split; [|done]. intros [j Hj]. congruence.
Qed.
Print Assumptions C159_gateway.
(** Met by: a node that cannot be reached, whose sources are asked for; and a path that nothing answers. *)
Example C159_case : documented 14 503 /\
  answers (go_codec bit_floats format_int) example_lib (some_gateway "2.9.0") ("/api/v1/meta", "") (Some (503, "")) /\
  answers (go_codec bit_floats format_int) example_lib (some_gateway "2.9.0") ("/metrics", "") (Some (404, "")).
Proof.
  split; [apply status_documented; done|]. split.
  - eapply (an_meta_failed _ _ (some_gateway "2.9.0") ("/api/v1/meta", "") (MetaReq false) 14 "no node"); try done.
    + eexists. split; [reflexivity|]. vm_compute. reflexivity.
    + split; [done|]. intros [?|?]; done.
  - apply an_no_route. eexists. split; [reflexivity|]. vm_compute. reflexivity.
Qed.
