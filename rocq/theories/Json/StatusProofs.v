(** The statuses of the gateway are the documented ones. *)
From Coq Require Import Ascii String.
From stdpp Require Import prelude strings list gmap.
From Verif.Base Require Import Envelope.
From Verif.Http Require Import Model.
From Verif.Json Require Import Codec SpecStatus.
Open Scope Z_scope.

Lemma canonical_status : Forall (fun p => p.2 = status_of p.1 /\ p.1 <> 0) canonical.
Proof. repeat constructor; done. Qed.
Lemma canonical_else code : code <> 0 -> code ∉ canonical.*1 -> status_of code = 500.
Proof.
  intros H0 Hi. cbn in Hi. rewrite !not_elem_of_cons in Hi. unfold status_of.
  repeat (match goal with |- context [code =? ?n] => destruct (Z.eqb_spec code n); [subst code; exfalso; tauto|] end). done.
Qed.
Lemma status_documented code st : code <> 0 -> (st = status_of code <-> documented code st).
Proof.
  intros H0. pose proof canonical_status as Hc. rewrite Forall_forall in Hc. unfold documented.
  destruct (decide (code ∈ canonical.*1)) as [Hi|Hi].
  - split.
    + intros ->. left. apply elem_of_list_fmap in Hi as ([c s] & -> & Hi). cbn. destruct (Hc _ Hi) as [E _]. cbn in E. by rewrite <- E.
    + intros [H|[H _]]; [|done]. by destruct (Hc _ H).
  - rewrite canonical_else by done. split; [intros ->; by right|]. intros [H|[_ H]]; [|done]. exfalso. apply Hi. apply elem_of_list_fmap. by exists (code, st).
Qed.
