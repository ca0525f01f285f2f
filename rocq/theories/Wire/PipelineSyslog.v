(** What comes from a syslog connection can be sent on. *)
From Coq Require Import Ascii String.
From stdpp Require Import prelude strings list gmap.
From Verif.Base Require Import GoInt Envelope Str Dec.
From Verif.Json Require Import Text Spec SpecPb.
From Verif.Syslog Require Import Model Spec SpecMessage.
Local Open Scope string_scope.
Local Open Scope Z_scope.
Local Arguments String.append !_ _ / : simpl nomatch.

Lemma bytes_app P a b : bytes_all P (a ++ b) -> bytes_all P a /\ bytes_all P b.
Proof.
  induction a as [|c a IH]; cbn [String.append]; intros H; [by split; [constructor|]|]. inversion H as [|? ? Hc Hr]; subst. destruct (IH Hr). by split; [constructor|].
Qed.
Lemma printable_utf8 s : bytes_all printable s -> utf8 s.
Proof. induction 1 as [|c s Hc _ IH]; [constructor|]. apply utf8_1; [|done]. unfold printable, Json.Spec.range in *. lia. Qed.
Lemma process_utf8 pid ty inst : bytes_all printable pid -> process_id pid ty inst -> utf8 ty /\ utf8 inst.
Proof.
  intros H (l & r & core & -> & _ & _ & _ & _ & _ & Hc). apply bytes_app in H as [_ H]. apply bytes_app in H as [H _].
  destruct Hc as [[-> ->]|(rest & -> & _)]; [by split; apply printable_utf8|]. apply bytes_app in H as [H1 H]. apply bytes_app in H as [_ H]. apply bytes_app in H as [_ H].
  split; by apply printable_utf8.
Qed.
Lemma field_word n s x : field n s (Some x) -> bytes_all printable x.
Proof. inversion 1 as [|? ? _ [-> [H1 _]]]; subst. exact H1. Qed.
Lemma data_utf8 d es kind m : Some d = Some (data_of es) -> well_formed es -> d !! kind = Some m -> forall k v, m !! k = Some v -> utf8 k /\ utf8 v.
Proof.
  intros [= ->] (_ & _ & H) Hd k v Hk. apply elem_of_list_to_map_2, elem_of_list_fmap in Hd as ([i ps] & E & Hi). injection E as -> ->. rewrite Forall_forall in H.
  destruct (H _ Hi) as [_ Hp]. cbn in *. apply elem_of_list_to_map_2 in Hk. rewrite elem_of_reverse in Hk. rewrite Forall_forall in Hp. destruct (Hp _ Hk) as [[Hn _] Hv].
  split; [|done]. clear -Hn. cbn in Hn. apply printable_utf8. induction Hn as [|c s [Hc _] _ IH]; by constructor.
Qed.
Lemma param_utf8 m k : (forall k v, m !! k = Some v -> utf8 k /\ utf8 v) -> utf8 (param m k).
Proof. intros H. unfold param. destruct (m !! k) as [v|] eqn:E; [by eapply H|constructor]. Qed.
Lemma means_sendable pf s msg e : (forall x f, pf x = Some f -> double f) -> rfc5424 s msg -> means pf msg e -> sendable e.
Proof.
  intros Hpf Hm He. destruct Hm as [pri ver tm host app proc mid sd tx p t h a q i d x Hp Hv Ht Hh Ha Hq Hi Hd Hx].
  assert (He0 : text_map ∅) by (intros k y Hk; by rewrite lookup_empty in Hk).
  assert (W : forall z, int64 (wrap64 z)) by (intros z; apply wrap64_range).
  destruct He as [pid app' t' text payload p' ty inst E1 E2 E3 E4 E5 Hno Hpid Htr ->|pid app' t' ty inst d' kind m body E1 E2 E3 E4 Hk Hs Hpid ->]; cbn in E1, E2; subst q a.
  - destruct (process_utf8 _ _ _ (field_word _ _ _ Hq) Hpid) as [U1 U2]. split; [apply W|]. split; [by eapply printable_utf8, field_word|]. split; [done|]. split; [done|]. split; [|done].
    cbn. intros k y [<- <-]%lookup_singleton_Some. split; [by apply printable_utf8; repeat constructor; unfold printable, Json.Spec.range; cbn; lia|done].
  - destruct (process_utf8 _ _ _ (field_word _ _ _ Hq) Hpid) as [U1 U2]. split; [apply W|]. split; [by eapply printable_utf8, field_word|]. split; [done|]. split; [done|]. split; [done|].
    assert (U : forall k v, m !! k = Some v -> utf8 k /\ utf8 v). { cbn in E4. subst d. inversion Hd as [|es Hw E5 E6]; subst. by eapply data_utf8. }
    cbn. destruct Hs as [suffix a b N1 L1 N2 L2|suffix u v Hu Hv'|suffix|suffix a b N1 L1 N2 L2]; cbn.
    + split; [by apply param_utf8|]. pose proof (numeral_nonneg _ _ N1). pose proof (numeral_nonneg _ _ N2). unfold uint64. lia.
    + intros k g [<- <-]%lookup_singleton_Some. cbn. split; [by apply param_utf8|]. split; [by eapply U|by eapply Hpf].
    + split; by apply param_utf8.
    + split; [by apply param_utf8|]. by split.
Qed.
