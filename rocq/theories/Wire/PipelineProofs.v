(** From a sender to a client of the gateway. *)
From Coq Require Import Ascii String.
From stdpp Require Import prelude strings list gmap.
From Verif.Base Require Import GoInt Envelope.
From Verif.Store Require Import Model Spec ProofsBase.
From Verif.Json Require Import Text Spec SpecPb.
From Verif.Routing Require Import Model Spec.
From Verif.Gateway Require Import Model Spec.
From Verif.Whole Require Import SpecFull ProofsFull.
From Verif.Http Require Import Model.
From Verif.Client Require Import WalkStore.
From Verif.Wire Require Import Format Model Spec FormatProofs Proofs Received Node SpecNode NodeProofs Numbers Frame SpecFrame FrameProofs FrameLarge SpecPipeline.
Open Scope Z_scope.

Lemma sendable_sized e : sendable e -> sized e.
Proof.
  intros (H1 & _ & _ & _ & _ & H2). split; [done|]. destruct (e_msg e) as [p er|n d t|m|n a b|ti bo|]; cbn in *; try done; try by destruct H2 as [_ H2].
  intros k g Hk. destruct (H2 k g Hk) as (_ & _ & H & _). exact H.
Qed.
Lemma projects_sendable nf e e' : projects nf e e' -> sendable e -> sendable e'.
Proof.
  destruct 1 as [| | |m e ms ms' E Hk _]; try done. intros (H1 & H2 & H3 & H4 & H5 & H6). rewrite E in H6. cbn in H6. do 5 (split; [done|]). cbn.
  intros k g Hg. rewrite Hk in Hg. destruct (m k); [|done]. by apply H6.
Qed.
Lemma answers_sendable q l out : Store.Spec.answers q l out -> Forall sendable l -> Forall sendable out.
Proof.
  induction 1 as [|e e' l out [_ [Hp _]] _ IH|e l out _ _ IH]; intros H; [constructor|..]; apply Forall_cons in H as [H1 H2]; [|by apply IH].
  constructor; [by eapply projects_sendable|by apply IH].
Qed.
Lemma of_source_app src a b : of_source src (a ++ b) = of_source src a ++ of_source src b.
Proof. unfold of_source. apply filter_app. Qed.
Lemma of_source_mine mine src es : mine src = true -> of_source src (filter (fun e => mine (e_source e)) es) = of_source src es.
Proof.
  intros H. unfold of_source. induction es as [|e es IH]; [done|]. rewrite !filter_cons. destruct (decide (e_source e = src)) as [E|E].
  - rewrite decide_True by (by rewrite E, H). rewrite filter_cons, decide_True by done. by rewrite IH.
  - case_decide; [rewrite filter_cons, decide_False by done|]; done.
Qed.
Lemma collected_sent mine src cs es : mine src = true -> collected mine src cs es -> Forall sendable es ->
  sent_for mine src (filter small cs) = of_source src es /\ Forall (fun c => ~ is_tick c) (filter small cs).
Proof.
  intros Hmine. unfold sent_for, brought_all. induction 1 as [|now lo batch b cs es Hb Ht _ IH|c cs es Hnt Hno _ IH]; intros Hs; [by split; [|constructor]|..].
  - apply Forall_app in Hs as [Hs1 Hs2]. destruct (IH Hs2) as [IH1 IH2]. rewrite filter_cons, decide_True by exact Ht. cbn [mbind list_bind]. rewrite !of_source_app.
    split; [|by constructor; [intros []|]]. rewrite <- IH1. f_equal.
    assert (E : unmarshal_send b = Some (mk_send lo (Some batch))).
    { eapply send_round; [|exact Hb|unfold fits; unfold takes, bytes in Ht; lia]. intros l e [= <-] He. apply sendable_sized. rewrite Forall_forall in Hs1. by apply Hs1. }
    cbn [brought]. rewrite E. cbn [sr_local_only]. change (get_batch (mk_send lo (Some batch))) with batch. destruct lo; [done|]. by apply of_source_mine.
  - destruct (IH Hs) as [IH1 IH2]. rewrite filter_cons. case_decide; [|done]. cbn [mbind list_bind]. rewrite of_source_app, Hno. split; [done|]. constructor; [|done].
    destruct c; cbn; try tauto. intros _. by eapply Hnt.
Qed.
Lemma fold_calls mine m src cs : forall l,
  foldl (fun l c => foldl (keep m) l (of_source src (brought mine c))) l cs = foldl (keep m) l (sent_for mine src cs).
Proof.
  unfold sent_for, brought_all. induction cs as [|c cs IH]; intros l; [done|]. cbn [foldl mbind list_bind]. rewrite of_source_app, foldl_app. apply IH.
Qed.
Lemma pack_length l : (String.length (pack l) <= 10 * length l)%nat.
Proof. induction l as [|n l IH]; [done|]. cbn [pack foldr length]. rewrite app_length. pose proof (write_varint_length (n mod 2^64)). unfold pack in *. lia. Qed.
Lemma read_size rq b : marshal_read rq = Some b -> bytes b <= bytes (rr_source rq) + bytes (rr_name rq) + 10 * Z.of_nat (length (rr_types rq)) + 140.
Proof.
  intros E. apply marshal_inv in E as [_ ->]. pose proof (write_fields_bound (enc_read rq)) as HB. unfold bytes. destruct rq as [src st en lim ts desc nf].
  unfold enc_read in *. cbn [rr_source rr_start rr_end rr_limit rr_types rr_desc rr_name] in *. pose proof (pack_length (type_num <$> ts)) as HP. rewrite fmap_length in HP.
  assert (E : forall a b, fsize (a ++ b) = (fsize a + fsize b)%nat).
  { intros a b. induction a as [|[k w] a IH]; [done|]. cbn [fsize app]. lia. }
  rewrite !E in HB.
  assert (T : forall k s, (fsize (put_text k s) <= 20 + String.length s)%nat) by (intros k [|c s]; cbn [put_text fsize wsize String.length]; lia).
  assert (I : forall k n, (fsize (put_int k n) <= 20)%nat) by (intros k n; unfold put_int; destruct (n =? 0); cbn [fsize wsize]; lia).
  assert (Y : (fsize (put_types 5 ts) <= 20 + 10 * length ts)%nat) by (destruct ts; cbn [put_types fsize wsize] in *; cbn [length] in *; lia).
  assert (B : (fsize (put_bool 6 desc) <= 20)%nat) by (destruct desc; cbn [put_bool fsize wsize]; lia).
  pose proof (T 1 src). pose proof (T 7 nf). pose proof (I 2 st). pose proof (I 3 en). pose proof (I 4 lim). lia.
Qed.

(** what the backend says *)
Lemma backend compile mine m cs s es now source start opts out : 1 <= m -> mine source = true ->
  port_run compile mine cs (new_store m) = Some s -> collected mine source cs es -> Forall sendable es ->
  distinct_times (of_source source es) -> Z.of_nat (length (of_source source es)) <= m ->
  int64 start -> Forall option_in64 opts -> Forall known_types opts -> utf8 source -> utf8 (last_name opts) ->
  bytes source + bytes (last_name opts) + 10 * Z.of_nat (length (all_types opts)) + 140 <= 4194304 ->
  acceptable compile (asked source start opts) ->
  from_node compile mine s now (asked source start opts) out ->
  exists l q all, l ≡ₚ of_source source es /\ time_sorted l /\ resolved compile now (asked source start opts) q /\
    (forall e, wanted_type (q_types q) e <-> requested_type (all_types opts) e) /\
    Store.Spec.answers q (if q_desc q then reverse l else l) all /\ Forall sendable all /\
    match out with Done x => x = take (Z.to_nat (q_limit q)) all | Failed _ _ => too_large (take (Z.to_nat (q_limit q)) all) end.
Proof.
  intros Hm Hmine Hr Hc Hs D Hlen Hst Ho Hk U1 U2 Hsz Hacc Hout.
  set (rq := asked source start opts) in *. rewrite port_run_eq in Hr. destruct (collected_sent _ _ _ _ Hmine Hc Hs) as [Esent Hnt].
  assert (Hmem : forall t n, t ∈ all_types opts -> t <> T_UNKNOWN n).
  { intros t n Ht. unfold all_types in Ht. apply elem_of_list_In, in_concat in Ht as (ts & H1 & H2). apply elem_of_list_In in H1, H2. apply elem_of_list_omap in H1 as (o & H1 & H3).
    destruct o as [| |ts'| |]; try done. injection H3 as ->. rewrite Forall_forall in Hk. specialize (Hk _ H1). cbn in Hk. rewrite Forall_forall in Hk. by apply Hk. }
  assert (Hin : forall (f : option_ -> option Z), (forall o x, option_in64 o -> f o = Some x -> int64 x) -> int64 (default 0 (last (omap f opts)))).
  { intros f Hf. destruct (last (omap f opts)) as [x|] eqn:E; [|cbn; unfold int64; lia]. cbn. apply last_Some in E as [l' E].
    assert (Hx : x ∈ omap f opts) by (rewrite E; set_solver). apply elem_of_list_omap in Hx as (o & H1 & H2). rewrite Forall_forall in Ho. eapply Hf; [by apply Ho|done]. }
  assert (Hb : exists b, marshal_read rq = Some b /\ takes b /\ unmarshal_read b = Some rq).
  { assert (E : exists b, marshal_read rq = Some b).
    { unfold marshal_read, marshal. change (rr_source rq) with source. change (rr_name rq) with (last_name opts). cbn [forallb].
      rewrite (proj2 (valid_iff source) U1), (proj2 (valid_iff (last_name opts)) U2). by eexists. }
    destruct E as [b E]. exists b. split; [done|]. pose proof (read_size _ _ E) as Hrs. change (rr_source rq) with source in Hrs. change (rr_name rq) with (last_name opts) in Hrs.
    change (rr_types rq) with (all_types opts) in Hrs. assert (Ht : takes b) by (unfold takes; lia). split; [done|]. eapply read_round; [|exact E|unfold fits; unfold takes, bytes in Ht; lia].
    split; [done|]. split; [|split].
    - apply Hin. intros [] x H [= <-]. exact H.
    - apply Hin. intros [] x H [= <-]. exact H.
    - apply Forall_forall. intros t Ht'. destruct t; try done. exfalso. by eapply Hmem. }
  destruct Hb as (b & Eb & Tb & Ub).
  destruct (node_exact_marshal compile mine m (filter small cs) s now b rq Hm Hr Ub Hmine Hacc ltac:(intros t n Ht; by apply Hmem)) as (l & q & all & s' & b' & Hl & Hq & Hw & Ha & Ecall & Em & Eu).
  { change (rr_source rq) with source. by rewrite Esent. }
  change (rr_source rq) with source in Hl. apply hold_calls in Hl; [|done]. rewrite fold_calls, Esent in Hl.
  assert (Hp : l ≡ₚ of_source source es) by (rewrite Hl; etransitivity; [apply keeps_all; cbn; lia|done]).
  assert (Hsl : Forall sendable l). { rewrite Hp. apply Forall_forall. intros e He. apply elem_of_list_filter in He as [_ He]. rewrite Forall_forall in Hs. by apply Hs. }
  assert (Hsa : Forall sendable all). { eapply answers_sendable; [exact Ha|]. destruct (q_desc q); [|done]. by rewrite reverse_Permutation. }
  exists l, q, all. split; [done|]. split; [rewrite Hl; by apply keeps_sorted|]. split; [done|]. split; [done|]. split; [done|]. split; [done|].
  assert (Ep : port_call compile mine (CallRead now b) s = Some (s', if decide (takes b') then Some b' else None)).
  { rewrite port_call_eq, decide_True by done. by rewrite Ecall. }
  destruct Hout as [b0 s0 b1 batch E1 E2 E3|b0 s0 b1 code msg E1 E2 E3|b0 s0 code msg E1 E2|b0 code msg E1 E2|code msg E1]; rewrite Eb in E1; try done; injection E1 as <-; rewrite Ep in E2; try done.
  - case_decide as Ht; [|done]. injection E2 as <- <-. rewrite Eu in E3 by (unfold fits; unfold takes, bytes in Ht; lia). by injection E3 as <-.
  - case_decide as Ht; [|done]. injection E2 as <- <-. by rewrite Eu in E3 by (unfold fits; unfold takes, bytes in Ht; lia).
  - case_decide as Ht; [done|]. intros x Ex. rewrite Em in Ex. by injection Ex as <-.
Qed.
