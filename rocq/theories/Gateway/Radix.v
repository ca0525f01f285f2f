(** The gateway's numbers against Gateway/SpecRadix.v. *)
From Coq Require Import Ascii String.
From stdpp Require Import prelude strings gmap list.
From Verif.Base Require Import GoInt Envelope Str Url UrlProofs Dec.
From Verif.Routing Require Import Model.
From Verif.Gateway Require Import Model Spec SpecRadix Proofs Decode Route Exact.
Open Scope string_scope.
Open Scope list_scope.
Open Scope Z_scope.

Lemma digit_table_unhex c d : (c, d) ∈ digit_table <-> exists k, unhex c = Some k /\ Z.of_nat k = d.
Proof.
  split.
  - intros H. unfold digit_table in H. rewrite !elem_of_cons, elem_of_nil in H.
    destruct_or!; try done; injection H as -> ->; eexists; (split; [reflexivity|reflexivity]).
  - intros (k & Hk & <-). destruct c as [b0 b1 b2 b3 b4 b5 b6 b7].
    destruct b0, b1, b2, b3, b4, b5, b6, b7; try (exfalso; discriminate Hk);
      (injection Hk as <-; unfold digit_table; cbn; repeat first [apply elem_of_list_here|apply elem_of_list_further]).
Qed.
Lemma base_digit_iff b c d : base_digit b c = Some d <-> (c, d) ∈ digit_table /\ d < b.
Proof.
  rewrite digit_table_unhex. unfold base_digit. split.
  - destruct (unhex c) as [k|]; [|done]. cbn. destruct (Z.ltb_spec (Z.of_nat k) b); [|done]. intros [= <-]. eauto.
  - intros [(k & -> & <-) Hlt]. cbn. by destruct (Z.ltb_spec (Z.of_nat k) b); [|lia].
Qed.
#[local] Arguments String.append : simpl nomatch.
Lemma base_digits_app b s : forall acc t, base_digits b acc (append s t) = n ← base_digits b acc s; base_digits b n t.
Proof.
  induction s as [|c s IH]; intros acc t; [done|]. simpl. destruct (base_digit b c) as [d|]; [|done]. cbn. apply IH.
Qed.
Lemma radix_digits b s n : radix b s n -> s <> "" /\ base_digits b 0 s = Some n.
Proof.
  induction 1 as [c d Hc Hd|s n c d H [Hne IH] Hc Hd].
  - split; [done|]. simpl. by rewrite (proj2 (base_digit_iff _ _ _) (conj Hc Hd)).
  - split; [by destruct s|]. rewrite base_digits_app, IH. simpl. rewrite (proj2 (base_digit_iff _ _ _) (conj Hc Hd)). cbn. f_equal. lia.
Qed.
Lemma digits_radix_from b s : forall acc t n, radix b t acc -> base_digits b acc s = Some n -> radix b (append t s) n.
Proof.
  induction s as [|c s IH]; intros acc t n Ht H; simpl in H.
  - injection H as <-. replace (append t "") with t; [done|]. clear. induction t as [|c t IH]; simpl; [done|]. by rewrite <-IH.
  - destruct (base_digit b c) as [d|] eqn:Hc; [|done]. cbn in H. apply base_digit_iff in Hc as [Hc Hd].
    replace (append t (String c s)) with (append (append t (String c "")) s).
    + eapply IH; [|exact H]. rewrite Z.mul_comm. by constructor.
    + clear. induction t as [|e t IH]; simpl; [done|]. by rewrite IH.
Qed.
Lemma radix_iff b s n : radix b s n <-> s <> "" /\ base_digits b 0 s = Some n.
Proof.
  split; [apply radix_digits|]. intros [Hne H]. destruct s as [|c s]; [done|]. simpl in H.
  destruct (base_digit b c) as [d|] eqn:Hc; [|done]. cbn in H. apply base_digit_iff in Hc as [Hc Hd].
  apply (digits_radix_from b s d (String c "")); [by constructor|done].
Qed.
Lemma radix_nonneg b s n : 0 < b -> radix b s n -> 0 <= n.
Proof.
  intros Hb. assert (Hd : forall c d, (c, d) ∈ digit_table -> 0 <= d). { intros c d H. apply digit_table_unhex in H as (k & _ & <-). lia. }
  induction 1 as [c d Hc _|s n c d H IH Hc _]; [by eapply Hd|]. apply Hd in Hc. nia.
Qed.
Lemma octal_x s n : radix 8 (String "x" s) n \/ radix 8 (String "X" s) n -> False.
Proof. intros [H|H]; apply radix_digits in H as [_ H]; discriminate H. Qed.
Lemma parse_uint0_iff s n : parse_uint0 s = Some n <-> literal s n /\ n < 2^64.
Proof.
  unfold parse_uint0. match goal with |- (?e ≫= _) = Some n <-> _ => set (v := e) end.
  assert (Hv : forall m, v = Some m <-> literal s m).
  { intros m. subst v. unfold literal. destruct s as [|c s].
    { split; [done|]. intros [[H _]|[[? _]|[(? & ? & _)|[(? & ? & _)|(? & ? & _)]]]]; try done. by apply radix_digits in H as [? _]. }
    unfold ceqb. case_bool_decide as Hc; [subst c|].
    - destruct s as [|x s].
      { split.
        - intros [= <-]. by right; left.
        - intros [[_ H]|[[_ ->]|[(s & [= <-] & H)|[(s & E & _)|(s & E & _)]]]]; try done.
          + by destruct (H "").
          + by apply radix_digits in H as [? _]. }
      destruct (bool_decide (x = "x"%char) || bool_decide (x = "X"%char)) eqn:Ex.
      + assert (Hx : x = "x"%char \/ x = "X"%char).
        { apply orb_prop in Ex as [Ex|Ex]; apply bool_decide_eq_true in Ex; auto. }
        assert (Hm : match s with "" => None | _ => base_digits 16 0 s end = Some m <-> radix 16 s m).
        { rewrite radix_iff. destruct s; [naive_solver|]. naive_solver. }
        rewrite Hm. split.
        * intros H. right; right; right. destruct Hx as [->| ->]; [left|right]; by exists s.
        * intros [[_ H]|[[E _]|[(s' & [= <-] & H)|[(s' & E & H)|(s' & E & H)]]]].
          -- by destruct (H (String x s)).
          -- done.
          -- exfalso. destruct Hx as [->| ->]; eapply octal_x; eauto.
          -- cbn in E. by injection E as -> ->.
          -- cbn in E. by injection E as -> ->.
      + split.
        * intros H. right; right; left. exists (String x s). split; [done|]. by apply radix_iff.
        * apply orb_false_elim in Ex as [E1 E2]. apply bool_decide_eq_false in E1, E2.
          intros [[_ H]|[[E _]|[(s' & [= <-] & H)|[(s' & E & H)|(s' & E & H)]]]].
          -- by destruct (H (String x s)).
          -- done.
          -- by apply radix_digits in H as [_ H].
          -- cbn in E. by injection E as -> ->.
          -- cbn in E. by injection E as -> ->.
    - split.
      + intros H. left. split; [by apply radix_iff|]. by intros s' [= -> _].
      + intros [[H _]|[[E _]|[(s' & E & H)|[(s' & E & H)|(s' & E & H)]]]]; try (cbn in E; injection E; congruence).
        by apply radix_digits in H as [_ H]. }
  clearbody v. destruct v as [m|]; cbn.
  - destruct (Z.ltb_spec m (2^64)) as [Hlt|Hge].
    + split; [intros [= <-]; split; [by apply Hv|done]|]. intros [H _]. apply Hv in H. done.
    + split; [done|]. intros [H Hlt]. apply Hv in H. injection H as ->. lia.
  - split; [done|]. intros [H _]. by apply Hv in H.
Qed.
Lemma literal_nonneg x n : literal x n -> 0 <= n.
Proof.
  intros [[H _]|[[_ ->]|[(s & _ & H)|[(s & _ & H)|(s & _ & H)]]]]; [|done| | |]; (eapply radix_nonneg; [|exact H]; lia).
Qed.
Lemma literal_signless c s n : literal (String c s) n -> c <> "+"%char /\ c <> "-"%char.
Proof.
  intros H. assert (Hf : forall c' s' b, c' = "+"%char \/ c' = "-"%char -> ~ radix b (String c' s') n).
  { intros c' s' b Hc Hr. apply radix_digits in Hr as [_ Hr]. destruct Hc as [->| ->]; discriminate Hr. }
  destruct H as [[H _]|[[E _]|[(s' & E & H)|[(s' & E & H)|(s' & E & H)]]]].
  - split; intros ->; (eapply Hf; [|exact H]; auto).
  - by injection E as -> _.
  - by injection E as -> _.
  - cbn in E. by injection E as -> _.
  - cbn in E. by injection E as -> _.
Qed.
Lemma parse_int0_iff s n : parse_int0 s = Some n <-> signed_literal s n /\ - 2^63 <= n < 2^63.
Proof.
  unfold parse_int0, signed_literal. destruct s as [|c s].
  { split; [done|]. intros [[H|[(? & E & _)|(? & E & _)]] _]; try done.
    destruct H as [[H _]|[[? _]|[(? & ? & _)|[(? & ? & _)|(? & ? & _)]]]]; try done. by apply radix_digits in H as [? _]. }
  unfold ceqb. case_bool_decide as Hm; [subst c|case_bool_decide as Hp; [subst c|]].
  - split.
    + destruct (parse_uint0 s) as [m|] eqn:E; [|done]. cbn. apply parse_uint0_iff in E as [E _].
      pose proof (literal_nonneg _ _ E). destruct (Z.ltb_spec (2^63) m); [done|]. intros [= <-]. split; [|lia].
      right; right. exists s. split; [done|]. by rewrite Z.opp_involutive.
    + intros [[H|[(s' & E & H)|(s' & E & H)]] Hn]; [by apply literal_signless in H as [_ H]|done|]. cbn in E. injection E as <-.
      rewrite (proj2 (parse_uint0_iff s (- n))) by (split; [done|lia]). cbn. destruct (Z.ltb_spec (2^63) (- n)); [lia|]. f_equal. lia.
  - split.
    + destruct (parse_uint0 s) as [m|] eqn:E; [|done]. cbn. apply parse_uint0_iff in E as [E _].
      pose proof (literal_nonneg _ _ E). destruct (Z.leb_spec (2^63) m); [done|]. intros [= <-]. split; [|lia].
      right; left. by exists s.
    + intros [[H|[(s' & E & H)|(s' & E & H)]] Hn]; [by apply literal_signless in H as [H _]| |done]. cbn in E. injection E as <-.
      rewrite (proj2 (parse_uint0_iff s n)) by (split; [done|lia]). cbn. destruct (Z.leb_spec (2^63) n); [lia|]. done.
  - split.
    + destruct (parse_uint0 (String c s)) as [m|] eqn:E; [|done]. cbn. apply parse_uint0_iff in E as [E _].
      pose proof (literal_nonneg _ _ E). destruct (Z.leb_spec (2^63) m); [done|]. intros [= <-]. split; [|lia]. by left.
    + intros [[H|[(s' & E & H)|(s' & E & H)]] Hn]; [|cbn in E; injection E; congruence|cbn in E; injection E; congruence].
      rewrite (proj2 (parse_uint0_iff (String c s) n)) by (split; [done|lia]). cbn. destruct (Z.leb_spec (2^63) n); [lia|]. done.
Qed.
Lemma int_taken_iff v k n : on_first parse_int0 0 v k n <-> int_taken v k n.
Proof.
  unfold on_first, int_taken. destruct (v !! k) as [vs|]; [|done].
  split; intros (x & rest & -> & H); exists x, rest; (split; [done|]); by apply parse_int0_iff.
Qed.
Lemma decoded_takes v id r : decoded v id r <-> read_takes v id r.
Proof.
  unfold decoded, read_takes. rewrite !int_taken_iff.
  assert (H5 : on_all v "envelope_types" (rr_types r) <-> types_given v "envelope_types" (rr_types r)).
  { unfold on_all, types_given. destruct (v !! _) as [vs|]; [|done]. rewrite mapM_Some.
    split; (intros H; eapply Forall2_impl; [exact H|]; intros; by apply parse_type_iff). }
  assert (H6 : on_first parse_bool false v "descending" (rr_desc r) <-> bool_given v "descending" (rr_desc r)).
  { unfold on_first, bool_given. destruct (v !! _) as [vs|]; [|done].
    split; intros (x & rest & -> & H); exists x, rest; (split; [done|]); by apply parse_bool_iff. }
  assert (H7 : on_first Some "" v "name_filter" (rr_name r) <-> text_given v "name_filter" (rr_name r)).
  { unfold on_first, text_given. destruct (v !! _) as [vs|]; [|done].
    split; [intros (x & rest & -> & [= ->]); by eexists|intros [rest ->]; by do 2 eexists]. }
  rewrite H5, H6, H7. done.
Qed.
Lemma read_taken G id q r : carried id -> (forall k, is_Some (parse_query q !! k) -> k ∈ documented) ->
  serves G (append "/api/v1/read/" id) q (AskRead r) <-> read_takes (parse_query q) id r.
Proof.
  intros Hc Hd. rewrite <-decoded_takes. split.
  - intros (kvs & Hp & H). rewrite serve_carried in H by done. unfold or_invalid in H.
    destruct (request_read _ _ _) as [r'|] eqn:E; [|done]. injection H as ->. by eapply request_read_decoded.
  - intros D. exists (map_to_list (parse_query q)). split; [done|]. rewrite serve_carried by done.
    erewrite request_read_some; [done|done|done|done].
Qed.
