(** Proofs about the JSON encoding of query results. *)
From Coq Require Import String.
From stdpp Require Import prelude gmap strings.
From Verif.Marshaler Require Import Model Spec.
Open Scope string_scope.
Open Scope list_scope.

Ltac fields := repeat first [rewrite decide_True by done | rewrite decide_False by done].

Section Proofs.
Context (L : lib) (Hshort : exact_short L) (H3 : stable3 L).

Lemma assemble_point_good p j : assemble_point L p = Some j -> good_point L p.
Proof.
  unfold assemble_point. destruct (parse_float L (get_time L p)) as [t|] eqn:Hp; [|done]. cbn.
  destruct (finite L t) eqn:Hf; [|done]. destruct p as [[time v]|]; [|done].
  intros _. by exists time, v, t.
Qed.
Lemma good_point_assemble p : good_point L p -> is_Some (assemble_point L p).
Proof.
  intros (time & v & t & -> & Hp & Hf). unfold assemble_point. cbn. rewrite Hp. cbn. rewrite Hf. by eexists.
Qed.

Lemma point_round p j : assemble_point L p = Some j ->
  exists p', dec_point L (Some j) = Some p' /\ same_point L p (Some p').
Proof.
  unfold assemble_point. destruct (parse_float L (get_time L p)) as [t|] eqn:Hp; [|done]. cbn.
  destruct (finite L t) eqn:Hf; [|done]. destruct p as [[time v]|]; [|done]. cbn in *.
  intros [= <-]. destruct (H3 t Hf) as (t' & Ht' & E).
  exists (Point (fmt3 L t) v). cbn. rewrite Ht'. cbn. rewrite Hshort. cbn. rewrite E.
  split; [done|]. by constructor.
Qed.

Lemma dec_entries_app l1 l2 m : dec_entries (l1 ++ l2) m = (m1 ← dec_entries l1 m; dec_entries l2 m1).
Proof.
  revert m. induction l1 as [|[k j] l1 IH]; intros m; [done|]. cbn.
  destruct (dec_string j); [apply IH|done].
Qed.

Lemma dec_entries_map (l : list (string * string)) (m : gmap string string) :
  (forall k v, (k, v) ∈ l -> clean L k = k /\ clean L v = v) ->
  dec_entries ((fun kv : string * string => (clean L kv.1, JStr (clean L kv.2))) <$> l) m
  = Some (list_to_map (reverse l) ∪ m).
Proof.
  revert m. induction l as [|[k v] l IH]; intros m Hc; cbn [fmap list_fmap dec_entries dec_string mbind option_bind fst snd].
  - rewrite reverse_nil. cbn [list_to_map foldr]. by rewrite (left_id_L ∅ (∪)).
  - destruct (Hc k v) as [-> ->]; [left|].
    rewrite IH by (intros k' v' H; apply Hc; by right).
    rewrite reverse_cons, list_to_map_app. cbn [list_to_map foldr fst snd uncurry].
    f_equal. rewrite <- (assoc_L (∪)). f_equal.
    rewrite insert_union_singleton_l. f_equal.
Qed.

Lemma dec_enc_metric m : clean_map L m ->
  dec_metric (Some (enc_metric L (labels m))) = Some (Some (labels m)).
Proof.
  intros Hc. unfold enc_metric. cbn. rewrite dec_entries_map.
  - cbn. rewrite (right_id_L ∅ (∪)).
    f_equal. f_equal.
    rewrite <- (list_to_map_to_list (labels m)) at 2.
    apply list_to_map_proper.
    + rewrite <- fmap_reverse || idtac. rewrite reverse_Permutation. apply NoDup_fst_map_to_list.
    + apply reverse_Permutation.
  - intros k v H. apply elem_of_map_to_list in H. by apply Hc.
Qed.

Lemma enc_series_good s j : enc_series L s = Some j ->
  forall p, p ∈ from_option r_points [] s -> good_point L p.
Proof.
  unfold enc_series. destruct (mapM _ _) as [ps|] eqn:Hm; [|done]. intros _ p Hp.
  apply mapM_Some in Hm. apply elem_of_list_lookup in Hp as [i Hi].
  destruct (Forall2_lookup_l _ _ _ _ _ Hm Hi) as (j' & _ & Hj). by eapply assemble_point_good.
Qed.

Lemma marshal_good r : is_Some (marshal L (Some r)) <-> good_result L r.
Proof.
  split.
  - intros [j Hj]. destruct r as [p|v|m]; cbn in *.
    + unfold scalar_data in Hj. destruct (assemble_point L p) eqn:Hp; [|done]. by eapply assemble_point_good.
    + unfold vector_data in Hj. destruct (mapM _ _) as [js|] eqn:Hm; [|done].
      apply mapM_Some in Hm. intros s Hs. apply elem_of_list_lookup in Hs as [i Hi].
      destruct (Forall2_lookup_l _ _ _ _ _ Hm Hi) as (j' & _ & Hj').
      unfold enc_sample in Hj'. destruct (assemble_point L _) eqn:Hp; [|done]. by eapply assemble_point_good.
    + unfold matrix_data in Hj. destruct (mapM _ _) as [js|] eqn:Hm; [|done].
      apply mapM_Some in Hm. intros s p Hs Hp. apply elem_of_list_lookup in Hs as [i Hi].
      destruct (Forall2_lookup_l _ _ _ _ _ Hm Hi) as (j' & _ & Hj').
      by eapply enc_series_good.
  - intros Hg. destruct r as [p|v|m]; cbn [marshal good_result] in *.
    + apply good_point_assemble in Hg as [j Hj]. unfold scalar_data. rewrite Hj. by eexists.
    + assert (Hm : is_Some (mapM (enc_sample L) (default [] v))).
      { apply mapM_is_Some, Forall_forall. intros s Hs.
        destruct (good_point_assemble _ (Hg s Hs)) as [j Hj]. unfold compose, enc_sample. rewrite Hj. by eexists. }
      destruct Hm as [js Hjs]. unfold vector_data. rewrite Hjs. by eexists.
    + assert (Hm : is_Some (mapM (enc_series L) (default [] m))).
      { apply mapM_is_Some, Forall_forall. intros s Hs.
        assert (Hp : is_Some (mapM (assemble_point L) (from_option r_points [] s))).
        { apply mapM_is_Some, Forall_forall. intros p Hp. unfold compose. apply good_point_assemble. by apply (Hg s). }
        destruct Hp as [ps Hps]. unfold compose, enc_series. rewrite Hps. by eexists. }
      destruct Hm as [js Hjs]. unfold matrix_data. rewrite Hjs. by eexists.
Qed.

(** Decoding a list of encoded elements. *)
Lemma mapM_round {A B} (enc : A -> option json) (dec : json -> option B) (R : A -> B -> Prop) l js :
  (forall x j, x ∈ l -> enc x = Some j -> exists y, dec j = Some y /\ R x y) ->
  mapM enc l = Some js -> exists ys, mapM dec js = Some ys /\ Forall2 R l ys.
Proof.
  intros Hx Hm. apply mapM_Some in Hm. induction Hm as [|x j l js Hj Hm IH].
  - exists []. split; [done|constructor].
  - destruct (Hx x j) as (y & Hy & HR); [left|done|].
    destruct IH as (ys & Hys & HF); [intros x' j' Hx'; apply Hx; by right|].
    exists (y :: ys). cbn. rewrite Hy. cbn. rewrite Hys. split; [done|by constructor].
Qed.

Lemma sample_round s j : clean_map L (s ≫= s_metric) -> enc_sample L s = Some j ->
  exists s', dec_sample L j = Some s' /\ same_sample L s s'.
Proof.
  unfold enc_sample. intros Hc. destruct (assemble_point L (s ≫= s_point)) as [p|] eqn:Hp; [|done].
  cbn [mbind option_bind]. intros [= <-].
  destruct (point_round _ _ Hp) as (p' & Hd & Hs).
  eexists. cbn [dec_sample field]. fields. 
  change (default ∅ ?x) with (labels x). rewrite (dec_enc_metric _ Hc). cbn [mbind option_bind]. rewrite Hd. cbn [mbind option_bind].
  split; [reflexivity|].
  destruct s as [[m q]|]; [|by apply assemble_point_good in Hp as (? & ? & ? & ? & _)].
  cbn in *. constructor; [done|done].
Qed.

Lemma series_round s j : clean_map L (s ≫= r_metric) -> enc_series L s = Some j ->
  exists s', dec_series L j = Some s' /\ same_series L s s'.
Proof.
  unfold enc_series. intros Hc. destruct (mapM _ _) as [ps|] eqn:Hp; [|done].
  cbn [mbind option_bind]. intros [= <-].
  destruct (mapM_round (assemble_point L) (fun j => p ← dec_point L (Some j); Some (Some p))
     (same_point L) _ _ ltac:(intros p j _ Hj; destruct (point_round _ _ Hj) as (p' & Hd & Hs);
       exists (Some p'); rewrite Hd; done) Hp) as (ys & Hys & HF).
  exists (Some (Series (Some (labels (s ≫= r_metric))) ys)). cbn [dec_series field].
  fields. 
  change (default ∅ ?x) with (labels x). rewrite (dec_enc_metric _ Hc). cbn [mbind option_bind].
  assert (Hl : dec_list (fun j => p ← dec_point L (Some j); Some (Some p))
      (Some (match ps with [] => JNull | _ => JArr ps end)) = Some ys).
  { destruct ps as [|p0 ps]; [|exact Hys]. injection Hys as <-. reflexivity. }
  split.
  - destruct ps as [|p0 ps]; [injection Hys as <-; reflexivity|]. cbn [dec_list] in *. rewrite Hl. done.
  - destruct s as [[m q]|]; cbn in *; [by constructor|].
    inversion HF; subst. by apply same_series_nil.
Qed.

Lemma marshal_round r j : clean_result L r -> marshal L (Some r) = Some j ->
  exists r', unmarshal L false j = Some (Some r') /\ same_result L r r' /\
    (unmarshal L true j = match r with RMatrix _ => Some (Some r') | _ => None end).
Proof.
  intros Hc Hm. destruct r as [p|v|m]; cbn [marshal] in Hm.
  - unfold scalar_data in Hm. destruct (assemble_point L p) as [jp|] eqn:Hp; [|done].
    cbn in Hm. injection Hm as <-. destruct (point_round _ _ Hp) as (p' & Hd & Hs).
    exists (RScalar (Some p')).
    cbn [unmarshal field]. fields. cbn [mbind option_bind dec_data field].
    fields. 
    rewrite Hd. split; [done|]. split; [by constructor|done].
  - unfold vector_data in Hm. destruct (mapM _ _) as [js|] eqn:Hp; [|done].
    cbn in Hm. injection Hm as <-.
    destruct (mapM_round (enc_sample L) (dec_sample L) (same_sample L) _ _
      ltac:(intros s j Hs Hj; apply sample_round; [by apply Hc|done]) Hp) as (ys & Hys & HF).
    exists (RVector (Some ys)).
    cbn [unmarshal field]. fields. cbn [mbind option_bind dec_data field].
    fields. 
    cbn [dec_list]. rewrite Hys. split; [done|]. split; [by constructor|done].
  - unfold matrix_data in Hm. destruct (mapM _ _) as [js|] eqn:Hp; [|done].
    cbn in Hm. injection Hm as <-.
    destruct (mapM_round (enc_series L) (dec_series L) (same_series L) _ _
      ltac:(intros s j Hs Hj; apply series_round; [by apply Hc|done]) Hp) as (ys & Hys & HF).
    exists (RMatrix (Some ys)).
    cbn [unmarshal field]. fields. cbn [mbind option_bind dec_data field].
    fields. 
    cbn [dec_list]. rewrite Hys. split; [done|]. split; [by constructor|done].
Qed.

(** A result whose times already have three decimals comes back unchanged. *)
Definition millis (p : option (point L)) : Prop :=
  exists t v, finite L t = true /\ p = Some (Point (fmt3 L t) v).

Lemma same_point_millis p p' : millis p -> same_point L p p' -> p' = p.
Proof.
  intros (t & v & Hf & ->) Hs. inversion Hs as [time t' v' Hp Hf' E1 E2]; subst.
  destruct (H3 t Hf) as (t2 & Ht2 & E). rewrite Ht2 in Hp. injection Hp as <-. by rewrite E.
Qed.

End Proofs.

Lemma unset_lost (L : lib) : exists j, marshal L None = Some j /\
  unmarshal L false j = None /\ unmarshal L true j = None.
Proof. eexists. split; [reflexivity|]. by vm_compute. Qed.
