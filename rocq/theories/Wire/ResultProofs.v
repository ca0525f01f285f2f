(** Answers to queries are read as they were written. *)
From Coq Require Import Ascii String.
From stdpp Require Import prelude strings list gmap.
From Verif.Json Require Import Text Pb Spec SpecPb.
From Verif.Marshaler Require Import Model Spec.
From Verif.Wire Require Import Format Model Spec FormatProofs Proofs Received Result SpecResult.
Open Scope string_scope.
Open Scope list_scope.
Open Scope Z_scope.

Section Results.
Context (L : lib) (bits : flt L -> Z) (of_bits : Z -> flt L) (HB : float_bits L bits of_bits).

Lemma read_point p : valid (p_time p) = true -> read_on (point_step L of_bits) (no_point L of_bits) (enc_point L bits p) = Some p.
Proof.
  destruct p as [t v]. cbn [p_time]. intros Hv. destruct (HB v) as [H1 H2]. unfold enc_point, no_point. cbn [p_time p_value].
  rewrite (read_on_then _ _ (Point t (of_bits 0))).
  - apply read_put_double; [cbn; by rewrite H1|]. intros E. by rewrite <-H1, E.
  - apply read_put_text; [|by intros ->]. cbn -[valid]. by rewrite Hv.
Qed.
Lemma num_point p : Forall num_ok (enc_point L bits p).
Proof. unfold enc_point. nums. apply num_double; [lia|]. apply HB. Qed.

(** maps that may be nil *)
Lemma read_nil_entries {A} (step : reader A) (put : option (gmap string string) -> A) k l m0 :
  NoDup l.*1 ->
  (forall m key v, (key, v) ∈ l -> step (put m) (k, Bytes (write_fields [(1, Bytes key); (2, Bytes v)])) = Some (put (Some (<[key := v]> (default ∅ m))))) ->
  exists m', read_on step (put m0) (l ≫= fun kv => put_entry k kv.1 (Bytes kv.2)) = Some (put m') /\ labels m' = list_to_map l ∪ labels m0.
Proof.
  intros Hnd Hst. destruct l as [|[key v] l].
  { exists m0. split; [done|]. unfold labels. cbn. by rewrite (left_id_L ∅ (∪)). }
  revert m0. cut (forall l m0, NoDup l.*1 ->
    (forall m key v, (key, v) ∈ l -> step (put m) (k, Bytes (write_fields [(1, Bytes key); (2, Bytes v)])) = Some (put (Some (<[key := v]> (default ∅ m))))) ->
    read_on step (put (Some m0)) (l ≫= fun kv => put_entry k kv.1 (Bytes kv.2)) = Some (put (Some (list_to_map l ∪ m0)))).
  - intros Hcut m0. cbn in Hnd. apply NoDup_cons in Hnd as [Hn Hnd]. eexists. split.
    + cbn [mbind list_bind put_entry put_msg app read_on fst snd]. rewrite Hst by left. cbn [mbind option_bind].
      rewrite Hcut; [reflexivity|done|]. intros. apply Hst. by right.
    + unfold labels. change (default ∅ (Some ?x)) with x. apply map_eq. intros i. destruct (decide (i = key)) as [->|Hi].
      * rewrite lookup_union_r; [|by apply not_elem_of_list_to_map_1]. rewrite lookup_insert. symmetry. apply lookup_union_Some_l. cbn. by rewrite lookup_insert.
      * destruct ((list_to_map l : gmap string string) !! i) as [x|] eqn:Hx.
        -- erewrite lookup_union_Some_l by done. symmetry. apply lookup_union_Some_l. cbn. by rewrite lookup_insert_ne.
        -- rewrite lookup_union_r by done. rewrite lookup_insert_ne by done. symmetry. rewrite lookup_union_r; [done|]. cbn. by rewrite lookup_insert_ne.
  - intros l' m0 Hnd' Hst'. apply (read_entries step (fun m => put (Some m)) k Bytes); [done|]. intros m key' v' Hin. rewrite Hst' by done. done.
Qed.
Lemma read_labels {A} (step : reader A) (put : option (gmap string string) -> A) m :
  (forall m0 w, step (put m0) (1, w) = get_entry get_text_value "" w (default ∅ m0) (put m0) (fun m => put (Some m))) ->
  forallb valid (map_texts (default ∅ m)) = true -> small (put_map 1 Bytes (default ∅ m)) ->
  exists m', read_on step (put None) (put_map 1 Bytes (default ∅ m)) = Some (put m') /\ labels m = labels m'.
Proof.
  intros Hst Ht Hs. destruct (read_nil_entries step put 1 (map_to_list (default ∅ m)) None) as (m' & H1 & H2).
  - apply NoDup_fst_map_to_list.
  - intros m0 key v Hin. apply elem_of_map_to_list in Hin. rewrite Hst. pose proof (small_entry _ _ _ _ _ Hs Hin) as Hse.
    rewrite (entry_read _ _ _ _ v); [done| | | |exact Hse].
    + apply (valid_all _ _ Ht). eapply text_entry; [done|by left].
    + unfold get_text_value. rewrite text_step; [done|]. apply (valid_all _ _ Ht). eapply text_entry; [done|by right].
    + apply wire_ok_bytes. eapply small_fits; [exact Hse|]. right. left.
  - exists m'. split; [exact H1|]. rewrite H2. unfold labels. cbn. by rewrite list_to_map_to_list, (right_id_L ∅ (∪)).
Qed.

Lemma all_app (a b : list string) : forallb valid (a ++ b) = true -> forallb valid a = true /\ forallb valid b = true.
Proof. rewrite forallb_app. apply andb_prop. Qed.

Lemma read_sample m p : forallb valid (sample_texts L (Some (Sample m (Some p)))) = true -> small (enc_sample L bits (Sample m (Some p))) ->
  exists m', read_on (sample_step L of_bits) (Sample None None) (enc_sample L bits (Sample m (Some p))) = Some (Sample m' (Some p)) /\ labels m = labels m'.
Proof.
  intros Ht Hs. unfold sample_texts in Ht. cbn in Ht. apply all_app in Ht as [Ht1 Ht2]. unfold enc_sample in *. cbn [s_metric s_point] in *.
  apply small_app in Hs as [Hs1 Hs2].
  destruct (read_labels (sample_step L of_bits) (fun m => Sample m None) m) as (m' & Hm1 & Hm2); [done|done|done|].
  exists m'. split; [|done]. rewrite (read_on_then _ _ _ _ _ Hm1). unfold put_msg at 1. cbn [read_on sample_step]. cbn [Z.eqb Pos.eqb].
  rewrite (msg_step _ _ p); [done|apply num_point|by eapply small_msg|]. cbn [s_point default from_option]. apply read_point. cbn in Ht2. by apply andb_prop in Ht2 as [? _].
Qed.
Lemma num_sample s : Forall num_ok (enc_sample L bits s).
Proof. unfold enc_sample. nums. destruct (s_point s); nums. Qed.

(** lists whose elements are all there *)
Lemma put_list_whole {A} k (f : A -> option (list field)) l fs : put_list k f l = Some fs ->
  exists fss, Forall2 (fun x gs => exists y, x = Some y /\ f y = Some gs) l fss /\ fs = fss ≫= put_msg k.
Proof.
  unfold put_list. destruct (mapM _ l) as [fss|] eqn:E; [|done]. cbn. intros [= <-]. exists fss. split; [|done].
  apply mapM_Some_1 in E. eapply Forall2_impl; [exact E|]. intros [x|] gs H; [|done]. by exists x.
Qed.
Lemma num_put_list {A} k (f : A -> option (list field)) l fs : 1 <= k < 2^29 -> put_list k f l = Some fs -> Forall num_ok fs.
Proof. intros Hk H. apply put_list_whole in H as (fss & _ & ->). apply num_bind. intros. by apply num_msg. Qed.
(** reading a list of messages, each up to [R] *)
Lemma read_put_list {A B} (R : option A -> B -> Prop) (step : reader (list B)) k f l fs acc :
  put_list k f l = Some fs -> small fs ->
  (forall x y gs acc, x = Some y -> x ∈ l -> f y = Some gs -> small gs ->
     exists z, step acc (k, Bytes (write_fields gs)) = Some (acc ++ [z]) /\ R x z) ->
  exists zs, read_on step acc fs = Some (acc ++ zs) /\ Forall2 R l zs.
Proof.
  intros H Hs Hst. apply put_list_whole in H as (fss & HF & ->). revert acc. induction HF as [|x gs l fss (y & -> & Hy) HF IH]; intros acc.
  { exists []. split; [cbn; by rewrite (right_id_L [] (++))|constructor]. }
  cbn [mbind list_bind] in Hs. apply small_app in Hs as [Hs1 Hs2].
  destruct (Hst (Some y) y gs acc) as (z & Hz & HR); [done|left|done|by eapply small_msg|].
  destruct (IH Hs2) with (acc := acc ++ [z]) as (zs & H1 & H2); [intros; eapply Hst; [done|by right|done|done]|].
  exists (z :: zs). split; [|by constructor]. cbn [mbind list_bind put_msg app read_on]. rewrite Hz. cbn [mbind option_bind].
  change (list_bind (list field) field (put_msg k) fss) with (fss ≫= put_msg k). rewrite H1. by rewrite <-(assoc_L (++)).
Qed.

Lemma read_series m ps fs : forallb valid (series_texts L (Some (Series m ps))) = true -> enc_series L bits (Series m ps) = Some fs -> small fs ->
  exists m', read_on (series_step L of_bits) (Series None []) fs = Some (Series m' ps) /\ labels m = labels m'.
Proof.
  intros Ht He Hs. unfold series_texts in Ht. cbn in Ht. apply all_app in Ht as [Ht1 Ht2].
  unfold enc_series in He. cbn [r_points r_metric] in He. destruct (put_list 2 _ ps) as [gs|] eqn:E; [|done]. cbn in He. injection He as <-.
  apply small_app in Hs as [Hs1 Hs2].
  destruct (read_labels (series_step L of_bits) (fun m => Series m []) m) as (m' & Hm1 & Hm2); [done|done|done|].
  exists m'. split; [|done]. rewrite (read_on_then _ _ _ _ _ Hm1). clear Hm1 Hm2 Hs1 Ht1.
  cut (forall acc, read_on (series_step L of_bits) (Series m' acc) gs = Some (Series m' (acc ++ ps))); [intros H; by rewrite H|].
  apply put_list_whole in E as (fss & HF & ->). induction HF as [|x xs l fss (y & -> & Hy) HF IH]; intros acc.
  { cbn. by rewrite (right_id_L [] (++)). }
  injection Hy as <-. cbn [mbind list_bind] in Hs2. apply small_app in Hs2 as [Hs1 Hs2]. cbn in Ht2. apply andb_prop in Ht2 as [Hv Ht2].
  cbn [mbind list_bind put_msg app read_on series_step]. cbn [Z.eqb Pos.eqb].
  rewrite (msg_step _ _ y); [|apply num_point|by eapply small_msg|by apply read_point]. cbn [mbind option_bind r_metric r_points].
  change (list_bind (list field) field (put_msg 2) fss) with (fss ≫= put_msg 2). rewrite IH by done. by rewrite <-(assoc_L (++)).
Qed.
Lemma num_series s fs : enc_series L bits s = Some fs -> Forall num_ok fs.
Proof.
  unfold enc_series. destruct (put_list 2 _ _) as [gs|] eqn:E; [|done]. cbn. intros [= <-]. nums. by eapply num_put_list in E.
Qed.

Lemma text_part {X} (f : X -> list string) l x : forallb valid (l ≫= f) = true -> x ∈ l -> forallb valid (f x) = true.
Proof.
  intros H Hx. rewrite forallb_forall in H |- *. intros t Hin. apply H. apply elem_of_list_In, elem_of_list_bind. exists x.
  split; [by apply elem_of_list_In|done].
Qed.
Lemma read_matrix l fs : forallb valid (l ≫= series_texts L) = true -> enc_matrix L bits l = Some fs -> small fs ->
  exists l', read_on (matrix_step L of_bits) [] fs = Some l' /\ Forall2 (equal_series L) l l'.
Proof.
  intros Ht He Hs. destruct (read_put_list (equal_series L) (matrix_step L of_bits) 1 _ l fs [] He Hs) as (zs & H1 & H2).
  - intros x [m ps] gs acc -> Hin Hy Hgs. destruct (read_series m ps gs) as (m' & Hr & Hl); [by apply (text_part _ _ _ Ht)|done|done|].
    exists (Some (Series m' ps)). split; [|by constructor]. unfold matrix_step. cbn [Z.eqb Pos.eqb].
    rewrite (msg_step _ _ (Series m' ps)); [done|by eapply num_series|done|done].
  - exists zs. by split.
Qed.
Lemma read_vector l fs : forallb valid (l ≫= sample_texts L) = true -> enc_vector L bits l = Some fs -> small fs ->
  (forall s, s ∈ l -> exists m p, s = Some (Sample m (Some p))) ->
  exists l', read_on (vector_step L of_bits) [] fs = Some l' /\ Forall2 (equal_sample L) l l'.
Proof.
  intros Ht He Hs Hw. destruct (read_put_list (equal_sample L) (vector_step L of_bits) 1 _ l fs [] He Hs) as (zs & H1 & H2).
  - intros x y gs acc -> Hin [= <-] Hgs. destruct (Hw _ Hin) as (m & p & [= ->]).
    destruct (read_sample m p) as (m' & Hr & Hl); [by apply (text_part _ _ _ Ht)|done|].
    exists (Some (Sample m' (Some p))). split; [|by constructor]. unfold vector_step. cbn [Z.eqb Pos.eqb].
    rewrite (msg_step _ _ (Sample m' (Some p))); [done|apply num_sample|done|done].
  - exists zs. by split.
Qed.

Lemma result_round r s : whole L r -> marshal_result L bits (Some r) = Some s -> fits s ->
  exists r', unmarshal_result L of_bits s = Some (Some r') /\ equal_result L r r'.
Proof.
  intros Hw Hm Hs. unfold marshal_result in Hm. destruct (enc_result L bits (Some r)) as [fs|] eqn:E; [|done]. cbn [mbind option_bind] in Hm.
  apply marshal_inv in Hm as [Ht ->]. unfold unmarshal_result. destruct r as [p|v|m]; cbn [enc_result result_texts] in *.
  - destruct Hw as [x ->]. cbn in E. injection E as <-. rewrite merge_write; [|nums|done]. unfold put_msg. cbn [read_on result_step]. cbn [Z.eqb Pos.eqb].
    rewrite (msg_step _ _ x); [|apply num_point|by eapply small_msg|]; [cbn; eexists; split; [done|constructor]|].
    apply read_point. cbn in Ht. by apply andb_prop in Ht as [? _].
  - destruct Hw as (l & -> & Hw). cbn [put_member] in E. destruct (enc_vector L bits l) as [gs|] eqn:Eg; [|done]. cbn in E. injection E as <-.
    destruct (read_vector l gs) as (l' & H1 & H2); [done|done|by eapply small_msg|done|].
    rewrite merge_write; [|nums|done]. unfold put_msg. cbn [read_on result_step]. cbn [Z.eqb Pos.eqb].
    rewrite (msg_step _ _ l'); [|by eapply num_put_list in Eg|by eapply small_msg|done]. cbn. eexists. split; [done|by constructor].
  - destruct Hw as (l & -> & Hw). cbn [put_member] in E. destruct (enc_matrix L bits l) as [gs|] eqn:Eg; [|done]. cbn in E. injection E as <-.
    destruct (read_matrix l gs) as (l' & H1 & H2); [done|done|by eapply small_msg|].
    rewrite merge_write; [|nums|done]. unfold put_msg. cbn [read_on result_step]. cbn [Z.eqb Pos.eqb].
    rewrite (msg_step _ _ l'); [|by eapply num_put_list in Eg|by eapply small_msg|done]. cbn. eexists. split; [done|by constructor].
Qed.
Lemma range_result_round l s : marshal_range_result L bits (Some l) = Some s -> fits s ->
  exists l', unmarshal_range_result L of_bits s = Some (Some (RMatrix (Some l'))) /\ Forall2 (equal_series L) l l'.
Proof.
  intros Hm Hs. unfold marshal_range_result in Hm. destruct (enc_range_result L bits (Some l)) as [fs|] eqn:E; [|done]. cbn [mbind option_bind] in Hm.
  apply marshal_inv in Hm as [Ht ->]. unfold unmarshal_range_result. cbn [result_texts default from_option] in Ht.
  cbn [enc_range_result put_member] in E. destruct (enc_matrix L bits l) as [gs|] eqn:Eg; [|done]. cbn in E. injection E as <-.
  destruct (read_matrix l gs) as (l' & H1 & H2); [done|done|by eapply small_msg|].
  rewrite merge_write; [|nums|done]. unfold put_msg. cbn [read_on range_result_step]. cbn [Z.eqb Pos.eqb].
  rewrite (msg_step _ _ l'); [|by eapply num_put_list in Eg|by eapply small_msg|done]. cbn. eexists. by split.
Qed.

(** ** The page of the gateway *)
Lemma sample_page s s' : equal_sample L s s' -> Marshaler.Model.enc_sample L s = Marshaler.Model.enc_sample L s'.
Proof. intros [m m' p H]. unfold Marshaler.Model.enc_sample. cbn. unfold labels in H. by rewrite H. Qed.
Lemma series_page s s' : equal_series L s s' -> Marshaler.Model.enc_series L s = Marshaler.Model.enc_series L s'.
Proof. intros [m m' ps H]. unfold Marshaler.Model.enc_series. cbn. unfold labels in H. by rewrite H. Qed.
Lemma mapM_same {A B} (R : A -> A -> Prop) (f : A -> option B) l l' : (forall x y, R x y -> f x = f y) -> Forall2 R l l' -> mapM f l = mapM f l'.
Proof. intros H HF. induction HF as [|x y l l' Hxy _ IH]; [done|]. cbn. by rewrite (H _ _ Hxy), IH. Qed.
Lemma equal_page r r' : equal_result L r r' -> Marshaler.Model.marshal L (Some r) = Marshaler.Model.marshal L (Some r').
Proof.
  intros [p|v v' H|m m' H]; cbn.
  - done.
  - unfold vector_data. cbn. by rewrite (mapM_same _ _ _ _ sample_page H).
  - unfold matrix_data. cbn. by rewrite (mapM_same _ _ _ _ series_page H).
Qed.

(** ** What is refused *)
Lemma put_list_some {A} k (f : A -> option (list field)) l : (forall x, x ∈ l -> exists y, x = Some y /\ is_Some (f y)) -> is_Some (put_list k f l).
Proof.
  intros H. unfold put_list. destruct (mapM _ l) as [fss|] eqn:E; [by eexists|]. exfalso.
  revert E. apply not_eq_None_Some. apply mapM_is_Some_2. apply Forall_forall. intros x Hx. destruct (H x Hx) as (y & -> & Hy). done.
Qed.
Lemma label_texts m t : t ∈ map_texts (default ∅ m) <-> label_text m t.
Proof.
  unfold map_texts. rewrite elem_of_list_bind. split.
  - intros ([k v] & Ht & Hin). apply elem_of_map_to_list in Hin. econstructor; [exact Hin|]. cbn in Ht.
    apply elem_of_cons in Ht as [->|Ht]; [by left|]. apply elem_of_list_singleton in Ht as ->. by right.
  - intros [k v x H Hx]. exists (k, v). split; [|by apply elem_of_map_to_list]. destruct Hx as [->| ->]; [left|right; left].
Qed.
Lemma texts_result r t : whole L r -> t ∈ result_texts L (Some r) <-> result_text L r t.
Proof.
  intros Hw. destruct r as [p|v|m]; cbn [result_texts].
  - destruct Hw as [[t' v] ->]. cbn. rewrite elem_of_list_singleton. split; [intros ->; constructor|by inversion 1].
  - destruct Hw as (l & -> & Hw). cbn [default from_option]. rewrite elem_of_list_bind. split.
    + intros (s & Ht & Hin). destruct (Hw _ Hin) as (m & [t' v] & ->). unfold sample_texts in Ht. cbn in Ht.
      apply elem_of_app in Ht as [Ht|Ht].
      * eapply in_sample_label; [exact Hin|]. by apply label_texts.
      * apply elem_of_list_singleton in Ht as ->. by eapply in_sample_time.
    + intros H. inversion H as [|l0 m t0 v Hin|l0 m p t0 Hin Hl| |]; subst.
      * eexists. split; [|exact Hin]. unfold sample_texts. cbn. apply elem_of_app. right. left.
      * eexists. split; [|exact Hin]. unfold sample_texts. cbn. apply elem_of_app. left. by apply label_texts.
  - destruct Hw as (l & -> & Hw). cbn [default from_option]. rewrite elem_of_list_bind. split.
    + intros (s & Ht & Hin). destruct (Hw _ Hin) as (m & ps & -> & Hps). unfold series_texts in Ht. cbn in Ht.
      apply elem_of_app in Ht as [Ht|Ht].
      * eapply in_series_label; [exact Hin|]. by apply label_texts.
      * apply elem_of_list_bind in Ht as (p & Ht & Hp). destruct (Hps _ Hp) as [[t' v] ->]. cbn in Ht.
        apply elem_of_list_singleton in Ht as ->. by eapply in_series_time.
    + intros H. inversion H as [| | |l0 m ps t0 v Hin Hp|l0 m ps t0 Hin Hl]; subst.
      * eexists. split; [|exact Hin]. unfold series_texts. cbn. apply elem_of_app. right. apply elem_of_list_bind. eexists. split; [|exact Hp]. left.
      * eexists. split; [|exact Hin]. unfold series_texts. cbn. apply elem_of_app. left. by apply label_texts.
Qed.
Lemma matrix_some l : (forall s, s ∈ l -> exists m ps, s = Some (Series m ps) /\ forall p, p ∈ ps -> exists x, p = Some x) -> is_Some (enc_matrix L bits l).
Proof.
  intros Hw. apply put_list_some. intros x Hx. destruct (Hw _ Hx) as (m & ps & -> & Hps). eexists. split; [done|].
  unfold enc_series. cbn [r_points r_metric]. destruct (put_list_some 2 (fun p => Some (enc_point L bits p)) ps) as [fs ->]; [|cbn; by eexists].
  intros p Hp. destruct (Hps _ Hp) as [y ->]. by exists y.
Qed.
Lemma enc_whole r : whole L r -> is_Some (enc_result L bits (Some r)).
Proof.
  destruct r as [p|v|m]; cbn [whole enc_result].
  - intros [x ->]. cbn. by eexists.
  - intros (l & -> & Hw). cbn [put_member]. destruct (put_list_some 1 (fun s => Some (enc_sample L bits s)) l) as [fs E].
    + intros x Hx. destruct (Hw _ Hx) as (m & p & ->). by eexists.
    + unfold enc_vector. rewrite E. cbn. by eexists.
  - intros (l & -> & Hw). cbn [put_member]. destruct (matrix_some l Hw) as [fs ->]. cbn. by eexists.
Qed.
Lemma result_refused r : whole L r -> marshal_result L bits (Some r) = None <-> exists t, result_text L r t /\ ~ utf8 t.
Proof.
  intros Hw. unfold marshal_result. destruct (enc_whole r Hw) as [fs ->]. cbn [mbind option_bind]. rewrite marshal_none.
  split; intros (t & H1 & H2); exists t; (split; [by apply texts_result|done]).
Qed.
Lemma range_result_refused l : whole L (RMatrix (Some l)) ->
  marshal_range_result L bits (Some l) = None <-> exists t, result_text L (RMatrix (Some l)) t /\ ~ utf8 t.
Proof.
  intros Hw. unfold marshal_range_result. cbn [enc_range_result put_member].
  destruct (matrix_some l) as [fs E]; [by destruct Hw as (? & [= <-] & ?)|]. rewrite E. cbn [mbind option_bind]. rewrite marshal_none.
  split; intros (t & H1 & H2); exists t; (split; [by apply texts_result|done]).
Qed.

Lemma message_whole q : whole L (message_of L of_bits q).
Proof.
  destruct q as [t v|ss|ss]; cbn [message_of whole].
  - by eexists.
  - eexists. split; [done|]. intros s Hs. apply elem_of_list_fmap in Hs as (x & -> & _). by eexists _, _.
  - eexists. split; [done|]. intros s Hs. apply elem_of_list_fmap in Hs as (x & -> & _). eexists _, _. split; [done|].
    intros p Hp. apply elem_of_list_fmap in Hp as (y & -> & _). by eexists.
Qed.

(** ** Field numbers *)
Lemma small_one k gs hs : small hs -> (k, Bytes (write_fields gs)) ∈ hs -> small gs.
Proof. intros H Hin. by eapply small_in. Qed.
Lemma number_point t n : utf8 t -> uint64 n -> small [(1, Bytes t); (2, Fixed64 n)] ->
  merge (point_step L of_bits) (no_point L of_bits) (write_fields [(1, Bytes t); (2, Fixed64 n)]) = Some (Point t (of_bits n)).
Proof.
  intros Ht Hn Hs. apply valid_iff in Ht. rewrite merge_write; [|repeat constructor; cbn; unfold uint64 in Hn; lia|done].
  cbn [read_on point_step]. cbn [Z.eqb Pos.eqb]. by rewrite text_step.
Qed.
Lemma number_label {A} k v (a : A) set : utf8 k -> utf8 v -> small [(1, Bytes k); (2, Bytes v)] ->
  get_entry get_text_value "" (entry k (Bytes v)) ∅ a set = Some (set {[k := v]}).
Proof.
  intros Hk Hv Hs. apply valid_iff in Hk, Hv. unfold entry. rewrite (entry_read _ _ _ _ v); [done|done| | |done].
  - unfold get_text_value. by rewrite text_step.
  - apply wire_ok_bytes. eapply small_fits; [exact Hs|]. right. left.
Qed.
Lemma number_sample k v t n : utf8 k -> utf8 v -> utf8 t -> uint64 n ->
  let fs := [(1, entry k (Bytes v)); (2, Bytes (write_fields [(1, Bytes t); (2, Fixed64 n)]))] in small fs ->
  merge (sample_step L of_bits) (Sample None None) (write_fields fs) = Some (Sample (Some {[k := v]}) (Some (Point t (of_bits n)))) /\
  merge (series_step L of_bits) (Series None []) (write_fields fs) = Some (Series (Some {[k := v]}) [Some (Point t (of_bits n))]).
Proof.
  intros Hk Hv Ht Hn fs Hs. assert (Hnum : Forall num_ok fs) by (repeat constructor; cbn; lia).
  assert (H1 : small [(1, Bytes k); (2, Bytes v)]) by (eapply small_in; [exact Hs|]; left).
  assert (H2 : small [(1, Bytes t); (2, Fixed64 n)]) by (eapply small_in; [exact Hs|]; right; left).
  split; (rewrite merge_write by done); subst fs; cbn [read_on sample_step series_step]; cbn [Z.eqb Pos.eqb s_metric r_metric default from_option];
    rewrite number_label by done; cbn [mbind option_bind s_point s_metric r_points r_metric default from_option]; cbn [get_msg]; rewrite number_point by done; done.
Qed.
End Results.
