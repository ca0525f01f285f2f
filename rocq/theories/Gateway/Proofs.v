(** Lemmas about the gateway's parameter decoding and routing. *)
From Coq Require Import Ascii String.
From stdpp Require Import prelude strings gmap list.
From Verif.Base Require Import GoInt Envelope Str Url UrlProofs Dec.
From Verif.Routing Require Import Model.
From Verif.Gateway Require Import Model Spec.
Open Scope string_scope.
Open Scope list_scope.
Open Scope Z_scope.

#[local] Arguments String.append : simpl nomatch.

(** ** Strings *)
Lemma append_assoc a b c : append (append a b) c = append a (append b c).
Proof. induction a as [|x a IH]; simpl; [done|]. by rewrite IH. Qed.
Lemma append_nil_r a : append a "" = a.
Proof. apply append_empty_r. Qed.
Lemma append_inj_l a b c : append a b = append a c -> b = c.
Proof. induction a as [|x a IH]; simpl; [done|]. intros [= H]. auto. Qed.
Lemma append_last_inj a b c d : append a (String c "") = append b (String d "") -> a = b /\ c = d.
Proof.
  revert b. induction a as [|x a IH]; intros [|y b] H.
  - by injection H as ->.
  - change (String c "" = String y (append b (String d ""))) in H. injection H as _ H. by destruct b.
  - change (String x (append a (String c "")) = String d "") in H. injection H as _ H. by destruct a.
  - change (String x (append a (String c "")) = String y (append b (String d ""))) in H. injection H as -> H.
    by apply IH in H as [-> ->].
Qed.
Lemma cut_last_some c s a b : cut_last c s = Some (a, b) -> s = append a (String c b) /\ has_char c b = false.
Proof.
  revert a b. induction s as [|d s IH]; intros a b; cbn [cut_last]; [done|].
  destruct (cut_last c s) as [[a' b']|] eqn:E.
  - intros [= <- <-]. destruct (IH a' b' eq_refl) as [-> H]. done.
  - destruct (ceqb c d) eqn:Ec; [|done]. apply ceqb_true in Ec as ->. intros [= <- <-]. split; [done|].
    clear -E. induction s as [|x s IH]; [done|]. cbn [cut_last] in E. destruct (cut_last d s) as [[]|]; [done|].
    destruct (ceqb d x) eqn:Ex; [done|]. unfold has_char in *. simpl. rewrite Ex. by apply IH.
Qed.
Lemma cut_last_none c s : cut_last c s = None <-> has_char c s = false.
Proof.
  induction s as [|d s IH]; [done|]. cbn [cut_last]. unfold has_char in *. simpl. destruct (cut_last c s) as [[]|].
  - split; [done|]. rewrite orb_false_iff. intros [_ H]. by apply IH in H.
  - rewrite (proj1 IH eq_refl). rewrite orb_false_r. by destruct (ceqb c d).
Qed.
Lemma split_one c s w : split c s = [w] -> s = w.
Proof.
  revert w. unfold split. induction s as [|d s IH]; intros w; cbn [split_on]; [by intros [= <-]|].
  destruct (ceqb c d); [intros H; injection H as _ H; by destruct (split_on_nonempty (ceqb c) s)|].
  destruct (split_on (ceqb c) s) as [|v vs] eqn:E; [by destruct (split_on_nonempty (ceqb c) s)|].
  intros [= <- ->]. f_equal. by apply IH.
Qed.
Lemma join_split c s : join c (split c s) = s.
Proof.
  unfold split. induction s as [|d s IH]; [done|]. cbn [split_on]. destruct (ceqb c d) eqn:E.
  - apply ceqb_true in E as ->. destruct (split_on (ceqb d) s) as [|v vs] eqn:Es; [by destruct (split_on_nonempty (ceqb d) s)|].
    cbn [join]. by rewrite <-IH.
  - destruct (split_on (ceqb c) s) as [|v vs] eqn:Es; [by destruct (split_on_nonempty (ceqb c) s)|].
    rewrite <-IH. cbn [join]. by destruct vs.
Qed.
Lemma join_cons c w l : l <> [] -> join c (w :: l) = append w (String c (join c l)).
Proof. by destruct l. Qed.
Lemma has_char_iff c s : has_char c s = true <-> exists a b, s = append a (String c b).
Proof.
  split.
  - unfold has_char. induction s as [|d s IH]; [done|]. simpl. rewrite orb_true_iff, ceqb_true.
    intros [->|H]; [by exists "", s|]. destruct (IH H) as (a & b & ->). by exists (String d a), b.
  - intros (a & b & ->). unfold has_char. rewrite str_any_app. cbn [str_any]. rewrite ceqb_refl. apply orb_true_r.
Qed.

(** ** The parameters *)
Section Populate.
Context (G : gwlib) {M : Type} (skip : string -> bool) (field : string -> option (list string -> M -> option M)).

Lemma bracket_some k a b : bracket k = Some (a, b) -> k = append a (append "[" (append b "]")).
Proof.
  unfold bracket. destruct (has_char newline k); [done|].
  destruct (cut_last "]" k) as [[k' [|]]|] eqn:E; [|done|done]. apply cut_last_some in E as [-> _].
  intros E. apply cut_last_some in E as [-> _]. by rewrite append_assoc.
Qed.
Lemma bracket_none k : has_char "[" k = false -> bracket k = None.
Proof.
  unfold bracket. intros H. destruct (has_char newline k); [done|].
  destruct (cut_last "]" k) as [[k' [|]]|] eqn:E; [|done|done]. apply cut_last_some in E as [-> _].
  apply cut_last_none. unfold has_char in *. rewrite str_any_app in H. by apply orb_false_iff in H as [? _].
Qed.

(** A parameter has an effect only by the field it spells. *)
Lemma populate1_cases k vs m m' : populate1 G skip field (k, vs) m = Some m' ->
  m' = m \/ exists f set vs', spells k f /\ (k = f \/ bracket_keys G = true) /\ (has_char "[" k = false -> k = f /\ vs' = vs) /\
    skip f = false /\ field f = Some set /\ set vs' m = Some m'.
Proof.
  unfold populate1. cbn [fst snd].
  destruct (if bracket_keys G then bracket k else None) as [[a b]|] eqn:Eb.
  - destruct (bracket_keys G) eqn:Eg; [|done]. pose proof (bracket_some _ _ _ Eb) as Ek.
    destruct (split "." a) as [|f rest] eqn:Es; [left; naive_solver|].
    destruct (skip f) eqn:Ef; [left; naive_solver|]. destruct (field f) as [set|] eqn:Efd; [|left; naive_solver].
    destruct rest; [|done]. apply split_one in Es as ->. intros H. right. exists f, set, (b :: vs).
    split; [right; by exists b|]. split; [by right|]. split; [|done].
    intros Hk. rewrite (bracket_none k Hk) in Eb. done.
  - destruct (split "." k) as [|f rest] eqn:Es; [left; naive_solver|].
    destruct (skip f) eqn:Ef; [left; naive_solver|]. destruct (field f) as [set|] eqn:Efd; [|left; naive_solver].
    destruct rest; [|done]. apply split_one in Es as ->. intros H. right. exists f, set, vs.
    split; [by left|]. split; [by left|]. done.
Qed.
Lemma populate1_plain f vs m : has_char "[" f = false -> has_char "." f = false ->
  populate1 G skip field (f, vs) m =
    if skip f then Some m else match field f with None => Some m | Some set => set vs m end.
Proof.
  intros Hb Hd. unfold populate1. cbn [fst snd].
  assert (E : (if bracket_keys G then bracket f else None) = None) by (destruct (bracket_keys G); [by apply bracket_none|done]).
  rewrite E. unfold split. rewrite split_on_none by exact Hd. done.
Qed.

(** A projection of the message which only parameters spelling [n] set *)
Lemma populate_keep {X} (proj : M -> X) kvs : forall m m',
  (forall k vs m m', (k, vs) ∈ kvs -> populate1 G skip field (k, vs) m = Some m' -> proj m' = proj m) ->
  populate G skip field kvs m = Some m' -> proj m' = proj m.
Proof.
  induction kvs as [|[k vs] kvs IH]; intros m m' Hk; cbn [populate]; [by intros [= <-]|].
  destruct (populate1 G skip field (k, vs) m) as [m1|] eqn:E; [|done]. cbn. intros H.
  etransitivity; [eapply IH; [|exact H]|].
  - intros k' vs' m2 m3 Hin. apply Hk. by right.
  - eapply Hk; [left|exact E].
Qed.
Lemma populate_get {X} (proj : M -> X) (n : string) (g : list string -> X) kvs : forall m m',
  NoDup (kvs.*1) ->
  (forall k vs m m', (k, vs) ∈ kvs -> k <> n -> populate1 G skip field (k, vs) m = Some m' -> proj m' = proj m) ->
  (forall vs m m', (n, vs) ∈ kvs -> populate1 G skip field (n, vs) m = Some m' -> proj m' = g vs) ->
  populate G skip field kvs m = Some m' ->
  proj m' = match (list_to_map kvs : gmap string (list string)) !! n with Some vs => g vs | None => proj m end.
Proof.
  induction kvs as [|[k vs] kvs IH]; intros m m' Hnd Ho Hs; [cbn; by intros [= <-]|].
  cbn [populate]. destruct (populate1 G skip field (k, vs) m) as [m1|] eqn:E; [|done]. cbn [mbind option_bind].
  intros H. cbn [fmap list_fmap fst] in Hnd. apply NoDup_cons in Hnd as [Hni Hnd].
  cbn [list_to_map foldr]. destruct (decide (k = n)) as [->|Hne].
  - rewrite lookup_insert. erewrite populate_keep; [|intros k' vs' m2 m3 Hin|exact H].
    + eapply Hs; [left|exact E].
    + apply Ho; [by right|]. intros ->. apply Hni. apply elem_of_list_fmap. by exists (n, vs').
  - rewrite lookup_insert_ne by done. rewrite (IH m1 m'); [| done | | | exact H].
    + destruct (list_to_map kvs !! n); [done|]. eapply Ho; [left|done|exact E].
    + intros k' vs' m2 m3 Hin. apply Ho. by right.
    + intros vs' m2 m3 Hin. apply Hs. by right.
Qed.
Lemma populate_is_some kvs : forall m,
  (forall k vs m, (k, vs) ∈ kvs -> is_Some (populate1 G skip field (k, vs) m)) -> is_Some (populate G skip field kvs m).
Proof.
  induction kvs as [|[k vs] kvs IH]; intros m H; cbn [populate]; [by eexists|].
  destruct (H k vs m) as [m1 E]; [left|]. rewrite E. cbn. apply IH. intros k' vs' m2 Hin. apply H. by right.
Qed.
End Populate.

Lemma params_map v kvs : kvs ≡ₚ map_to_list v -> NoDup (kvs.*1) /\ (list_to_map kvs : gmap string (list string)) = v.
Proof.
  intros H. assert (Hnd : NoDup (kvs.*1)).
  { eapply NoDup_Permutation_proper; [by apply fmap_Permutation|]. apply NoDup_fst_map_to_list. }
  split; [done|]. rewrite <-(list_to_map_to_list v). by apply list_to_map_proper.
Qed.
Lemma params_elem (v : gmap string (list string)) kvs k vs : kvs ≡ₚ map_to_list v -> (k, vs) ∈ kvs <-> v !! k = Some vs.
Proof. intros H. rewrite H. apply elem_of_map_to_list. Qed.

(** ** The fields *)
Ltac field_cases H :=
  unfold read_field, instant_field, range_field, is_field in H;
  repeat match type of H with
         | (if ?b then _ else _) = Some _ => destruct b eqn:?
         end.

Lemma scalar_some {N X} (parse : string -> option X) (set : X -> N -> N) vs m m' :
  scalar parse set vs m = Some m' -> exists v vs' x, vs = v :: vs' /\ parse v = Some x /\ m' = set x m.
Proof.
  unfold scalar. destruct vs as [|v vs']; [done|]. destruct (parse v) as [x|] eqn:E; [|done]. cbn. intros [= <-].
  by exists v, vs', x.
Qed.
Lemma is_field_true G f o j : is_field G f o j = true -> f = o \/ (json_names G = true /\ f = j).
Proof.
  unfold is_field. rewrite orb_true_iff, andb_true_iff, !bool_decide_eq_true. done.
Qed.
Lemma raw_some {N} G f set : raw G f = Some set -> raw_fields G = true /\ f = "XXX_unrecognized" /\
  (forall vs (m m' : N * string), set vs m = Some m' -> m'.1 = m.1).
Proof.
  unfold raw. destruct (raw_fields G && _) eqn:E; [|done]. apply andb_prop in E as [-> E].
  apply bool_decide_eq_true in E as ->. intros [= <-]. split; [done|]. split; [done|].
  intros vs m m' H. apply scalar_some in H as (? & ? & ? & _ & _ & ->). done.
Qed.

(** Every setter of a read changes its own field only. *)
Lemma read_field_spec G f set vs r b r' b' : read_field G f = Some set -> set vs (r, b) = Some (r', b') ->
  (rr_source r' = rr_source r \/ is_field G f "source_id" "sourceId" = true) /\
  (rr_start r' = rr_start r \/ is_field G f "start_time" "startTime" = true) /\
  (rr_end r' = rr_end r \/ is_field G f "end_time" "endTime" = true) /\
  (rr_limit r' = rr_limit r \/ is_field G f "limit" "limit" = true) /\
  (rr_types r' = rr_types r \/ is_field G f "envelope_types" "envelopeTypes" = true) /\
  (rr_desc r' = rr_desc r \/ is_field G f "descending" "descending" = true) /\
  (rr_name r' = rr_name r \/ is_field G f "name_filter" "nameFilter" = true) /\
  (b' = b \/ (raw_fields G = true /\ f = "XXX_unrecognized")).
Proof.
  unfold read_field.
  destruct (is_field G f "source_id" "sourceId") eqn:E1.
  { intros [= <-] H. apply scalar_some in H as (? & ? & ? & _ & _ & [= -> ->]). naive_solver. }
  destruct (is_field G f "start_time" "startTime") eqn:E2.
  { intros [= <-] H. apply scalar_some in H as (? & ? & ? & _ & _ & [= -> ->]). naive_solver. }
  destruct (is_field G f "end_time" "endTime") eqn:E3.
  { intros [= <-] H. apply scalar_some in H as (? & ? & ? & _ & _ & [= -> ->]). naive_solver. }
  destruct (is_field G f "limit" "limit") eqn:E4.
  { intros [= <-] H. apply scalar_some in H as (? & ? & ? & _ & _ & [= -> ->]). naive_solver. }
  destruct (is_field G f "envelope_types" "envelopeTypes") eqn:E5.
  { intros [= <-]. destruct (mapM parse_type vs) as [ts|]; [|done]. cbn. intros [= <- <-]. naive_solver. }
  destruct (is_field G f "descending" "descending") eqn:E6.
  { intros [= <-] H. apply scalar_some in H as (? & ? & ? & _ & _ & [= -> ->]). naive_solver. }
  destruct (is_field G f "name_filter" "nameFilter") eqn:E7.
  { intros [= <-] H. apply scalar_some in H as (? & ? & ? & _ & _ & [= -> ->]). naive_solver. }
  intros H Hs. apply raw_some in H as (Hr & Hf & Hk). apply Hk in Hs. cbn in Hs. subst. naive_solver.
Qed.

Definition unspelled (kvs : list (string * list string)) (n : string) : Prop :=
  forall k vs, (k, vs) ∈ kvs -> ~ spells k n.

(** The source id stays what the path said. *)
Lemma request_read_source G id kvs r :
  (json_names G = true -> unspelled kvs "sourceId") ->
  (raw_fields G = true -> unspelled kvs "XXX_unrecognized") ->
  request_read G id kvs = Some r -> rr_source r = id.
Proof.
  intros Hj Hx. unfold request_read.
  destruct (populate _ _ _ _ _) as [[r1 b1]|] eqn:E; [|done]. cbn. intros [= <-].
  assert (K : (rr_source r1, b1) = (id, "")).
  { change ((fun m : read_request * string => (rr_source m.1, m.2)) (r1, b1) =
            (fun m : read_request * string => (rr_source m.1, m.2)) (mk_rr id 0 0 0 [] false "", "")).
    eapply populate_keep; [|exact E]. intros k vs [r2 b2] [r3 b3] Hin H. cbn.
    apply populate1_cases in H as [[= -> ->]|(f & set & vs' & Hsp & _ & _ & Hsk & Hf & Hs)]; [done|].
    eapply read_field_spec in Hf as (H1 & _ & _ & _ & _ & _ & _ & H8); [|exact Hs].
    apply bool_decide_eq_false in Hsk. f_equal.
    - destruct H1 as [->|H1]; [done|]. apply is_field_true in H1 as [->|[Hg ->]]; [done|]. by destruct (Hj Hg k vs Hin).
    - destruct H8 as [->|[Hg ->]]; [done|]. by destruct (Hx Hg k vs Hin). }
  injection K as K1 ->. done.
Qed.

Lemma instant_field_spec G f set vs r b r' b' : instant_field G f = Some set -> set vs (r, b) = Some (r', b') ->
  (iq_query r' = iq_query r \/ (f = "query" /\ exists v vs', vs = v :: vs' /\ iq_query r' = v)) /\
  (iq_time r' = iq_time r \/ (f = "time" /\ exists v vs', vs = v :: vs' /\ iq_time r' = v)) /\
  (f = "query" -> exists v vs', vs = v :: vs' /\ iq_query r' = v) /\
  (f = "time" -> exists v vs', vs = v :: vs' /\ iq_time r' = v) /\
  (b' = b \/ (raw_fields G = true /\ f = "XXX_unrecognized")).
Proof.
  unfold instant_field.
  destruct (is_field G f "query" "query") eqn:E1.
  { intros [= <-] H. apply scalar_some in H as (v & vs' & x & -> & [= ->] & [= -> ->]).
    assert (f = "query") as -> by (apply is_field_true in E1; naive_solver). naive_solver. }
  destruct (is_field G f "time" "time") eqn:E2.
  { intros [= <-] H. apply scalar_some in H as (v & vs' & x & -> & [= ->] & [= -> ->]).
    assert (f = "time") as -> by (apply is_field_true in E2; naive_solver). naive_solver. }
  intros H Hs. apply raw_some in H as (Hr & -> & Hk). apply Hk in Hs. cbn in Hs. subst. naive_solver.
Qed.
Lemma range_field_spec G f set vs r b r' b' : range_field G f = Some set -> set vs (r, b) = Some (r', b') ->
  (rg_query r' = rg_query r \/ f = "query") /\
  (f = "query" -> exists v vs', vs = v :: vs' /\ rg_query r' = v) /\
  (rg_start r' = rg_start r \/ f = "start") /\ (f = "start" -> exists v vs', vs = v :: vs' /\ rg_start r' = v) /\
  (rg_end r' = rg_end r \/ f = "end") /\ (f = "end" -> exists v vs', vs = v :: vs' /\ rg_end r' = v) /\
  (rg_step r' = rg_step r \/ f = "step") /\ (f = "step" -> exists v vs', vs = v :: vs' /\ rg_step r' = v) /\
  (b' = b \/ (raw_fields G = true /\ f = "XXX_unrecognized")).
Proof.
  unfold range_field.
  destruct (is_field G f "query" "query") eqn:E1.
  { intros [= <-] H. apply scalar_some in H as (v & vs' & x & -> & [= ->] & [= -> ->]).
    assert (f = "query") as -> by (apply is_field_true in E1; naive_solver). naive_solver. }
  destruct (is_field G f "start" "start") eqn:E2.
  { intros [= <-] H. apply scalar_some in H as (v & vs' & x & -> & [= ->] & [= -> ->]).
    assert (f = "start") as -> by (apply is_field_true in E2; naive_solver). naive_solver. }
  destruct (is_field G f "end" "end") eqn:E3.
  { intros [= <-] H. apply scalar_some in H as (v & vs' & x & -> & [= ->] & [= -> ->]).
    assert (f = "end") as -> by (apply is_field_true in E3; naive_solver). naive_solver. }
  destruct (is_field G f "step" "step") eqn:E4.
  { intros [= <-] H. apply scalar_some in H as (v & vs' & x & -> & [= ->] & [= -> ->]).
    assert (f = "step") as -> by (apply is_field_true in E4; naive_solver). naive_solver. }
  intros H Hs. apply raw_some in H as (Hr & -> & Hk). apply Hk in Hs. cbn in Hs. subst. naive_solver.
Qed.

(** The first value of the parameter [n] *)
Definition first (vs : list string) : string := match vs with v :: _ => v | [] => "" end.
Lemma vget_first n (v : values) : vget n v = match v !! n with Some vs => first vs | None => "" end.
Proof. unfold vget, first. by destruct (v !! n) as [[]|]. Qed.

Lemma plain_populate1 {M} G skip field n vs (m m' : M) : has_char "[" n = false -> has_char "." n = false ->
  skip n = false -> populate1 G skip field (n, vs) m = Some m' ->
  match field n with None => m' = m | Some set => set vs m = Some m' end.
Proof.
  intros H1 H2 H3. rewrite populate1_plain by done. rewrite H3. destruct (field n); [done|]. by intros [= ->].
Qed.

(** The texts of an instant query are the first values of its parameters. *)
Lemma request_instant_get G v kvs r :
  kvs ≡ₚ map_to_list v ->
  (bracket_keys G = true -> forall k vs, v !! k = Some vs -> k <> "query" -> ~ spells k "query") ->
  (raw_fields G = true -> unspelled kvs "XXX_unrecognized") ->
  request_instant G kvs = Some r -> iq_query r = vget "query" v.
Proof.
  intros Hp Hb Hx. unfold request_instant.
  destruct (populate _ _ _ _ _) as [[r1 b1]|] eqn:E; [|done]. cbn. intros [= <-].
  destruct (params_map v kvs Hp) as [Hnd Hm].
  assert (Hb1 : b1 = "").
  { change (snd (r1, b1) = snd (Instant "" "", "")). eapply populate_keep; [|exact E].
    intros k vs [r2 b2] [r3 b3] Hin H. cbn.
    apply populate1_cases in H as [[= -> ->]|(f & set & vs' & Hsp & _ & _ & Hsk & Hf & Hs)]; [done|].
    eapply instant_field_spec in Hf as (_ & _ & _ & _ & H8); [|exact Hs].
    destruct H8 as [->|[Hg ->]]; [done|]. by destruct (Hx Hg k vs Hin). }
  subst b1. unfold sent. cbn. rewrite vget_first, <-Hm.
  eapply eq_trans; [apply (populate_get G (fun _ => false) (instant_field G) (fun m : instant_request * string => iq_query m.1) "query" first kvs (Instant "" "", "") (r1, "") Hnd); [| |exact E]|done].
  - intros k vs [r2 b2] [r3 b3] Hin Hne H. cbn.
    apply populate1_cases in H as [[= -> ->]|(f & set & vs' & Hsp & Hkb & _ & Hsk & Hf & Hs)]; [done|].
    eapply instant_field_spec in Hf as (H1 & _); [|exact Hs]. destruct H1 as [->|[-> _]]; [done|].
    destruct Hkb as [->|Hg]; [done|]. apply (params_elem v) in Hin; [|done]. by destruct (Hb Hg k vs Hin Hne).
  - intros vs [r2 b2] [r3 b3] Hin H. apply plain_populate1 in H; [|done..]. cbn.
    destruct (instant_field G "query") as [set|] eqn:Ef; [|done].
    eapply instant_field_spec in Ef as (_ & _ & H1 & _); [|exact H]. destruct (H1 eq_refl) as (x & vs' & -> & <-). done.
Qed.
Lemma request_range_get G v kvs r :
  kvs ≡ₚ map_to_list v ->
  (bracket_keys G = true -> forall k vs, v !! k = Some vs -> k <> "query" -> ~ spells k "query") ->
  (raw_fields G = true -> unspelled kvs "XXX_unrecognized") ->
  request_range G kvs = Some r -> rg_query r = vget "query" v.
Proof.
  intros Hp Hb Hx. unfold request_range.
  destruct (populate _ _ _ _ _) as [[r1 b1]|] eqn:E; [|done]. cbn. intros [= <-].
  destruct (params_map v kvs Hp) as [Hnd Hm].
  assert (Hb1 : b1 = "").
  { change (snd (r1, b1) = snd (Range "" "" "" "", "")). eapply populate_keep; [|exact E].
    intros k vs [r2 b2] [r3 b3] Hin H. cbn.
    apply populate1_cases in H as [[= -> ->]|(f & set & vs' & Hsp & _ & _ & Hsk & Hf & Hs)]; [done|].
    eapply range_field_spec in Hf as (_ & _ & _ & _ & _ & _ & _ & _ & H8); [|exact Hs].
    destruct H8 as [->|[Hg ->]]; [done|]. by destruct (Hx Hg k vs Hin). }
  subst b1. unfold sent. cbn. rewrite vget_first, <-Hm.
  eapply eq_trans; [apply (populate_get G (fun _ => false) (range_field G) (fun m : range_request * string => rg_query m.1) "query" first kvs (Range "" "" "" "", "") (r1, "") Hnd); [| |exact E]|done].
  - intros k vs [r2 b2] [r3 b3] Hin Hne H. cbn.
    apply populate1_cases in H as [[= -> ->]|(f & set & vs' & Hsp & Hkb & _ & Hsk & Hf & Hs)]; [done|].
    eapply range_field_spec in Hf as (H1 & _); [|exact Hs]. destruct H1 as [->| ->]; [done|].
    destruct Hkb as [->|Hg]; [done|]. apply (params_elem v) in Hin; [|done]. by destruct (Hb Hg k vs Hin Hne).
  - intros vs [r2 b2] [r3 b3] Hin H. apply plain_populate1 in H; [|done..]. cbn.
    destruct (range_field G "query") as [set|] eqn:Ef; [|done].
    eapply range_field_spec in Ef as (_ & H1 & _); [|exact H]. destruct (H1 eq_refl) as (x & vs' & -> & <-). done.
Qed.
