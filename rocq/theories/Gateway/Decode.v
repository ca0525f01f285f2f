(** Documented parameters are decoded to what they say, and the client writes documented parameters. *)
From Coq Require Import Ascii String.
From stdpp Require Import prelude strings gmap list.
From Verif.Base Require Import GoInt Envelope Str Url UrlProofs Dec.
From Verif.Routing Require Import Model.
From Verif.Gateway Require Import Model Spec Proofs.
Open Scope string_scope.
Open Scope list_scope.
Open Scope Z_scope.

#[local] Arguments String.append : simpl nomatch.

(** ** Numbers *)
Lemma base_digit_10 c : base_digit 10 c = if is_digit c then Some (digit_val c) else None.
Proof. destruct c as [[] [] [] [] [] [] [] []]; reflexivity. Qed.
Lemma base_digits_10 s : forall acc, base_digits 10 acc s = digits_from acc s.
Proof.
  induction s as [|c s IH]; intros acc; [done|]. cbn [base_digits digits_from]. rewrite base_digit_10.
  destruct (is_digit c); [apply IH|done].
Qed.
Lemma parse_uint0_dec s : (forall s', s = String "0" s' -> s' = "") -> parse_uint0 s = parse_uint s.
Proof.
  intros H. unfold parse_uint0, parse_uint, digits. destruct s as [|c s]; [done|].
  destruct (ceqb c "0") eqn:E.
  - apply ceqb_true in E as ->. rewrite (H s eq_refl). done.
  - by rewrite base_digits_10.
Qed.
Lemma parse_int0_dec s : ~ zero_led s -> parse_int0 s = parse_int s.
Proof.
  intros H. unfold parse_int0, parse_int. destruct s as [|c s]; [done|].
  assert (Hz : forall sign s', sign ∈ [""; "+"; "-"] -> String c s = append sign (String "0" s') -> s' = "").
  { intros sign s' Hs E. destruct (decide (s' = "")) as [|Hne]; [done|]. destruct H. by exists sign, s'. }
  destruct (ceqb c "-") eqn:Em.
  - apply ceqb_true in Em as ->. rewrite parse_uint0_dec; [done|]. intros s' ->. apply (Hz "-"); [set_solver|done].
  - destruct (ceqb c "+") eqn:Ep.
    + apply ceqb_true in Ep as ->. rewrite parse_uint0_dec; [done|]. intros s' ->. apply (Hz "+"); [set_solver|done].
    + rewrite parse_uint0_dec; [done|]. intros s' E. apply (Hz ""); [set_solver|done].
Qed.
Lemma digit_char_zero d : 0 <= d < 10 -> digit_char d = "0"%char -> d = 0.
Proof.
  intros H E. destruct (digit_char_ok d H) as [_ E']. rewrite E in E'. by vm_compute in E'.
Qed.
Lemma format_digits_head fuel : forall n rest, 0 < n < 10 ^ (Z.of_nat fuel + 1) ->
  exists c s, format_digits fuel n rest = String c s /\ c <> "0"%char.
Proof.
  induction fuel as [|fuel IH]; intros n rest H.
  - change (10 ^ (Z.of_nat 0 + 1)) with 10 in H. cbn [format_digits]. rewrite Z.mod_small by lia.
    do 2 eexists. split; [done|]. intros E. apply digit_char_zero in E; lia.
  - cbn [format_digits]. destruct (Z.ltb_spec n 10).
    + rewrite Z.mod_small by lia. do 2 eexists. split; [done|]. intros E. apply digit_char_zero in E; lia.
    + apply IH. split; [apply Z.div_str_pos; lia|]. apply Z.div_lt_upper_bound; [lia|].
      replace (Z.of_nat (S fuel) + 1) with (Z.succ (Z.of_nat fuel + 1)) in H by lia. rewrite Z.pow_succ_r in H by lia. lia.
Qed.
Lemma format_uint_head n s : inu64 n -> format_uint n = String "0" s -> s = "".
Proof.
  intros H E. unfold inu64 in H. destruct (decide (n = 0)) as [->|Hn]; [by injection E as <-|].
  destruct (format_digits_head 20 n EmptyString) as (c & s' & E' & Hc).
  { change (10 ^ (Z.of_nat 20 + 1)) with 1000000000000000000000. lia. }
  unfold format_uint in E. rewrite E' in E. by injection E.
Qed.
Lemma format_uint_digit n c s : inu64 n -> format_uint n = String c s -> is_digit c = true.
Proof. intros H E. pose proof (format_uint_numeral n H) as K. rewrite E in K. by apply numeral_head in K. Qed.
Lemma format_int_plain n : in64 n -> ~ zero_led (format_int n).
Proof.
  unfold in64, format_int. intros H (sign & s & Hs & E & Hne). rewrite !elem_of_cons, elem_of_nil in Hs.
  destruct (Z.ltb_spec n 0).
  - destruct Hs as [->|[->|[->|[]]]]; [done|done|]. apply (append_inj_l "-") in E.
    apply Hne. eapply (format_uint_head (- n)); [unfold inu64; lia|done].
  - destruct Hs as [->|[->|[->|[]]]].
    + apply Hne. eapply (format_uint_head n); [unfold inu64; lia|done].
    + apply format_uint_digit in E; [done|unfold inu64; lia].
    + apply format_uint_digit in E; [done|unfold inu64; lia].
Qed.
Lemma parse_int0_format n : in64 n -> parse_int0 (format_int n) = Some n.
Proof. intros H. rewrite parse_int0_dec by (by apply format_int_plain). by apply parse_format_int. Qed.

(** ** Documented parameters *)
Definition on_first {X} (parse : string -> option X) (dflt : X) (v : values) (n : string) (x : X) : Prop :=
  match v !! n with
  | None => x = dflt
  | Some vs => exists y ys, vs = y :: ys /\ parse y = Some x
  end.
Definition on_all (v : values) (n : string) (ts : list etype) : Prop :=
  match v !! n with None => ts = [] | Some vs => mapM parse_type vs = Some ts end.
Definition decoded (v : values) (id : string) (r : read_request) : Prop :=
  rr_source r = id /\ on_first parse_int0 0 v "start_time" (rr_start r) /\ on_first parse_int0 0 v "end_time" (rr_end r) /\
  on_first parse_int0 0 v "limit" (rr_limit r) /\ on_all v "envelope_types" (rr_types r) /\
  on_first parse_bool false v "descending" (rr_desc r) /\ on_first Some "" v "name_filter" (rr_name r).

Lemma on_first_fun {X} (parse : string -> option X) d v n x y : on_first parse d v n x -> on_first parse d v n y -> x = y.
Proof. unfold on_first. destruct (v !! n); [|congruence]. intros (? & ? & -> & ?) (? & ? & [= -> ->] & ?). congruence. Qed.
Lemma decoded_fun v id r r' : decoded v id r -> decoded v id r' -> r = r'.
Proof.
  intros (A1 & A2 & A3 & A4 & A5 & A6 & A7) (B1 & B2 & B3 & B4 & B5 & B6 & B7).
  destruct r, r'. cbn in *. f_equal; [congruence|by eapply on_first_fun..| |by eapply on_first_fun|by eapply on_first_fun].
  unfold on_all in *. destruct (v !! "envelope_types"); congruence.
Qed.

Lemma populate_rel {M X} G skip field (proj : M -> X) (n : string) (P : list string -> X -> Prop) kvs : forall m m',
  NoDup (kvs.*1) ->
  (forall k vs m m', (k, vs) ∈ kvs -> k <> n -> populate1 G skip field (k, vs) m = Some m' -> proj m' = proj m) ->
  (forall vs m m', (n, vs) ∈ kvs -> populate1 G skip field (n, vs) m = Some m' -> P vs (proj m')) ->
  populate G skip field kvs m = Some m' ->
  match (list_to_map kvs : gmap string (list string)) !! n with Some vs => P vs (proj m') | None => proj m' = proj m end.
Proof.
  induction kvs as [|[k vs] kvs IH]; intros m m' Hnd Ho Hs; [cbn; by intros [= <-]|].
  cbn [populate]. destruct (populate1 G skip field (k, vs) m) as [m1|] eqn:E; [|done]. cbn [mbind option_bind].
  intros H. cbn [fmap list_fmap fst] in Hnd. apply NoDup_cons in Hnd as [Hni Hnd].
  cbn [list_to_map foldr]. destruct (decide (k = n)) as [->|Hne].
  - rewrite lookup_insert. rewrite (populate_keep G skip field proj kvs m1 m'); [|intros k' vs' m2 m3 Hin|exact H].
    + eapply Hs; [left|exact E].
    + apply Ho; [by right|]. intros ->. apply Hni. apply elem_of_list_fmap. by exists (n, vs').
  - rewrite lookup_insert_ne by done.
    assert (K := IH m1 m' Hnd ltac:(intros; eapply Ho; [by right|done..]) ltac:(intros; eapply Hs; [by right|done]) H).
    destruct (list_to_map kvs !! n); [done|]. rewrite K. eapply Ho; [left|done|exact E].
Qed.

Lemma documented_plain n : n ∈ documented -> has_char "[" n = false /\ has_char "." n = false.
Proof.
  unfold documented. rewrite !elem_of_cons, elem_of_nil.
  intros [->|[->|[->|[->|[->|[->|[->|[]]]]]]]]; by vm_compute.
Qed.
Lemma field_start G : read_field G "start_time" =
  Some (scalar parse_int0 (fun x '(r, b) => (mk_rr (rr_source r) x (rr_end r) (rr_limit r) (rr_types r) (rr_desc r) (rr_name r), b))).
Proof. unfold read_field, is_field. by destruct (json_names G). Qed.
Lemma field_end G : read_field G "end_time" =
  Some (scalar parse_int0 (fun x '(r, b) => (mk_rr (rr_source r) (rr_start r) x (rr_limit r) (rr_types r) (rr_desc r) (rr_name r), b))).
Proof. unfold read_field, is_field. by destruct (json_names G). Qed.
Lemma field_limit G : read_field G "limit" =
  Some (scalar parse_int0 (fun x '(r, b) => (mk_rr (rr_source r) (rr_start r) (rr_end r) x (rr_types r) (rr_desc r) (rr_name r), b))).
Proof. unfold read_field, is_field. by destruct (json_names G). Qed.
Lemma field_types G : read_field G "envelope_types" =
  Some (fun vs '(r, b) => ts ← mapM parse_type vs;
            Some (mk_rr (rr_source r) (rr_start r) (rr_end r) (rr_limit r) ts (rr_desc r) (rr_name r), b)).
Proof. unfold read_field, is_field. by destruct (json_names G). Qed.
Lemma field_desc G : read_field G "descending" =
  Some (scalar parse_bool (fun x '(r, b) => (mk_rr (rr_source r) (rr_start r) (rr_end r) (rr_limit r) (rr_types r) x (rr_name r), b))).
Proof. unfold read_field, is_field. by destruct (json_names G). Qed.
Lemma field_name G : read_field G "name_filter" =
  Some (scalar Some (fun x '(r, b) => (mk_rr (rr_source r) (rr_start r) (rr_end r) (rr_limit r) (rr_types r) (rr_desc r) x, b))).
Proof. unfold read_field, is_field. by destruct (json_names G). Qed.

Section Documented.
Context (G : gwlib) (v : values) (kvs : list (string * list string)).
Context (Hp : kvs ≡ₚ map_to_list v) (Hdoc : forall k, is_Some (v !! k) -> k ∈ documented).
Let skip := fun f => bool_decide (f = "source_id").
Let step := populate1 G skip (read_field G).

Lemma key_documented k vs : (k, vs) ∈ kvs -> k ∈ documented.
Proof. intros H. apply Hdoc. apply (params_elem v) in H; [|done]. by eexists. Qed.
Lemma step_own n vs m m' : n ∈ documented -> n <> "source_id" -> step (n, vs) m = Some m' ->
  match read_field G n with None => m' = m | Some set => set vs m = Some m' end.
Proof.
  intros Hd Hne. destruct (documented_plain n Hd). apply plain_populate1; [done..|].
  by apply bool_decide_eq_false.
Qed.
Lemma step_other k vs r b r' b' : (k, vs) ∈ kvs -> step (k, vs) (r, b) = Some (r', b') ->
  rr_source r' = rr_source r /\ b' = b /\
  (k <> "start_time" -> rr_start r' = rr_start r) /\ (k <> "end_time" -> rr_end r' = rr_end r) /\
  (k <> "limit" -> rr_limit r' = rr_limit r) /\ (k <> "envelope_types" -> rr_types r' = rr_types r) /\
  (k <> "descending" -> rr_desc r' = rr_desc r) /\ (k <> "name_filter" -> rr_name r' = rr_name r).
Proof.
  intros Hin H. pose proof (key_documented _ _ Hin) as Hk. destruct (documented_plain k Hk) as [Hb _].
  apply populate1_cases in H as [[= -> ->]|(f & set & vs' & _ & _ & Hn & Hsk & Hf & Hs)]; [naive_solver|].
  destruct (Hn Hb) as [-> ->]. apply bool_decide_eq_false in Hsk.
  assert (Hno : forall o j, is_field G f o j = true -> f = o \/ f = j).
  { intros o j E. apply is_field_true in E. naive_solver. }
  eapply read_field_spec in Hf; [|exact Hs].
  destruct Hf as (H1 & H2 & H3 & H4 & H5 & H6 & H7 & H8).
  assert (Hun : forall j, bool_decide (j ∈ documented) = false -> f <> j).
  { intros j Hj ->. by apply bool_decide_eq_false in Hj. }
  assert (Hset : forall (P : Prop) o j, P \/ is_field G f o j = true -> bool_decide (j ∈ documented) = false \/ j = o -> f <> o -> P).
  { intros P o j [HP|Hf] Hj Ho; [done|]. apply Hno in Hf as [Hf|Hf]; [done|]. destruct Hj as [Hj|Hj]; [by destruct (Hun j Hj)|congruence]. }
  split; [eapply Hset; [exact H1|by left|done]|].
  split; [destruct H8 as [|[_ H8]]; [done|by apply Hun in H8]|].
  split; [eapply Hset; [exact H2|by left]|].
  split; [eapply Hset; [exact H3|by left]|].
  split; [eapply Hset; [exact H4|by right]|].
  split; [eapply Hset; [exact H5|by left]|].
  split; [eapply Hset; [exact H6|by right]|].
  eapply Hset; [exact H7|by left].
Qed.

Lemma request_read_decoded id r : request_read G id kvs = Some r -> decoded v id r.
Proof.
  unfold request_read. fold skip. destruct (populate _ _ _ _ _) as [[r1 b1]|] eqn:E; [|done]. cbn. intros [= <-].
  destruct (params_map v kvs Hp) as [Hnd Hm].
  assert (K : (rr_source r1, b1) = (id, "")).
  { change ((fun m : read_request * string => (rr_source m.1, m.2)) (r1, b1) =
            (fun m : read_request * string => (rr_source m.1, m.2)) (mk_rr id 0 0 0 [] false "", "")).
    eapply populate_keep; [|exact E]. intros k vs [r2 b2] [r3 b3] Hin H. cbn.
    apply step_other in H as (-> & -> & _); done. }
  injection K as K1 ->. change (sent (wire_read G) (r1, "")) with r1.
  assert (Hrel : forall {X} (proj : read_request -> X) n (P : list string -> X -> Prop),
    (forall k vs r b r' b', (k, vs) ∈ kvs -> k <> n -> step (k, vs) (r, b) = Some (r', b') -> proj r' = proj r) ->
    (forall vs r b r' b', (n, vs) ∈ kvs -> step (n, vs) (r, b) = Some (r', b') -> P vs (proj r')) ->
    match v !! n with Some vs => P vs (proj r1) | None => proj r1 = proj (mk_rr id 0 0 0 [] false "") end).
  { intros X proj n P Ho Hs.
    pose proof (populate_rel G skip (read_field G) (fun m : read_request * string => proj m.1) n P kvs) as K.
    rewrite Hm in K. refine (K _ _ Hnd _ _ E).
    - intros k vs [] [] Hin Hne. cbn. by eapply Ho.
    - intros vs [] [] Hin. cbn. by eapply Hs. }
  split; [done|]. split; [|split; [|split; [|split; [|split]]]].
  - unfold on_first. apply (Hrel _ rr_start "start_time" (fun vs x => exists y ys, vs = y :: ys /\ parse_int0 y = Some x)).
    + intros k vs r b r' b' Hin Hne H. apply step_other in H; naive_solver.
    + intros vs r b r' b' Hin H. apply step_own in H; [|set_solver|done]. rewrite field_start in H.
      apply scalar_some in H as (y & ys & x & -> & Hx & [= -> ->]). by exists y, ys.
  - unfold on_first. apply (Hrel _ rr_end "end_time" (fun vs x => exists y ys, vs = y :: ys /\ parse_int0 y = Some x)).
    + intros k vs r b r' b' Hin Hne H. apply step_other in H; naive_solver.
    + intros vs r b r' b' Hin H. apply step_own in H; [|set_solver|done]. rewrite field_end in H.
      apply scalar_some in H as (y & ys & x & -> & Hx & [= -> ->]). by exists y, ys.
  - unfold on_first. apply (Hrel _ rr_limit "limit" (fun vs x => exists y ys, vs = y :: ys /\ parse_int0 y = Some x)).
    + intros k vs r b r' b' Hin Hne H. apply step_other in H; naive_solver.
    + intros vs r b r' b' Hin H. apply step_own in H; [|set_solver|done]. rewrite field_limit in H.
      apply scalar_some in H as (y & ys & x & -> & Hx & [= -> ->]). by exists y, ys.
  - unfold on_all. apply (Hrel _ rr_types "envelope_types" (fun vs x => mapM parse_type vs = Some x)).
    + intros k vs r b r' b' Hin Hne H. apply step_other in H; naive_solver.
    + intros vs r b r' b' Hin H. apply step_own in H; [|set_solver|done]. rewrite field_types in H.
      destruct (mapM parse_type vs) as [ts|]; [|done]. cbn in H. by injection H as <- <-.
  - unfold on_first. apply (Hrel _ rr_desc "descending" (fun vs x => exists y ys, vs = y :: ys /\ parse_bool y = Some x)).
    + intros k vs r b r' b' Hin Hne H. apply step_other in H; naive_solver.
    + intros vs r b r' b' Hin H. apply step_own in H; [|set_solver|done]. rewrite field_desc in H.
      apply scalar_some in H as (y & ys & x & -> & Hx & [= -> ->]). by exists y, ys.
  - unfold on_first. apply (Hrel _ rr_name "name_filter" (fun vs x => exists y ys, vs = y :: ys /\ Some y = Some x)).
    + intros k vs r b r' b' Hin Hne H. apply step_other in H; naive_solver.
    + intros vs r b r' b' Hin H. apply step_own in H; [|set_solver|done]. rewrite field_name in H.
      apply scalar_some in H as (y & ys & x & -> & Hx & [= -> ->]). by exists y, ys.
Qed.

Lemma scalar_is_some {M X} (parse : string -> option X) (set : X -> M -> M) vs m :
  (exists y ys x, vs = y :: ys /\ parse y = Some x) -> is_Some (scalar parse set vs m).
Proof. intros (y & ys & x & -> & E). unfold scalar. rewrite E. by eexists. Qed.
Lemma request_read_some id r : decoded v id r -> request_read G id kvs = Some r.
Proof.
  intros D. assert (Hs : is_Some (request_read G id kvs)).
  { unfold request_read. fold skip. apply fmap_is_Some. apply populate_is_some. intros k vs m Hin.
    pose proof (key_documented _ _ Hin) as Hk. destruct (documented_plain k Hk) as [Hb Hd].
    rewrite populate1_plain by done. unfold skip. case_bool_decide as Hsk; [by eexists|].
    apply (params_elem v) in Hin; [|done]. destruct D as (_ & D2 & D3 & D4 & D5 & D6 & D7).
    unfold on_first, on_all in *. destruct m as [r0 b0].
    unfold documented in Hk. rewrite !elem_of_cons, elem_of_nil in Hk.
    destruct Hk as [->|[->|[->|[->|[->|[->|[->|[]]]]]]]]; [done|..].
    - rewrite field_start. rewrite Hin in D2. apply scalar_is_some. naive_solver.
    - rewrite field_end. rewrite Hin in D3. apply scalar_is_some. naive_solver.
    - rewrite field_limit. rewrite Hin in D4. apply scalar_is_some. naive_solver.
    - rewrite field_types. rewrite Hin in D5. rewrite D5. by eexists.
    - rewrite field_desc. rewrite Hin in D6. apply scalar_is_some. naive_solver.
    - rewrite field_name. rewrite Hin in D7. apply scalar_is_some. naive_solver. }
  destruct Hs as [r' E]. rewrite E. f_equal. eapply decoded_fun; [|exact D]. by apply request_read_decoded.
Qed.
End Documented.
