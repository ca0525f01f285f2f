(** Routing, and the request the client builds. *)
From Coq Require Import Ascii String.
From stdpp Require Import prelude strings gmap list.
From Verif.Base Require Import GoInt Envelope Str Url UrlProofs Dec.
From Verif.Routing Require Import Model.
From Verif.Gateway Require Import Model Spec Proofs Decode.
Open Scope string_scope.
Open Scope list_scope.
Open Scope Z_scope.

#[local] Arguments String.append : simpl nomatch.

(** ** Components *)
Lemma split_verb_cons c cs : cs <> [] -> split_verb (c :: cs) = '(cs', v) ← split_verb cs; Some (c :: cs', v).
Proof. by destruct cs. Qed.
Lemma split_verb_join cs : forall cs', cs <> [] -> split_verb cs = Some (cs', "") ->
  cs' <> [] /\ (join "/" cs = join "/" cs' \/ join "/" cs = append (join "/" cs') ":").
Proof.
  induction cs as [|c cs IH]; intros cs' Hne; [done|]. destruct cs as [|d cs].
  - cbn [split_verb]. destruct (cut_last ":" c) as [[[|x a] b]|] eqn:E; [done| |intros [= <-]; split; [discriminate|by left]].
    intros [= <- ->]. apply cut_last_some in E as [-> _]. split; [done|]. by right.
  - rewrite split_verb_cons by done. destruct (split_verb (d :: cs)) as [[cs1 v1]|] eqn:E; [|done].
    cbn [mbind option_bind]. intros [= <- ->]. destruct (IH cs1) as [H1 H2]; [done|done|]. split; [done|].
    rewrite (join_cons "/" c (d :: cs)) by done. rewrite (join_cons "/" c cs1) by done. destruct H2 as [->| ->]; [by left|]. right.
    rewrite append_assoc. done.
Qed.
Lemma components_path G path cs : components G path = Some cs ->
  cs <> [] /\ (path = String "/" (join "/" cs) \/ path = String "/" (append (join "/" cs) ":")).
Proof.
  unfold components. destruct path as [|c p]; [done|]. destruct (ceqb c "/") eqn:Ec; [|done]. apply ceqb_true in Ec as ->.
  destruct (split_verb (split "/" p)) as [[cs1 v]|] eqn:E; [|done]. cbn.
  case_bool_decide as Hv.
  - subst v. intros [= <-]. apply split_verb_join in E as [H1 H2]; [|apply split_on_nonempty].
    rewrite join_split in H2. split; [done|]. destruct H2 as [->| ->]; auto.
  - destruct (colon_in_id G); [|done]. intros [= <-]. split; [apply split_on_nonempty|]. left. by rewrite join_split.
Qed.

(** The source id in a read path *)
Lemma served_read G path kvs r : serve G path kvs = AskRead r ->
  exists id, request_read G id kvs = Some r /\
    (path = "/api/v1/read" /\ id = "" \/ path = "/api/v1/read:" /\ id = "" \/
     path = append "/api/v1/read/" id \/ path = append "/api/v1/read/" (append id ":")).
Proof.
  unfold serve. destruct (negb _); [done|]. case_bool_decide; [done|].
  destruct (components G path) as [cs|] eqn:E; [|done]. apply components_path in E as [_ Hpath].
  unfold route. destruct cs as [|a [|w rest]]; [done|done|].
  case_bool_decide as Ha; [|done]. case_bool_decide as Hv; [|done]. subst a w. cbn [andb].
  destruct rest as [|w rest]; [done|]. case_bool_decide as Hw.
  - subst w. unfold or_invalid. destruct (request_read _ _ _) as [r'|] eqn:Er; [|done]. intros [= ->].
    exists (join "/" rest). split; [done|]. destruct rest as [|x rest].
    + destruct Hpath as [->| ->]; naive_solver.
    + rewrite !(join_cons "/" _ (_ :: _)) in Hpath by done. destruct Hpath as [->| ->]; auto.
  - destruct rest; [|done]. unfold or_invalid.
    case_bool_decide; [by destruct (request_meta _ _)|].
    case_bool_decide; [by destruct (request_instant _ _)|].
    case_bool_decide; [by destruct (request_range _ _)|done].
Qed.
Lemma served_path_id G id kvs r : (forall x, id <> append x ":") ->
  serve G (append "/api/v1/read/" id) kvs = AskRead r -> request_read G id kvs = Some r.
Proof.
  intros Hc H. apply served_read in H as (id' & Hr & [[H _]|[[H _]|[H|H]]]).
  - done.
  - done.
  - by apply append_inj_l in H as ->.
  - apply append_inj_l in H. by destruct (Hc id').
Qed.
(** Query paths lead to queries. *)
Lemma served_query G kvs o : serve G "/api/v1/query" kvs = o -> o = or_invalid AskInstant (request_instant G kvs).
Proof. intros <-. unfold serve, components. reflexivity. Qed.
Lemma served_range G kvs o : serve G "/api/v1/query_range" kvs = o -> o = or_invalid AskRange (request_range G kvs).
Proof. intros <-. unfold serve, components. reflexivity. Qed.

(** ** Paths that can carry a source id *)
Definition component (w : string) : Prop := w <> "" /\ w <> "." /\ w <> ".." /\ has_char "/" w = false.
Lemma no_char c w : (forall a b, w <> append a (append (String c "") b)) -> has_char c w = false.
Proof.
  intros H. destruct (has_char c w) eqn:E; [|done]. apply has_char_iff in E as (a & b & ->). by destruct (H a b).
Qed.
Lemma carried_split id : carried id -> exists ws w, split "/" id = ws ++ [w] /\ Forall component (ws ++ [w]) /\ has_char ":" w = false.
Proof.
  induction 1 as [w H1 H2 H3 H4 H5|w s H1 H2 H3 H4 Hs IH].
  - apply no_char in H4. apply no_char in H5. exists [], w. split; [by apply split_on_none|]. split; [|done].
    constructor; [done|constructor].
  - apply no_char in H4. destruct IH as (ws & w' & E & Hall & Hc). exists (w :: ws), w'.
    split; [|split; [|done]].
    + unfold split in *. change (append "/" s) with (String "/" s). rewrite split_on_app; [|done|done]. by rewrite E.
    + constructor; [done|done].
Qed.
Lemma clean_steps ws acc : Forall component ws -> foldl clean_step acc ws = rev ws ++ acc.
Proof.
  intros H. revert acc. induction H as [|w ws (H1 & H2 & H3 & _) Hws IH]; intros acc; [done|]. cbn [foldl rev].
  rewrite IH. unfold clean_step. rewrite !bool_decide_eq_false_2 by done. cbn. by rewrite <-app_assoc.
Qed.
Lemma read_path_split id : split "/" (append "/api/v1/read/" id) = "" :: "api" :: "v1" :: "read" :: split "/" id.
Proof.
  unfold split. rewrite <-(split_on_app (ceqb "/") "read" "/" id) by done.
  rewrite <-(split_on_app (ceqb "/") "v1" "/") by done. rewrite <-(split_on_app (ceqb "/") "api" "/") by done.
  rewrite <-(split_on_app (ceqb "/") "" "/") by done. done.
Qed.
Lemma read_path_clean id : carried id -> http_clean (append "/api/v1/read/" id) = append "/api/v1/read/" id.
Proof.
  intros Hc. destruct (carried_split id Hc) as (ws & w & E & Hall & _).
  assert (Hclean : path_clean (append "/api/v1/read/" id) = append "/api/v1/read/" id).
  { unfold path_clean. rewrite read_path_split, E. cbn [foldl].
    change (clean_step (clean_step (clean_step (clean_step [] "") "api") "v1") "read") with ["read"; "v1"; "api"].
    rewrite clean_steps by done. rewrite rev_app_distr, rev_involutive. cbn [rev app].
    change (append "/api/v1/read/" id) with (String "/" (append "api/v1/read/" id)).
    assert (Hne : ws ++ [w] <> []) by (by destruct ws).
    rewrite !join_cons; [|done..]. rewrite <-E. rewrite join_split. done. }
  change (append "/api/v1/read/" id) with (String "/" (append "api/v1/read/" id)) in Hclean |- *.
  assert (Hh : forall p, http_clean (String "/" p) = let np := path_clean (String "/" p) in
    if ends_in_slash (String "/" p) && negb (bool_decide (np = "/")) then append np "/" else np) by done.
  rewrite Hh, Hclean. cbv zeta.
  assert (He : ends_in_slash (String "/" (append "api/v1/read/" id)) = false).
  { unfold ends_in_slash. destruct (cut_last "/" _) as [[a [|]]|] eqn:Ec; [|done|done]. exfalso.
    apply cut_last_some in Ec as [Ec _].
    assert (Es : split "/" (append "/api/v1/read/" id) = split "/" a ++ [""]).
    { change (append "/api/v1/read/" id) with (String "/" (append "api/v1/read/" id)). rewrite Ec. clear.
      unfold split. induction a as [|x a IH]; [done|]. cbn [append split_on]. destruct (ceqb "/" x); [by rewrite IH|].
      rewrite IH. destruct (split_on (ceqb "/") a) as [|y ys] eqn:Ey; [by destruct (split_on_nonempty (ceqb "/") a)|]. done. }
    rewrite read_path_split, E in Es.
    change ("" :: "api" :: "v1" :: "read" :: ws ++ [w]) with (("" :: "api" :: "v1" :: "read" :: ws) ++ [w]) in Es.
    apply app_inj_tail in Es as [_ ->].
    apply Forall_app in Hall as [_ Hw]. apply Forall_cons in Hw as [(Hw & _) _]. done. }
  rewrite He. done.
Qed.
Lemma split_verb_last ws w : has_char ":" w = false -> split_verb (ws ++ [w]) = Some (ws ++ [w], "").
Proof.
  intros H. induction ws as [|x ws IH].
  - cbn. apply cut_last_none in H. by rewrite H.
  - change ((x :: ws) ++ [w]) with (x :: (ws ++ [w])). rewrite split_verb_cons by (by destruct ws).
    rewrite IH. done.
Qed.
Lemma serve_carried G id kvs : carried id ->
  serve G (append "/api/v1/read/" id) kvs = or_invalid AskRead (request_read G id kvs).
Proof.
  intros Hc. unfold serve. rewrite read_path_clean by done. rewrite bool_decide_eq_true_2 by done. cbn [negb].
  rewrite bool_decide_eq_false_2 by done. destruct (carried_split id Hc) as (ws & w & E & _ & Hw).
  assert (Hcs : components G (append "/api/v1/read/" id) = Some ("api" :: "v1" :: "read" :: split "/" id)).
  { change (append "/api/v1/read/" id) with (String "/" (append "api/v1/read/" id)).
    assert (Hh : forall p, components G (String "/" p) = '(cs, v) ← split_verb (split "/" p);
      if bool_decide (v = "") then Some cs else if colon_in_id G then Some (split "/" p) else None) by done.
    rewrite Hh.
    assert (Es : split "/" (append "api/v1/read/" id) = "api" :: "v1" :: "read" :: split "/" id).
    { unfold split. rewrite <-(split_on_app (ceqb "/") "read" "/" id) by done.
      rewrite <-(split_on_app (ceqb "/") "v1" "/") by done. rewrite <-(split_on_app (ceqb "/") "api" "/") by done. done. }
    rewrite Es, E. change ("api" :: "v1" :: "read" :: ws ++ [w]) with (("api" :: "v1" :: "read" :: ws) ++ [w]).
    rewrite split_verb_last by done. cbn. done. }
  rewrite Hcs. unfold route. rewrite !bool_decide_eq_true_2 by done. cbn [andb]. by rewrite join_split.
Qed.

(** ** The client's options *)
Lemma foldl_snoc {A B} (f : A -> B -> A) a l x : foldl f a (l ++ [x]) = f (foldl f a l) x.
Proof. by rewrite foldl_app. Qed.
Lemma add_types ts : forall (v : values) k,
  foldl (fun v t => vadd "envelope_types" (type_string t) v) v ts !! k =
    if decide (k = "envelope_types")
    then match ts with [] => v !! k | _ => Some (default [] (v !! k) ++ (type_string <$> ts)) end
    else v !! k.
Proof.
  induction ts as [|t ts IH]; intros v k; cbn [foldl]; [by destruct (decide _)|]. rewrite IH. unfold vadd.
  destruct (decide (k = "envelope_types")) as [->|Hne].
  - rewrite lookup_insert. cbn [from_option id]. destruct ts; [done|]. rewrite <-app_assoc. done.
  - by rewrite lookup_insert_ne.
Qed.
Lemma option_lookup (v : values) opts k :
  foldl apply_option v opts !! k =
    if decide (k = "end_time") then
      match last (omap (fun o => match o with WithEndTime t => Some t | _ => None end) opts) with
      | Some t => Some [format_int t] | None => v !! k end
    else if decide (k = "limit") then
      match last (omap (fun o => match o with WithLimit t => Some t | _ => None end) opts) with
      | Some t => Some [format_int t] | None => v !! k end
    else if decide (k = "name_filter") then
      match last (omap (fun o => match o with WithNameFilter t => Some t | _ => None end) opts) with
      | Some t => Some [t] | None => v !! k end
    else if decide (k = "descending") then
      if existsb (fun o => match o with WithDescending => true | _ => false end) opts then Some ["true"] else v !! k
    else if decide (k = "envelope_types") then
      match all_types opts with [] => v !! k | ts => Some (default [] (v !! k) ++ (type_string <$> ts)) end
    else v !! k.
Proof.
  induction opts as [|o opts IH] using rev_ind.
  { cbn. repeat destruct (decide _); done. }
  rewrite foldl_snoc. rewrite !omap_app, existsb_app. unfold all_types. rewrite omap_app, concat_app. fold (all_types opts).
  destruct o as [t|n|ts| |s]; cbn [omap list_omap existsb apply_option]; rewrite ?app_nil_r, ?orb_false_r, ?last_snoc;
    cbn [concat]; rewrite ?app_nil_r.
  - unfold vset. destruct (decide (k = "end_time")) as [->|Hne]; [by rewrite lookup_insert|]. by rewrite lookup_insert_ne.
  - unfold vset. destruct (decide (k = "limit")) as [->|Hne].
    + rewrite lookup_insert. by rewrite decide_False.
    + by rewrite lookup_insert_ne.
  - rewrite add_types. destruct (decide (k = "envelope_types")) as [->|Hne].
    + rewrite IH. rewrite !decide_False by done. destruct ts as [|t ts].
      * rewrite app_nil_r. done.
      * destruct (all_types opts) as [|t' ts'].
        -- cbn [app]. done.
        -- cbn [app from_option id]. rewrite <-app_assoc. rewrite <-fmap_app. done.
    + rewrite IH. repeat (destruct (decide _); try done).
  - unfold vset. destruct (decide (k = "descending")) as [->|Hne].
    + rewrite lookup_insert. rewrite !decide_False by done. by rewrite orb_true_r.
    + rewrite lookup_insert_ne by done. rewrite IH. repeat (destruct (decide _); try done).
  - unfold vset. destruct (decide (k = "name_filter")) as [->|Hne].
    + rewrite lookup_insert. by rewrite !decide_False.
    + by rewrite lookup_insert_ne.
Qed.

Lemma type_value_string t : (forall n, t <> T_UNKNOWN n) -> type_value (type_string t) = Some t.
Proof. destruct t; intros H; try reflexivity. by destruct (H n). Qed.
Lemma parse_type_string t : (forall n, t <> T_UNKNOWN n) -> parse_type (type_string t) = Some t.
Proof. intros H. unfold parse_type. by rewrite type_value_string. Qed.
Lemma all_types_known opts : Forall known_types opts -> Forall (fun t => forall n, t <> T_UNKNOWN n) (all_types opts).
Proof.
  induction 1 as [|o opts Ho Hos IH]; [constructor|]. unfold all_types in *.
  destruct o; cbn [omap list_omap concat]; try exact IH. apply Forall_app. done.
Qed.
Lemma last_omap_elem {A B} (f : A -> option B) l x : last (omap f l) = Some x -> exists a, a ∈ l /\ f a = Some x.
Proof. intros H. apply last_Some_elem_of in H. by apply elem_of_list_omap in H. Qed.

(** Over gRPC *)
Lemma grpc_asked source start opts : Forall option_in64 opts -> Forall known_types opts ->
  grpc_read source start opts = asked source start opts.
Proof.
  intros H64 Hk. unfold grpc_read, asked. rewrite !option_lookup.
  rewrite !lookup_empty.
  repeat match goal with |- context [decide (?a = ?b)] => first [rewrite (decide_True (P := a = b)) by done | rewrite (decide_False (P := a = b)) by done] end.
  f_equal.
  - unfold last_end. destruct (last _) as [t|] eqn:E; [|done]. cbn. apply last_omap_elem in E as (o & Ho & Eo).
    rewrite Forall_forall in H64. specialize (H64 o Ho). destruct o; simplify_eq. by rewrite parse_format_int.
  - unfold last_limit. destruct (last _) as [t|] eqn:E; [|done]. cbn. apply last_omap_elem in E as (o & Ho & Eo).
    rewrite Forall_forall in H64. specialize (H64 o Ho). destruct o; simplify_eq. by rewrite parse_format_int.
  - apply all_types_known in Hk. destruct (all_types opts) as [|t ts]; [done|]. cbn [from_option id app].
    rewrite <-list_fmap_compose. rewrite <-(list_fmap_id (t :: ts)) at 2. apply Forall_fmap_ext_1.
    eapply Forall_impl; [exact Hk|]. intros t' Ht. cbn. by rewrite type_value_string.
  - destruct (existsb _ _); [by apply bool_decide_eq_true_2|]. apply bool_decide_eq_false_2. by intros [].
  - unfold last_name. by destruct (last _).
Qed.

(** Over HTTP *)
Definition client_values (start : Z) (opts : list option_) : values :=
  foldl apply_option (vset "start_time" (format_int start) ∅) opts.
Lemma client_values_lookup start opts k : is_Some (client_values start opts !! k) -> k ∈ documented.
Proof.
  unfold client_values. rewrite option_lookup. unfold documented.
  repeat (destruct (decide _) as [->|]; [set_solver|]). unfold vset. intros H.
  destruct (decide (k = "start_time")) as [->|Hne]; [set_solver|]. rewrite lookup_insert_ne, lookup_empty in H by done.
  by destruct H.
Qed.
Lemma client_values_nonempty start opts : map_Forall (fun _ xs => xs <> []) (client_values start opts).
Proof.
  unfold client_values. intros k xs. rewrite option_lookup.
  assert (Hv : forall k xs, (vset "start_time" (format_int start) ∅ : values) !! k = Some xs -> xs <> []).
  { intros k' xs'. unfold vset. rewrite lookup_insert_Some, lookup_empty. naive_solver. }
  destruct (decide _) as [->|_]; [destruct (last _); [by intros [= <-]|apply Hv]|].
  destruct (decide _) as [->|_]; [destruct (last _); [by intros [= <-]|apply Hv]|].
  destruct (decide _) as [->|_]; [destruct (last _); [by intros [= <-]|apply Hv]|].
  destruct (decide _) as [->|_]; [destruct (existsb _ _); [by intros [= <-]|apply Hv]|].
  destruct (decide _) as [->|_]; [|apply Hv].
  destruct (all_types opts); [apply Hv|]. intros [= <-]. cbn. by destruct (default _ _).
Qed.
Lemma client_decoded source start opts : in64 start -> Forall option_in64 opts -> Forall known_types opts ->
  decoded (client_values start opts) source (asked source start opts).
Proof.
  intros Hs H64 Hk. unfold decoded, on_first, on_all, client_values. rewrite !option_lookup. unfold vset.
  rewrite !lookup_insert. rewrite !lookup_insert_ne by done. rewrite !lookup_empty.
  repeat match goal with |- context [decide (?a = ?b)] => first [rewrite (decide_True (P := a = b)) by done | rewrite (decide_False (P := a = b)) by done] end.
  unfold asked. cbn [rr_source rr_start rr_end rr_limit rr_types rr_desc rr_name].
  split; [done|]. split; [do 2 eexists; split; [done|by apply parse_int0_format]|].
  split; [|split; [|split; [|split]]].
  - unfold last_end. destruct (last _) as [t|] eqn:E; [|done]. apply last_omap_elem in E as (o & Ho & Eo).
    rewrite Forall_forall in H64. specialize (H64 o Ho). destruct o; simplify_eq.
    do 2 eexists. split; [done|]. by apply parse_int0_format.
  - unfold last_limit. destruct (last _) as [t|] eqn:E; [|done]. apply last_omap_elem in E as (o & Ho & Eo).
    rewrite Forall_forall in H64. specialize (H64 o Ho). destruct o; simplify_eq.
    do 2 eexists. split; [done|]. by apply parse_int0_format.
  - apply all_types_known in Hk. destruct (all_types opts) as [|t ts]; [done|]. cbn [from_option id app].
    apply mapM_Some. revert Hk. generalize (t :: ts). clear. induction 1 as [|t ts Ht Hts IH]; cbn; constructor; [|done].
    by apply parse_type_string.
  - destruct (existsb _ _); [|done]. by exists "true", [].
  - unfold last_name. destruct (last _); [|done]. by do 2 eexists.
Qed.
Lemma http_asked G source start opts p q o :
  in64 start -> Forall option_in64 opts -> Forall known_types opts -> carried source ->
  http_read "/api/v1" source start opts = (p, q) -> serves G p q o -> o = AskRead (asked source start opts).
Proof.
  intros Hs H64 Hk Hc [= <- <-] (kvs & Hp & <-). change (serve G _ kvs) with (serve G (append "/api/v1/read/" source) kvs).
  fold (client_values start opts) in Hp. rewrite parse_encode in Hp by apply client_values_nonempty.
  rewrite serve_carried by done. erewrite request_read_some; [done|exact Hp| |by apply client_decoded].
  intros k. apply client_values_lookup.
Qed.
