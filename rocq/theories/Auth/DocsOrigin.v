(** Where what is read from a document comes from, and which documents are read at all. *)
From Coq Require Import Ascii String.
From stdpp Require Import prelude gmap strings list.
From Verif.Base Require Import Str Url Dec.
From Verif.Marshaler Require Import Model.
From Verif.Json Require Import Text.
From Verif.Auth Require Import Model System Spec Local Docs SpecDocs DocsProofs.
Open Scope string_scope.
Open Scope list_scope.
Open Scope Z_scope.

(** ** Origins *)
Lemma members_keep {T} (field : string -> T -> json -> option T) (P : T -> Prop) ms :
  (forall k j old new, (k, j) ∈ ms -> P old -> field k old j = Some new -> P new) ->
  forall old new, P old -> dec_members field old ms = Some new -> P new.
Proof.
  induction ms as [|[k j] ms IH]; intros H old new Ho Hd; cbn in Hd; [by injection Hd as <-|].
  destruct (field k old j) as [x|] eqn:E; cbn in Hd; [|done]. eapply IH; [|eapply H; [left|exact Ho|exact E]|exact Hd].
  intros k' j' o n Hin. apply H. by right.
Qed.
Definition all_in {T} (P : T -> Prop) (l : slice T) : Prop := Forall P (sl_elems l ++ sl_stale l).
Lemma elems_keep {T} (zero : T) elem (P : T -> Prop) js : P zero ->
  (forall j old new, j ∈ js -> P old -> elem old j = Some new -> P new) ->
  forall olds l, Forall P olds -> dec_elems zero elem olds js = Some l -> all_in P l.
Proof.
  intros Hz. induction js as [|j js IH]; intros H olds l Ho Hd; cbn in Hd; [by injection Hd as <-|].
  destruct (elem (default zero (head olds)) j) as [x|] eqn:E; cbn in Hd; [|done].
  destruct (dec_elems zero elem (tail olds) js) as [l'|] eqn:El; cbn in Hd; [|done]. injection Hd as <-.
  unfold all_in. cbn [sl_elems sl_stale app]. constructor.
  - eapply H; [left| |exact E]. destruct olds as [|o olds]; [done|]. by inversion Ho.
  - eapply IH; [intros j' o n Hin; apply H; by right| |exact El]. destruct olds as [|o olds]; [done|]. by inversion Ho.
Qed.
Lemma slice_keep {T} (zero : T) elem (P : T -> Prop) old j l : P zero -> all_in P old ->
  (forall js x o new, j = JArr js -> x ∈ js -> P o -> elem o x = Some new -> P new) ->
  dec_slice zero elem old j = Some l -> all_in P l.
Proof.
  intros Hz Ho H Hd. destruct j as [| | | |js|]; try done; cbn in Hd; [by injection Hd as <-; constructor|].
  destruct js as [|x js]; [by injection Hd as <-; constructor|].
  eapply (elems_keep zero elem P (x :: js)); [done| |exact Ho|exact Hd]. intros x' o new Hin. by eapply H.
Qed.
Lemma all_in_elems {T} (P : T -> Prop) l x : all_in P l -> x ∈ sl_elems l -> P x.
Proof. intros H Hx. unfold all_in in H. rewrite Forall_app, Forall_forall in H. by apply H. Qed.
Lemma struct_obj {T} (field : string -> T -> json -> option T) old j new : dec_struct field old j = Some new ->
  (j = JNull /\ new = old) \/ exists ms, j = JObj ms /\ dec_members field old ms = Some new.
Proof. destruct j; cbn; intros H; try done; [left; by injection H as <-|right; eauto]. Qed.
Lemma dec_string_some old j new : dec_string old j = Some new -> (j = JNull /\ new = old) \/ j = JStr new.
Proof. destruct j; cbn; intros H; try done; injection H as <-; auto. Qed.

Lemma scopes_origin text c s : read_claims text = Some c -> s ∈ cl_scopes c ->
  s = "" \/ exists j, read_first text = Some j /\ array_has "scope" (JStr s) j.
Proof.
  unfold read_claims. destruct (read_first text) as [j|] eqn:Er; cbn; [|done].
  destruct (dec_struct token_field _ j) as [d|] eqn:E; cbn; [|done]. intros [= <-]. cbn [cl_scopes].
  apply struct_obj in E as [[-> ->]|(ms & -> & E)]; [cbn; intros H; by apply elem_of_nil in H|].
  set (P := fun s => s = "" \/ exists j, Some (JObj ms) = Some j /\ array_has "scope" (JStr s) j). intros Hs. revert s Hs. change (forall s, s ∈ sl_elems (td_scope d) -> P s).
  intros s. apply all_in_elems. revert E. apply (members_keep token_field (fun d => all_in P (td_scope d))); [|by constructor].
  intros k j old new Hin Ho. unfold token_field. intros H. field_cases.
  - opt H. done.
  - opt H. cbn [td_scope]. eapply slice_keep; [by left|exact Ho| |exact E]. intros js x o new -> Hx Hp Hd.
    apply dec_string_some in Hd as [[-> ->]| ->]; [done|]. right. eexists. split; [done|]. exists ms, k, js. split; [done|]. split; [done|]. split; [by apply fold_iff|done].
  - opt H. done.
  - by injection H as <-.
Qed.
Lemma exp_origin text c : read_claims text = Some c -> cl_exp c <> 0 ->
  exists j t, read_first text = Some j /\ object_has "exp" (JNum t) j /\ seconds_of t = Some (cl_exp c).
Proof.
  unfold read_claims. destruct (read_first text) as [j|] eqn:Er; cbn; [|done].
  destruct (dec_struct token_field _ j) as [d|] eqn:E; cbn; [|done]. intros [= <-]. cbn [cl_exp].
  apply struct_obj in E as [[-> ->]|(ms & -> & E)]; [done|].
  assert (H : td_exp d = 0 \/ exists t, object_has "exp" (JNum t) (JObj ms) /\ seconds_of t = Some (td_exp d)).
  { revert E. apply (members_keep token_field (fun d => td_exp d = 0 \/ exists t, object_has "exp" (JNum t) (JObj ms) /\ seconds_of t = Some (td_exp d))); [|by left].
    intros k j old new Hin Ho. unfold token_field. intros H. field_cases.
    - opt H. done.
    - opt H. done.
    - destruct (dec_seconds (td_exp old) j) as [z|] eqn:Ez; cbn [mbind option_bind] in H; [|done]. injection H as <-. cbn [td_exp].
      destruct j; try done; cbn in Ez; [by injection Ez as <-|]. right. exists text0. split; [|done]. exists ms, k. split; [done|]. split; [done|]. by apply fold_iff.
    - by injection H as <-. }
  intros Hn. destruct H as [H|(t & H1 & H2)]; [done|]. by exists (JObj ms), t.
Qed.
Lemma guid_origin text rs href r : read_page text = Some (rs, href) -> r ∈ rs ->
  exists j, read_first text = Some j /\ listed_text "resources" "guid" j (rs_guid r) /\ listed_text "resources" "name" j (rs_name r).
Proof.
  unfold read_page. destruct (read_first text) as [j|] eqn:Er; cbn; [|done].
  destruct (dec_struct page_field _ j) as [d|] eqn:E; cbn; [|done]. intros [= <- <-].
  apply struct_obj in E as [[-> ->]|(ms & -> & E)]; [cbn; intros H; by apply elem_of_nil in H|].
  intros Hr. exists (JObj ms). split; [done|]. revert r Hr.
  set (P := fun r => listed_text "resources" "guid" (JObj ms) (rs_guid r) /\ listed_text "resources" "name" (JObj ms) (rs_name r)).
  change (forall r, r ∈ sl_elems d.2 -> P r). intros r. apply all_in_elems. revert E.
  apply (members_keep page_field (fun d => all_in P d.2)); [|by constructor].
  intros k j old new Hin Ho. unfold page_field. intros H. field_cases.
  - opt H. done.
  - opt H. cbn [snd]. eapply (slice_keep (Resource "" "")); [by unfold P, listed_text; cbn; auto|exact Ho| |exact E]. intros js x o new -> Hx Hp Hd.
    apply struct_obj in Hd as [[-> ->]|(ms' & -> & Hd)]; [done|]. revert Hd. apply members_keep; [|done].
    assert (Ha : array_has "resources" (JObj ms') (JObj ms)).
    { exists ms, k, js. split; [done|]. split; [done|]. split; [by apply fold_iff|done]. }
    intros k' j' o' n' Hin' [Hp1 Hp2] H'. unfold resource_field in H'. field_cases.
    + opt H'. split; [|done]. cbn [rs_guid]. apply dec_string_some in E0 as [[-> ->]| ->]; [done|].
      right. exists (JObj ms'). split; [done|]. exists ms', k'. split; [done|]. split; [done|]. by apply fold_iff.
    + opt H'. split; [done|]. cbn [rs_name]. apply dec_string_some in E0 as [[-> ->]| ->]; [done|].
      right. exists (JObj ms'). split; [done|]. exists ms', k'. split; [done|]. split; [done|]. by apply fold_iff.
    + by injection H' as <-.
  - by injection H as <-.
Qed.
Lemma key_origin text ks k : read_keys text = Some ks -> k ∈ ks ->
  exists j, read_first text = Some j /\ listed_text "keys" "kid" j k.1 /\ listed_text "keys" "value" j k.2.
Proof.
  unfold read_keys. destruct (read_first text) as [j|] eqn:Er; cbn; [|done].
  destruct (dec_struct keys_field _ j) as [d|] eqn:E; cbn; [|done]. intros [= <-].
  apply struct_obj in E as [[-> ->]|(ms & -> & E)]; [cbn; intros H; by apply elem_of_nil in H|].
  intros Hr. exists (JObj ms). split; [done|]. revert k Hr.
  set (P := fun k : string * string => listed_text "keys" "kid" (JObj ms) k.1 /\ listed_text "keys" "value" (JObj ms) k.2).
  change (forall k, k ∈ sl_elems d -> P k). intros r. apply all_in_elems. revert E.
  apply (members_keep keys_field (all_in P)); [|by constructor].
  intros k j old new Hin Ho. unfold keys_field. intros H. field_cases.
  - eapply (slice_keep ("", "")); [by unfold P, listed_text; cbn; auto|exact Ho| |exact H]. intros js x o new' -> Hx Hp Hd.
    apply struct_obj in Hd as [[-> ->]|(ms' & -> & Hd)]; [done|]. revert Hd. apply members_keep; [|done].
    assert (Ha : array_has "keys" (JObj ms') (JObj ms)).
    { exists ms, k, js. split; [done|]. split; [done|]. split; [by apply fold_iff|done]. }
    intros k' j' o' n' Hin' [Hp1 Hp2] H'. unfold key_field in H'. field_cases.
    + opt H'. split; [|done]. cbn [fst]. apply dec_string_some in E as [[-> ->]| ->]; [done|].
      right. exists (JObj ms'). split; [done|]. exists ms', k'. split; [done|]. split; [done|]. by apply fold_iff.
    + opt H'. split; [done|]. cbn [snd]. apply dec_string_some in E as [[-> ->]| ->]; [done|].
      right. exists (JObj ms'). split; [done|]. exists ms', k'. split; [done|]. split; [done|]. by apply fold_iff.
    + by injection H' as <-.
  - by injection H as <-.
Qed.

(** ** Kinds *)
Lemma members_each {T} (field : string -> T -> json -> option T) ms : forall old new k j,
  dec_members field old ms = Some new -> (k, j) ∈ ms -> exists o n, field k o j = Some n.
Proof.
  induction ms as [|[k' j'] ms IH]; intros old new k j Hd Hin; [by apply elem_of_nil in Hin|]. cbn in Hd.
  destruct (field k' old j') as [x|] eqn:E; cbn in Hd; [|done].
  apply elem_of_cons in Hin as [[= -> ->]|Hin]; [eauto|]. by eapply IH.
Qed.
Lemma elems_each {T} (zero : T) elem js : forall olds l j, dec_elems zero elem olds js = Some l -> j ∈ js ->
  exists o n, elem o j = Some n.
Proof.
  induction js as [|j' js IH]; intros olds l j Hd Hin; [by apply elem_of_nil in Hin|]. cbn in Hd.
  destruct (elem (default zero (head olds)) j') as [x|] eqn:E; cbn in Hd; [|done].
  destruct (dec_elems zero elem (tail olds) js) as [l'|] eqn:El; cbn in Hd; [|done].
  apply elem_of_cons in Hin as [->|Hin]; [eauto|]. by eapply IH.
Qed.
Lemma string_kind old j new : dec_string old j = Some new -> text_like j.
Proof. intros H. apply dec_string_some in H as [[-> _]| ->]; [by left|right; eauto]. Qed.
Lemma seconds_kind old j new : dec_seconds old j = Some new -> number_like j.
Proof. destruct j; cbn; intros H; try done; [by left|right; eauto]. Qed.
Lemma slice_kind {T} (zero : T) elem (K : json -> Prop) old j new : (forall o j n, elem o j = Some n -> K j) ->
  dec_slice zero elem old j = Some new -> list_like K j.
Proof.
  intros H Hd. destruct j as [| | | |js|]; try done; [by left|]. right. exists js. split; [done|].
  destruct js as [|x js]; [done|]. cbn [dec_slice] in Hd. apply Forall_forall. intros y Hy.
  destruct (elems_each _ _ _ _ _ _ Hd Hy) as (o & n & E). by eapply H.
Qed.
Lemma struct_kind {T} (field : string -> T -> json -> option T) mem old j new :
  (forall name (K : json -> Prop) k o x n, (name, K) ∈ mem -> fold_eq name k = true -> field k o x = Some n -> K x) ->
  dec_struct field old j = Some new -> object_like mem j.
Proof.
  intros H Hd. apply struct_obj in Hd as [[-> _]|(ms & -> & Hd)]; [by left|]. right. exists ms. split; [done|].
  intros name K key x Hm Hin Hg. destruct (members_each _ _ _ _ _ _ Hd Hin) as (o & n & E). apply fold_iff in Hg. by eapply H.
Qed.
Ltac kinds Hm := repeat (apply elem_of_cons in Hm as [[= -> ->]|Hm]); [..|by apply elem_of_nil in Hm].
Lemma keys_kind_ok text ks j : read_keys text = Some ks -> read_first text = Some j -> keys_like j.
Proof.
  unfold read_keys. intros H Hr. rewrite Hr in H. cbn in H. destruct (dec_struct keys_field _ j) as [d|] eqn:E; [|done].
  revert E. apply struct_kind. intros name K k o x n Hm Hf Hx. kinds Hm. unfold keys_field in Hx. rewrite Hf in Hx.
  revert Hx. apply slice_kind. intros o' j' n'. apply struct_kind. clear. intros name K k o x n Hm Hf Hx. unfold key_field in Hx. kinds Hm.
  - rewrite Hf in Hx. opt Hx. by eapply string_kind.
  - rewrite (fold_apart "value" "kid" k Hf) in Hx by by vm_compute. rewrite Hf in Hx. opt Hx. by eapply string_kind.
Qed.
Lemma claims_kind_ok text c j : read_claims text = Some c -> read_first text = Some j -> claims_like j.
Proof.
  unfold read_claims. intros H Hr. rewrite Hr in H. cbn in H. destruct (dec_struct token_field _ j) as [d|] eqn:E; [|done].
  revert E. apply struct_kind. clear. intros name K k o x n Hm Hf Hx. unfold token_field in Hx. kinds Hm.
  - rewrite Hf in Hx. opt Hx. by eapply string_kind.
  - rewrite (fold_apart "scope" "value" k Hf) in Hx by by vm_compute. rewrite Hf in Hx. opt Hx.
    eapply slice_kind; [|exact E]. intros o' j' n'. apply string_kind.
  - rewrite (fold_apart "exp" "value" k Hf), (fold_apart "exp" "scope" k Hf) in Hx by by vm_compute. rewrite Hf in Hx. opt Hx. by eapply seconds_kind.
Qed.
Lemma page_kind_ok text p j : read_page text = Some p -> read_first text = Some j -> page_like j.
Proof.
  unfold read_page. intros H Hr. rewrite Hr in H. cbn in H. destruct (dec_struct page_field _ j) as [d|] eqn:E; [|done].
  revert E. apply struct_kind. clear. intros name K k o x n Hm Hf Hx. unfold page_field in Hx. kinds Hm.
  - rewrite Hf in Hx. opt Hx. revert E. apply struct_kind. clear. intros name K k o x n Hm Hf Hx. unfold pagination_field in Hx. kinds Hm.
    rewrite Hf in Hx. revert Hx. apply struct_kind. clear. intros name K k o x n Hm Hf Hx. unfold next_field in Hx. kinds Hm.
    rewrite Hf in Hx. by eapply string_kind.
  - rewrite (fold_apart "resources" "pagination" k Hf) in Hx by by vm_compute. rewrite Hf in Hx. opt Hx.
    eapply slice_kind; [|exact E]. intros o' j' n'. apply struct_kind. clear. intros name K k o x n Hm Hf Hx. unfold resource_field in Hx. kinds Hm.
    + rewrite Hf in Hx. opt Hx. by eapply string_kind.
    + rewrite (fold_apart "name" "guid" k Hf) in Hx by by vm_compute. rewrite Hf in Hx. opt Hx. by eapply string_kind.
Qed.
