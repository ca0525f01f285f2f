(** Proofs about the documents of UAA and CAPI. *)
From Coq Require Import Ascii String.
From stdpp Require Import prelude gmap strings list.
From Verif.Base Require Import Str Url Dec.
From Verif.Marshaler Require Import Model.
From Verif.Json Require Import Text.
From Verif.Auth Require Import Model System Spec Local Docs SpecDocs.
Open Scope string_scope.
Open Scope list_scope.
Open Scope Z_scope.

(** ** Names *)
Lemma ceqb_eq a b : ceqb a b = true <-> a = b.
Proof. unfold ceqb. apply bool_decide_eq_true. Qed.
Lemma byte_is b n : (n < 256)%nat -> (nat_of_ascii b =? n)%nat = true <-> b = ascii_of_nat n.
Proof.
  intros Hn. rewrite Nat.eqb_eq. split.
  - intros <-. by rewrite ascii_nat_embedding.
  - intros ->. by apply nat_ascii_embedding.
Qed.
Lemma lower_of_k a : ceqb (lower a) "k" = true <-> same_letter a "k".
Proof. rewrite ceqb_eq, same_letter_lower. done. Qed.
Lemma lower_of_s a : ceqb (lower a) "s" = true <-> same_letter a "s".
Proof. rewrite ceqb_eq, same_letter_lower. done. Qed.
Lemma fold_goes name : forall key, fold_eq name key = true -> goes_by name key.
Proof.
  induction name as [|a name IH]; intros [|b key] H; cbn [fold_eq] in H; try done; [constructor|].
  destruct (nat_of_ascii b <? 128)%nat eqn:Eb.
  - apply andb_prop in H as [H1 H2]. apply ceqb_eq in H1. apply Nat.ltb_lt in Eb. constructor; [by apply same_letter_lower|done|by apply IH].
  - destruct (ceqb (lower a) "s") eqn:Es.
    + destruct key as [|c key]; [done|]. apply andb_prop in H as [H H2]. apply andb_prop in H as [H0 H1].
      apply (byte_is _ 197) in H0 as ->; [|lia]. apply (byte_is _ 191) in H1 as ->; [|lia].
      apply gb_long_s; [by apply lower_of_s|by apply IH].
    + destruct (ceqb (lower a) "k") eqn:Ek; [|done]. destruct key as [|c [|d key]]; try done.
      apply andb_prop in H as [H H2]. apply andb_prop in H as [H H1]. apply andb_prop in H as [H H0].
      apply (byte_is _ 226) in H as ->; [|lia]. apply (byte_is _ 132) in H0 as ->; [|lia]. apply (byte_is _ 170) in H1 as ->; [|lia].
      apply gb_kelvin; [by apply lower_of_k|by apply IH].
Qed.
Lemma goes_fold name key : goes_by name key -> fold_eq name key = true.
Proof.
  induction 1 as [|a b name key Hs Hb _ IH|a name key Hk _ IH|a name key Hs _ IH]; [done|..]; cbn [fold_eq].
  - apply Nat.ltb_lt in Hb. rewrite Hb, IH. apply same_letter_lower in Hs. rewrite Hs. by rewrite (proj2 (ceqb_eq _ _) eq_refl).
  - replace (nat_of_ascii "226" <? 128)%nat with false by done.
    destruct (ceqb (lower a) "s") eqn:Es.
    { apply ceqb_eq in Es. apply lower_of_k, ceqb_eq in Hk. by rewrite Es in Hk. }
    apply lower_of_k in Hk. rewrite Hk, IH. done.
  - replace (nat_of_ascii "197" <? 128)%nat with false by done. apply lower_of_s in Hs. rewrite Hs, IH. done.
Qed.
Lemma fold_iff name key : fold_eq name key = true <-> goes_by name key.
Proof. split; [apply fold_goes|apply goes_fold]. Qed.
Lemma fold_false name key : fold_eq name key = false <-> ~ goes_by name key.
Proof. rewrite <- fold_iff. by destruct (fold_eq name key). Qed.
(** two names that differ at a place where neither has a k or an s, or in length, fold differently *)
Lemma goes_by_self_lower name key : goes_by name key -> forall name', goes_by name' key -> same_letters name name'.
Proof.
  induction 1 as [|a b name key Hs Hb _ IH|a name key Hk _ IH|a name key Hs _ IH]; intros name' H; inversion H; subst.
  all: try by (exfalso; clear -Hb; vm_compute in Hb; lia).
  all: try by (match goal with H : (nat_of_ascii _ < 128)%nat |- _ => exfalso; clear -H; vm_compute in H; lia end).
  - constructor.
  - constructor; [|by apply IH]. apply same_letter_lower. apply same_letter_lower in Hs. rewrite Hs. symmetry. by apply same_letter_lower.
  - constructor; [|by apply IH]. apply same_letter_lower. apply same_letter_lower in Hk. rewrite Hk. symmetry. by apply same_letter_lower.
  - constructor; [|by apply IH]. apply same_letter_lower. apply same_letter_lower in Hs. rewrite Hs. symmetry. by apply same_letter_lower.
Qed.
Fixpoint lowered (s : string) : string := match s with String c s => String (lower c) (lowered s) | EmptyString => "" end.
Lemma same_lowered s t : same_letters s t -> lowered s = lowered t.
Proof. induction 1 as [|a b s t H _ IH]; cbn; [done|]. apply same_letter_lower in H. by rewrite H, IH. Qed.
Lemma names_apart a b key : goes_by a key -> lowered a <> lowered b -> ~ goes_by b key.
Proof. intros Ha Hn Hb. apply Hn. apply same_lowered. by eapply goes_by_self_lower. Qed.
Lemma fold_apart a b key : fold_eq a key = true -> lowered a <> lowered b -> fold_eq b key = false.
Proof. intros Ha Hn. apply fold_false. apply fold_iff in Ha. by eapply names_apart. Qed.

(** ** Members *)
Lemma dec_members_app {T} (field : string -> T -> json -> option T) ms ms' : forall old,
  dec_members field old (ms ++ ms') = new ← dec_members field old ms; dec_members field new ms'.
Proof.
  induction ms as [|[k j] ms IH]; intros old; cbn; [done|]. destruct (field k old j) as [x|]; cbn; [apply IH|done].
Qed.
Lemma members_none {T U} (field : string -> T -> json -> option T) (proj : T -> U) name
    (Hmiss : forall k old j new, fold_eq name k = false -> field k old j = Some new -> proj new = proj old) ms : forall old new,
  none_by name ms -> dec_members field old ms = Some new -> proj new = proj old.
Proof.
  induction ms as [|[k j] ms IH]; intros old new Hn H; cbn in H; [by injection H as <-|].
  destruct (field k old j) as [x|] eqn:E; cbn in H; [|done].
  rewrite (IH x new); [|by intros k' j' Hin; apply (Hn k' j'); right|done].
  eapply Hmiss; [|exact E]. apply fold_false. apply (Hn k j). left.
Qed.
Lemma members_once {T U} (field : string -> T -> json -> option T) (proj : T -> U) name (g : U -> json -> option U)
    (Hhit : forall k old j new, fold_eq name k = true -> field k old j = Some new -> g (proj old) j = Some (proj new))
    (Hmiss : forall k old j new, fold_eq name k = false -> field k old j = Some new -> proj new = proj old) ms old new j :
  once name j ms -> dec_members field old ms = Some new -> g (proj old) j = Some (proj new).
Proof.
  intros (before & key & after & -> & Hk & Hb & Ha) H. rewrite dec_members_app in H.
  destruct (dec_members field old before) as [x|] eqn:E1; cbn in H; [|done].
  destruct (field key x j) as [y|] eqn:E2; cbn in H; [|done].
  eapply members_none in E1; [|exact Hmiss|exact Hb]. eapply members_none in H; [|exact Hmiss|exact Ha].
  apply fold_iff in Hk. eapply Hhit in E2; [|exact Hk]. by rewrite E1, <- H in E2.
Qed.
Lemma members_done {T} (field : string -> T -> json -> option T) ms :
  (forall k j old, (k, j) ∈ ms -> exists new, field k old j = Some new) ->
  forall old, exists new, dec_members field old ms = Some new.
Proof.
  induction ms as [|[k j] ms IH]; intros H old; cbn; [by exists old|].
  destruct (H k j old) as [x E]; [left|]. rewrite E. cbn. apply IH. intros k' j' old' Hin. apply H. by right.
Qed.
Lemma once_only name j ms k j' : once name j ms -> (k, j') ∈ ms -> goes_by name k -> j' = j.
Proof.
  intros (before & key & after & -> & Hk & Hb & Ha) Hin Hg. apply elem_of_app in Hin as [Hin|Hin]; [by apply Hb in Hin|].
  apply elem_of_cons in Hin as [[= -> ->]|Hin]; [done|]. by apply Ha in Hin.
Qed.
Lemma text_kind name ms s k j : text_or_none name ms s -> (k, j) ∈ ms -> goes_by name k -> forall old, exists x, dec_string old j = Some x.
Proof.
  intros [H|[[H|H] _]] Hin Hg old.
  - rewrite (once_only _ _ _ _ _ H Hin Hg). eexists; done.
  - by apply H in Hin.
  - rewrite (once_only _ _ _ _ _ H Hin Hg). eexists; done.
Qed.
Lemma text_value {T} (field : string -> T -> json -> option T) (proj : T -> string) name
    (Hhit : forall k old j new, fold_eq name k = true -> field k old j = Some new -> dec_string (proj old) j = Some (proj new))
    (Hmiss : forall k old j new, fold_eq name k = false -> field k old j = Some new -> proj new = proj old) ms old new s :
  text_or_none name ms s -> dec_members field old ms = Some new -> proj old = "" -> proj new = s.
Proof.
  intros [H|[[H|H] ->]] Hd Ho.
  - eapply members_once in Hd; [|exact Hhit|exact Hmiss|exact H]. cbn in Hd. by injection Hd.
  - eapply members_none in Hd; [|exact Hmiss|exact H]. by rewrite Hd.
  - eapply members_once in Hd; [|exact Hhit|exact Hmiss|exact H]. cbn in Hd. injection Hd as E. by rewrite <- E.
Qed.

(** ** Arrays *)
Lemma dec_elems_fresh {T} (zero : T) elem js xs : Forall2 (fun j x => elem zero j = Some x) js xs ->
  dec_elems zero elem [] js = Some (Slice xs []).
Proof. induction 1 as [|j x js xs H _ IH]; cbn; [done|]. rewrite H. cbn. by rewrite IH. Qed.
Lemma dec_slice_fresh {T} (zero : T) elem js xs : Forall2 (fun j x => elem zero j = Some x) js xs ->
  dec_slice zero elem (Slice [] []) (JArr js) = Some (Slice xs []).
Proof. intros H. destruct H as [|j x js xs H Hs]; [done|]. cbn [dec_slice sl_elems sl_stale app]. apply dec_elems_fresh. by constructor. Qed.
Lemma dec_elems_done {T} (zero : T) elem js : (forall j old, j ∈ js -> exists x, elem old j = Some x) ->
  forall olds, exists l, dec_elems zero elem olds js = Some l.
Proof.
  induction js as [|j js IH]; intros H olds; cbn; [by eexists|].
  destruct (H j (default zero (head olds))) as [x E]; [left|]. rewrite E. cbn.
  destruct (IH (fun j' old Hin => H j' old (elem_of_list_further _ _ _ Hin)) (tail olds)) as [l El]. rewrite El. by eexists.
Qed.
Lemma dec_slice_done {T} (zero : T) elem js old : (forall j old, j ∈ js -> exists x, elem old j = Some x) ->
  exists l, dec_slice zero elem old (JArr js) = Some l.
Proof. intros H. destruct js as [|j js]; [by eexists|]. by apply dec_elems_done. Qed.

(** ** UAA's keys *)
Ltac field_cases :=
  repeat match goal with
  | H : context [if fold_eq ?a ?k then _ else _] |- _ => destruct (fold_eq a k) eqn:?
  | |- context [if fold_eq ?a ?k then _ else _] => destruct (fold_eq a k) eqn:?
  end.
Ltac apart := match goal with
  | H : fold_eq ?a ?k = true, H' : fold_eq ?b ?k = true |- _ =>
      exfalso; apply (fold_apart a b) in H; [congruence|by vm_compute] end.
Ltac opt H := match type of H with
  | (?m ≫= _) = Some _ => let E := fresh "E" in destruct m eqn:E; cbn [mbind option_bind] in H; [injection H as H|done]; subst
  end.
Ltac hit := intros k old j new Hf H; field_cases; try apart; try discriminate; try (by injection H as <-); try (by opt H); try done.

Lemma key_kid_hit k old j new : fold_eq "kid" k = true -> key_field k old j = Some new -> dec_string old.1 j = Some new.1.
Proof. unfold key_field. revert k old j new. hit. Qed.
Lemma key_kid_miss k old j new : fold_eq "kid" k = false -> key_field k old j = Some new -> new.1 = old.1.
Proof. unfold key_field. revert k old j new. hit. Qed.
Lemma key_value_hit k old j new : fold_eq "value" k = true -> key_field k old j = Some new -> dec_string old.2 j = Some new.2.
Proof. unfold key_field. revert k old j new. hit. Qed.
Lemma key_value_miss k old j new : fold_eq "value" k = false -> key_field k old j = Some new -> new.2 = old.2.
Proof. unfold key_field. revert k old j new. hit. Qed.
Lemma key_done j k : key_doc j k -> forall old, exists x, dec_struct key_field old j = Some x.
Proof.
  intros (ms & -> & H1 & H2) old. cbn. apply members_done. intros k' j' old' Hin. unfold key_field. field_cases; [..|by eexists].
  - apply fold_iff in Heqb. destruct (text_kind _ _ _ _ _ H1 Hin Heqb old'.1) as [x ->]. by eexists.
  - apply fold_iff in Heqb0. destruct (text_kind _ _ _ _ _ H2 Hin Heqb0 old'.2) as [x ->]. by eexists.
Qed.
Lemma key_read j k : key_doc j k -> dec_struct key_field ("", "") j = Some k.
Proof.
  intros Hk. destruct (key_done _ _ Hk ("", "")) as [x E]. rewrite E. destruct Hk as (ms & -> & H1 & H2). cbn in E.
  destruct x as [x1 x2], k as [k1 k2]. f_equal. f_equal.
  - exact (text_value key_field fst "kid" key_kid_hit key_kid_miss _ _ _ _ H1 E eq_refl).
  - exact (text_value key_field snd "value" key_value_hit key_value_miss _ _ _ _ H2 E eq_refl).
Qed.
Lemma Forall2_elem_l {A B} (R : A -> B -> Prop) l l' x : Forall2 R l l' -> x ∈ l -> exists y, y ∈ l' /\ R x y.
Proof.
  induction 1 as [|a b l l' H _ IH]; intros Hx; [by apply elem_of_nil in Hx|].
  apply elem_of_cons in Hx as [->|Hx]; [exists b; split; [left|done]|]. destruct (IH Hx) as (y & Hy & Hr). exists y. split; [by right|done].
Qed.
Lemma keys_read text j ks : read_first text = Some j -> keys_doc j ks -> read_keys text = Some ks.
Proof.
  intros Hr (ms & js & -> & Ho & Hk). unfold read_keys. rewrite Hr. cbn [mbind option_bind dec_struct].
  destruct (members_done keys_field ms) with (old := @Slice (string * string) [] []) as [x E].
  { intros k j old Hin. unfold keys_field. field_cases; [|by eexists]. apply fold_iff in Heqb. rewrite (once_only _ _ _ _ _ Ho Hin Heqb).
    apply dec_slice_done. intros j' old' Hj. destruct (Forall2_elem_l _ _ _ _ Hk Hj) as (y & _ & Hy). by eapply key_done. }
  rewrite E. cbn [mbind option_bind].
  apply (members_once keys_field id "keys" (dec_slice ("", "") (dec_struct key_field))) with (j := JArr js) in E; [..|done].
  - cbn [id] in E. rewrite (dec_slice_fresh _ _ js ks) in E; [by injection E as <-|].
    eapply Forall2_impl; [exact Hk|]. intros j k. apply key_read.
  - unfold keys_field. hit.
  - unfold keys_field. hit.
Qed.

(** ** A token's claims *)
Lemma token_scope_hit k old j new : fold_eq "scope" k = true -> token_field k old j = Some new ->
  dec_slice "" dec_string (td_scope old) j = Some (td_scope new).
Proof. unfold token_field. revert k old j new. hit. Qed.
Lemma token_scope_miss k old j new : fold_eq "scope" k = false -> token_field k old j = Some new -> td_scope new = td_scope old.
Proof. unfold token_field. revert k old j new. hit. Qed.
Lemma token_exp_hit k old j new : fold_eq "exp" k = true -> token_field k old j = Some new ->
  dec_seconds (td_exp old) j = Some (td_exp new).
Proof. unfold token_field. revert k old j new. hit. Qed.
Lemma token_exp_miss k old j new : fold_eq "exp" k = false -> token_field k old j = Some new -> td_exp new = td_exp old.
Proof. unfold token_field. revert k old j new. hit. Qed.
Lemma scopes_fresh scopes : Forall2 (fun j x => dec_string "" j = Some x) (JStr <$> scopes) scopes.
Proof. induction scopes as [|s scopes IH]; constructor; done. Qed.
Lemma claims_read text j scopes t n : read_first text = Some j -> claims_doc j scopes t -> seconds_of t = Some n ->
  read_claims text = Some (Claims scopes n).
Proof.
  intros Hr (ms & -> & Hs & He & Hv) Ht. unfold read_claims. rewrite Hr. cbn [mbind option_bind dec_struct].
  destruct (members_done token_field ms) with (old := TokenDoc "" (Slice [] []) 0) as [x E].
  { intros k j old Hin. unfold token_field. field_cases; [..|by eexists].
    - apply fold_iff in Heqb. by apply Hv in Hin.
    - apply fold_iff in Heqb0. rewrite (once_only _ _ _ _ _ Hs Hin Heqb0).
      destruct (dec_slice_done "" dec_string (JStr <$> scopes) (td_scope old)) as [l El].
      { intros j' old' (s & -> & _)%elem_of_list_fmap. by eexists. }
      rewrite El. by eexists.
    - apply fold_iff in Heqb1. rewrite (once_only _ _ _ _ _ He Hin Heqb1). cbn [dec_seconds]. rewrite Ht. by eexists. }
  rewrite E. cbn [mbind option_bind].
  pose proof (members_once token_field td_scope "scope" _ token_scope_hit token_scope_miss _ _ _ _ Hs E) as E1.
  pose proof (members_once token_field td_exp "exp" _ token_exp_hit token_exp_miss _ _ _ _ He E) as E2.
  cbn [td_scope td_exp] in E1, E2. rewrite (dec_slice_fresh _ _ _ _ (scopes_fresh scopes)) in E1. injection E1 as <-.
  cbn [dec_seconds] in E2. rewrite Ht in E2. by injection E2 as <-.
Qed.

(** ** CAPI's pages *)
Lemma res_guid_hit k old j new : fold_eq "guid" k = true -> resource_field k old j = Some new -> dec_string (rs_guid old) j = Some (rs_guid new).
Proof. unfold resource_field. revert k old j new. hit. Qed.
Lemma res_guid_miss k old j new : fold_eq "guid" k = false -> resource_field k old j = Some new -> rs_guid new = rs_guid old.
Proof. unfold resource_field. revert k old j new. hit. Qed.
Lemma res_name_hit k old j new : fold_eq "name" k = true -> resource_field k old j = Some new -> dec_string (rs_name old) j = Some (rs_name new).
Proof. unfold resource_field. revert k old j new. hit. Qed.
Lemma res_name_miss k old j new : fold_eq "name" k = false -> resource_field k old j = Some new -> rs_name new = rs_name old.
Proof. unfold resource_field. revert k old j new. hit. Qed.
Lemma resource_done j r : resource_doc j r -> forall old, exists x, dec_struct resource_field old j = Some x.
Proof.
  intros (ms & -> & H1 & H2) old. cbn. apply members_done. intros k' j' old' Hin. unfold resource_field. field_cases; [..|by eexists].
  - apply fold_iff in Heqb. destruct (text_kind _ _ _ _ _ H1 Hin Heqb (rs_guid old')) as [x ->]. by eexists.
  - apply fold_iff in Heqb0. destruct (text_kind _ _ _ _ _ H2 Hin Heqb0 (rs_name old')) as [x ->]. by eexists.
Qed.
Lemma resource_read j r : resource_doc j r -> dec_struct resource_field (Resource "" "") j = Some r.
Proof.
  intros Hk. destruct (resource_done _ _ Hk (Resource "" "")) as [x E]. rewrite E. destruct Hk as (ms & -> & H1 & H2). cbn in E.
  destruct x as [x1 x2], r as [k1 k2]. f_equal. f_equal.
  - exact (text_value resource_field rs_guid "guid" res_guid_hit res_guid_miss _ _ _ _ H1 E eq_refl).
  - exact (text_value resource_field rs_name "name" res_name_hit res_name_miss _ _ _ _ H2 E eq_refl).
Qed.
Lemma next_done ms s : text_or_none "href" ms s -> forall old, exists x, dec_struct next_field old (JObj ms) = Some x.
Proof.
  intros H old. apply members_done. intros k j old' Hin. unfold next_field. field_cases; [|by eexists].
  apply fold_iff in Heqb. by eapply text_kind.
Qed.
Lemma pagination_done jn href : next_doc jn href -> forall old, exists x, dec_struct pagination_field old jn = Some x.
Proof.
  intros (ms & -> & Hn) old. apply members_done. intros k j old' Hin. unfold pagination_field. field_cases; [|by eexists].
  apply fold_iff in Heqb. destruct Hn as [(ms' & Ho & Hh)|[[Hn|Hn] _]].
  - rewrite (once_only _ _ _ _ _ Ho Hin Heqb). by eapply next_done.
  - by apply Hn in Hin.
  - rewrite (once_only _ _ _ _ _ Hn Hin Heqb). by eexists.
Qed.
Lemma pagination_read jn href : next_doc jn href -> dec_struct pagination_field "" jn = Some href.
Proof.
  intros Hd. destruct (pagination_done _ _ Hd "") as [x E]. rewrite E. f_equal. destruct Hd as (ms & -> & Hn). cbn [dec_struct] in E.
  assert (Hmiss : forall k old j new, fold_eq "next" k = false -> pagination_field k old j = Some new -> id new = id old).
  { unfold pagination_field. hit. }
  assert (Hhit : forall k old j new, fold_eq "next" k = true -> pagination_field k old j = Some new -> dec_struct next_field (id old) j = Some (id new)).
  { unfold pagination_field. hit. }
  destruct Hn as [(ms' & Ho & Hh)|[[Hn|Hn] ->]].
  - eapply members_once in E; [|exact Hhit|exact Hmiss|exact Ho]. cbn [id dec_struct] in E.
    eapply (text_value next_field id "href"); [..|exact E|done].
    + unfold next_field. hit.
    + unfold next_field. hit.
    + done.
  - by eapply (members_none pagination_field id) in E; [|exact Hmiss|exact Hn].
  - eapply members_once in E; [|exact Hhit|exact Hmiss|exact Hn]. cbn [id dec_struct] in E. by injection E.
Qed.
Lemma page_pag_hit k old j new : fold_eq "pagination" k = true -> page_field k old j = Some new -> dec_struct pagination_field old.1 j = Some new.1.
Proof. unfold page_field. revert k old j new. hit. Qed.
Lemma page_pag_miss k old j new : fold_eq "pagination" k = false -> page_field k old j = Some new -> new.1 = old.1.
Proof. unfold page_field. revert k old j new. hit. Qed.
Lemma page_res_hit k old j new : fold_eq "resources" k = true -> page_field k old j = Some new ->
  dec_slice (Resource "" "") (dec_struct resource_field) old.2 j = Some new.2.
Proof. unfold page_field. revert k old j new. hit. Qed.
Lemma page_res_miss k old j new : fold_eq "resources" k = false -> page_field k old j = Some new -> new.2 = old.2.
Proof. unfold page_field. revert k old j new. hit. Qed.
Lemma page_read text j rs href : read_first text = Some j -> page_doc j rs href -> read_page text = Some (rs, href).
Proof.
  intros Hr (ms & js & jn & -> & Hp & Hn & Hs & Hk). unfold read_page. rewrite Hr. cbn [mbind option_bind dec_struct].
  destruct (members_done page_field ms) with (old := ("", @Slice resource [] [])) as [x E].
  { intros k j old Hin. unfold page_field. field_cases; [..|by eexists].
    - apply fold_iff in Heqb. rewrite (once_only _ _ _ _ _ Hp Hin Heqb). destruct (pagination_done _ _ Hn old.1) as [y ->]. by eexists.
    - apply fold_iff in Heqb0. rewrite (once_only _ _ _ _ _ Hs Hin Heqb0).
      destruct (dec_slice_done (Resource "" "") (dec_struct resource_field) js old.2) as [l ->]; [|by eexists].
      intros j' old' Hj. destruct (Forall2_elem_l _ _ _ _ Hk Hj) as (y & _ & Hy). by eapply resource_done. }
  rewrite E. cbn [mbind option_bind].
  pose proof (members_once page_field fst "pagination" _ page_pag_hit page_pag_miss _ _ _ _ Hp E) as E1.
  pose proof (members_once page_field snd "resources" _ page_res_hit page_res_miss _ _ _ _ Hs E) as E2.
  cbn [fst snd] in E1, E2. rewrite (pagination_read _ _ Hn) in E1. injection E1 as <-.
  rewrite (dec_slice_fresh _ _ js rs) in E2; [by injection E2 as <-|].
  eapply Forall2_impl; [exact Hk|]. intros j r. apply resource_read.
Qed.
