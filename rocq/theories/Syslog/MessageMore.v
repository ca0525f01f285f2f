(** Reading one RFC 5424 message: structured data, and the whole. *)
From Coq Require Import Ascii String.
From stdpp Require Import prelude gmap strings list.
From Verif.Base Require Import GoInt Envelope Str Dec.
From Verif.Json Require Import Spec.
From Verif.Times Require Import Texts SpecTexts TextsProofs.
From Verif.Syslog Require Import Model Message SpecMessage MessageProofs.
Local Open Scope string_scope.
Local Open Scope Z_scope.
Local Arguments String.append !_ _ / : simpl nomatch.

(** ** Values *)
Lemma to_escape_iff c : to_escape c = bool_decide (c ∈ special).
Proof.
  apply eq_true_iff_eq. rewrite bool_decide_eq_true. unfold to_escape, special. rewrite !orb_true_iff, !ceqb_iff, !elem_of_cons, elem_of_nil. tauto.
Qed.
Definition high (st : list (nat * nat)) : Prop := Forall (fun p => 128 <= p.1)%nat st.
Lemma lead_high c st : lead c = Some st -> high st.
Proof.
  unfold lead. repeat (destruct (between _ _ c); [intros H; injection H as <-; repeat (constructor; [cbn; lia|]); constructor|]). done.
Qed.
Lemma high_plain lo hi st c : high ((lo, hi) :: st) -> between lo hi c = true -> bool_decide (c ∈ special) = false.
Proof.
  intros H1 H2. apply Forall_cons in H1 as [H1 _]. cbn in H1. apply between_range in H2. destruct H2 as [H2 _].
  apply bool_decide_eq_false. unfold special. rewrite !elem_of_cons, elem_of_nil. assert (H3 : (128 <= nat_of_ascii c)%nat) by lia. clear H1 H2. 
  intros [->|[->|[->|[]]]]; vm_compute in H3; lia.
Qed.
Lemma get_value_inv s : forall st v r, high st -> get_value st s = Some (v, r) -> utf8_ok st v = true /\ s = escaped v ++ String quote r.
Proof.
  remember (String.length s) as n eqn:Hn. revert s Hn. induction (lt_wf n) as [n _ IH]. intros s ->.
  destruct s as [|c s]; [done|]. intros st v r Hst. cbn [get_value].
  assert (G : forall t, (String.length t < String.length (String c s))%nat -> forall st v r, high st -> get_value st t = Some (v, r) -> utf8_ok st v = true /\ t = escaped v ++ String quote r)
    by (intros t Ht; by apply (IH _ Ht)). clear IH. destruct st as [|[lo hi] st].
  - destruct (ceqb c quote) eqn:Eq. { apply ceqb_iff in Eq as ->. intros H. injection H as <- <-. done. }
    destruct (ceqb c backslash) eqn:Eb.
    { apply ceqb_iff in Eb as ->. destruct s as [|e s]; [done|]. destruct (to_escape e) eqn:Ee; [|done].
      destruct (get_value [] s) as [[v' r']|] eqn:E; [|done]. cbn. intros H. injection H as <- <-.
      destruct (G s ltac:(cbn; lia) _ _ _ Hst E) as [H1 ->]. rewrite to_escape_iff in Ee. cbn [escaped]. rewrite Ee. split; [|done].
      apply bool_decide_eq_true in Ee. unfold special in Ee. rewrite !elem_of_cons, elem_of_nil in Ee.
      destruct Ee as [->|[->|[->|[]]]]; cbn; done. }
    destruct (ceqb c "]") eqn:Ec; [done|]. destruct (lead c) as [st'|] eqn:El; [|done].
    destruct (get_value st' s) as [[v' r']|] eqn:E; [|done]. cbn. intros H. injection H as <- <-.
    destruct (G s ltac:(cbn; lia) _ _ _ (lead_high _ _ El) E) as [H1 ->]. cbn [escaped utf8_ok utf8_step]. rewrite El. split; [done|].
    rewrite <-to_escape_iff. unfold to_escape. by rewrite Eq, Eb, Ec.
  - destruct (between lo hi c) eqn:Ec; [|done]. destruct (get_value st s) as [[v' r']|] eqn:E; [|done]. cbn. intros H. injection H as <- <-.
    pose proof (high_plain _ _ _ _ Hst Ec) as Hp. apply Forall_cons in Hst as [_ Hst].
    destruct (G s ltac:(cbn; lia) _ _ _ Hst E) as [H1 ->]. cbn [escaped utf8_ok utf8_step]. rewrite Ec, Hp. done.
Qed.
Lemma get_value_to v r : forall st, high st -> utf8_ok st v = true -> get_value st (escaped v ++ String quote r) = Some (v, r).
Proof.
  induction v as [|c v IH]; intros st Hst Hv.
  - cbn in Hv. destruct st; [|done]. done.
  - cbn [utf8_ok utf8_step] in Hv. destruct st as [|[lo hi] st].
    + cbn [utf8_step] in Hv. destruct (lead c) as [st'|] eqn:El; [|done]. pose proof (lead_high _ _ El) as Hh. cbn [escaped].
      destruct (bool_decide (c ∈ special)) eqn:Es.
      * cbn [String.append get_value]. replace (to_escape c) with true by (by rewrite to_escape_iff). change (ceqb "\" quote) with false. change (ceqb "\" backslash) with true.
        cbv iota. replace st' with (@nil (nat * nat)) in Hv. { by rewrite IH. }
        apply bool_decide_eq_true in Es. unfold special in Es. rewrite !elem_of_cons, elem_of_nil in Es.
        destruct Es as [->|[->|[->|[]]]]; vm_compute in El; by injection El.
      * cbn [String.append get_value]. rewrite <-to_escape_iff in Es. unfold to_escape in Es. apply orb_false_iff in Es as [[-> ->]%orb_false_iff ->].
        rewrite El. by rewrite IH.
    + cbn [utf8_step] in Hv. destruct (between lo hi c) eqn:Ec; [|done]. cbn [escaped]. rewrite (high_plain _ _ _ _ Hst Ec). cbn [String.append get_value].
      rewrite Ec. apply Forall_cons in Hst as [_ Hst]. by rewrite IH.
Qed.

(** ** Parameters and elements *)
Lemma name_byte_iff c : name_byte c = true <-> printable c /\ c <> "="%char /\ c <> "]"%char /\ c <> """"%char.
Proof.
  unfold name_byte. rewrite andb_true_iff, negb_true_iff, !orb_false_iff, !ceqb_no. unfold print_us_ascii. rewrite between_range. unfold printable, quote. tauto.
Qed.
Lemma get_name_inv s w r : some_of 32 name_byte s = Some (w, r) -> name w /\ s = w ++ r.
Proof. intros (-> & H1 & H2 & _)%some_of_inv. split; [|done]. split; [|done]. by apply (bytes_all_iff name_byte); [apply name_byte_iff|]. Qed.
Lemma get_name_to w r : name w -> stops name_byte r -> some_of 32 name_byte (w ++ r) = Some (w, r).
Proof. intros [H1 H2] Hr. apply some_of_to; [|done..]. by apply (bytes_all_iff name_byte) in H1; [|apply name_byte_iff]. Qed.
Definition param_ok (nv : string * string) : Prop := name nv.1 /\ utf8 nv.2.
Lemma get_params_inv fuel : forall s ps r, get_params fuel s = Some (ps, r) -> Forall param_ok ps /\ s = params_text ps ++ String "]" r.
Proof.
  induction fuel as [|fuel IH]; intros s ps r; [done|]. destruct s as [|c s]; [done|]. cbn [get_params].
  destruct (ceqb c "]") eqn:Ec. { apply ceqb_iff in Ec as ->. intros H. injection H as <- <-. done. }
  destruct (ceqb c " ") eqn:Es; [|done]. apply ceqb_iff in Es as ->. intros H.
  destruct (some_of 32 name_byte s) as [[n s1]|] eqn:E1; [|done]. cbn [mbind option_bind] in H. apply get_name_inv in E1 as [Hn ->].
  destruct (skip_byte "=" s1) as [s2|] eqn:E2; [|done]. cbn [mbind option_bind] in H. apply skip_byte_iff in E2 as ->.
  destruct (skip_byte quote s2) as [s3|] eqn:E3; [|done]. cbn [mbind option_bind] in H. apply skip_byte_iff in E3 as ->.
  destruct (get_value [] s3) as [[v s4]|] eqn:E4; [|done]. cbn [mbind option_bind] in H. apply get_value_inv in E4 as [Hv ->]; [|constructor].
  destruct (get_params fuel s4) as [[ps' s5]|] eqn:E5; [|done]. cbn [mbind option_bind] in H. injection H as <- <-. apply IH in E5 as [Hps ->].
  split; [constructor; [|done]; split; [done|by apply utf8_ok_iff]|]. cbn. repeat first [rewrite tapp_assoc|progress cbn [String.append]]. done.
Qed.
Lemma get_params_to ps r : forall fuel, Forall param_ok ps -> (length ps < fuel)%nat -> get_params fuel (params_text ps ++ String "]" r) = Some (ps, r).
Proof.
  induction ps as [|[n v] ps IH]; intros fuel Hok Hf; (destruct fuel as [|fuel]; [cbn in Hf; lia|]); [done|].
  apply Forall_cons in Hok as [[Hn Hv] Hok]. cbn [fst snd] in *. cbn [params_text]. repeat first [rewrite tapp_assoc|progress cbn [String.append]]. cbn [get_params].
  change (ceqb " " "]") with false. change (ceqb " " " ") with true. cbv iota.
  rewrite get_name_to by done. cbn [mbind option_bind]. rewrite (proj2 (skip_byte_iff _ _ _) eq_refl). cbn [mbind option_bind].
  rewrite (proj2 (skip_byte_iff quote _ _) eq_refl). cbn [mbind option_bind].
  rewrite (get_value_to v _ []) by (constructor || by apply utf8_ok_iff). cbn [mbind option_bind]. by rewrite IH by (done || (cbn in Hf; lia)).
Qed.
Lemma tlen_app a b : String.length (a ++ b) = (String.length a + String.length b)%nat.
Proof. induction a as [|c a IH]; [done|]. cbn. by rewrite IH. Qed.
Lemma params_len ps : (length ps <= String.length (params_text ps))%nat.
Proof. induction ps as [|[n v] ps IH]; [done|]. cbn. rewrite !tlen_app. cbn. rewrite !tlen_app. cbn. lia. Qed.
Definition element_ok (e : string * list (string * string)) : Prop := name e.1 /\ Forall param_ok e.2.
Lemma get_elements_inv fuel : forall s es r, get_elements fuel s = Some (es, r) -> Forall element_ok es /\ s = elements_text es ++ r.
Proof.
  induction fuel as [|fuel IH]; intros s es r; cbn [get_elements]. { intros H. by injection H as <- <-. }
  destruct s as [|c s]. { intros H. by injection H as <- <-. }
  destruct (ceqb c "[") eqn:Ec; [|intros H; by injection H as <- <-]. apply ceqb_iff in Ec as ->. intros H.
  destruct (some_of 32 name_byte s) as [[n s1]|] eqn:E1; [|done]. cbn [mbind option_bind] in H. apply get_name_inv in E1 as [Hn ->].
  destruct (get_params _ s1) as [[ps s2]|] eqn:E2; [|done]. cbn [mbind option_bind] in H. apply get_params_inv in E2 as [Hps ->].
  destruct (get_elements fuel s2) as [[es' s3]|] eqn:E3; [|done]. cbn [mbind option_bind] in H. injection H as <- <-. apply IH in E3 as [Hes ->].
  split; [by constructor|]. cbn. repeat first [rewrite tapp_assoc|progress cbn [String.append]]. done.
Qed.
Definition no_bracket (r : string) : Prop := match r with String c _ => c <> "["%char | EmptyString => True end.
Lemma stops_params ps r : stops name_byte (params_text ps ++ String "]" r).
Proof. by destruct ps as [|[n v] ps]. Qed.
Lemma get_elements_to es r : forall fuel, Forall element_ok es -> no_bracket r -> (length es <= fuel)%nat -> get_elements fuel (elements_text es ++ r) = Some (es, r).
Proof.
  induction es as [|[i ps] es IH]; intros fuel Hok Hr Hf.
  - destruct fuel as [|fuel]; [done|]. cbn [elements_text String.append]. destruct r as [|c r]; [done|]. cbn [get_elements]. cbn in Hr. apply ceqb_no in Hr. by rewrite Hr.
  - destruct fuel as [|fuel]; [cbn in Hf; lia|].
    apply Forall_cons in Hok as [[Hn Hv] Hok]. cbn [fst snd] in *. cbn [elements_text]. rewrite !tapp_assoc. cbn [String.append get_elements].
    change (ceqb "[" "[") with true. cbv iota. rewrite get_name_to by (done || apply stops_params). cbn [mbind option_bind].
    rewrite get_params_to; [cbn [mbind option_bind]|done|rewrite tlen_app; pose proof (params_len ps); cbn; lia].
    by rewrite IH by (done || (cbn in Hf; lia)).
Qed.
Lemma elements_len es : (length es <= String.length (elements_text es))%nat.
Proof. induction es as [|[n v] es IH]; [done|]. cbn. rewrite !tlen_app. cbn. lia. Qed.
Lemma set_params_of ps : set_params ps = list_to_map (reverse ps).
Proof.
  unfold set_params. induction ps as [|[n v] ps IH] using rev_ind; [done|]. rewrite foldl_app, reverse_app. cbn. by rewrite IH.
Qed.
Lemma set_elements_iff es : forall d d', set_elements d es = Some d' <->
  NoDup es.*1 /\ (forall i, i ∈ es.*1 -> d !! i = None) /\ d' = list_to_map ((fun e => (e.1, list_to_map (reverse e.2))) <$> es) ∪ d.
Proof.
  induction es as [|[i ps] es IH]; intros d d'; cbn [set_elements fmap list_fmap fst snd list_to_map foldr].
  - rewrite (left_id_L ∅ (∪)). split.
    + intros H. injection H as <-. split; [constructor|]. split; [|done]. intros i []%elem_of_nil.
    + by intros (_ & _ & ->).
  - rewrite NoDup_cons. destruct (d !! i) as [x|] eqn:Ei.
    + split; [done|]. intros (_ & H & _). rewrite H in Ei by left. done.
    + rewrite IH, set_params_of. cbn [foldr uncurry]. 
      assert (U : forall m : gmap string (gmap string string), i ∉ es.*1 -> m = list_to_map ((fun e => (e.1, list_to_map (reverse e.2))) <$> es) ->
        m ∪ <[i := list_to_map (reverse ps)]> d = <[i := list_to_map (reverse ps)]> m ∪ d).
      { intros m Hi ->. rewrite <-insert_union_l, insert_union_r; [done|]. apply not_elem_of_list_to_map_1. by rewrite <-list_fmap_compose. }
      split.
      * intros (H1 & H2 & ->). assert (Hi : i ∉ es.*1). { intros H. specialize (H2 i H). by rewrite lookup_insert in H2. }
        split_and!; [done|done| |].
        -- intros j [->|Hj]%elem_of_cons; [done|]. specialize (H2 j Hj). by apply lookup_insert_None in H2 as [? _].
        -- rewrite U by done. done.
      * intros ((Hi & H1) & H2 & ->). split_and!; [done| |].
        -- intros j Hj. apply lookup_insert_None. split; [apply H2; by right|]. intros ->. done.
        -- rewrite U by done. done.
Qed.
Lemma element_ok_forall es : Forall element_ok es <-> Forall (fun e => name e.1 /\ Forall (fun nv => name nv.1 /\ utf8 nv.2) e.2) es.
Proof. done. Qed.
Lemma get_data_inv s d r : get_data s = Some (d, r) -> exists w, structured w d /\ s = w ++ r.
Proof.
  unfold get_data. destruct (skip_byte "-" s) as [s1|] eqn:E.
  - apply skip_byte_iff in E as ->. intros H. injection H as <- <-. exists "-". split; [constructor|done].
  - destruct (get_elements _ s) as [[es s1]|] eqn:E1; [|done]. cbn [mbind option_bind]. apply get_elements_inv in E1 as [Hok ->].
    destruct es as [|e es]; [done|]. destruct (set_elements ∅ (e :: es)) as [d'|] eqn:E2; [|done]. cbn [mbind option_bind]. intros H. injection H as <- <-.
    apply set_elements_iff in E2 as (Hnd & _ & ->). rewrite (right_id_L ∅ (∪)). exists (elements_text (e :: es)). split; [|done].
    apply some_elements. split; [done|]. by split.
Qed.
Lemma get_data_to w d r : structured w d -> no_bracket r -> get_data (w ++ r) = Some (d, r).
Proof.
  intros [|es (Hne & Hnd & Hok)] Hr; [done|]. unfold get_data.
  destruct (skip_byte "-" _) as [s1|] eqn:E. { apply skip_byte_iff in E. destruct es as [|[i ps] es]; [done|]. by cbn in E. }
  rewrite get_elements_to; [cbn [mbind option_bind]|done|done|rewrite tlen_app; pose proof (elements_len es); lia].
  destruct es as [|e es]; [done|]. rewrite (proj2 (set_elements_iff (e :: es) ∅ (data_of (e :: es)))); [done|].
  split; [done|]. split; [intros; apply lookup_empty|]. by rewrite (right_id_L ∅ (∪)).
Qed.
Lemma get_text_iff s x : get_text s = Some x <-> text s x.
Proof.
  split.
  - destruct s as [|c s]; cbn; [intros H; injection H as <-; constructor|]. destruct (ceqb c " ") eqn:Ec; [|done]. apply ceqb_iff in Ec as ->. cbn.
    destruct (utf8_ok [] s) eqn:Eu; [|done]. intros H. injection H as <-. destruct (String.eqb_spec s "") as [->|Hne]; [constructor|].
    apply (some_text s); [done|]. by apply utf8_ok_iff.
  - intros [| |t Hne Hu]; [done..|]. cbn. rewrite (proj2 (utf8_ok_iff t) Hu). destruct (String.eqb_spec t "") as [?|_]; done.
Qed.
Lemma text_bracket s x : text s x -> no_bracket s.
Proof. by intros []. Qed.

(** ** The message *)
Lemma parse_iff s m : parse_message s = Some m <-> rfc5424 s m.
Proof.
  split.
  - unfold parse_message. intros H.
    destruct (get_priority s) as [[p s1]|] eqn:E1; [|done]. cbn [mbind option_bind] in H. apply get_priority_iff in E1 as (pri & Hp & ->).
    destruct (get_version s1) as [s2|] eqn:E2; [|done]. cbn [mbind option_bind] in H. apply get_version_inv in E2 as (ver & Hver & ->).
    destruct (skip_byte " " s2) as [s3|] eqn:E3; [|done]. cbn [mbind option_bind] in H. apply skip_byte_iff in E3 as ->.
    destruct (get_timestamp s3) as [[t s4]|] eqn:E4; [|done]. cbn [mbind option_bind] in H. apply get_timestamp_inv in E4 as (tm & Htm & ->).
    destruct (skip_byte " " s4) as [s5|] eqn:E5; [|done]. cbn [mbind option_bind] in H. apply skip_byte_iff in E5 as ->.
    destruct (get_field 255 s5) as [[h s6]|] eqn:E6; [|done]. cbn [mbind option_bind] in H. apply get_field_inv in E6 as (host & Hh & ->).
    destruct (skip_byte " " s6) as [s7|] eqn:E7; [|done]. cbn [mbind option_bind] in H. apply skip_byte_iff in E7 as ->.
    destruct (get_field 48 s7) as [[a s8]|] eqn:E8; [|done]. cbn [mbind option_bind] in H. apply get_field_inv in E8 as (app & Ha & ->).
    destruct (skip_byte " " s8) as [s9|] eqn:E9; [|done]. cbn [mbind option_bind] in H. apply skip_byte_iff in E9 as ->.
    destruct (get_field 128 s9) as [[q sa]|] eqn:Ea; [|done]. cbn [mbind option_bind] in H. apply get_field_inv in Ea as (proc & Hq & ->).
    destruct (skip_byte " " sa) as [sb|] eqn:Eb; [|done]. cbn [mbind option_bind] in H. apply skip_byte_iff in Eb as ->.
    destruct (get_field 32 sb) as [[i sc]|] eqn:Ec; [|done]. cbn [mbind option_bind] in H. apply get_field_inv in Ec as (mid & Hi & ->).
    destruct (skip_byte " " sc) as [sd|] eqn:Ed; [|done]. cbn [mbind option_bind] in H. apply skip_byte_iff in Ed as ->.
    destruct (get_data sd) as [[d se]|] eqn:Ee; [|done]. cbn [mbind option_bind] in H. apply get_data_inv in Ee as (da & Hd & ->).
    destruct (get_text se) as [x|] eqn:Ef; [|done]. cbn [mbind option_bind] in H. apply get_text_iff in Ef. injection H as <-.
    apply (a_message pri ver tm host app proc mid da se p t h a q i d x); done.
  - intros [pri ver tm host app proc mid sd tx p t h a q i d x Hp Hver Htm Hh Ha Hq Hi Hd Hx]. unfold parse_message.
    rewrite (proj2 (get_priority_iff _ p _) (ex_intro _ pri (conj Hp eq_refl))). cbn [mbind option_bind String.append].
    rewrite get_version_to by done. cbn [mbind option_bind]. rewrite (proj2 (skip_byte_iff _ _ _) eq_refl). cbn [mbind option_bind].
    rewrite (get_timestamp_to tm t) by done. cbn [mbind option_bind]. rewrite (proj2 (skip_byte_iff _ _ _) eq_refl). cbn [mbind option_bind].
    rewrite (get_field_to 255 host h) by (done || lia). cbn [mbind option_bind]. rewrite (proj2 (skip_byte_iff _ _ _) eq_refl). cbn [mbind option_bind].
    rewrite (get_field_to 48 app a) by (done || lia). cbn [mbind option_bind]. rewrite (proj2 (skip_byte_iff _ _ _) eq_refl). cbn [mbind option_bind].
    rewrite (get_field_to 128 proc q) by (done || lia). cbn [mbind option_bind]. rewrite (proj2 (skip_byte_iff _ _ _) eq_refl). cbn [mbind option_bind].
    rewrite (get_field_to 32 mid i) by (done || lia). cbn [mbind option_bind]. rewrite (proj2 (skip_byte_iff _ _ _) eq_refl). cbn [mbind option_bind].
    rewrite (get_data_to sd d) by (done || by eapply text_bracket). cbn [mbind option_bind]. by rewrite (proj2 (get_text_iff tx x) Hx).
Qed.
