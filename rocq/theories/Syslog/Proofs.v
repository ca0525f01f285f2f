(** Lemmas about the syslog server. *)
From Coq Require Import Ascii String.
From stdpp Require Import prelude gmap strings list.
From Verif.Base Require Import GoInt Envelope Str Dec Url UrlProofs.
From Verif.Promql Require Import Proofs.
From Verif.Syslog Require Import Model Spec.
Open Scope Z_scope.
#[local] Arguments String.append : simpl nomatch.

(** ** Strings *)
Lemma app_assoc' a b c : append (append a b) c = append a (append b c).
Proof. apply append_assoc. Qed.
Lemma skip_app w s : skip (String.length w) (append w s) = s.
Proof. induction w as [|c w IH]; simpl; [by destruct s|done]. Qed.
Lemma append_inj_l w a b : append w a = append w b -> a = b.
Proof. induction w as [|c w IH]; simpl; [done|]. intros [= H]. auto. Qed.

(** ** Space *)
Lemma space_width_app w s : w ∈ space_runes -> space_width (append w s) = String.length w.
Proof.
  intros H. unfold space_runes in H. cbn [fmap list_fmap] in H.
  repeat (apply elem_of_cons in H as [->|H]; [vm_compute; by destruct s as [|? [|? ?]]|]). by apply elem_of_nil in H.
Qed.
Lemma byte_eq a n : (n < 256)%nat -> (byte a =? n)%nat = true -> a = ascii_of_nat n.
Proof. intros Hn H. apply Nat.eqb_eq in H. unfold byte in H. rewrite <-H. by rewrite ascii_nat_embedding. Qed.
Lemma byte_range a lo hi : (hi < 256)%nat -> ((lo <=? byte a)%nat && (byte a <=? hi)%nat) = true ->
  exists n, (lo <= n <= hi)%nat /\ a = ascii_of_nat n.
Proof.
  intros Hh H. apply andb_prop in H as [H1 H2]. apply Nat.leb_le in H1, H2.
  exists (byte a). split; [done|]. unfold byte. by rewrite ascii_nat_embedding.
Qed.
Ltac nat_cases n lo hi := 
  let rec go k := lazymatch k with
    | hi => assert (n = k) as -> by lia
    | _ => destruct (decide (n = k)) as [->|]; [|let k' := eval compute in (S k) in go k'] end in go lo.
Ltac in_runes := apply (bool_decide_unpack _); vm_compute; exact I.
Lemma space_width_some s w : space_width s = S w -> exists r, r ∈ space_runes /\ s = append r (skip (S w) s) /\ String.length r = S w.
Proof.
  destruct s as [|a s]; [done|]. cbn [space_width].
  destruct (((9 <=? byte a)%nat && (byte a <=? 13)%nat) || (byte a =? 32)%nat) eqn:E1.
  { intros [= <-]. exists (String a EmptyString). split; [|by destruct s].
    apply orb_prop in E1 as [E1|E1].
    - apply byte_range in E1 as (n & Hn & ->); [|lia]. nat_cases n 9%nat 13%nat; in_runes.
    - apply byte_eq in E1 as ->; [|lia]. in_runes. }
  clear E1. destruct s as [|b s]; [done|].
  destruct ((byte a =? 194)%nat && ((byte b =? 133)%nat || (byte b =? 160)%nat)) eqn:E2.
  { intros [= <-]. exists (String a (String b EmptyString)). split; [|by destruct s].
    apply andb_prop in E2 as [Ea Eb]. apply byte_eq in Ea as ->; [|lia].
    apply orb_prop in Eb as [Eb|Eb]; (apply byte_eq in Eb as ->; [|lia]); in_runes. }
  clear E2. destruct s as [|c s]; [done|].
  match goal with |- context [if ?x then _ else _] => destruct x eqn:E3; [|done] end.
  intros [= <-]. exists (String a (String b (String c EmptyString))). split; [|by destruct s].
  apply orb_prop in E3 as [E3|E3]; [apply orb_prop in E3 as [E3|E3]; [apply orb_prop in E3 as [E3|E3]|]|];
    apply andb_prop in E3 as [E3 Ec]; apply andb_prop in E3 as [Ea Eb];
    (apply byte_eq in Ea as ->; [|lia]); (apply byte_eq in Eb as ->; [|lia]).
  - apply byte_eq in Ec as ->; [|lia]. in_runes.
  - apply orb_prop in Ec as [Ec|Ec]; [apply orb_prop in Ec as [Ec|Ec]; [apply orb_prop in Ec as [Ec|Ec]|]|].
    + apply byte_range in Ec as (n & Hn & ->); [|lia]. nat_cases n 128%nat 138%nat; in_runes.
    + apply byte_eq in Ec as ->; [|lia]. in_runes.
    + apply byte_eq in Ec as ->; [|lia]. in_runes.
    + apply byte_eq in Ec as ->; [|lia]. in_runes.
  - apply byte_eq in Ec as ->; [|lia]. in_runes.
  - apply byte_eq in Ec as ->; [|lia]. in_runes.
Qed.
Lemma rune_nonempty w : w ∈ space_runes -> (0 < String.length w)%nat.
Proof.
  intros H. unfold space_runes in H. cbn [fmap list_fmap] in H.
  repeat (apply elem_of_cons in H as [->|H]; [vm_compute; lia|]). by apply elem_of_nil in H.
Qed.
Lemma length_append' a b : String.length (append a b) = (String.length a + String.length b)%nat.
Proof. induction a as [|c a IH]; simpl; [done|]. by rewrite IH. Qed.

Lemma trim_left_spec fuel : forall s, (String.length s <= fuel)%nat ->
  exists l, s = append l (trim_space_left fuel s) /\ spaces l /\ forall w t, w ∈ space_runes -> trim_space_left fuel s <> append w t.
Proof.
  induction fuel as [|fuel IH]; intros s Hs.
  - destruct s; [|simpl in Hs; lia]. exists EmptyString. split; [done|]. split; [constructor|].
    intros w t Hw E. cbn in E. apply rune_nonempty in Hw. destruct w; [simpl in Hw; lia|done].
  - cbn [trim_space_left]. destruct (space_width s) as [|w] eqn:E.
    + exists EmptyString. split; [done|]. split; [constructor|].
      intros w t Hw ->. rewrite space_width_app in E by done. apply rune_nonempty in Hw. lia.
    + destruct (space_width_some s w E) as (r & Hr & Hs' & Hlen).
      destruct (IH (skip (S w) s)) as (l & Hl & Hsp & Hno).
      { apply (f_equal String.length) in Hs'. rewrite length_append' in Hs'. lia. }
      exists (append r l). split; [|split; [by constructor|done]].
      rewrite app_assoc', <-Hl. done.
Qed.
Lemma trim_left_spaces fuel : forall s, (String.length s <= fuel)%nat -> spaces s -> trim_space_left fuel s = EmptyString.
Proof.
  induction fuel as [|fuel IH]; intros s Hs Hsp.
  - destruct s; [done|simpl in Hs; lia].
  - destruct Hsp as [|w s Hw Hsp]; [done|]. cbn [trim_space_left]. rewrite space_width_app by done.
    pose proof (rune_nonempty _ Hw). destruct (String.length w) as [|k] eqn:E; [lia|].
    rewrite <-E, skip_app. apply IH; [|done]. rewrite length_append' in Hs. lia.
Qed.
Lemma all_space_spec s : all_space s = true <-> spaces s.
Proof.
  unfold all_space. rewrite bool_decide_eq_true. split.
  - intros H. destruct (trim_left_spec (String.length s) s) as (l & Hl & Hsp & _); [done|].
    rewrite H, append_nil_r in Hl. by rewrite Hl.
  - intros H. by apply trim_left_spaces.
Qed.
Lemma trim_right_spec s : exists r, s = append (trim_space_right s) r /\ spaces r /\
  forall u r', s = append u r' -> spaces r' -> exists v, u = append (trim_space_right s) v.
Proof.
  induction s as [|c s IH].
  - exists EmptyString. split; [done|]. split; [constructor|]. intros u r' E _. exists u. done.
  - cbn [trim_space_right]. destruct (all_space (String c s)) eqn:Ea.
    + exists (String c s). split; [done|]. split; [by apply all_space_spec|]. intros u r' _ _. exists u. done.
    + destruct IH as (r & Hr & Hsp & Hmin). exists r. split; [simpl; by rewrite <-Hr|]. split; [done|].
      intros u r' E Hr'. destruct u as [|d u].
      * simpl in E. rewrite E in Ea. apply all_space_spec in Hr'. rewrite Hr' in Ea. done.
      * simpl in E. injection E as <- E. destruct (Hmin u r' E Hr') as [v ->]. exists v. done.
Qed.
Lemma append_length_eq a v : a = append a v -> v = EmptyString.
Proof.
  intros E. apply (f_equal String.length) in E. rewrite length_append' in E. destruct v; [done|simpl in E; lia].
Qed.
Lemma trim_space_spec text : trimmed text (trim_space text).
Proof.
  unfold trimmed, trim_space.
  destruct (trim_left_spec (String.length text) text) as (l & Hl & Hsp & Hno); [done|].
  set (s := trim_space_left _ text) in *. clearbody s.
  destruct (trim_right_spec s) as (r & Hr & Hspr & Hmin). split.
  - exists l, r. rewrite <-Hr. done.
  - intros w t Hw. split; intros E.
    + apply (Hno w (append t r) Hw). rewrite Hr at 1. rewrite E. apply app_assoc'.
    + destruct (Hmin t (append w r)) as [v Hv].
      * rewrite Hr at 1. rewrite E. apply app_assoc'.
      * by constructor.
      * rewrite Hv in E at 1. rewrite app_assoc' in E. apply append_length_eq in E.
        pose proof (rune_nonempty _ Hw). apply (f_equal String.length) in E. rewrite length_append' in E. simpl in E. lia.
Qed.

(** ** Process ids *)
Lemma bracket_spec c : bracket c = true <-> c = "["%char \/ c = "]"%char.
Proof. unfold bracket, ceqb. rewrite orb_true_iff, !bool_decide_eq_true. done. Qed.
Lemma brackets_all s : str_all bracket s = true <-> brackets s.
Proof.
  split.
  - induction s as [|c s IH]; simpl; [constructor|]. intros H. apply andb_prop in H as [Hc Hs].
    apply bracket_spec in Hc as [->| ->]; constructor; auto.
  - induction 1; simpl; done.
Qed.
Lemma trim_left_ok s : exists l, s = append l (trim_left bracket s) /\ brackets l /\
  match trim_left bracket s with String c _ => bracket c = false | EmptyString => True end.
Proof.
  induction s as [|c s IH]; [exists EmptyString; split; [done|split; [constructor|done]]|].
  cbn [trim_left]. destruct (bracket c) eqn:E.
  - destruct IH as (l & Hl & Hb & Hn). exists (String c l). split; [simpl; by rewrite <-Hl|]. split; [|done].
    apply bracket_spec in E as [->| ->]; by constructor.
  - exists EmptyString. split; [done|]. split; [constructor|done].
Qed.
Lemma trim_right_ok s : exists r, s = append (trim_right bracket s) r /\ brackets r /\
  forall u r', s = append u r' -> brackets r' -> exists v, u = append (trim_right bracket s) v.
Proof.
  induction s as [|c s IH].
  - exists EmptyString. split; [done|]. split; [constructor|]. intros u r' E _. by exists u.
  - cbn [trim_right]. destruct (str_all bracket (String c s)) eqn:Ea.
    + exists (String c s). split; [done|]. split; [by apply brackets_all|]. intros u r' _ _. by exists u.
    + destruct IH as (r & Hr & Hsp & Hmin). exists r. split; [simpl; by rewrite <-Hr|]. split; [done|].
      intros u r' E Hr'. destruct u as [|d u].
      * simpl in E. rewrite E in Ea. apply brackets_all in Hr'. rewrite Hr' in Ea. done.
      * simpl in E. injection E as <- E. destruct (Hmin u r' E Hr') as [v ->]. by exists v.
Qed.
Lemma trim_brackets_ok pid : exists l r, pid = append l (append (trim_brackets pid) r) /\ brackets l /\ brackets r /\
  no_bracket_at_ends (trim_brackets pid).
Proof.
  unfold trim_brackets. destruct (trim_left_ok pid) as (l & Hl & Hbl & Hn).
  set (s := trim_left bracket pid) in *. clearbody s. destruct (trim_right_ok s) as (r & Hr & Hbr & Hmin).
  exists l, r. rewrite <-Hr. split; [done|]. split; [done|]. split; [done|]. split.
  - intros s'. split; intros E; rewrite Hr, E in Hn; simpl in Hn; done.
  - assert (G : forall s' b, brackets b -> b <> EmptyString -> trim_right bracket s <> append s' b).
    { intros s' b Hb Hne E. destruct (Hmin s' (append b r)) as [v Hv].
      - rewrite Hr at 1. rewrite E. apply app_assoc'.
      - apply brackets_all. apply brackets_all in Hb, Hbr. clear -Hb Hbr.
        induction b as [|c b IH]; simpl in *; [done|]. apply andb_prop in Hb as [-> Hb]. auto.
      - rewrite Hv in E at 1. rewrite app_assoc' in E. apply append_length_eq in E. destruct v; simpl in E; [done|done]. }
    intros s'. split; apply G; repeat constructor; done.
Qed.

Lemma join_last c ws y : ws <> [] -> join c (ws ++ [y]) = append (join c ws) (String c y).
Proof.
  induction ws as [|w ws IH]; [done|]. intros _. destruct ws as [|w' ws]; [done|].
  change ((w :: w' :: ws) ++ [y]) with (w :: (w' :: ws) ++ [y]). cbn [join]. rewrite IH by done.
  cbn [app]. rewrite app_assoc'. simpl. done.
Qed.

Lemma process_id_ok pid ty inst : source_type_inst pid = (ty, inst) -> process_id pid ty inst.
Proof.
  unfold source_type_inst. intros [= Hty Hinst].
  destruct (trim_brackets_ok pid) as (l & r & Hpid & Hl & Hr & Hn).
  set (core := trim_brackets pid) in *. clearbody core.
  assert (Hc : forall w, w ∈ split "/" core -> bare w) by (intros w; apply split_elem_clean).
  pose proof (join_split "/" core) as Hj.
  destruct (split "/" core) as [|x ws] eqn:E; [by destruct (split_on_nonempty (ceqb "/") core)|].
  cbn in Hty. subst ty.
  exists l, r, core. split; [done|]. split; [done|]. split; [done|]. split; [done|].
  split; [apply Hc; left|].
  destruct ws as [|y ws] using rev_ind.
  - cbn in Hinst. subst inst. split; [apply Hc; left|]. left. split; [by cbn in Hj|done].
  - clear IHws. rewrite app_comm_cons, last_snoc in Hinst. cbn in Hinst. subst inst.
    split; [apply Hc; rewrite app_comm_cons; apply elem_of_app; right; left|]. right.
    rewrite app_comm_cons, join_last in Hj by done.
    destruct ws as [|z ws].
    + exists EmptyString. split; [|by left]. rewrite <-Hj. done.
    + exists (append (join "/" (z :: ws)) "/"). split; [|right; eauto]. rewrite <-Hj.
      change (join "/" (x :: z :: ws)) with (append x (append "/" (join "/" (z :: ws)))).
      rewrite !app_assoc'. done.
Qed.

(** both readings are unique *)
Definition first_byte (w : string) : option ascii := match w with String c _ => Some c | _ => None end.
Definition later_bytes (w : string) : list ascii := match w with String _ w' => list_ascii_of_string w' | _ => [] end.
Lemma no_overlap w w' : w ∈ space_runes -> w' ∈ space_runes -> forall c, first_byte w' = Some c -> c ∉ later_bytes w.
Proof.
  intros Hw Hw' c Hc.
  assert (H : forallb (fun w => forallb (fun w' => match first_byte w' with Some c => bool_decide (c ∉ later_bytes w) | None => true end) space_runes) space_runes = true)
    by (vm_compute; reflexivity).
  rewrite forallb_forall in H. specialize (H w ltac:(by apply elem_of_list_In)).
  rewrite forallb_forall in H. specialize (H w' ltac:(by apply elem_of_list_In)). rewrite Hc in H. by apply bool_decide_eq_true in H.
Qed.
Lemma later_app x y c : x <> EmptyString -> first_byte y = Some c -> c ∈ later_bytes (append x y).
Proof.
  destruct x as [|a x]; [done|]. intros _ Hy. simpl. induction x as [|b x IH]; simpl; [destruct y; [done|]; injection Hy as ->; left|by right].
Qed.
Lemma first_app w s : w <> EmptyString -> first_byte (append w s) = first_byte w.
Proof. by destruct w. Qed.
(** comparing two ways of cutting a string *)
Lemma cut_cases a b c d : append a b = append c d -> (exists e, c = append a e /\ b = append e d) \/ (exists e, a = append c e /\ e <> EmptyString /\ d = append e b).
Proof.
  revert c. induction a as [|x a IH]; intros c E; simpl in E; [left; exists c; done|].
  destruct c as [|y c]; simpl in E; [right; exists (String x a); done|].
  injection E as <- E. destruct (IH c E) as [(e & -> & ->)|(e & -> & ? & ->)]; [left|right]; exists e; done.
Qed.
Lemma spaces_first s : spaces s -> s <> EmptyString -> exists w, w ∈ space_runes /\ first_byte s = first_byte w.
Proof.
  intros [|w t Hw Ht] Hne; [done|]. exists w. split; [done|]. apply first_app. pose proof (rune_nonempty _ Hw). by destruct w; [simpl in *; lia|].
Qed.
(** a space character does not straddle the beginning of a run of spaces *)
Lemma no_straddle w x y r s : w ∈ space_runes -> w = append x y -> x <> EmptyString -> y <> EmptyString -> r = append y s -> spaces r -> False.
Proof.
  intros Hw -> Hx Hy -> Hr. destruct (spaces_first _ Hr) as (w' & Hw' & Hf); [by destruct y|].
  rewrite first_app in Hf by done. destruct y as [|c y]; [done|]. cbn in Hf.
  apply (no_overlap _ _ Hw Hw' c); [done|]. by apply later_app.
Qed.
Lemma spaces_cut v r : spaces (append v r) -> spaces r -> spaces v.
Proof.
  intros H Hr. remember (append v r) as t eqn:E. revert v E. induction H as [|w t Hw Ht IH]; intros v E.
  - destruct v; [constructor|done].
  - destruct (cut_cases w t v r E) as [(e & -> & ->)|(e & -> & He & ->)].
    + constructor; [done|]. by apply IH.
    + destruct v as [|c v]; [constructor|]. exfalso. eapply (no_straddle _ (String c v) e); try done.
Qed.
Lemma spaces_app a b : spaces a -> spaces b -> spaces (append a b).
Proof. induction 1 as [|w s Hw Hs IH]; [done|]. intros Hb. rewrite app_assoc'. constructor; auto. Qed.
Lemma spaces_snoc s : spaces s -> s <> EmptyString -> exists s' w, w ∈ space_runes /\ s = append s' w.
Proof.
  induction 1 as [|w s Hw Hs IH]; [done|]. intros _. destruct s as [|c s].
  - exists EmptyString, w. split; [done|]. by rewrite append_nil_r.
  - destruct IH as (s' & w' & Hw' & ->); [done|]. exists (append w s'), w'. split; [done|]. by rewrite app_assoc'.
Qed.
Lemma trim_left_app fuel : forall l s, (String.length (append l s) <= fuel)%nat -> spaces l ->
  (forall w t, w ∈ space_runes -> s <> append w t) -> trim_space_left fuel (append l s) = s.
Proof.
  induction fuel as [|fuel IH]; intros l s Hlen Hl Hs.
  - rewrite length_append' in Hlen. destruct l; [|simpl in Hlen; lia]. destruct s; [done|simpl in Hlen; lia].
  - destruct Hl as [|w l Hw Hl].
    + cbn [trim_space_left append]. destruct (space_width s) as [|k] eqn:E; [done|].
      apply space_width_some in E as (r & Hr & E & _). by destruct (Hs r (skip (S k) s) Hr).
    + rewrite app_assoc'. cbn [trim_space_left]. rewrite space_width_app by done. pose proof (rune_nonempty _ Hw).
      destruct (String.length w) as [|k] eqn:E; [lia|]. rewrite <-E, skip_app. apply IH; [|done|done].
      rewrite app_assoc', length_append' in Hlen. lia.
Qed.
Lemma trimmed_unique text payload : trimmed text payload -> trim_space text = payload.
Proof.
  intros [(l & r & -> & Hl & Hr) Hends]. unfold trim_space. destruct payload as [|c p].
  - simpl. rewrite trim_left_spaces; [done|done|by apply spaces_app].
  - rewrite trim_left_app; [|done|done|].
    2:{ intros w t Hw E. symmetry in E. apply cut_cases in E as [(e & E & _)|(e & E & He & E2)].
        - exact (proj1 (Hends w e Hw) E).
        - eapply (no_straddle w (String c p) e r t); done. }
    destruct (trim_right_spec (append (String c p) r)) as (r0 & Hr0 & Hsp0 & Hmin).
    destruct (Hmin (String c p) r eq_refl Hr) as [v Hv]. destruct v as [|d v]; [by rewrite append_nil_r in Hv|]. exfalso.
    rewrite Hv in Hr0 at 1. rewrite app_assoc' in Hr0. apply append_inj_l in Hr0. rewrite <-Hr0 in Hsp0.
    assert (Hsv : spaces (String d v)) by (apply (spaces_cut _ r); done). clear Hsp0. rename Hsv into Hsp0. apply spaces_snoc in Hsp0 as (s' & w & Hw & Ew); [|done].
    rewrite Ew, <-app_assoc' in Hv. exact (proj2 (Hends w _ Hw) Hv).
Qed.

Lemma trim_left_brackets l s : brackets l -> match s with String c _ => bracket c = false | EmptyString => True end ->
  trim_left bracket (append l s) = s.
Proof.
  intros Hl Hs. induction Hl as [|l Hl IH|l Hl IH]; simpl; [|done|done]. destruct s as [|c s]; [done|]. simpl. by rewrite Hs.
Qed.
Lemma process_id_unique pid ty inst : process_id pid ty inst -> source_type_inst pid = (ty, inst).
Proof.
  intros (l & r & core & -> & Hl & Hr & [Hn1 Hn2] & Hty & Hinst & Hcore). unfold source_type_inst.
  assert (Hc : trim_brackets (append l (append core r)) = core).
  { unfold trim_brackets. destruct core as [|c core].
    - simpl. replace (append l r) with (append (append l r) EmptyString) by apply append_nil_r.
      rewrite trim_left_brackets; [done| |done]. apply brackets_all. apply brackets_all in Hl, Hr.
      induction l as [|c l IH]; simpl in *; [done|]. apply andb_prop in Hl as [-> Hl]. auto.
    - assert (Hc : bracket c = false).
      { destruct (bracket c) eqn:E; [|done]. apply bracket_spec in E as [->| ->]; by destruct (Hn1 core). }
      rewrite trim_left_brackets by (simpl; done).
      destruct (trim_right_ok (append (String c core) r)) as (r0 & Hr0 & Hb0 & Hmin).
      destruct (Hmin (String c core) r eq_refl Hr) as [v Hv]. destruct v as [|d v]; [by rewrite append_nil_r in Hv|]. exfalso.
      rewrite Hv in Hr0 at 1. rewrite app_assoc' in Hr0. apply append_inj_l in Hr0. rewrite <-Hr0 in Hb0.
      assert (Hlast : exists v' b, String d v = append v' (String b EmptyString) /\ bracket b = true).
      { apply brackets_all in Hb0. clear Hr0 Hv. revert d Hb0. clear. induction v as [|e v IH]; intros d Hb.
        - exists EmptyString, d. split; [done|]. simpl in Hb. by apply andb_prop in Hb as [? _].
        - simpl in Hb. apply andb_prop in Hb as [_ Hb]. destruct (IH e Hb) as (v' & b & E & Hbb).
          exists (String d v'), b. split; [simpl; by rewrite E|done]. }
      destruct Hlast as (v' & b & E & Hb). rewrite E, <-app_assoc' in Hv.
      apply bracket_spec in Hb as [->| ->]; by destruct (Hn2 (append (trim_right bracket (append (String c core) r)) v')). }
  rewrite Hc. destruct Hcore as [[-> ->]|(rest & -> & Hrest)].
  - unfold split. rewrite split_on_none by done. done.
  - change (append "/" (append rest inst)) with (String "/" (append rest inst)). unfold split.
    rewrite split_on_app_tok by apply ceqb_refl. rewrite (split_on_none _ ty) by done. cbn [app head default].
    f_equal. destruct Hrest as [->|[r' ->]].
    + simpl. rewrite split_on_none by done. done.
    + rewrite app_assoc'. change (append "/" inst) with (String "/" inst). rewrite split_on_app_tok by apply ceqb_refl.
      rewrite (split_on_none _ inst) by done. change (ty :: split_on (ceqb "/") r' ++ [inst]) with ((ty :: split_on (ceqb "/") r') ++ [inst]).
      by rewrite last_snoc.
Qed.

(** ** Conversion *)
Section convert.
Context (pf : string -> option f64) (order : gmap string (gmap string string) -> list (string * gmap string string)).
Hypothesis Hord : any_order order.

Lemma prefix_iff p k : has_prefix p k = true <-> exists s, k = append p s.
Proof.
  unfold has_prefix. split.
  - destruct (strip_prefix p k) as [s|] eqn:E; [|done]. intros _. exists s. by apply strip_prefix_some.
  - intros [s ->]. by rewrite strip_prefix_app.
Qed.

Lemma convert_data_says env kind m e : convert_data pf env kind m = Some e ->
  exists body, says pf m kind body /\ e = with_msg env body.
Proof.
  unfold convert_data. destruct (has_prefix "counter" kind) eqn:E1.
  { apply prefix_iff in E1 as [s ->]. unfold convert_counter. intros H.
    destruct (parse_uint (param m "delta")) as [d|] eqn:Ed; [|done]. destruct (parse_uint (param m "total")) as [t|] eqn:Et; [|done].
    cbn in H. injection H as <-. apply parse_uint_spec in Ed as [? ?], Et as [? ?]. eexists. split; [|done]. by constructor. }
  destruct (has_prefix "gauge" kind) eqn:E2.
  { apply prefix_iff in E2 as [s ->]. unfold convert_gauge. intros H.
    destruct (m !! "unit") as [u|] eqn:Eu; [|done]. cbn in H. destruct (pf (param m "value")) as [v|] eqn:Ev; [|done].
    cbn in H. injection H as <-. eexists. split; [|done]. by constructor. }
  destruct (has_prefix "event" kind) eqn:E3.
  { apply prefix_iff in E3 as [s ->]. unfold convert_event. intros [= <-]. eexists. split; [|done]. by constructor. }
  destruct (has_prefix "timer" kind) eqn:E4; [|done].
  apply prefix_iff in E4 as [s ->]. unfold convert_timer. intros H.
  destruct (parse_int (param m "start")) as [d|] eqn:Ed; [|done]. destruct (parse_int (param m "stop")) as [t|] eqn:Et; [|done].
  cbn in H. injection H as <-. apply parse_int_spec in Ed as [? ?], Et as [? ?]. eexists. split; [|done]. by constructor.
Qed.
Lemma says_convert_data env kind m body : says pf m kind body -> convert_data pf env kind m = Some (with_msg env body).
Proof.
  intros H. assert (Hp : forall p q s, has_prefix p (append q s) = true -> forall c c' p' q', p = String c p' -> q = String c' q' -> c = c').
  { intros p q s Hx c c' p' q' -> ->. apply prefix_iff in Hx as [t Ht]. simpl in Ht. by injection Ht. }
  assert (Hx : forall p s, has_prefix p (append p s) = true) by (intros p s; apply prefix_iff; eauto).
  unfold convert_data. destruct H as [s d t Hd Hd' Ht Ht'|s u v Hu Hv|s|s a b Ha Ha' Hb Hb'].
  - rewrite Hx. unfold convert_counter. rewrite (proj2 (parse_uint_spec _ _) (conj Hd Hd')), (proj2 (parse_uint_spec _ _) (conj Ht Ht')). done.
  - change (has_prefix "counter" (append "gauge" s)) with false. rewrite Hx. unfold convert_gauge. rewrite Hu. cbn. rewrite Hv. done.
  - change (has_prefix "counter" (append "event" s)) with false. change (has_prefix "gauge" (append "event" s)) with false.
    rewrite Hx. done.
  - change (has_prefix "counter" (append "timer" s)) with false. change (has_prefix "gauge" (append "timer" s)) with false.
    change (has_prefix "event" (append "timer" s)) with false. rewrite Hx. unfold convert_timer.
    rewrite (proj2 (parse_int_spec _ _) (conj Ha Ha')), (proj2 (parse_int_spec _ _) (conj Hb Hb')). done.
Qed.

Lemma head_order d k m : head (order d) = Some (k, m) -> d !! k = Some m.
Proof.
  intros H. destruct (order d) as [|x l] eqn:E; [done|]. cbn in H. injection H as ->.
  apply elem_of_map_to_list. rewrite <-(Hord d), E. left.
Qed.
Lemma head_order_none msg : (d ← sm_data msg; head (order d)) = None <-> no_data msg.
Proof.
  unfold no_data. destruct (sm_data msg) as [d|]; cbn; [|split; [by left|done]]. split.
  - intros H. right. f_equal. apply map_to_list_empty_iff. apply Permutation_nil. rewrite <-(Hord d). by destruct (order d).
  - intros [?|[= ->]]; [done|]. assert (H : order ∅ = []) by (apply Permutation_nil; rewrite (Hord ∅), map_to_list_empty; done). by rewrite H.
Qed.

Lemma convert_means msg e : convert pf order msg = Converted e -> means pf msg e.
Proof.
  unfold convert. destruct (sm_proc msg) as [pid|] eqn:Ep; [|done].
  destruct (source_type_inst pid) as [ty inst] eqn:Es. apply process_id_ok in Es.
  destruct (sm_app msg) as [app|] eqn:Ea; [|done]. destruct (sm_time msg) as [t|] eqn:Et; [|done].
  destruct (d ← sm_data msg; head (order d)) as [[kind m]|] eqn:Ed.
  - destruct (sm_data msg) as [d|] eqn:Edd; [|done]. cbn in Ed. apply head_order in Ed.
    destruct (convert_data _ _ _ _) as [e'|] eqn:Ec; [|done]. cbn. intros [= <-].
    apply convert_data_says in Ec as (body & Hs & ->). eapply means_data; try done.
  - apply head_order_none in Ed. destruct (sm_text msg) as [text|] eqn:Etx; [|done].
    destruct (sm_priority msg) as [p|] eqn:Epr; [|done]. intros [= <-].
    eapply means_log; try done; [apply trim_space_spec|]. do 2 f_equal. unfold err_priority.
    destruct (bool_decide_reflect (p = 11)); [by apply Z.eqb_eq|by apply Z.eqb_neq].
Qed.
Lemma convert_invalid msg : convert pf order msg = Invalid -> unusable pf msg.
Proof.
  unfold convert. destruct (sm_proc msg) as [pid|]; [|done]. destruct (source_type_inst pid) as [ty inst].
  destruct (sm_app msg) as [app|]; [|done]. destruct (sm_time msg) as [t|]; [|done].
  destruct (d ← sm_data msg; head (order d)) as [[kind m]|] eqn:Ed.
  - destruct (sm_data msg) as [d|] eqn:Edd; [|done]. cbn in Ed. apply head_order in Ed.
    destruct (convert_data _ _ _ _) as [e'|] eqn:Ec; [done|]. intros _. exists d, kind, m. split; [done|]. split; [done|].
    intros body Hs. apply (says_convert_data (mk_env (wrap64 t) app inst ∅ ∅ MNone)) in Hs. congruence.
  - destruct (sm_text msg); [|done]. by destruct (sm_priority msg).
Qed.
Lemma convert_crash msg : convert pf order msg = Crash <-> ¬ complete msg.
Proof.
  unfold convert, complete. destruct (sm_proc msg) as [pid|].
  2:{ split; [|done]. intros _ [[? ?] _]. done. }
  destruct (source_type_inst pid) as [ty inst].
  destruct (sm_app msg) as [app|].
  2:{ split; [|done]. intros _ (_ & [? ?] & _). done. }
  destruct (sm_time msg) as [t|].
  2:{ split; [|done]. intros _ (_ & _ & [? ?] & _). done. }
  destruct (d ← sm_data msg; head (order d)) as [[kind m]|] eqn:Ed.
  - split; [by destruct (convert_data _ _ _ _)|]. intros H. destruct H.
    split; [eauto|]. split; [eauto|]. split; [eauto|]. intros Hn. apply head_order_none in Hn. congruence.
  - apply head_order_none in Ed. destruct (sm_text msg) as [text|].
    + destruct (sm_priority msg) as [p|].
      * split; [done|]. intros H. destruct H. split; [eauto|]. split; [eauto|]. split; [eauto|]. intros _. eauto.
      * split; [|done]. intros _ (_ & _ & _ & H). destruct (H Ed) as [_ [? ?]]. done.
    + split; [|done]. intros _ (_ & _ & _ & H). destruct (H Ed) as [[? ?] _]. done.
Qed.

(** ** The listener *)
Definition handled (r : sresult) (o : option envelope) : Prop :=
  match o with
  | Some e => exists msg, r = Some msg /\ means pf msg e
  | None => r = None \/ exists msg, r = Some msg /\ unusable pf msg
  end.
Lemma listen_dead send_ok s rs : sv_alive s = false -> foldl (listen pf order send_ok) s rs = s.
Proof. revert s. induction rs as [|r rs IH]; intros s H; [done|]. cbn. rewrite IH; unfold listen; rewrite H; done. Qed.
Lemma listen_step send_ok s r : sv_alive s = true -> sv_alive (listen pf order send_ok s r) = true ->
  exists o, handled r o /\
    sv_sent (listen pf order send_ok s r) = sv_sent s ++ omap id [o] /\
    (sv_invalid (listen pf order send_ok s r) = sv_invalid s + length (filter (fun o => o = None) [o]))%nat /\
    (sv_ingress (listen pf order send_ok s r) + sv_dropped (listen pf order send_ok s r) =
       sv_ingress s + sv_dropped s + length (omap id [o]))%nat.
Proof.
  intros Es. unfold listen. rewrite Es. cbn [negb]. destruct r as [msg|].
  - destruct (convert pf order msg) as [| |e] eqn:Ec; [done| |].
    + intros _. exists None. split; [right; exists msg; split; [done|by apply convert_invalid]|].
      rewrite filter_cons, decide_True by done. cbn.
      rewrite app_nil_r. split; [done|]. split; lia.
    + intros _. exists (Some e). split; [exists msg; split; [done|by apply convert_means]|].
      rewrite filter_cons, decide_False by done. destruct (send_ok _ e); cbn; (split; [done|]); split; lia.
  - intros _. exists None. split; [by left|]. rewrite filter_cons, decide_True by done. cbn. rewrite app_nil_r. split; [done|]. split; lia.
Qed.
Lemma serve_from send_ok rs : forall s, sv_alive (foldl (listen pf order send_ok) s rs) = true ->
  exists l, Forall2 handled rs l /\
    sv_sent (foldl (listen pf order send_ok) s rs) = sv_sent s ++ omap id l /\
    (sv_invalid (foldl (listen pf order send_ok) s rs) = sv_invalid s + length (filter (fun o => o = None) l))%nat /\
    (sv_ingress (foldl (listen pf order send_ok) s rs) + sv_dropped (foldl (listen pf order send_ok) s rs) =
       sv_ingress s + sv_dropped s + length (omap id l))%nat.
Proof.
  induction rs as [|r rs IH]; intros s Hal.
  - exists []. split; [constructor|]. cbn. rewrite app_nil_r. split; [done|]. split; lia.
  - cbn [foldl] in *.
    assert (Es : sv_alive s = true).
    { destruct (sv_alive s) eqn:Es; [done|]. assert (E : listen pf order send_ok s r = s) by (unfold listen; by rewrite Es).
      rewrite E, listen_dead in Hal by done. congruence. }
    assert (Es' : sv_alive (listen pf order send_ok s r) = true).
    { destruct (sv_alive (listen pf order send_ok s r)) eqn:Es'; [done|]. rewrite listen_dead in Hal by done. congruence. }
    destruct (listen_step send_ok s r Es Es') as (o & Ho & G1 & G2 & G3).
    destruct (IH _ Hal) as (l & Hf & H1 & H2 & H3). exists (o :: l). split; [by constructor|].
    change (o :: l) with ([o] ++ l). rewrite H1, G1, omap_app, app_assoc. split; [done|].
    rewrite filter_app, !app_length. split; lia.
Qed.
Lemma serve_ok send_ok rs : sv_alive (serve pf order send_ok rs) = true ->
  exists l, Forall2 handled rs l /\
    sv_sent (serve pf order send_ok rs) = omap id l /\
    (sv_invalid (serve pf order send_ok rs) + sv_ingress (serve pf order send_ok rs) + sv_dropped (serve pf order send_ok rs) = length rs)%nat /\
    (sv_ingress (serve pf order send_ok rs) + sv_dropped (serve pf order send_ok rs) = length (omap id l))%nat.
Proof.
  intros H. destruct (serve_from send_ok rs _ H) as (l & Hf & H1 & H2 & H3). exists l.
  unfold serve. cbn [sv_sent sv_invalid sv_ingress sv_dropped app] in *.
  split; [done|]. split; [done|]. rewrite (Forall2_length _ _ _ Hf).
  assert (Hl : (length (filter (fun o => o = None) l) + length (omap id l) = length l)%nat).
  { clear. induction l as [|o l IH]; [done|]. rewrite filter_cons.
    destruct o; [rewrite decide_False by done|rewrite decide_True by done]; cbn; lia. }
  split; lia.
Qed.
Lemma serve_alive send_ok rs : Forall (fun r => match r with Some msg => complete msg | None => True end) rs ->
  sv_alive (serve pf order send_ok rs) = true.
Proof.
  unfold serve. intros H. assert (G : forall s, sv_alive s = true -> sv_alive (foldl (listen pf order send_ok) s rs) = true); [|by apply G].
  induction H as [|r rs Hr H IH]; intros s Hs; [done|]. cbn. apply IH. unfold listen. rewrite Hs. cbn [negb].
  destruct r as [msg|]; [|done]. destruct (convert pf order msg) eqn:Ec; [|done|by destruct (send_ok _ _)].
  by apply convert_crash in Ec.
Qed.
(** with at most one element of structured data the outcome does not depend on the iteration order *)
Lemma convert_meaning msg e : (forall d, sm_data msg = Some d -> (size d <= 1)%nat) -> means pf msg e ->
  convert pf order msg = Converted e.
Proof.
  intros Hsz [pid app t text payload p ty inst Hp Ha Ht Htx Hpr Hno Hpid Htr He|pid app t ty inst d kind m body Hp Ha Ht Hd Hk Hsays Hpid He]; subst e.
  - unfold convert. rewrite Hp, Ha, Ht, (process_id_unique _ _ _ Hpid).
    rewrite (proj2 (head_order_none msg) Hno), Htx, Hpr, (trimmed_unique _ _ Htr). do 3 f_equal.
    unfold err_priority. destruct (bool_decide_reflect (p = 11)); [by apply Z.eqb_eq|by apply Z.eqb_neq].
  - unfold convert. rewrite Hp, Ha, Ht, (process_id_unique _ _ _ Hpid).
    destruct (d0 ← sm_data msg; head (order d0)) as [[kind' m']|] eqn:Eh.
    + rewrite Hd in Eh. cbn in Eh. apply head_order in Eh.
      assert (kind' = kind /\ m' = m) as [-> ->].
      { specialize (Hsz d Hd). destruct (decide (kind' = kind)) as [->|Hne]; [split; congruence|]. exfalso.
        rewrite <-(insert_delete d kind m Hk) in Hsz, Eh. rewrite map_size_insert_None in Hsz by apply lookup_delete.
        rewrite lookup_insert_ne in Eh by done. assert (Hz : size (delete kind d) = 0%nat) by lia.
        apply map_size_empty_inv in Hz. rewrite Hz in Eh. done. }
      rewrite (says_convert_data _ _ _ _ Hsays). done.
    + apply head_order_none in Eh as [Eh|Eh]; rewrite Eh in Hd; [done|]. injection Hd as <-. done.
Qed.
End convert.
