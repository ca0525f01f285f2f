(** The transcribed parser of semantic versions accepts the published grammar. *)
From Coq Require Import Ascii String.
From stdpp Require Import prelude strings gmap list.
From Verif.Base Require Import GoInt Envelope Str Url UrlProofs Dec.
From Verif.Gateway Require Import Proofs.
From Verif.Http Require Import Model Spec.
Open Scope string_scope.
Open Scope list_scope.
Open Scope Z_scope.
#[local] Arguments String.append : simpl nomatch.

Lemma str_all_iff p s : str_all p s = true <-> forall a c b, s = append a (String c b) -> p c = true.
Proof.
  induction s as [|d s IH]; cbn.
  - split; [|done]. intros _ a c b H. by destruct a.
  - rewrite andb_true_iff, IH. split.
    + intros [Hd Hs] [|e a] c b [= -> E]; [done|]. eapply Hs, E.
    + intros H. split; [by apply (H "" d s)|]. intros a c b ->. apply (H (String d a) c b). done.
Qed.
Lemma cut_iff c s a b : cut c s = Some (a, b) <-> s = append a (String c b) /\ has_char c a = false.
Proof.
  split; [|intros [-> H]; by apply cut_some].
  revert a. induction s as [|d s IH]; cbn; intros a; [done|]. destruct (ceqb c d) eqn:E.
  - intros [= <- <-]. apply ceqb_true in E. by subst.
  - destruct (cut c s) as [[a' b']|] eqn:E2; [|done]. intros [= <- ->]. destruct (IH a') as [-> H]; [done|].
    split; [done|]. by rewrite has_char_cons, E, H.
Qed.
Lemma cut_none c s : cut c s = None <-> has_char c s = false.
Proof.
  induction s as [|d s IH]; cbn; [done|]. fold (has_char c s). destruct (ceqb c d); cbn; [done|].
  destruct (cut c s) as [[]|]; cbn; [|by rewrite <-IH]. split; [done|]. intros H. by apply IH in H.
Qed.
Lemma str_any_not p s : str_any p s = false <-> str_all (fun c => negb (p c)) s = true.
Proof. induction s as [|c s IH]; cbn; [done|]. rewrite orb_false_iff, andb_true_iff, negb_true_iff, IH. done. Qed.
Lemma all_no_char (p : ascii -> bool) c s : p c = false -> str_all p s = true -> has_char c s = false.
Proof.
  intros Hp. induction s as [|d s IH]; cbn; [done|]. rewrite andb_true_iff. intros [Hd Hs]. fold (has_char c s). rewrite IH by done.
  rewrite orb_false_r. apply ceqb_false. intros ->. congruence.
Qed.

Lemma numeral_all s n : numeral s n -> str_all is_digit s = true.
Proof. induction 1; [cbn; by rewrite H|]. rewrite str_all_app, IHnumeral. cbn. by rewrite H0. Qed.
Lemma all_numeral s : s <> "" -> str_all is_digit s = true -> exists n, numeral s n.
Proof.
  intros Hs H. assert (E : forall acc, exists n, digits_from acc s = Some n).
  { clear Hs. induction s as [|c s IH]; cbn in *; intros acc; [by eexists|]. apply andb_true_iff in H as [Hc H]. rewrite Hc. by apply IH. }
  destruct (E 0) as [n En]. exists n. apply digits_numeral. by destruct s.
Qed.
Lemma leading_zero_iff s : leading_zero s = false <-> forall s', s = String "0" s' -> s' = "".
Proof.
  unfold leading_zero. destruct s as [|c [|d s]]; [by split|split; [by intros _ s' [= _ <-]|done]|]. rewrite ceqb_false. split.
  - by intros H s' [= -> <-].
  - intros H ->. by specialize (H _ eq_refl).
Qed.
Lemma semver_number_iff s n : semver_number s = Some n <-> number_text s n.
Proof.
  unfold semver_number, number_text. rewrite <-leading_zero_iff. destruct (leading_zero s).
  - split; [done|]. by intros (_ & _ & ?).
  - rewrite parse_uint_spec. naive_solver.
Qed.
Lemma alphanum_iff c : alphanum c = true <->
  is_digit c = true \/ c = "-"%char \/ (97 <= nat_of_ascii c <= 122)%nat \/ (65 <= nat_of_ascii c <= 90)%nat.
Proof.
  unfold alphanum, letter_or_dash. rewrite !orb_true_iff, !andb_true_iff, !Nat.leb_le, Nat.eqb_eq.
  assert (nat_of_ascii c = 45%nat <-> c = "-"%char) as <-; [|tauto].
  split; [|by intros ->]. intros H. rewrite <-(ascii_nat_embedding c), H. done.
Qed.
Lemma word_iff s : build_ok s = true <-> word s.
Proof.
  unfold build_ok, word. assert (E : str_all alphanum s = true <-> forall a c b, s = append a (String c b) ->
    is_digit c = true \/ c = "-"%char \/ (97 <= nat_of_ascii c <= 122)%nat \/ (65 <= nat_of_ascii c <= 90)%nat).
  { rewrite str_all_iff. by setoid_rewrite alphanum_iff. }
  destruct s; [by split; [|intros [? _]]|]. rewrite E. naive_solver.
Qed.
Lemma pre_iff s : pre_ok s = true <-> pre_text s.
Proof.
  unfold pre_text, all_digits. rewrite <-str_all_iff, <-word_iff. unfold pre_ok, build_ok. destruct s as [|c s].
  { split; [done|]. intros [[n [H _]]|[H _]]; [by apply numeral_nonempty in H|done]. }
  destruct (str_all is_digit (String c s)) eqn:E.
  - rewrite bool_decide_eq_true. unfold is_Some. setoid_rewrite semver_number_iff. naive_solver.
  - split; [by right|]. intros [[n [H _]]|[H _]]; [|done]. apply numeral_all in H. congruence.
Qed.

Lemma dotted_iff (P : string -> Prop) s l : (forall w, P w -> has_char "." w = false) ->
  dotted P s l <-> split "." s = l /\ Forall P l.
Proof.
  intros HP. split.
  - induction 1 as [s H|s t l H Ht [IH1 IH2]].
    + split; [|by repeat constructor]. apply split_on_none. by apply HP.
    + split; [|by constructor]. unfold split. rewrite split_on_app; [|by apply HP|done]. by rewrite <-IH1.
  - intros [E F]. revert s E. induction F as [|w l Hw F IH]; intros s E.
    { by apply split_on_nonempty in E. }
    rewrite <-(join_split "." s), E. destruct l as [|w' l].
    { by constructor. }
    rewrite join_cons by done. constructor; [done|]. apply IH.
    assert (E2 : split "." s = w :: split "." (join "." (w' :: l))); [|congruence].
    rewrite <-(join_split "." s), E, join_cons by done. unfold split.
    rewrite split_on_app; [done| |done]. apply (split_elem_clean (ceqb ".") s). unfold split in E. rewrite E. left.
Qed.
Lemma number_no c s n : is_digit c = false -> number_text s n -> has_char c s = false.
Proof. intros Hc [H _]. apply numeral_all in H. by eapply all_no_char. Qed.
Lemma word_no c s : alphanum c = false -> word s -> has_char c s = false.
Proof. intros Hc H%word_iff. eapply all_no_char; [done|]. by destruct s. Qed.
Lemma pre_no c s : alphanum c = false -> pre_text s -> has_char c s = false.
Proof.
  intros Hc [[n Hn]|[H _]]; [|by apply word_no]. eapply number_no; [|done]. unfold alphanum in Hc. by apply orb_false_iff in Hc as [_ ?].
Qed.
Lemma dotted_no (P : string -> Prop) c s l : (forall w, P w -> has_char c w = false) -> c <> "."%char ->
  dotted P s l -> has_char c s = false.
Proof.
  intros HP Hc. induction 1 as [s H|s t l H Ht IH]; [by apply HP|]. unfold has_char. rewrite str_any_app.
  fold (has_char c s). rewrite HP by done. change (ceqb c "." || has_char c t = false). rewrite IH, orb_false_r. by apply ceqb_false.
Qed.
Lemma has_char_app c a b : has_char c (append a b) = has_char c a || has_char c b.
Proof. apply str_any_app. Qed.

Lemma forallb_iff {A} (f : A -> bool) (P : A -> Prop) l : (forall x, f x = true <-> P x) -> forallb f l = true <-> Forall P l.
Proof. intros H. induction l as [|x l IH]; cbn; [by split|]. rewrite andb_true_iff, Forall_cons, IH, H. done. Qed.

Lemma semver_iff s v : semver_parse s = Some v <-> version_text s v.
Proof.
  unfold semver_parse. split.
  - destruct (cut "." s) as [[ma r]|] eqn:E1; [|done]. cbn. destruct (cut "." r) as [[mi r2]|] eqn:E2; [|done]. cbn.
    destruct (semver_number ma) as [major|] eqn:N1; [|done]. cbn. destruct (semver_number mi) as [minor|] eqn:N2; [|done]. cbn.
    apply cut_iff in E1 as [-> _], E2 as [-> _]. apply semver_number_iff in N1, N2.
    destruct (cut_tail "+" r2) as [r3 build] eqn:E3. destruct (cut_tail "-" r3) as [pa pre] eqn:E4.
    destruct (semver_number pa) as [patch|] eqn:N3; [|done]. cbn. apply semver_number_iff in N3.
    destruct (forallb pre_ok pre) eqn:Fp; [|done]. destruct (forallb build_ok build) eqn:Fb; [|done]. cbn. intros [= <-].
    apply (forallb_iff _ _ _ pre_iff) in Fp. apply (forallb_iff _ _ _ word_iff) in Fb.
    assert (exists bu, r2 = append r3 bu /\ build_part bu) as (bu & -> & Hb).
    { unfold cut_tail in E3. destruct (cut "+" r2) as [[x y]|] eqn:E.
      - injection E3 as <- <-. apply cut_iff in E as [-> _]. exists (String "+" y). split; [done|]. econstructor.
        apply dotted_iff; [|by split]. intros w Hw. by apply word_no.
      - injection E3 as <- <-. exists "". rewrite append_nil_r. split; [done|]. constructor. }
    assert (exists pr, r3 = append pa pr /\ pre_part pr pre) as (pr & -> & Hp).
    { unfold cut_tail in E4. destruct (cut "-" r3) as [[x y]|] eqn:E.
      - injection E4 as <- <-. apply cut_iff in E as [-> _]. exists (String "-" y). split; [done|]. econstructor.
        apply dotted_iff; [|by split]. intros w Hw. by apply pre_no.
      - injection E4 as <- <-. exists "". rewrite append_nil_r. split; [done|]. constructor. }
    rewrite append_assoc. by constructor.
  - intros [ma mi pa pr bu major minor patch pre H1 H2 H3 Hp Hb].
    rewrite cut_some by (by eapply number_no). cbn. rewrite cut_some by (by eapply number_no). cbn.
    rewrite (proj2 (semver_number_iff _ _) H1), (proj2 (semver_number_iff _ _) H2). cbn.
    assert (exists build, cut_tail "+" (append pa (append pr bu)) = (append pa pr, build) /\ Forall word build) as (build & -> & Fb).
    { assert (Hn : has_char "+" (append pa pr) = false).
      { rewrite has_char_app, (number_no "+" pa patch) by done. destruct Hp as [|s' l Hp]; [done|].
        rewrite has_char_cons. cbn [orb]. eapply dotted_no; [|done|exact Hp]. intros w Hw. by apply pre_no. }
      unfold cut_tail. rewrite <-append_assoc. destruct Hb as [|s' l Hb].
      - rewrite append_nil_r. rewrite (proj2 (cut_none _ _) Hn). by exists [].
      - rewrite cut_some by done. eexists. split; [done|]. apply dotted_iff in Hb as [-> F]; [done|]. intros w Hw. by apply word_no. }
    assert (cut_tail "-" (append pa pr) = (pa, pre) /\ Forall pre_text pre) as [-> Fp].
    { unfold cut_tail. destruct Hp as [|s' l Hp].
      - rewrite append_nil_r. rewrite (proj2 (cut_none _ _)) by (by eapply number_no). done.
      - rewrite cut_some by (by eapply number_no). apply dotted_iff in Hp as [-> F]; [done|]. intros w Hw. by apply pre_no. }
    rewrite (proj2 (semver_number_iff _ _) H3). cbn.
    apply (forallb_iff _ _ _ pre_iff) in Fp. apply (forallb_iff _ _ _ word_iff) in Fb. by rewrite Fp, Fb.
Qed.

Lemma number_nonneg s n : number_text s n -> 0 <= n.
Proof. intros [H _]. by eapply numeral_nonneg. Qed.
Lemma gte_iff s v : version_text s v -> gte_2_0_0 v = true <-> since_2_0_0 v.
Proof.
  intros [ma mi pa pr bu major minor patch pre H1 H2 H3 Hp Hb].
  apply number_nonneg in H1, H2, H3. unfold gte_2_0_0, since_2_0_0. cbn.
  destruct (Z.eqb_spec major 2), (Z.eqb_spec minor 0), (Z.eqb_spec patch 0); cbn; rewrite ?Z.ltb_lt;
    try lia; destruct pre; naive_solver lia.
Qed.
Lemma since_dec v : {since_2_0_0 v} + {~ since_2_0_0 v}.
Proof.
  unfold since_2_0_0. destruct (decide (3 <= v_major v \/
  v_major v = 2 /\ (1 <= v_minor v \/ v_minor v = 0 /\ (1 <= v_patch v \/ v_patch v = 0 /\ v_pre v = [])))); [by left|by right].
Qed.

Lemma version_plain s v : version_text s v -> plain s.
Proof.
  assert (Hno : forall x (p : ascii -> bool), (forall c, p c = true ->
      (32 <= nat_of_ascii c <= 126)%nat /\ nat_of_ascii c <> 34%nat /\ nat_of_ascii c <> 92%nat) -> str_all p x = true -> plain x).
  { intros x p Hp Hx a c b E. apply Hp. eapply str_all_iff; [exact Hx|exact E]. }
  set (p := fun c => alphanum c || ceqb c "." || ceqb c "+"). intros H.
  apply (Hno s p).
  { intros c. unfold p. rewrite !orb_true_iff, !ceqb_true, alphanum_iff. unfold is_digit. rewrite andb_true_iff, !Nat.leb_le.
    intros [[[?|[->|[?|?]]]| ->]| ->]; try lia.
    - change (nat_of_ascii "-"%char) with 45%nat. lia.
    - change (nat_of_ascii "."%char) with 46%nat. lia.
    - change (nat_of_ascii "+"%char) with 43%nat. lia. }
  assert (Hd : forall x n, number_text x n -> str_all p x = true).
  { intros x n [Hx%numeral_all _]. apply str_all_iff. intros a c b E. unfold p, alphanum. rewrite (proj1 (str_all_iff _ _) Hx a c b E).
    by rewrite orb_true_r. }
  assert (Hw : forall x, word x -> str_all p x = true).
  { intros x [_ Hx]. apply str_all_iff. intros a c b E. apply Hx in E. apply alphanum_iff in E. unfold p. by rewrite E. }
  assert (Hdot : forall (P : string -> Prop) x l, (forall w, P w -> str_all p w = true) -> dotted P x l -> str_all p x = true).
  { intros P x l HP. induction 1; [by apply HP|]. rewrite str_all_app, HP by done. done. }
  destruct H as [ma mi pa pr bu major minor patch pre H1 H2 H3 Hp Hb].
  assert (Pd : p "."%char = true) by done.
  rewrite str_all_app. cbn. rewrite str_all_app. cbn. rewrite !str_all_app, Pd. erewrite !Hd by done. cbn.
  apply andb_true_iff. split.
  - destruct Hp as [|x l Hp]; [done|]. change (str_all p x = true). eapply Hdot; [|exact Hp]. intros w [[n Hn]|[Hx _]]; [by eapply Hd|by apply Hw].
  - destruct Hb as [|x l Hb]; [done|]. change (str_all p x = true). by eapply Hdot.
Qed.
