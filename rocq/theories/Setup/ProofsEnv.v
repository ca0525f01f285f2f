(** Loading settings. *)
From Coq Require Import Ascii String.
From stdpp Require Import prelude gmap strings list.
From Verif.Base Require Import GoInt Envelope Str Dec UrlProofs.
From Verif.Routing Require Import Model.
From Verif.Setup Require Import Model Spec.
Open Scope string_scope.
Open Scope list_scope.
Open Scope Z_scope.
#[local] Arguments String.append : simpl nomatch.

Lemma app_str_assoc (a b c : string) : append (append a b) c = append a (append b c).
Proof. induction a as [|x a IH]; [done|]. cbn [String.append]. by rewrite IH. Qed.
Lemma app_str_nil (a : string) : append a "" = a.
Proof. induction a as [|x a IH]; [done|]. cbn [String.append]. by rewrite IH. Qed.
Lemma blank_iff c : blank_char c = true <-> is_blank c.
Proof. unfold blank_char, is_blank. rewrite orb_true_iff, andb_true_iff, Nat.eqb_eq, !Nat.leb_le. done. Qed.
Lemma blank_no c : blank_char c = false <-> ~ is_blank c.
Proof. rewrite <- blank_iff. by destruct (blank_char c). Qed.
Lemma blanks_app u v : blanks u -> blanks v -> blanks (append u v).
Proof. induction 1; [done|]. intros Hv. cbn [String.append]. constructor; [done|]. auto. Qed.
Lemma trim_left_spec s : exists u, s = append u (trim_left s) /\ blanks u /\ forall c r, trim_left s = String c r -> ~ is_blank c.
Proof.
  induction s as [|c s (u & E & Hu & Hn)]; [exists ""; split; [done|]; split; [constructor|done]|]. cbn [trim_left].
  destruct (blank_char c) eqn:Eb.
  - exists (String c u). cbn [String.append]. rewrite <- E. split; [done|]. split; [constructor; [by apply blank_iff|done]|done].
  - exists "". split; [done|]. split; [constructor|]. intros c' r [= <- <-]. by apply blank_no.
Qed.
Lemma app_snoc_cases (r : string) x c t : append r (String c "") = String x t -> (r = "" /\ c = x /\ t = "") \/ exists r', r = String x r' /\ t = append r' (String c "").
Proof. destruct r as [|y r]; cbn [String.append]; intros [= -> <-]; [by left|right; eauto]. Qed.
Lemma trim_right_spec s : exists v, s = append (trim_right s) v /\ blanks v /\ forall c r, trim_right s = append r (String c "") -> ~ is_blank c.
Proof.
  induction s as [|c s (v & E & Hv & Hn)].
  { exists "". split; [done|]. split; [constructor|]. intros c [|? ?]; done. }
  cbn [trim_right]. destruct (trim_right s) as [|x t] eqn:Et.
  - cbn [String.append] in E. subst v. destruct (blank_char c) eqn:Eb.
    + exists (String c s). split; [done|]. split; [constructor; [by apply blank_iff|done]|]. intros c' [|? ?]; done.
    + exists s. split; [done|]. split; [done|]. intros c' r Er. symmetry in Er. apply app_snoc_cases in Er as [(-> & -> & _)|(r' & -> & Er)]; [by apply blank_no|by destruct r'].
  - exists v. split; [by rewrite E at 1|]. split; [done|].
    intros c' r Er. symmetry in Er. apply app_snoc_cases in Er as [(_ & _ & ?)|(r' & -> & Er)]; [done|]. by apply (Hn c' r').
Qed.
Lemma trim_right_keep c s : ~ is_blank c -> exists t, trim_right (String c s) = String c t.
Proof.
  intros H. apply blank_no in H. cbn [trim_right]. destruct (trim_right s); [|eauto]. rewrite H. eauto.
Qed.
Lemma trim_spec s : trimmed s (trim s).
Proof.
  unfold trim. destruct (trim_left_spec s) as (u & E1 & Hu & Hl). destruct (trim_right_spec (trim_left s)) as (v & E2 & Hv & Hr).
  split; [exists u, v; split; [by rewrite <- E2|done]|]. split; [|done].
  intros c r Er. destruct (trim_left s) as [|x t] eqn:Et; [done|]. specialize (Hl x t eq_refl).
  destruct (trim_right_keep x t Hl) as (t' & E). rewrite E in Er. by injection Er as <- <-.
Qed.
Lemma trim_left_blanks u s : blanks u -> trim_left (append u s) = trim_left s.
Proof. induction 1 as [|c u Hc _ IH]; [done|]. cbn [String.append trim_left]. by rewrite (proj2 (blank_iff c) Hc). Qed.
Lemma trim_right_blank v : blanks v -> trim_right v = "".
Proof. induction 1 as [|c v Hc _ IH]; [done|]. cbn [trim_right]. by rewrite IH, (proj2 (blank_iff c) Hc). Qed.
Lemma trim_right_blanks t v : blanks v -> (forall c r, t = append r (String c "") -> ~ is_blank c) -> trim_right (append t v) = t.
Proof.
  intros Hv. induction t as [|c t IH]; intros Ht; [by apply trim_right_blank|]. cbn [String.append trim_right].
  rewrite IH by (intros c' r ->; by apply (Ht c' (String c r))).
  destruct t; [|done]. rewrite (proj2 (blank_no c)); [done|]. by apply (Ht c "").
Qed.
Lemma trim_iff s t : trim s = t <-> trimmed s t.
Proof.
  split; [intros <-; apply trim_spec|]. intros [(u & v & -> & Hu & Hv) [Hl Hr]]. unfold trim. rewrite trim_left_blanks by done.
  destruct t as [|c t].
  - cbn [String.append]. destruct (trim_left_spec v) as (u' & E & Hu' & Hn). rewrite <- (app_str_nil v), trim_left_blanks by done. done.
  - cbn [String.append trim_left]. rewrite (proj2 (blank_no c)) by (by apply (Hl c t)). by apply (trim_right_blanks (String c t)).
Qed.
Lemma join_split c s : join c (split c s) = s /\ Forall (fun p => has_char c p = false) (split c s) /\ split c s <> [].
Proof.
  unfold split. split; [|split; [|apply split_on_nonempty]].
  - induction s as [|d s IH]; [done|]. cbn [split_on]. destruct (ceqb c d) eqn:E.
    + apply ceqb_true in E as <-. destruct (split_on (ceqb c) s) eqn:Es; [by apply split_on_nonempty in Es|]. cbn [join]. by rewrite <- IH.
    + destruct (split_on (ceqb c) s) as [|w ws] eqn:Es; [by apply split_on_nonempty in Es|].
      destruct ws as [|w' ws]; cbn [join String.append] in *; by rewrite <- IH.
  - apply Forall_forall. intros w Hw. by apply split_elem_clean in Hw.
Qed.
Lemma listed_iff s l : listed s l <-> l = trim <$> split "," s.
Proof.
  split.
  - intros (parts & Hne & -> & Hc & Hl). unfold split. rewrite split_join by done.
    clear Hne Hc. induction Hl as [|p t parts l Ht _ IH]; [done|]. cbn. apply trim_iff in Ht as <-. by rewrite IH.
  - intros ->. destruct (join_split "," s) as (E & Hf & Hne). exists (split "," s). split; [done|]. split; [done|]. split; [done|].
    clear. induction (split "," s) as [|p parts IH]; [constructor|]. cbn. constructor; [apply trim_spec|done].
Qed.

Section Load.
Context (duration : string -> option Z).
Lemma says_iff k s v : says duration k s v <-> read_setting duration k s = Some v.
Proof.
  destruct k, v as [t|n|b|l]; cbn [says read_setting]; split; try done; try (by intros [= ->]); try (by intros ->).
  - destruct (parse_int s); done.
  - intros H. apply parse_int_spec in H. by rewrite H.
  - destruct (parse_int s) eqn:E; [|done]. intros [= <-]. by apply parse_int_spec in E.
  - destruct (parse_int s); done.
  - destruct (parse_int s); done.
  - destruct (parse_uint s); done.
  - intros H. apply parse_uint_spec in H. by rewrite H.
  - destruct (parse_uint s) eqn:E; [|done]. intros [= <-]. by apply parse_uint_spec in E.
  - destruct (parse_uint s); done.
  - destruct (parse_uint s); done.
  - intros H. do 2 f_equal. destruct b.
    + destruct (proj1 H eq_refl) as [->| ->]; done.
    + destruct (bool_decide (s = "true")) eqn:E1; [apply bool_decide_eq_true in E1 as ->; destruct H as [_ H]; symmetry; apply H; by left|].
      destruct (bool_decide (s = "1")) eqn:E2; [|done]. apply bool_decide_eq_true in E2 as ->. destruct H as [_ H]. symmetry. apply H. by right.
  - intros [= <-]. rewrite orb_true_iff, !bool_decide_eq_true. done.
  - destruct (duration s); done.
  - destruct (duration s) eqn:E; [|done]. by intros [= <-].
  - destruct (duration s); done.
  - destruct (duration s); done.
  - intros H. apply listed_iff in H as ->. done.
  - intros [= <-]. by apply listed_iff.
Qed.
(** the loop, exactly *)
Lemma load_fields_spec fs env :
  match load_fields duration fs env with
  | inl n => exists l1 f l2, fs = l1 ++ f :: l2 /\ n = f_name f /\ Forall (sensible duration env) l1 /\ ~ sensible duration env f
  | inr (ms, vs) => Forall (sensible duration env) fs /\ ms = f_name <$> filter (lacks env) fs /\ (ms = [] -> Forall2 (given duration env) fs vs)
  end.
Proof.
  induction fs as [|f fs IH]; cbn [load_fields].
  { split; [constructor|]. split; [done|]. intros _. constructor. }
  case_bool_decide as He.
  - assert (Hs : sensible duration env f) by (by intros H).
    destruct (load_fields duration fs env) as [n|[ms vs]].
    + destruct IH as (l1 & f' & l2 & -> & -> & Hf & Hn). exists (f :: l1), f', l2. split; [done|]. split; [done|]. split; [by constructor|done].
    + destruct IH as (Hf & Hm & Hl). destruct (f_required f) eqn:Er.
      * split; [by constructor|]. rewrite filter_cons_True by done. cbn. split; [by rewrite <- Hm|done].
      * split; [by constructor|]. rewrite filter_cons_False by (intros [? _]; congruence). split; [done|]. intros Hms. constructor; [by right|auto].
  - destruct (read_setting duration (f_kind f) (env (f_name f))) as [v|] eqn:Ev.
    + apply says_iff in Ev. destruct (load_fields duration fs env) as [n|[ms vs]].
      * destruct IH as (l1 & f' & l2 & -> & -> & Hf & Hn). exists (f :: l1), f', l2. split; [done|]. split; [done|]. split; [constructor; [by intros _; exists v|done]|done].
      * destruct IH as (Hf & Hm & Hl). split; [constructor; [by intros _; exists v|done]|]. rewrite filter_cons_False by (intros [_ ?]; done).
        split; [done|]. intros Hms. constructor; [by left|auto].
    + exists [], f, fs. split; [done|]. split; [done|]. split; [constructor|]. intros Hs. destruct (Hs He) as [v Hv]. apply says_iff in Hv. congruence.
Qed.
Lemma given_fun env f v v' : given duration env f v -> given duration env f v' -> v = v'.
Proof.
  intros [[H1 H2]|(H1 & H2 & ->)] [[H3 H4]|(H3 & H4 & ->)]; try done. apply says_iff in H2, H4. congruence.
Qed.
Lemma given_sensible env f v : given duration env f v -> sensible duration env f /\ ~ lacks env f.
Proof.
  intros [[H1 H2]|(H1 & H2 & ->)].
  - split; [by intros _; exists v|]. by intros [_ ?].
  - split; [by intros ?|]. intros [? _]. congruence.
Qed.
Lemma loaded_iff fs env l : load duration fs env = Loaded l <-> Forall2 (given duration env) fs l.
Proof.
  unfold load. pose proof (load_fields_spec fs env) as H. destruct (load_fields duration fs env) as [n|[ms vs]].
  - split; [done|]. intros Hl. exfalso. destruct H as (l1 & f & l2 & -> & _ & _ & Hn). apply Forall2_app_inv_l in Hl as (? & ? & _ & Hl & _).
    inversion Hl; subst. apply Hn. by eapply given_sensible.
  - destruct H as (Hf & Hm & Hl). destruct ms as [|m ms].
    + specialize (Hl eq_refl). split; [by intros [= <-]|]. intros Hl'. f_equal. clear -Hl Hl'. revert l Hl'.
      induction Hl as [|f v fs vs Hv _ IH]; intros l Hl'; inversion Hl' as [|? v' ? l' Hv' Hl'']; subst; [done|]. f_equal; [|auto].
      by eapply given_fun.
    + split; [done|]. intros Hl'. exfalso. assert (Hin : m ∈ f_name <$> filter (lacks env) fs) by (rewrite <- Hm; by left).
      apply elem_of_list_fmap in Hin as (f & _ & Hin). apply elem_of_list_filter in Hin as [Hla Hin].
      apply elem_of_list_lookup in Hin as [i Hi]. eapply Forall2_lookup_l in Hl' as (v & _ & Hv); [|exact Hi]. by apply given_sensible in Hv as [_ Hv].
Qed.
Lemma missing_iff fs env ms : load duration fs env = Missing ms <->
  ms <> [] /\ ms = f_name <$> filter (lacks env) fs /\ Forall (sensible duration env) fs.
Proof.
  unfold load. pose proof (load_fields_spec fs env) as H. destruct (load_fields duration fs env) as [n|[ms' vs]].
  - split; [done|]. intros (_ & _ & Hf). destruct H as (l1 & f & l2 & -> & _ & _ & Hn). apply Forall_app in Hf as [_ Hf]. inversion Hf; subst. by destruct Hn.
  - destruct H as (Hf & Hm & Hl). destruct ms' as [|m ms'].
    + split; [done|]. intros (Hne & -> & _). by rewrite <- Hm in Hne.
    + split; [intros [= <-]; by rewrite <- Hm|]. intros (_ & -> & _). by rewrite <- Hm.
Qed.
Lemma invalid_iff fs env n : load duration fs env = Invalid n <->
  exists l1 f l2, fs = l1 ++ f :: l2 /\ n = f_name f /\ Forall (sensible duration env) l1 /\ ~ sensible duration env f.
Proof.
  unfold load. pose proof (load_fields_spec fs env) as H. destruct (load_fields duration fs env) as [n'|[ms' vs]].
  - split; [by intros [= <-]|]. intros (l1 & f & l2 & E & -> & Hf & Hn). f_equal.
    destruct H as (l1' & f' & l2' & E' & -> & Hf' & Hn'). f_equal. rewrite E in E'. clear E. revert l1' E' Hf'.
    induction Hf as [|g l1 Hg _ IH]; intros [|g' l1'] E' Hf'; injection E' as E1 E2; subst.
    + done.
    + inversion Hf'; subst. done.
    + done.
    + inversion Hf'; subst. by eapply IH.
  - assert (Hf : Forall (sensible duration env) fs) by (by destruct H). split; [by destruct ms'|].
    intros (l1 & f & l2 & -> & _ & _ & Hn). apply Forall_app in Hf as [_ Hf]. by inversion Hf.
Qed.
End Load.
