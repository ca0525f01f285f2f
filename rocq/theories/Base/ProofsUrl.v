(** parse_query reads a query string as SpecUrl says. *)
From Coq Require Import Ascii String.
From stdpp Require Import prelude strings gmap list.
From Verif.Base Require Import Str Url UrlProofs SpecUrl.
Open Scope string_scope.
Open Scope list_scope.

Lemma hex_unhex c n : hex c n <-> unhex c = Some n.
Proof.
  split.
  - intros H. do 16 (destruct n as [|n]; [by destruct H as [[= <-]|[= <-]]|]).
    destruct H as [H|H]; cbn in H; by destruct n.
  - unfold hex. destruct c as [[] [] [] [] [] [] [] []]; intros H; vm_compute in H; simplify_eq; vm_compute; auto.
Qed.

Lemma without_has c w : without c w <-> has_char c w = false.
Proof.
  unfold without. split.
  - intros H. induction w as [|d w IH]; [done|]. rewrite has_char_cons, orb_false_iff. split.
    + apply ceqb_false. intros <-. by apply (H "" w).
    + apply IH. intros a b ->. by apply (H (String d a) b).
  - intros H a b ->. induction a as [|d a IH].
    + change (has_char c (String c b) = false) in H. by rewrite has_char_cons, ceqb_refl in H.
    + change (has_char c (String d (append a (String c b))) = false) in H.
      rewrite has_char_cons, orb_false_iff in H. exact (IH (proj2 H)).
Qed.

Lemma stands_unescape w s : stands_for w s <-> query_unescape w = Some s.
Proof.
  split.
  - induction 1 as [|w s H IH|a b x y w s Ha Hb H IH|c w s H1 H2 H IH]; [done| | |].
    + cbn [query_unescape]. change (ceqb "+" "%") with false. change (ceqb "+" "+") with true. cbn. by rewrite IH.
    + cbn [query_unescape]. change (ceqb "%" "%") with true. cbn iota.
      apply hex_unhex in Ha as ->, Hb as ->. cbn [mbind option_bind]. by rewrite IH.
    + cbn [query_unescape]. apply ceqb_false in H1, H2. rewrite H1, H2. by rewrite IH.
  - remember (String.length w) as n eqn:Hn. assert (Hle : String.length w <= n) by lia. clear Hn.
    revert w s Hle. induction n as [|n IH]; intros [|c w] s Hle H; cbn in Hle; try lia;
      try (cbn in H; injection H as <-; constructor).
    cbn [query_unescape] in H. destruct (ceqb c "%") eqn:E1.
    + apply ceqb_true in E1 as ->. destruct w as [|a [|b w]]; [done|done|].
      destruct (unhex a) as [x|] eqn:Ha; [|done]. destruct (unhex b) as [y|] eqn:Hb; [|done].
      cbn [mbind option_bind] in H. destruct (query_unescape w) as [r|] eqn:Hr; [|done].
      cbn [mbind option_bind] in H. injection H as <-. cbn in Hle.
      constructor; [by apply hex_unhex..|]. apply IH; [lia|done].
    + destruct (ceqb c "+") eqn:E2.
      * apply ceqb_true in E2 as ->. destruct (query_unescape w) as [r|] eqn:Hr; [|done].
        cbn [mbind option_bind] in H. injection H as <-. constructor. apply IH; [lia|done].
      * apply ceqb_false in E1, E2. destruct (query_unescape w) as [r|] eqn:Hr; [|done].
        cbn [mbind option_bind] in H. injection H as <-. constructor; [done..|]. apply IH; [lia|done].
Qed.

Lemma qsep_any w : str_any qsep w = false <-> without "&" w /\ without ";" w.
Proof.
  rewrite !without_has. unfold has_char. induction w as [|c w IH]; [done|]. cbn [str_any].
  rewrite !orb_false_iff, IH. unfold qsep. rewrite orb_false_iff, !ceqb_false. naive_solver.
Qed.

Lemma split_pieces q ws : pieces q ws <-> split_on qsep q = ws.
Proof.
  split.
  - induction 1 as [w H1 H2|w c q ws H1 H2 Hc H IH].
    + by apply split_on_none, qsep_any.
    + rewrite split_on_app; [by rewrite IH|by apply qsep_any|]. by destruct Hc as [->| ->].
  - revert ws. remember (String.length q) as n eqn:Hn. assert (Hle : String.length q <= n) by lia. clear Hn.
    revert q Hle. induction n as [|n IH]; intros q Hle ws <-.
    + destruct q; [|cbn in Hle; lia]. constructor; by apply without_has.
    + destruct (str_any qsep q) eqn:E.
      * assert (exists w c r, q = append w (String c r) /\ str_any qsep w = false /\ qsep c = true) as (w & c & r & -> & Hw & Hc).
        { clear -E. induction q as [|d q IH]; [done|]. cbn in E. destruct (qsep d) eqn:Hd.
          - by exists "", d, q.
          - destruct (IH E) as (w & c & r & -> & Hw & Hc). exists (String d w), c, r. cbn. by rewrite Hd. }
        rewrite split_on_app by done. apply qsep_any in Hw as [H1 H2].
        apply more_pieces; [done..| |].
        -- unfold qsep in Hc. apply orb_true_iff in Hc. rewrite !ceqb_true in Hc. done.
        -- apply IH; [|done]. clear -Hle. induction w as [|d w IHw].
           ++ change (append "" (String c r)) with (String c r) in Hle. cbn in Hle. lia.
           ++ change (append (String d w) (String c r)) with (String d (append w (String c r))) in Hle. cbn [String.length] in Hle. apply IHw. lia.
      * rewrite split_on_none by done. apply qsep_any in E as [H1 H2]. by constructor.
Qed.

Lemma cut_inv c s a b : cut c s = Some (a, b) -> s = append a (String c b) /\ has_char c a = false.
Proof.
  revert a. induction s as [|d s IH]; intros a; [done|]. cbn [cut]. destruct (ceqb c d) eqn:E.
  - intros [= <- <-]. apply ceqb_true in E as <-. done.
  - destruct (cut c s) as [[a' b']|] eqn:Hc; [|done]. cbn. intros [= <- <-].
    destruct (IH _ eq_refl) as [-> H]. split; [done|]. rewrite has_char_cons, E. done.
Qed.
Lemma cut_none c s : cut c s = None <-> has_char c s = false.
Proof.
  induction s as [|d s IH]; [done|]. cbn [cut]. rewrite has_char_cons. destruct (ceqb c d) eqn:E; [done|].
  cbn [orb]. rewrite <-IH. by destruct (cut c s) as [[a b]|].
Qed.

Lemma gives_parse w k x : gives w k x <-> parse_param w = Some (k, x).
Proof.
  split.
  - intros [a b k' x' H1 H2 H3|w' k' Hne H1 H2].
    + apply without_has in H1. apply stands_unescape in H2, H3. unfold parse_param.
      rewrite (cut_some _ _ _ H1). rewrite H2, H3.
      destruct (append a (String "=" b)) eqn:E; [by destruct a|done].
    + apply without_has, cut_none in H1. apply stands_unescape in H2. unfold parse_param. rewrite H1, H2.
      by destruct w'.
  - unfold parse_param. destruct w as [|c w]; [done|]. remember (String c w) as s.
    destruct (cut "=" s) as [[a b]|] eqn:E.
    + apply cut_inv in E as [-> Ha]. destruct (query_unescape a) eqn:E1; [|done].
      destruct (query_unescape b) eqn:E2; [|done]. cbn. intros [= <- <-].
      constructor; [by apply without_has|by apply stands_unescape..].
    + apply cut_none, without_has in E. destruct (query_unescape s) eqn:E1; [|done]. cbn. intros [= <- <-].
      apply gives_alone; [by subst|done|by apply stands_unescape].
Qed.

Lemma values_omap k ws xs : values_of k ws xs <-> of_key k (omap parse_param ws) = xs.
Proof.
  split.
  - induction 1 as [|w x ws xs Hg H IH|w ws xs Hg H IH]; [done| |].
    + apply gives_parse in Hg. cbn. rewrite Hg. unfold of_key in *. rewrite filter_cons_True by done. cbn. by rewrite IH.
    + cbn. destruct (parse_param w) as [[k' x]|] eqn:E; [|done]. apply gives_parse in E.
      unfold of_key in *. rewrite filter_cons_False; [done|]. cbn. intros ->. by eapply Hg.
  - revert xs. induction ws as [|w ws IH]; intros xs; cbn.
    + intros <-. constructor.
    + destruct (parse_param w) as [[k' x]|] eqn:E; apply gives_parse in E || idtac.
      * unfold of_key in *. destruct (decide (k' = k)) as [->|Hne].
        -- rewrite filter_cons_True by done. intros <-. cbn. constructor; [done|by apply IH].
        -- rewrite filter_cons_False by done. intros <-. apply values_skip; [|by apply IH].
           intros y Hy. apply gives_parse in E, Hy. congruence.
      * intros <-. apply values_skip; [|by apply IH]. intros y Hy. apply gives_parse in Hy. congruence.
Qed.

Lemma parse_says q k xs :
  says q k xs <-> parse_query q !! k = match xs with [] => None | _ => Some xs end.
Proof.
  unfold parse_query. change (foldl _ ∅ ?l) with (collect ∅ l).
  rewrite collect_lookup, lookup_empty. fold qsep. cbn [default app].
  unfold says. split.
  - intros (ws & H1 & H2). apply split_pieces in H1 as <-. apply values_omap in H2. subst xs. by destruct (of_key k _).
  - intros H. exists (split_on qsep q). split; [by apply split_pieces|]. apply values_omap.
    change (fun c => ceqb c "&" || ceqb c ";") with qsep in H.
    destruct (of_key k _) as [|v vs]; destruct xs as [|x xs]; try done. congruence.
Qed.
