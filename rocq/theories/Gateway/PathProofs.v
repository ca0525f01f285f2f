(** Cleaning a path. *)
From Coq Require Import Ascii String.
From stdpp Require Import prelude strings gmap list.
From Verif.Base Require Import GoInt Envelope Str Url UrlProofs Dec.
From Verif.Routing Require Import Model.
From Verif.Gateway Require Import Model Spec Proofs Decode Route SpecPath.
Open Scope string_scope.
Open Scope list_scope.

#[local] Arguments String.append : simpl nomatch.

Lemma concat_join ws : String.concat "/" ws = join "/" ws.
Proof. induction ws as [|w [|v ws] IH]; [done|done|]. cbn [String.concat join] in *. by rewrite IH. Qed.
Lemma slashless_iff w : slashless w <-> has_char "/" w = false.
Proof.
  split; [intros H; by apply no_char|]. intros H a b ->. assert (E : has_char "/" (append a (append "/" b)) = true).
  { apply has_char_iff. by exists a, b. } congruence.
Qed.
Lemma name_iff w : name w <-> component w.
Proof. unfold name, component. by rewrite slashless_iff. Qed.
Lemma names_iff ws : Forall name ws <-> Forall component ws.
Proof. rewrite !Forall_forall. by setoid_rewrite name_iff. Qed.
Lemma segments_split p : segments p (split "/" p).
Proof.
  split; [apply split_on_nonempty|]. split; [|by rewrite concat_join, join_split].
  rewrite Forall_forall. intros w Hw. apply slashless_iff. by eapply split_elem_clean.
Qed.
Lemma segments_unique p ws : segments p ws -> ws = split "/" p.
Proof.
  intros (Hn & Hall & ->). rewrite concat_join. symmetry. apply split_join; [done|done|].
  rewrite Forall_forall in Hall |- *. intros w Hw. by apply slashless_iff, Hall.
Qed.

(** ** The directory *)
Lemma removelast_rev {A} (l : list A) : removelast (rev l) = rev (tail l).
Proof. destruct l as [|a l]; [done|]. cbn [rev tail]. by rewrite removelast_last. Qed.
Lemma goes_fold ws : forall acc, goes (rev acc) ws (rev (foldl clean_step acc ws)).
Proof.
  induction ws as [|w ws IH]; intros acc; cbn [foldl]; [constructor|]. unfold clean_step at 2.
  destruct (bool_decide_reflect (w = "")); [apply goes_stay; [by left|apply IH]|].
  destruct (bool_decide_reflect (w = ".")); [apply goes_stay; [by right|apply IH]|]. cbn [orb].
  destruct (bool_decide_reflect (w = "..")) as [->|].
  - apply goes_up. rewrite removelast_rev. apply IH.
  - apply goes_down; [done..|]. exact (IH (w :: acc)).
Qed.
Lemma goes_det a ws t1 : goes a ws t1 -> forall t2, goes a ws t2 -> t1 = t2.
Proof.
  induction 1 as [|a w ws t1 Hw _ IH|a ws t1 _ IH|a w ws t1 H1 H2 H3 _ IH]; intros t2 G; inversion G; subst; try naive_solver.
Qed.
Definition place_of (p : string) : list string := rev (foldl clean_step [] (split "/" p)).
Lemma names_iff_place p pl : names p pl <-> pl = place_of p.
Proof.
  split.
  - intros (ws & Hs & Hg). apply segments_unique in Hs as ->. eapply goes_det; [exact Hg|]. exact (goes_fold _ []).
  - intros ->. exists (split "/" p). split; [apply segments_split|]. exact (goes_fold _ []).
Qed.
Lemma place_components p : Forall component (place_of p).
Proof.
  unfold place_of. apply Forall_rev.
  assert (L : forall ws acc, Forall component acc -> Forall (fun w => has_char "/" w = false) ws ->
    Forall component (foldl clean_step acc ws)).
  { induction ws as [|w ws IH]; intros acc Ha Hw; cbn [foldl]; [done|]. inversion Hw; subst. apply IH; [|done]. unfold clean_step.
    destruct (bool_decide_reflect (w = "")); [done|]. destruct (bool_decide_reflect (w = ".")); [done|]. cbn [orb].
    destruct (bool_decide_reflect (w = "..")); [destruct Ha; [constructor|done]|]. by constructor. }
  apply L; [constructor|]. rewrite Forall_forall. intros w Hw. by eapply split_elem_clean.
Qed.
Lemma path_clean_place p : path_clean p = append "/" (join "/" (place_of p)).
Proof. done. Qed.

(** ** Writing it *)
Lemma split_slash s : split "/" (append "/" s) = "" :: split "/" s.
Proof. done. Qed.
Lemma split_components ws : ws <> [] -> Forall component ws -> split "/" (join "/" ws) = ws.
Proof.
  intros Hn H. apply split_join; [done|done|]. rewrite Forall_forall in H |- *. intros w Hw. by destruct (H w Hw) as (_ & _ & _ & ?).
Qed.
Lemma join_snoc ws : ws <> [] -> join "/" (ws ++ [""]) = append (join "/" ws) "/".
Proof.
  induction ws as [|w ws IH]; [done|]. intros _. destruct ws as [|v ws]; [done|].
  change ((w :: v :: ws) ++ [""]) with (w :: ((v :: ws) ++ [""])). rewrite join_cons by done. rewrite IH by done.
  rewrite (join_cons "/" w (v :: ws)) by done. generalize (join "/" (v :: ws)). intros s.
  induction w as [|c w IHw]; [done|]. cbn [append]. by rewrite IHw.
Qed.
Lemma split_components_slash ws : ws <> [] -> Forall component ws -> split "/" (append (join "/" ws) "/") = ws ++ [""].
Proof.
  intros Hn H. rewrite <-join_snoc by done. apply split_join; [done|by destruct ws|].
  apply Forall_app. split; [|by repeat constructor]. rewrite Forall_forall in H |- *. intros w Hw. by destruct (H w Hw) as (_ & _ & _ & ?).
Qed.
Lemma place_written ws : Forall component ws -> place_of (append "/" (join "/" ws)) = ws.
Proof.
  intros H. unfold place_of. rewrite split_slash. cbn [foldl]. destruct ws as [|w ws]; [done|].
  rewrite split_components by done. rewrite clean_steps by done. change (clean_step [] "") with (@nil string).
  by rewrite app_nil_r, rev_involutive.
Qed.
Lemma place_written_slash ws : ws <> [] -> Forall component ws -> place_of (append "/" (append (join "/" ws) "/")) = ws.
Proof.
  intros Hn H. unfold place_of. rewrite split_slash. cbn [foldl]. rewrite split_components_slash by done.
  rewrite foldl_app. rewrite (clean_steps ws) by done. change (clean_step [] "") with (@nil string). rewrite app_nil_r.
  change (foldl clean_step (rev ws) [""]) with (rev ws). apply rev_involutive.
Qed.

(** ** The last slash *)
Lemma slashed_iff p : slashed p <-> ends_in_slash p = true.
Proof.
  unfold slashed, ends_in_slash. split.
  - intros [a ->]. destruct (cut_last "/" (append a "/")) as [[x y]|] eqn:E.
    + induction a as [|c a IH] in x, y, E |- *.
      { cbn in E. by injection E as <- <-. }
      cbn [append cut_last] in E. destruct (cut_last "/" (append a "/")) as [[x' y']|] eqn:E'.
      * injection E as <- <-. by apply (IH x' y').
      * apply cut_last_none in E'. assert (X : has_char "/" (append a "/") = true) by (apply has_char_iff; by exists a, ""). congruence.
    + apply cut_last_none in E. assert (X : has_char "/" (append a "/") = true) by (apply has_char_iff; by exists a, ""). congruence.
  - destruct (cut_last "/" p) as [[a [|c b]]|] eqn:E; [|done|done]. intros _. apply cut_last_some in E as [-> _]. by exists a.
Qed.
Lemma slashed_split p : slashed p -> last (split "/" p) = Some "".
Proof.
  intros [a ->]. unfold split. induction a as [|c a IH]; [done|]. cbn [append split_on].
  destruct (ceqb "/" c).
  - destruct (split_on (ceqb "/") (append a "/")) eqn:E; [by apply split_on_nonempty in E|done].
  - destruct (split_on (ceqb "/") (append a "/")) as [|w [|v vs]] eqn:E; [by apply split_on_nonempty in E| |done].
    exfalso. apply (split_one "/" (append a "/") w) in E as E2. subst w. cbn in IH. injection IH as IH. by destruct a.
Qed.
Lemma written_not_slashed ws : ws <> [] -> Forall component ws -> ~ slashed (append "/" (join "/" ws)).
Proof.
  intros Hn H Hs. apply slashed_split in Hs. rewrite split_slash, split_components in Hs by done.
  destruct ws as [|w ws _] using rev_ind; [done|]. rewrite app_comm_cons, last_snoc in Hs. injection Hs as ->.
  apply Forall_app in H as [_ H]. inversion H as [|? ? (Hne & _)]. done.
Qed.

(** ** The whole function *)
Definition rooted (p : string) : string :=
  match p with String c _ => if ceqb c "/" then p else String "/" p | EmptyString => "/" end.
Lemma place_rooted p : place_of (rooted p) = place_of p.
Proof.
  unfold rooted. destruct p as [|c p]; [done|]. destruct (ceqb c "/"); [done|].
  unfold place_of. change (String "/" (String c p)) with (append "/" (String c p)). by rewrite split_slash.
Qed.
Lemma slashed_rooted p : slashed (rooted p) <-> p = "" \/ slashed p.
Proof.
  unfold rooted. destruct p as [|c p].
  - split; [by left|]. intros _. by exists "".
  - destruct (ceqb c "/"); [split; [by right|by intros [?|?]]|]. split.
    + intros [[|d a] E]; [done|]. right. exists a. by injection E as _ ->.
    + intros [?|[a ->]]; [done|]. by exists (String "/" a).
Qed.
Lemma join_nonempty ws : ws <> [] -> Forall component ws -> join "/" ws <> "".
Proof.
  intros Hn H. destruct ws as [|w ws]; [done|]. inversion H as [|? ? (Hne & _)]; subst. destruct ws; [done|].
  rewrite join_cons by done. destruct w; done.
Qed.
Lemma http_clean_cases p :
  (place_of p = [] /\ http_clean p = "/") \/
  (place_of p <> [] /\ slashed p /\ http_clean p = append "/" (append (join "/" (place_of p)) "/")) \/
  (place_of p <> [] /\ ~ slashed p /\ http_clean p = append "/" (join "/" (place_of p))).
Proof.
  unfold http_clean. fold (rooted p). rewrite path_clean_place, place_rooted.
  destruct (decide (place_of p = [])) as [E|E].
  { left. split; [done|]. rewrite E. change (append "/" (join "/" [])) with "/". rewrite bool_decide_eq_true_2 by done. by rewrite andb_false_r. }
  right. pose proof (join_nonempty _ E (place_components p)) as Hj.
  rewrite bool_decide_eq_false_2 by (intros [= H]; done). cbn [negb]. rewrite andb_true_r.
  destruct (ends_in_slash (rooted p)) eqn:Er.
  - left. split; [done|]. apply slashed_iff, slashed_rooted in Er as [->|Hs]; [done|]. done.
  - right. split; [done|]. split; [|done]. intros Hs. assert (X : slashed (rooted p)) by (apply slashed_rooted; by right).
    apply slashed_iff in X. congruence.
Qed.
Lemma clean_plain p : plain (http_clean p).
Proof.
  destruct (http_clean_cases p) as [[_ ->]|[(Hn & _ & ->)|(Hn & _ & ->)]]; [by left|right..];
    exists (place_of p); (split; [done|]); (split; [apply names_iff, place_components|]); rewrite concat_join; [by right|by left].
Qed.
Lemma clean_of_plain p : plain p -> http_clean p = p.
Proof.
  intros [->|(ws & Hn & Hall & Hp)]; [done|]. rewrite concat_join in Hp. apply names_iff in Hall. destruct Hp as [->| ->].
  - assert (Hpl := place_written ws Hall). destruct (http_clean_cases (append "/" (join "/" ws))) as [[E _]|[(_ & Hs & _)|(_ & _ & ->)]].
    + congruence.
    + by apply written_not_slashed in Hs.
    + by rewrite Hpl.
  - assert (Hpl := place_written_slash ws Hn Hall).
    destruct (http_clean_cases (append "/" (append (join "/" ws) "/"))) as [[E _]|[(_ & _ & ->)|(_ & Hs & _)]].
    + congruence.
    + by rewrite Hpl.
    + destruct Hs. by exists (append "/" (join "/" ws)).
Qed.
Lemma clean_names p pl : names (http_clean p) pl <-> names p pl.
Proof.
  rewrite !names_iff_place.
  enough (place_of (http_clean p) = place_of p) as -> by done.
  destruct (http_clean_cases p) as [[E ->]|[(Hn & _ & ->)|(Hn & _ & ->)]].
  - by rewrite E.
  - apply place_written_slash; [done|apply place_components].
  - apply place_written, place_components.
Qed.
Lemma clean_slashed p : ~ names p [] -> (slashed (http_clean p) <-> slashed p).
Proof.
  rewrite names_iff_place. intros Hn. destruct (http_clean_cases p) as [[E _]|[(_ & Hs & ->)|(Hn' & Hs & ->)]].
  - by rewrite E in Hn.
  - split; [done|]. intros _. by exists (append "/" (join "/" (place_of p))).
  - split; [|done]. intros H. by apply written_not_slashed in H; [|done|apply place_components].
Qed.
Lemma plain_unique p q : plain p -> plain q -> (forall pl, names p pl <-> names q pl) ->
  (~ names p [] -> (slashed p <-> slashed q)) -> p = q.
Proof.
  intros Hp Hq Hn Hs. rewrite <-(clean_of_plain p Hp), <-(clean_of_plain q Hq).
  assert (E : place_of p = place_of q) by (apply (names_iff_place q), Hn, names_iff_place; done).
  rewrite names_iff_place in Hs.
  destruct (http_clean_cases p) as [[E1 ->]|[(N1 & S1 & ->)|(N1 & S1 & ->)]];
  destruct (http_clean_cases q) as [[E2 ->]|[(N2 & S2 & ->)|(N2 & S2 & ->)]]; try congruence.
  - exfalso. by apply S2, Hs; [congruence|].
  - exfalso. by apply S1, Hs; [congruence|].
Qed.
