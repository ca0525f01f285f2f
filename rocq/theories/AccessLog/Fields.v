(** The fields of an access log record. *)
From Coq Require Import Ascii String.
From stdpp Require Import prelude strings list gmap.
From Verif.Base Require Import GoInt Str Dec UrlProofs.
From Verif.AccessLog Require Import Spec Model Proofs.
Open Scope string_scope.
Open Scope list_scope.
Open Scope nat_scope.

Lemma stands_escape s : count nul s = 0 -> stands_for (html_escape s) s.
Proof.
  induction s as [|c s IH]; [constructor|]. cbn [count]. destruct (decide (nul = c)) as [|Hn]; [done|]. intros H.
  specialize (IH H). cbn [html_escape]. unfold escape_byte.
  assert (Hc : forall k, nat_of_ascii c = k -> c = ascii_of_nat k) by (intros k <-; by rewrite ascii_nat_embedding).
  destruct (nat_of_ascii c =? 0)%nat eqn:E0; [apply Nat.eqb_eq, Hc in E0; by destruct Hn|].
  destruct (nat_of_ascii c =? 34)%nat eqn:E1; [apply Nat.eqb_eq, Hc in E1 as ->; apply (sf_name "#34"); [set_solver|done]|].
  destruct (nat_of_ascii c =? 38)%nat eqn:E2; [apply Nat.eqb_eq, Hc in E2 as ->; apply (sf_name "amp"); [set_solver|done]|].
  destruct (nat_of_ascii c =? 39)%nat eqn:E3; [apply Nat.eqb_eq, Hc in E3 as ->; apply (sf_name "#39"); [set_solver|done]|].
  destruct (nat_of_ascii c =? 43)%nat eqn:E4; [apply Nat.eqb_eq, Hc in E4 as ->; apply (sf_name "#43"); [set_solver|done]|].
  destruct (nat_of_ascii c =? 60)%nat eqn:E5; [apply Nat.eqb_eq, Hc in E5 as ->; apply (sf_name "lt"); [set_solver|done]|].
  destruct (nat_of_ascii c =? 62)%nat eqn:E6; [apply Nat.eqb_eq, Hc in E6 as ->; apply (sf_name "gt"); [set_solver|done]|].
  apply sf_char; [|done]. rewrite !elem_of_cons, elem_of_nil. intros [->|[->|[->|[->|[->|[->|[->|[]]]]]]]]; done.
Qed.

Lemma split_app_tok p (a b : string) c :
  p c = true -> split_on p (append a (String c b)) = split_on p a ++ split_on p b.
Proof.
  intros Hc. induction a as [|d a IH];
    [change (append "" (String c b)) with (String c b) | change (append (String d a) (String c b)) with (String d (append a (String c b)))];
    cbn [split_on].
  - by rewrite Hc.
  - destruct (p d); [by rewrite IH|]. rewrite IH.
    destruct (split_on p a) eqn:E; [by destruct (split_on_nonempty p a)|]. done.
Qed.
Lemma split_tok_none p w : str_any p w = false -> split_on p w = [w].
Proof.
  induction w as [|d w IH]; [done|]. cbn [str_any split_on]. intros [Hd Hw]%orb_false_elim. rewrite Hd. by rewrite IH.
Qed.
Lemma name_eq n t m u : count "=" n = 0 -> count "=" m = 0 ->
  append n (append "=" t) = append m (append "=" u) -> n = m /\ t = u.
Proof.
  revert m. induction n as [|c n IH]; intros [|d m] Hn Hm E.
  - by injection E as ->.
  - injection E as <- E. by cbn in Hm.
  - injection E as -> E. by cbn in Hn.
  - cbn [count] in Hn, Hm. injection E as <- E. destruct (decide ("="%char = c)); [done|].
    by apply IH in E as [-> ->].
Qed.
Lemma count_end c w x : count c w = 0 -> c <> x -> count c (append w (String x "")) = 0.
Proof. intros Hw Hx. rewrite count_append, Hw. cbn. by rewrite decide_False. Qed.
Lemma count_mid c w x w' : c = x -> count c (append w (String x w')) <> 0.
Proof. intros ->. rewrite count_append. cbn. rewrite decide_True by done. lia. Qed.
Lemma cut_eq c a b a' b' : count c a = 0 -> count c a' = 0 ->
  append a (String c b) = append a' (String c b') -> a = a' /\ b = b'.
Proof.
  revert a'. induction a as [|d a IH]; intros [|e a'] Ha Ha' E; cbn [count] in Ha, Ha'.
  - by injection E as ->.
  - injection E as <- E. by rewrite decide_True in Ha' by done.
  - injection E as -> E. by rewrite decide_True in Ha by done.
  - injection E as <- E. destruct (decide (c = d)); [done|]. by apply IH in E as [-> ->].
Qed.
Lemma split_last p c l w : p c = true -> Forall (fun w => str_any p w = false) l -> str_any p w = false ->
  forall x, split_on p (append (join c (l ++ [w])) (String x "")) = l ++ (split_on p (append w (String x ""))).
Proof.
  intros Hc Hl Hw x. induction l as [|a l IH]; [done|]. apply Forall_cons in Hl as [Ha Hl]. cbn [app].
  assert (E : join c (a :: l ++ [w]) = append a (String c (join c (l ++ [w])))) by (by destruct l).
  rewrite E, append_assoc. change (append (String c ?y) ?z) with (String c (append y z)).
  rewrite split_on_app by done. by rewrite IH.
Qed.

Section Record.
Context (r : areq) (now : Z) (host port : string).
Context (Hs : clean_of " " r host port) (Hl : clean_of newline r host port).

Definition pairs : list (string * string) :=
  [("cs1Label", "userAuthenticationMechanism"); ("cs1", "oauth-access-token"); ("cs2Label", "vcapRequestId");
   ("cs2", a_id r); ("request", full_path r); ("requestMethod", a_method r);
   ("src", (remote_info r).1); ("spt", (remote_info r).2); ("dst", host); ("dpt", port)].
Definition word (nv : string * string) : string := append nv.1 (append "=" (html_escape nv.2)).
Definition lead : list string :=
  let m := html_escape (a_method r) in let p := html_escape (full_path r) in
  [append "CEF:0|cloud_foundry|log_cache|1.0|" m; append p (String "|" m); append p (append "|0|rt=" (format_int (to_millis now)))].
Lemma tokens_pairs : tokens r now host port = lead ++ (word <$> pairs).
Proof. reflexivity. Qed.

Lemma tokens_line : Forall (fun w => count newline w = 0) (tokens r now host port).
Proof.
  unfold clean_of in Hl. rewrite !Forall_cons in Hl. destruct Hl as (Hpa & Hq & Hm & Hi & Hf & Hr & Hh & Hp & _).
  destruct (remote_none newline r) as [H1 H2]; [done..|]. unfold tokens.
  repeat (apply Forall_cons; split; [|]); [..|apply Forall_nil; done]; rewrite ?count_append; cbn [count];
    rewrite ?escape_newline, ?format_int_no, ?full_path_count, ?Hpa, ?Hq, ?Hm, ?Hi, ?Hh, ?Hp, ?H1, ?H2, ?count_append by done;
    cbn [count]; rewrite ?escape_newline, ?format_int_no, ?Hm by done; done.
Qed.

(** what a field gives: a word of the record, the last without its newline *)
Lemma field_word name value : count " " name = 0 -> count newline name = 0 -> field (log_access r now host port) name value ->
  append name (append "=" value) ∈ tail (tokens r now host port).
Proof.
  intros Hname Hnn (before & sep & after & Hsep & Hv & Hvl & E).
  assert (Et : tokens r now host port = (lead ++ (word <$> take 9 pairs)) ++ [word ("dpt", port)]) by reflexivity.
  pose proof (tokens_clean r now host port Hs) as Hc. pose proof tokens_line as Hn.
  assert (Es : split_on (ceqb " ") (log_access r now host port) =
               (lead ++ (word <$> take 9 pairs)) ++ [append (word ("dpt", port)) (String newline "")]).
  { unfold log_access. rewrite cef_tokens, Et. rewrite Et in Hc. apply Forall_app in Hc as [Hc1 Hc2].
    apply Forall_cons in Hc2 as [Hc2 _]. rewrite split_last by done. f_equal. apply split_tok_none.
    apply has_count in Hc2. apply has_count, count_end; done. }
  set (w := append name (append "=" value)). fold w in E |- *.
  assert (Hw : str_any (ceqb " ") w = false).
  { apply has_count. unfold w. rewrite !count_append, Hname, Hv. done. }
  assert (Ew : append name (append "=" (append value (String sep after))) = append w (String sep after))
    by (unfold w; by rewrite !append_assoc).
  rewrite Ew in E. change (append " " ?x) with (String " " x) in E. rewrite E in Es.
  rewrite split_app_tok in Es by done.
  assert (Hin : (sep = " "%char -> w ∈ tail (split_on (ceqb " ") before ++ split_on (ceqb " ") (append w (String sep after)))) /\
                (sep = newline -> exists w', append w (String newline w') ∈ tail (split_on (ceqb " ") before ++ split_on (ceqb " ") (append w (String sep after))))).
  { destruct (split_on (ceqb " ") before) as [|b bs] eqn:Eb; [by destruct (split_on_nonempty (ceqb " ") before)|].
    cbn [app tail]. split.
    - intros ->. rewrite split_on_app by done. set_solver.
    - intros ->. assert (Hh : exists w' ws, split_on (ceqb " ") (append w (String newline after)) = append w (String newline w') :: ws).
      { clear -Hw. induction w as [|c w IH].
        - change (append "" ?z) with z. cbn [split_on]. change (ceqb " " newline) with false. cbn iota. destruct (split_on (ceqb " ") after) as [|x xs] eqn:Ex; [by destruct (split_on_nonempty (ceqb " ") after)|]. by exists x, xs.
        - cbn [str_any] in Hw. apply orb_false_elim in Hw as [H1 H2]. destruct (IH H2) as (w' & ws & E).
          change (append (String c w) ?z) with (String c (append w z)). cbn [split_on]. rewrite H1, E. by exists w', ws. }
      destruct Hh as (w' & ws & ->). exists w'. set_solver. }
  rewrite Es in Hin.
  assert (Etail : forall x : list string, tail ((lead ++ (word <$> take 9 pairs)) ++ x) = tail (lead ++ (word <$> take 9 pairs)) ++ x) by done.
  rewrite Etail in Hin. rewrite Et, Etail, elem_of_app, elem_of_list_singleton.
  rewrite Et in Hn. apply Forall_app in Hn as [Hn1 Hn2]. apply Forall_cons in Hn2 as [Hn2 _].
  assert (Hn1' : Forall (fun w => count newline w = 0) (tail (lead ++ (word <$> take 9 pairs)))) by (by inversion Hn1).
  assert (Hwn : count newline w = 0) by (unfold w; unfold lines in Hvl; change (ascii_of_nat 10) with newline in Hvl; by rewrite !count_append, Hnn, Hvl).
  destruct Hin as [H1 H2]. destruct Hsep as [-> | ->].
  - specialize (H1 eq_refl). apply elem_of_app in H1 as [Hx|H1%elem_of_list_singleton]; [by left|].
    exfalso. rewrite H1 in Hwn. by apply count_mid in Hwn.
  - destruct (H2 eq_refl) as (w' & H2'). apply elem_of_app in H2' as [H|H%elem_of_list_singleton].
    + exfalso. rewrite Forall_forall in Hn1'. specialize (Hn1' _ H). by apply count_mid in Hn1'.
    + right. by apply cut_eq in H as [-> _].
Qed.

Lemma join_word x y l a b w : l = a ++ w :: b -> a <> [] ->
  exists before sep after, (sep = x \/ sep = y) /\ append (join x l) (String y "") = append before (String x (append w (String sep after))).
Proof.
  intros -> Ha. destruct b as [|w' b].
  - exists (join x a), y, "". split; [by right|]. induction a as [|c a IH]; [done|]. destruct a as [|d a].
    + cbn. by rewrite append_assoc.
    + assert (E : forall t, join x (c :: d :: t) = append c (String x (join x (d :: t)))) by done.
      cbn [app]. rewrite !E, !append_assoc. f_equal. change (append (String x ?p) ?q) with (String x (append p q)). f_equal. by apply IH.
  - exists (join x a), x, (append (join x (w' :: b)) (String y "")). split; [by left|]. induction a as [|c a IH]; [done|]. destruct a as [|d a].
    + assert (E : forall c d t, join x (c :: d :: t) = append c (String x (join x (d :: t)))) by done.
      cbn [app]. rewrite !E, !append_assoc. f_equal. change (append (String x ?p) ?q) with (String x (append p q)). by rewrite append_assoc.
    + assert (E : forall t, join x (c :: d :: t) = append c (String x (join x (d :: t)))) by done.
      cbn [app]. rewrite !E, !append_assoc. f_equal. change (append (String x ?p) ?q) with (String x (append p q)). f_equal. by apply IH.
Qed.
Lemma pair_field n v : (n, v) ∈ pairs -> field (log_access r now host port) n (html_escape v).
Proof.
  intros Hin. assert (Hw : word (n, v) ∈ word <$> pairs) by (apply elem_of_list_fmap; by exists (n, v)).
  apply elem_of_list_split in Hw as (a & b & Hab).
  assert (Hv : word (n, v) ∈ tokens r now host port) by (rewrite tokens_pairs, Hab; set_solver).
  pose proof (tokens_clean r now host port Hs) as Hc. rewrite Forall_forall in Hc. pose proof (Hc _ Hv) as Hv1. apply has_count in Hv1.
  pose proof tokens_line as Hn. rewrite Forall_forall in Hn. pose proof (Hn _ Hv) as Hv2.
  unfold word in Hv1, Hv2. cbn [fst snd] in Hv1, Hv2. rewrite !count_append in Hv1, Hv2.
  destruct (join_word " " newline (tokens r now host port) (lead ++ a) b (word (n, v))) as (before & sep & after & Hsep & E).
  { by rewrite tokens_pairs, Hab, <-app_assoc. }
  { done. }
  exists before, sep, after. split; [done|]. split; [lia|]. split; [unfold lines; change (ascii_of_nat 10) with newline; lia|].
  unfold log_access. rewrite cef_tokens, E. unfold word. cbn [fst snd]. by rewrite !append_assoc.
Qed.
Lemma pair_names n v : (n, v) ∈ pairs -> count "=" n = 0 /\ count " " n = 0 /\ count newline n = 0.
Proof.
  assert (H : Forall (fun nv => count "=" nv.1 = 0 /\ count " " nv.1 = 0 /\ count newline nv.1 = 0) pairs) by (by repeat constructor).
  rewrite Forall_forall in H. apply H.
Qed.
Lemma pair_func n v v' : (n, v) ∈ pairs -> (n, v') ∈ pairs -> v = v'.
Proof.
  assert (Hd : NoDup (fst <$> pairs)) by (apply (bool_decide_unpack _); vm_compute; exact I).
  intros H1 H2. apply (elem_of_list_to_map_1 (M := gmap string)) in H1; [|done]. apply (elem_of_list_to_map_1 (M := gmap string)) in H2; [|done].
  rewrite H1 in H2. by injection H2.
Qed.
Lemma word_path n v p : (n, v) ∈ pairs -> full_path r = String "/" p -> forall t u, append n (append "=" t) <> append (html_escape (full_path r)) u.
Proof.
  intros Hin -> t u. cbn. intros E. assert (H : Forall (fun nv => exists c s, nv.1 = String c s /\ c <> "/"%char) pairs) by (repeat constructor; by eexists _, _).
  rewrite Forall_forall in H. destruct (H _ Hin) as (c & s & Ec & Hne). cbn in Ec. subst n. injection E as -> _. done.
Qed.
Lemma fields_ok n v : (n, v) ∈ pairs -> (exists p, a_path r = String "/" p) -> 
  forall t, field (log_access r now host port) n t <-> t = html_escape v.
Proof.
  intros Hin [p Hp] t. assert (Hfp : exists q, full_path r = String "/" q).
  { unfold full_path. rewrite Hp. case_bool_decide; by eexists. }
  destruct Hfp as [q Hq]. split; [|intros ->; by apply pair_field]. intros Hf.
  destruct (pair_names _ _ Hin) as (He & Hsp & Hnl). apply field_word in Hf; [|done..].
  rewrite tokens_pairs in Hf. unfold lead in Hf. cbn [app tail] in Hf. rewrite !elem_of_cons in Hf.
  destruct Hf as [Hf|[Hf|Hf]]; [by apply (word_path _ _ _ Hin Hq) in Hf..|].
  apply elem_of_list_fmap in Hf as ([n' v'] & E & Hin'). unfold word in E. cbn [fst snd] in E.
  apply name_eq in E as [-> ->]; [|done|by eapply pair_names]. f_equal. by eapply pair_func.
Qed.
End Record.
