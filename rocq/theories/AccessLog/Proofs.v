From Coq Require Import Ascii String.
From stdpp Require Import prelude strings list.
From Verif.Base Require Import GoInt Str UrlProofs Dec.
From Verif.AccessLog Require Import Spec Model.
Open Scope string_scope.
Open Scope list_scope.

Lemma count_append c a b : count c (append a b) = (count c a + count c b)%nat.
Proof.
  induction a as [|d a IH]; [done|]. change (append (String d a) b) with (String d (append a b)). cbn [count]. rewrite IH. lia.
Qed.
Lemma has_count c s : has_char c s = false <-> count c s = 0%nat.
Proof.
  unfold has_char. induction s as [|d s IH]; [done|]. cbn [str_any count]. rewrite orb_false_iff, IH.
  unfold ceqb. case_bool_decide; case_decide; try done; split; try lia; naive_solver.
Qed.
Lemma append_assoc a b c : append (append a b) c = append a (append b c).
Proof. induction a as [|d a IH]; [done|]. exact (f_equal (String d) IH). Qed.
Lemma append_nil a : append a "" = a.
Proof. induction a as [|d a IH]; [done|]. exact (f_equal (String d) IH). Qed.

(** ** Escaping *)
Lemma escape_byte_newline c : count newline (escape_byte c) = if decide (newline = c) then 1%nat else 0%nat.
Proof. destruct c as [[] [] [] [] [] [] [] []]; vm_compute; reflexivity. Qed.
Lemma escape_newline s : count newline (html_escape s) = count newline s.
Proof. induction s as [|c s IH]; [done|]. cbn [html_escape count]. by rewrite count_append, IH, escape_byte_newline. Qed.
Lemma escape_byte_space c : count " " (escape_byte c) = if decide (" "%char = c) then 1%nat else 0%nat.
Proof. destruct c as [[] [] [] [] [] [] [] []]; vm_compute; reflexivity. Qed.
Lemma escape_space s : count " " (html_escape s) = count " " s.
Proof. induction s as [|c s IH]; [done|]. cbn [html_escape count]. by rewrite count_append, IH, escape_byte_space. Qed.

Definition nul : ascii := ascii_of_nat 0.
(** reading an escaped byte back *)
Definition unescape (s : string) : option (ascii * string) :=
  match s with
  | EmptyString => None
  | String "&" s =>
      match s with
      | String "#" (String "3" (String "4" (String ";" r))) => Some (ascii_of_nat 34, r)
      | String "a" (String "m" (String "p" (String ";" r))) => Some (ascii_of_nat 38, r)
      | String "#" (String "3" (String "9" (String ";" r))) => Some (ascii_of_nat 39, r)
      | String "#" (String "4" (String "3" (String ";" r))) => Some (ascii_of_nat 43, r)
      | String "l" (String "t" (String ";" r)) => Some (ascii_of_nat 60, r)
      | String "g" (String "t" (String ";" r)) => Some (ascii_of_nat 62, r)
      | _ => None
      end
  | String c s => Some (c, s)
  end.
Lemma unescape_byte c r : c <> nul -> unescape (append (escape_byte c) r) = Some (c, r).
Proof. destruct c as [[] [] [] [] [] [] [] []]; try reflexivity. by intros []. Qed.
Lemma escape_inj a b : count nul a = 0%nat -> count nul b = 0%nat -> html_escape a = html_escape b -> a = b.
Proof.
  revert b. induction a as [|c a IH]; intros [|d b] Ha Hb E; [done|..].
  - cbn [html_escape count] in *. pose proof (unescape_byte d (html_escape b)) as H. rewrite <- E in H.
    destruct (decide (nul = d)) as [|Hn]; [done|]. specialize (H ltac:(by intros ->)). done.
  - cbn [html_escape count] in *. pose proof (unescape_byte c (html_escape a)) as H. rewrite E in H.
    destruct (decide (nul = c)) as [|Hn]; [done|]. specialize (H ltac:(by intros ->)). done.
  - cbn [html_escape count] in *. destruct (decide (nul = c)); [done|]. destruct (decide (nul = d)); [done|].
    pose proof (unescape_byte c (html_escape a)) as H1. pose proof (unescape_byte d (html_escape b)) as H2.
    rewrite E, H2 in H1 by done. specialize (H1 ltac:(done)). injection H1 as <- E'. f_equal. apply IH; auto. 
Qed.

(** ** Numbers *)
Lemma format_digits_no c fuel n rest : is_digit c = false -> count c rest = 0%nat -> 
  (0 <= n)%Z -> count c (format_digits fuel n rest) = 0%nat.
Proof.
  intros Hc. revert n rest. induction fuel as [|fuel IH]; intros n rest Hr Hn;
    (assert (Hd : count c (String (digit_char (n `mod` 10)) rest) = 0%nat);
     [cbn [count]; destruct (decide (c = digit_char (n `mod` 10))) as [->|]; [|done];
      destruct (digit_char_ok (n `mod` 10)) as [E _]; [apply Z.mod_pos_bound; lia|]; congruence|]); cbn [format_digits]; [done|].
  destruct (n <? 10)%Z; [done|]. apply IH; [done|]. apply Z.div_pos; lia.
Qed.
Lemma format_int_no c n : is_digit c = false -> c <> "-"%char -> count c (format_int n) = 0%nat.
Proof.
  intros Hc Hm. unfold format_int, format_uint. destruct (Z.ltb_spec n 0).
  - cbn [count]. rewrite decide_False by done. apply format_digits_no; [done|done|lia].
  - apply format_digits_no; [done|done|lia].
Qed.

(** ** Addresses *)
Lemma cut_last_none c s : count c s = 0%nat -> cut_last c s = None.
Proof.
  induction s as [|d s IH]; [done|]. cbn [count cut_last]. intros H. rewrite IH by lia. unfold ceqb.
  case_decide; [done|]. by rewrite bool_decide_false.
Qed.
Lemma cut_last_app c a b : count c b = 0%nat -> cut_last c (append a (String c b)) = Some (a, b).
Proof.
  intros Hb. induction a as [|d a IH].
  - change (append "" (String c b)) with (String c b). cbn [cut_last]. rewrite cut_last_none by done. by rewrite ceqb_refl.
  - change (append (String d a) (String c b)) with (String d (append a (String c b))). cbn [cut_last]. by rewrite IH.
Qed.
Lemma split_plain host port : count ":" host = 0%nat -> count "[" host = 0%nat -> count "]" host = 0%nat ->
  count ":" port = 0%nat -> count "[" port = 0%nat -> count "]" port = 0%nat ->
  split_host_port (append host (String ":" port)) = Some (host, port).
Proof.
  intros H1 H2 H3 H4 H5 H6. unfold split_host_port. rewrite cut_last_app by done.
  assert (Hh : has_char ":" host || has_char "[" (append host (String ":" port)) || has_char "]" (append host (String ":" port)) = false).
  { rewrite !orb_false_iff, !has_count, !count_append. cbn [count]. rewrite decide_False, decide_False by done. lia. }
  destruct host as [|c host].
  - change (append "" (String ":" port)) with (String ":" port) in *. by rewrite Hh.
  - change (append (String c host) (String ":" port)) with (String c (append host (String ":" port))) in *.
    rewrite Hh. destruct (decide (c = "["%char)) as [->|Hn].
    + cbn [count] in H2. rewrite decide_True in H2 by done. lia.
    + destruct c as [[] [] [] [] [] [] [] []]; try reflexivity. done.
Qed.
Lemma split_six host port : count "[" host = 0%nat -> count "]" host = 0%nat ->
  count ":" port = 0%nat -> count "[" port = 0%nat -> count "]" port = 0%nat ->
  split_host_port (String "[" (append host (append "]:" port))) = Some (host, port).
Proof.
  intros H2 H3 H4 H5 H6. unfold split_host_port.
  assert (E : cut_last ":" (String "[" (append host (append "]:" port))) = Some (append (String "[" host) "]", port)).
  { change (append "]:" port) with (append "]" (String ":" port)). rewrite <- append_assoc.
    change (String "[" (append (append host "]") (String ":" port))) with (append (append (String "[" host) "]") (String ":" port)).
    by apply cut_last_app. }
  rewrite E. change (append "]:" port) with (String "]" (String ":" port)). rewrite cut_some by (by apply has_count).
  assert (Hh : has_char ":" port || has_char "[" (append host (String "]" (String ":" port))) || has_char "]" port = false).
  { rewrite !orb_false_iff, !has_count, !count_append. cbn [count]. rewrite !decide_False by done. lia. }
  by rewrite Hh.
Qed.
Lemma remote_address r addr host port : address addr host port -> addr <> "" -> 
  (a_forwarded r = addr /\ count "," addr = 0%nat \/ (exists rest, a_forwarded r = append addr (String "," rest) /\ count "," addr = 0%nat) \/
   (a_forwarded r = "" /\ a_remote r = addr)) ->
  remote_info r = (host, port).
Proof.
  intros Ha Hne Hr. unfold remote_info.
  assert (E : (if bool_decide (before_comma (a_forwarded r) = "") then a_remote r else before_comma (a_forwarded r)) = addr).
  { unfold before_comma. destruct Hr as [[E Hc]|[(rest & E & Hc)|[E E']]]; rewrite E.
    - assert (cut "," addr = None) as ->; [|by rewrite bool_decide_false].
      clear -Hc. induction addr as [|d s IH]; [done|]. cbn [cut count] in *. rewrite IH by lia. unfold ceqb.
      case_decide; [done|]. by rewrite bool_decide_false.
    - rewrite cut_some by (by apply has_count). by rewrite bool_decide_false.
    - cbn. done. }
  rewrite E. destruct Ha as [host H1 H2 H3|host port H1 H2 H3 H4 H5 H6|host port H2 H3 H4 H5 H6].
  - apply has_count in H1 as Hh. rewrite Hh. change ":" with (String ":" "") at 1. by rewrite split_plain.
  - assert (Hc : has_char ":" (append host (String ":" port)) = true).
    { destruct (has_char _ _) eqn:Eh; [done|]. apply has_count in Eh. rewrite count_append in Eh. cbn [count] in Eh.
      rewrite decide_True in Eh by done. lia. }
    rewrite Hc, split_plain by done. done.
  - assert (Hc : has_char ":" (String "[" (append host (append "]:" port))) = true).
    { destruct (has_char _ _) eqn:Eh; [done|]. apply has_count in Eh. cbn [count] in Eh. rewrite !count_append in Eh.
      change (count ":" "]:") with 1%nat in Eh. lia. }
    rewrite Hc, split_six by done. done.
Qed.

(** ** What a field may contain *)
Lemma cut_last_some c s a b : cut_last c s = Some (a, b) -> s = append a (String c b).
Proof.
  revert a b. induction s as [|d s IH]; intros a b; [done|]. cbn [cut_last].
  destruct (cut_last c s) as [[a' b']|] eqn:E.
  - intros [= <- <-]. rewrite (IH _ _ eq_refl). done.
  - destruct (ceqb c d) eqn:Ec; [|done]. apply ceqb_true in Ec as ->. by intros [= <- <-].
Qed.
Lemma cut_app c s a b : cut c s = Some (a, b) -> s = append a (String c b).
Proof.
  revert a b. induction s as [|d s IH]; intros a b; [done|]. cbn [cut].
  destruct (ceqb c d) eqn:Ec; [apply ceqb_true in Ec as ->; by intros [= <- <-]|].
  destruct (cut c s) as [[a' b']|]; [|done]. intros [= <- <-]. rewrite (IH _ _ eq_refl). done.
Qed.
Lemma split_none c s host port : count c s = 0%nat -> split_host_port s = Some (host, port) ->
  count c host = 0%nat /\ count c port = 0%nat.
Proof.
  unfold split_host_port. intros Hs. destruct (cut_last ":" s) as [[h p]|] eqn:E; [|done].
  apply cut_last_some in E.
  assert (Hplain : (if has_char ":" h || has_char "[" s || has_char "]" s then None else Some (h, p)) = Some (host, port) ->
     count c host = 0%nat /\ count c port = 0%nat).
  { destruct (_ || _); [done|]. intros [= <- <-]. rewrite E, count_append in Hs. cbn [count] in Hs. lia. }
  destruct s as [|d s]; [exact Hplain|]. destruct (decide (d = "["%char)) as [->|Hn].
  - destruct (cut "]" s) as [[h' p']|] eqn:E'; [|done]. apply cut_app in E'. destruct p' as [|q p']; [done|].
    destruct (decide (q = ":"%char)) as [->|Hq].
    + match goal with |- (if ?b then _ else _) = _ -> _ => destruct b end; [done|]. intros [= <- <-]. cbn [count] in Hs. rewrite E', count_append in Hs. cbn [count] in Hs. lia.
    + destruct q as [[] [] [] [] [] [] [] []]; done.
  - destruct d as [[] [] [] [] [] [] [] []]; try exact Hplain. done.
Qed.
Lemma remote_none c r : c <> ":"%char -> count c (a_forwarded r) = 0%nat -> count c (a_remote r) = 0%nat ->
  count c (remote_info r).1 = 0%nat /\ count c (remote_info r).2 = 0%nat.
Proof.
  intros Hc Hf Hr. unfold remote_info. set (addr := if bool_decide _ then _ else _).
  assert (Ha : count c addr = 0%nat).
  { unfold addr. case_bool_decide; [done|]. unfold before_comma. destruct (cut "," (a_forwarded r)) as [[a b]|] eqn:E; [|done].
    apply cut_app in E. rewrite E, count_append in Hf. lia. }
  assert (Ha' : count c (if has_char ":" addr then addr else append addr ":") = 0%nat).
  { destruct (has_char ":" addr); [done|]. rewrite count_append, Ha. cbn. by rewrite decide_False. }
  destruct (split_host_port _) as [[h p]|] eqn:E; [|done]. by apply (split_none c) in E.
Qed.
Lemma full_path_count c r : c <> "?"%char -> count c (full_path r) = (count c (a_path r) + count c (a_query r))%nat.
Proof.
  intros Hc. unfold full_path. case_bool_decide as E; [rewrite E; cbn; lia|]. rewrite count_append. cbn [count].
  rewrite decide_False by done. lia.
Qed.

(** ** Lines *)
Lemma log_lines r now host port :
  Forall (fun s => lines s = 0%nat) [a_query r; a_method r; a_id r; a_forwarded r; a_remote r; host; port] ->
  lines (log_access r now host port) = (1 + 3 * lines (a_path r))%nat.
Proof.
  rewrite !Forall_cons. unfold lines. change (ascii_of_nat 10) with newline. intros (Hq & Hm & Hi & Hf & Hr & Hh & Hp & _).
  destruct (remote_none newline r) as [H1 H2]; [done..|]. unfold log_access, cef. destruct (remote_info r) as [rh rp]. cbn [fst snd] in H1, H2.
  cbn [join]. rewrite !count_append.
  repeat match goal with |- context [count newline (String ?c ?x)] =>
     lazymatch x with
     | append _ _ => change (count newline (String c x)) with ((if decide (newline = c) then 1 else 0) + count newline x)%nat; rewrite !count_append
     end end.
  rewrite !escape_newline, !format_int_no by done. rewrite !full_path_count by done.
  rewrite Hq, Hm, Hi, Hh, Hp, H1, H2. cbn [count].
  repeat match goal with |- context [if decide (newline = ?c) then 1%nat else 0%nat] =>
    first [rewrite (decide_False (P := newline = c)) by done | rewrite (decide_True (P := newline = c)) by done] end. lia.
Qed.

(** ** The record determines what it records *)
Definition tokens (r : areq) (now : Z) (host port : string) : list string :=
  let m := html_escape (a_method r) in let p := html_escape (full_path r) in
  [append "CEF:0|cloud_foundry|log_cache|1.0|" m; append p (String "|" m); append p (append "|0|rt=" (format_int (to_millis now)));
   "cs1Label=userAuthenticationMechanism"; "cs1=oauth-access-token"; "cs2Label=vcapRequestId";
   append "cs2=" (html_escape (a_id r)); append "request=" p; append "requestMethod=" m;
   append "src=" (html_escape (remote_info r).1); append "spt=" (html_escape (remote_info r).2);
   append "dst=" (html_escape host); append "dpt=" (html_escape port)].
Lemma cef_tokens r now host port : cef r now host port = join " " (tokens r now host port).
Proof.
  unfold cef, tokens. destruct (remote_info r) as [rh rp]. cbn [join fst snd].
  repeat first [rewrite !append_assoc | progress match goal with |- context [append (String ?c ?a) ?b] =>
    change (append (String c a) b) with (String c (append a b)) end].
  reflexivity.
Qed.
Definition clean_of (c : ascii) (r : areq) (host port : string) : Prop :=
  Forall (fun s => count c s = 0%nat) [a_path r; a_query r; a_method r; a_id r; a_forwarded r; a_remote r; host; port].
Lemma tokens_clean r now host port : clean_of " " r host port ->
  Forall (fun w => has_char " " w = false) (tokens r now host port).
Proof.
  unfold clean_of. rewrite !Forall_cons. intros (Hpa & Hq & Hm & Hi & Hf & Hr & Hh & Hp & _).
  destruct (remote_none " " r) as [H1 H2]; [done..|]. unfold tokens.
  repeat (apply Forall_cons; split; [|]); [..|apply Forall_nil; done]; apply has_count; rewrite ?count_append; cbn [count];
    rewrite ?escape_space, ?format_int_no, ?full_path_count, ?Hpa, ?Hq, ?Hm, ?Hi, ?Hh, ?Hp, ?H1, ?H2, ?count_append by done;
    cbn [count]; rewrite ?escape_space, ?format_int_no, ?Hm by done; done.
Qed.
Lemma append_inj a x y : append a x = append a y -> x = y.
Proof. induction a as [|c a IH]; [done|]. intros [= H]. by apply IH. Qed.
Lemma format_int_inj a b : in64 a -> in64 b -> format_int a = format_int b -> a = b.
Proof. intros Ha Hb E. apply parse_format_int in Ha, Hb. rewrite E, Hb in Ha. by injection Ha. Qed.
Lemma millis_in64 now : in64 now -> in64 (to_millis now).
Proof.
  unfold in64, to_millis. intros H. pose proof (Z.quot_rem' now 1000000). 
  destruct (Z.le_gt_cases 0 now).
  - pose proof (Z.quot_pos now 1000000 ltac:(done) ltac:(lia)). pose proof (Z.quot_le_upper_bound now 1000000 now ltac:(lia) ltac:(lia)). lia.
  - pose proof (Z.quot_opp_l now 1000000 ltac:(lia)).
    pose proof (Z.quot_pos (- now) 1000000 ltac:(lia) ltac:(lia)). pose proof (Z.quot_le_upper_bound (- now) 1000000 (- now) ltac:(lia) ltac:(lia)). lia.
Qed.
Lemma cef_inj r now host port r' now' host' port' :
  clean_of " " r host port -> clean_of " " r' host' port' -> clean_of nul r host port -> clean_of nul r' host' port' ->
  in64 now -> in64 now' -> cef r now host port = cef r' now' host' port' ->
  a_method r = a_method r' /\ full_path r = full_path r' /\ a_id r = a_id r' /\ remote_info r = remote_info r' /\
  host = host' /\ port = port' /\ to_millis now = to_millis now'.
Proof.
  intros Hs Hs' Hn Hn' Hi Hi' E. rewrite !cef_tokens in E.
  assert (Ht : tokens r now host port = tokens r' now' host' port').
  { rewrite <- (split_join (ceqb " ") " " (tokens r now host port)); [|by apply ceqb_refl|done|by apply tokens_clean].
    rewrite E. apply split_join; [by apply ceqb_refl|done|by apply tokens_clean]. }
  unfold clean_of in Hn, Hn'. rewrite !Forall_cons in Hn. rewrite !Forall_cons in Hn'.
  destruct Hn as (Hpa & Hq & Hm & Hid & Hf & Hr & Hh & Hp & _). destruct Hn' as (Hpa' & Hq' & Hm' & Hid' & Hf' & Hr' & Hh' & Hp' & _).
  destruct (remote_none nul r) as [H1 H2]; [done..|]. destruct (remote_none nul r') as [H1' H2']; [done..|].
  pose proof (full_path_count nul r ltac:(done)) as Hfp. pose proof (full_path_count nul r' ltac:(done)) as Hfp'.
  injection Ht as T1 T2 T3 T4 T5 T6 T7 T8 T9 T10.
  apply escape_inj in T1; [|done..].
  assert (Epath : full_path r = full_path r') by (apply escape_inj; [lia|lia|done]).
  rewrite Epath in T3. apply append_inj in T3. apply append_inj in T3.
  apply format_int_inj in T3; [|by apply millis_in64..].
  split; [done|]. split; [done|]. split; [by apply escape_inj|]. split.
  - destruct (remote_info r) as [x y], (remote_info r') as [x' y']. cbn [fst snd] in *. f_equal; by apply escape_inj.
  - split; [by apply escape_inj|]. split; [by apply escape_inj|done].
Qed.
Lemma append_inj_r a b c : append a (String c "") = append b (String c "") -> a = b.
Proof.
  revert b. induction a as [|d a IH]; intros [|e b] E; [done|..].
  - injection E as -> E. by destruct b.
  - injection E as <- E. by destruct a.
  - injection E as <- E. f_equal. by apply IH.
Qed.
