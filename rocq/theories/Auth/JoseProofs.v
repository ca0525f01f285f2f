(** Tokens: what Auth/Jose.v reads against RFC 4648 and RFC 7515. *)
From Coq Require Import Ascii String.
From stdpp Require Import prelude gmap strings list.
From Verif.Base Require Import Str Url UrlProofs Dec.
From Verif.Marshaler Require Import Model.
From Verif.Json Require Import Text Pb PbProofs SpecBase64 Base64 SpecGrammar.
From Verif.Gateway Require Import Proofs.
From Verif.Auth Require Import Model Docs Jose SpecJose.
Open Scope string_scope.
Open Scope list_scope.
Open Scope nat_scope.
#[local] Arguments String.append : simpl nomatch.

(** ** The text *)
Lemma to_url_digit : forall d c, alphabet !! d = Some c -> exists c', url_alphabet !! d = Some c' /\ to_url c = String c' "".
Proof.
  assert (H : forallb (fun d => match alphabet !! d, url_alphabet !! d with
    | Some c, Some c' => bool_decide (to_url c = String c' "") | _, _ => false end) (seq 0 64) = true) by (by vm_compute).
  rewrite forallb_forall in H. intros d c Hc.
  assert (Hd : d < 64) by (apply lookup_lt_Some in Hc; exact Hc).
  assert (Hin : In d (seq 0 64)) by (apply in_seq; lia). apply H in Hin. rewrite Hc in Hin.
  destruct (url_alphabet !! d) as [c'|]; [|done]. exists c'. split; [done|]. by apply bool_decide_eq_true in Hin.
Qed.
Lemma replace_pads n : replace_chars to_url (string_of_list_ascii (replicate n "="%char)) = "".
Proof. induction n as [|n IH]; [done|]. exact IH. Qed.
Lemma replace_digits ds n : Forall (fun d => d < 64) ds ->
  list_ascii_of_string (replace_chars to_url (string_of_list_ascii (omap (fun d => alphabet !! d) ds ++ replicate n "="%char))) =
  omap (fun d => url_alphabet !! d) ds.
Proof.
  induction 1 as [|d ds Hd H IH]; [cbn [omap list_omap app]; by rewrite replace_pads|].
  assert (exists c, alphabet !! d = Some c) as [c Hc] by (apply lookup_lt_is_Some; exact Hd).
  destruct (to_url_digit _ _ Hc) as (c' & Hc' & E). cbn [omap list_omap]. rewrite Hc, Hc'. cbn [app string_of_list_ascii replace_chars].
  rewrite E. cbn [append list_ascii_of_string]. by rewrite IH.
Qed.
Lemma url_encode_rfc s : base64url_text s (url_encode s).
Proof.
  destruct (encode64_rfc s) as (ds & z & p & H1 & H2 & H3 & H4 & H5 & H6). exists ds, z. split; [done|]. split; [|done].
  unfold url_encode. rewrite <- (string_of_list_ascii_of_string (encode64 s)), H2. by apply replace_digits.
Qed.
Lemma base64url_one s t t' : base64url_text s t -> base64url_text s t' -> t = t'.
Proof.
  intros (ds & z & H1 & H2 & H3 & H4) (ds' & z' & G1 & G2 & G3 & G4).
  assert (E : length ds = length ds' /\ z = z').
  { apply (f_equal length) in H3, G3. rewrite blocks_length, app_length, byte_length, replicate_length in H3, G3. lia. }
  destruct E as [E <-]. assert (ds = ds') as <-. { apply blocks_inj; [done|done|]. by rewrite H3, G3. }
  rewrite <- (string_of_list_ascii_of_string t), <- (string_of_list_ascii_of_string t'). by rewrite H2, G2.
Qed.
Lemma base64url_encode s t : base64url_text s t <-> t = url_encode s.
Proof. split; [intros H; eapply base64url_one; [exact H|apply url_encode_rfc]|]. intros ->. apply url_encode_rfc. Qed.

(** ** Reading it *)
Lemma char_round x r : replace_chars from_url (replace_chars to_url (String (char64 x) r)) =
  String (char64 x) (replace_chars from_url (replace_chars to_url r)).
Proof.
  assert (E : exists c, to_url (char64 x) = String c "" /\ from_url c = String (char64 x) "").
  { destruct x as [[[[[[] []] []] []] []] []]; vm_compute; eauto. }
  destruct E as (c & E1 & E2). cbn [replace_chars]. rewrite E1. cbn [append replace_chars]. rewrite E2. done.
Qed.
Lemma char_from x r : replace_chars from_url (String (char64 x) r) = String (char64 x) (replace_chars from_url r).
Proof.
  assert (E : from_url (char64 x) = String (char64 x) "") by (destruct x as [[[[[[] []] []] []] []] []]; by vm_compute).
  cbn [replace_chars]. by rewrite E.
Qed.
Lemma fill_four a b c d r : fill (String a (String b (String c (String d r)))) = String a (String b (String c (String d (fill r)))).
Proof.
  unfold fill. cbn [String.length].
  replace (S (S (S (S (String.length r))))) with (String.length r + 1 * 4) by lia. rewrite Nat.mod_add by done.
  destruct (String.length r mod 4) as [|[|[|[|]]]]; done.
Qed.
Lemma url_round s : fill (replace_chars from_url (url_encode s)) = encode64 s.
Proof.
  unfold url_encode. induction s as [|a|a b|a b c r IH] using three_ind; [done|..].
  - destruct a as [a0 a1 a2 a3 a4 a5 a6 a7]. cbn [encode64]. by rewrite !char_round.
  - destruct a as [a0 a1 a2 a3 a4 a5 a6 a7], b as [b0 b1 b2 b3 b4 b5 b6 b7]. cbn [encode64]. by rewrite !char_round.
  - destruct a as [a0 a1 a2 a3 a4 a5 a6 a7], b as [b0 b1 b2 b3 b4 b5 b6 b7], c as [c0 c1 c2 c3 c4 c5 c6 c7]. cbn [encode64].
    by rewrite !char_round, fill_four, IH.
Qed.
Lemma url_decode_encode s : url_decode (url_encode s) = Some s.
Proof. unfold url_decode. rewrite url_round. apply decode_encode. Qed.
Lemma from_standard s : replace_chars from_url (encode64 s) = encode64 s.
Proof.
  induction s as [|a|a b|a b c r IH] using three_ind; [done|..].
  - destruct a as [a0 a1 a2 a3 a4 a5 a6 a7]. cbn [encode64]. by rewrite !char_from.
  - destruct a as [a0 a1 a2 a3 a4 a5 a6 a7], b as [b0 b1 b2 b3 b4 b5 b6 b7]. cbn [encode64]. by rewrite !char_from.
  - destruct a as [a0 a1 a2 a3 a4 a5 a6 a7], b as [b0 b1 b2 b3 b4 b5 b6 b7], c as [c0 c1 c2 c3 c4 c5 c6 c7]. cbn [encode64].
    by rewrite !char_from, IH.
Qed.
Lemma url_decode_standard s : url_decode (encode64 s) = Some s.
Proof.
  unfold url_decode. rewrite from_standard. unfold fill.
  destruct (encode64_rfc s) as (_ & _ & _ & _ & _ & _ & _ & _ & ->). apply decode_encode.
Qed.

(** ** Parts *)
Lemma digits_dotless ds : str_any (ceqb ".") (string_of_list_ascii (omap (fun d => url_alphabet !! d) ds)) = false.
Proof.
  induction ds as [|d ds IH]; [done|]. cbn [omap list_omap]. destruct (url_alphabet !! d) as [c|] eqn:E; [|done].
  cbn [string_of_list_ascii str_any]. rewrite IH, orb_false_r.
  assert (H : forallb (fun c => negb (ceqb "." c)) url_alphabet = true) by (by vm_compute). rewrite forallb_forall in H.
  apply elem_of_list_lookup_2, elem_of_list_In, H in E. by apply negb_true_iff in E.
Qed.
Lemma url_dotless s : str_any (ceqb ".") (url_encode s) = false.
Proof.
  destruct (url_encode_rfc s) as (ds & z & _ & E & _). rewrite <- (string_of_list_ascii_of_string (url_encode s)), E. apply digits_dotless.
Qed.
Lemma standard_dotless s : str_any (ceqb ".") (encode64 s) = false.
Proof.
  assert (C : forall x r, str_any (ceqb ".") (String (char64 x) r) = str_any (ceqb ".") r).
  { intros x r. cbn [str_any]. destruct x as [[[[[[] []] []] []] []] []]; reflexivity. }
  induction s as [|a|a b|a b c r IH] using three_ind; [done|..].
  - destruct a as [a0 a1 a2 a3 a4 a5 a6 a7]. cbn [encode64]. by rewrite !C.
  - destruct a as [a0 a1 a2 a3 a4 a5 a6 a7], b as [b0 b1 b2 b3 b4 b5 b6 b7]. cbn [encode64]. by rewrite !C.
  - destruct a as [a0 a1 a2 a3 a4 a5 a6 a7], b as [b0 b1 b2 b3 b4 b5 b6 b7], c as [c0 c1 c2 c3 c4 c5 c6 c7]. cbn [encode64].
    by rewrite !C, IH.
Qed.
Definition dots (a b c : string) : string := append a (append "." (append b (append "." c))).
Lemma parse_dots a b c h p s : str_any (ceqb ".") a = false -> str_any (ceqb ".") b = false -> str_any (ceqb ".") c = false ->
  url_decode a = Some h -> url_decode b = Some p -> url_decode c = Some s -> compact_parse (dots a b c) = Some [h; p; s].
Proof.
  intros Ha Hb Hc Ea Eb Ec. unfold compact_parse, dots, split.
  change (append "." (append b (append "." c))) with (String "." (append b (String "." c))). rewrite (split_on_app (ceqb ".") a "." _ Ha) by done.
  rewrite (split_on_app (ceqb ".") b "." _ Hb) by done. rewrite (split_on_none _ c Hc). cbn. by rewrite Ea, Eb, Ec.
Qed.
Lemma append_dots a b c : append (append a (append "." b)) (append "." c) = dots a b c.
Proof.
  unfold dots. assert (A : forall x y z, append (append x y) z = append x (append y z)).
  { induction x as [|d x IH]; intros y z; [done|]. cbn. by rewrite IH. }
  by rewrite !A.
Qed.
Lemma input_iff h p i : signing_input h p i <-> i = compact_two h p.
Proof.
  unfold signing_input, compact_two. split.
  - intros (a & b & ->%base64url_encode & ->%base64url_encode & ->). done.
  - intros ->. exists (url_encode h), (url_encode p). split; [apply url_encode_rfc|]. split; [apply url_encode_rfc|done].
Qed.
Lemma jws_iff h p s t : jws h p s t <-> t = dots (url_encode h) (url_encode p) (url_encode s).
Proof.
  unfold jws. split.
  - intros (i & e & ->%input_iff & ->%base64url_encode & ->). apply append_dots.
  - intros ->. exists (compact_two h p), (url_encode s). split; [by apply input_iff|]. split; [apply url_encode_rfc|]. symmetry. apply append_dots.
Qed.
Lemma parse_jws h p s t : jws h p s t -> compact_parse t = Some [h; p; s].
Proof. intros ->%jws_iff. apply parse_dots; try apply url_dotless; apply url_decode_encode. Qed.

(** ** Headers *)
Lemma last_member_iff k ms v : last_member k ms = Some v <-> last_of k ms v.
Proof.
  unfold last_member, last_of. revert v. induction ms as [|[k' v'] ms IH] using rev_ind; intros v.
  - cbn. split; [done|]. by intros ([|? ?] & ? & ? & ?).
  - rewrite fold_left_app. cbn. destruct (bool_decide_reflect (k' = k)) as [->|Hk].
    + split.
      * intros [= ->]. exists ms, []. split; [done|]. intros v'. apply not_elem_of_nil.
      * intros (b & a & E & Ha). destruct a as [|y a _] using rev_ind.
        -- apply app_inj_tail in E as [_ [= ->]]. done.
        -- rewrite app_comm_cons, app_assoc in E. apply app_inj_tail in E as [_ <-]. destruct (Ha v'). apply elem_of_app. right. by left.
    + rewrite IH. split.
      * intros (b & a & -> & Ha). exists b, (a ++ [(k', v')]). split; [by rewrite <-app_assoc|]. intros w Hw.
        apply elem_of_app in Hw as [Hw|Hw]; [by apply (Ha w)|]. apply elem_of_list_singleton in Hw. congruence.
      * intros (b & a & E & Ha). destruct a as [|y a _] using rev_ind.
        -- apply app_inj_tail in E as [_ [= E _]]. congruence.
        -- rewrite app_comm_cons, app_assoc in E. apply app_inj_tail in E as [-> <-]. exists b, a. split; [done|].
           intros w Hw. apply (Ha w). apply elem_of_app. by left.
Qed.
Lemma headers_alg token alg kid : headers_of token = Some (alg, kid) -> exists a, alg = HString a.
Proof.
  unfold headers_of. destruct (compact_parse token) as [[|h [|p [|s [|x [|y [|]]]]]]|]; try done;
    (destruct (header_map h) as [ms|]; [|done]); cbn [mbind option_bind].
  - destruct (last_member "alg" ms) as [[| | |a| |]|]; try done. destruct (bool_decide _); [|done]. intros [= <- _]. by eexists.
  - destruct (last_member "alg" ms) as [[| | |a| |]|]; try done. destruct (last_member "enc" ms) as [[| | |e| |]|]; try done.
    destruct (_ && _); [|done]. intros [= <- _]. by eexists.
Qed.
Lemma parse_first token h ps : compact_parse token = Some (h :: ps) -> ps <> [] ->
  exists text rest, token = append text (append "." rest) /\ url_decode text = Some h.
Proof.
  unfold compact_parse. intros H Hn. pose proof (join_split "." token) as E. destruct (split "." token) as [|w ws] eqn:Es; [done|].
  apply mapM_Some, Forall2_cons in H as [H1 H2]. destruct ws as [|v ws]; [apply Forall2_nil_inv_l in H2; congruence|].
  exists w, (join "." (v :: ws)). split; [|done]. symmetry. rewrite join_cons in E by done. exact E.
Qed.
Lemma headers_rs256 token kid : headers_of token = Some (HString "RS256", kid) ->
  exists header ms text rest, token = append text (append "." rest) /\ url_decode text = Some header /\
    read_whole header = Some (JObj ms) /\ last_member "alg" ms = Some (JStr "RS256") /\ kid = as_header (last_member "kid" ms).
Proof.
  unfold headers_of. destruct (compact_parse token) as [[|h [|p [|s [|x [|y [|]]]]]]|] eqn:E; try done; unfold header_map;
    (destruct (read_whole h) as [[| | | | |ms]|] eqn:Hj; try done); (destruct (finite (JObj ms)); [|done]); cbn [mbind option_bind].
  - destruct (last_member "alg" ms) as [[| | |a| |]|] eqn:Ha; try done. destruct (bool_decide _); [|done]. intros [= -> <-].
    apply parse_first in E as (text & rest & E1 & E2); [|done]. by exists h, ms, text, rest.
  - destruct (last_member "alg" ms) as [[| | |a| |]|]; try done. destruct (last_member "enc" ms) as [[| | |e| |]|]; try done.
    destruct (bool_decide_reflect (a ∈ jwa_names)) as [Ha|]; [|done]. cbn [andb]. destruct (bool_decide _); [|done]. intros [= -> _]. exfalso.
    revert Ha. apply (bool_decide_eq_false_1 ("RS256" ∈ jwa_names)). by vm_compute.
Qed.
