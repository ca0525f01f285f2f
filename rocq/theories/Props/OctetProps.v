(** Property of the bytes of a syslog connection (C177), each theorem followed by a case meeting its hypotheses.
    Vocabulary: Syslog/SpecOctet.v (frame, loose_frame, stream), Syslog/Spec.v (means).  Programs: Syslog/Octet.v (octets: the
    results handed on, None for an error, and whether the reader has returned), Syslog/Model.v (serve).  [size] is the size of
    the reader's buffer, [rfc5424] the parser of one message. *)
From Coq Require Import Ascii String.
From stdpp Require Import prelude gmap strings list.
From Verif.Base Require Import GoInt Envelope Str Dec.
From Verif.Syslog Require Import Model Spec Proofs Octet SpecOctet OctetProofs.
From Verif.Props Require Import SyslogProps.
Open Scope Z_scope.

(** ** C177 *)
(** What is sent in frames is handed on, message by message, whatever follows; and at once: nothing more need arrive, and
    neither need the connection end. *)
Theorem C177_delivered : forall (M : Type) size (rfc5424 : string -> option M) closed ms t,
  Z.of_nat size < 2^63 -> stream frame ms t -> Forall (fun m => (String.length m <= size)%nat /\ is_Some (rfc5424 m)) ms ->
  (forall rest, ms <> [] -> exists more, (octets size rfc5424 closed (append t rest)).1 = map rfc5424 ms ++ more) /\
  octets size rfc5424 false t = (map rfc5424 ms, false) /\
  (ms <> [] -> octets size rfc5424 true t = (map rfc5424 ms, true)).
Proof.
  intros M size rfc closed ms t Hsz Hs Hg. apply (stream_mono _ loose_frame) in Hs; [|exact frame_loose].
  assert (Hfuel : forall r, (length ms < S (String.length (append t r)))%nat).
  { intros r. rewrite slen_app. pose proof (stream_len _ _ Hs). lia. }
  split_and!.
  - intros rest Hne. unfold octets. destruct (front size rfc Hsz closed ms t Hs Hg Hne _ rest (Hfuel rest)) as [A B].
    destruct (over_dec closed rest) as [Ho|Ho].
    + exists []. rewrite (A Ho). cbn. by rewrite app_nil_r.
    + destruct (B Ho) as (k & _ & ->). destruct (loop _ _ _ k _) as [rs e]. by exists rs.
  - destruct ms as [|m ms].
    { inversion Hs; subst. done. }
    unfold octets. specialize (Hfuel EmptyString). rewrite sapp_nil in Hfuel.
    destruct (front size rfc Hsz false (m :: ms) t Hs Hg ltac:(done) _ EmptyString Hfuel) as [_ B]. rewrite sapp_nil in B.
    destruct B as (k & _ & ->). { intros [[_ ?]|[? ?]]; done. }
    destruct k; cbn; by rewrite app_nil_r.
  - intros Hne. unfold octets. specialize (Hfuel EmptyString). rewrite sapp_nil in Hfuel.
    destruct (front size rfc Hsz true ms t Hs Hg Hne _ EmptyString Hfuel) as [A _]. rewrite sapp_nil in A. apply A. by left.
Qed.
Print Assumptions C177_delivered.

(** And nothing else is handed on: whatever arrives, it is cut in exactly one way into frames (in which a zero byte after the
    length is passed over) of readable messages and a rest that does not begin with one.  The messages are handed on, and
    then at most one error.  Once the connection has ended there is an error, unless messages came and nothing is left, or
    a zero byte. *)
Theorem C177_exactly : forall (M : Type) size (rfc5424 : string -> option M) closed s,
  let readable m := (String.length m <= size)%nat /\ is_Some (rfc5424 m) in
  Z.of_nat size < 2^63 -> exists ms t rest tail,
  s = append t rest /\ stream loose_frame ms t /\ Forall readable ms /\
  (forall m f r, loose_frame m f -> readable m -> rest <> append f r) /\
  (octets size rfc5424 closed s).1 = map rfc5424 ms ++ tail /\
  (tail = [None] \/ tail = []) /\
  (tail = [None] -> (octets size rfc5424 closed s).2 = true) /\
  (closed = true -> (octets size rfc5424 closed s).2 = true /\
     (tail = [] <-> ms <> [] /\ (rest = EmptyString \/ exists r, rest = String "000" r))).
Proof.
  intros M size rfc closed s readable Hsz. destruct (shape size rfc Hsz closed (String.length s) s (S (String.length s))) as (ms & t & rest & tail & e & E & Hs & -> & Hg & Hn & Ht); [lia|lia|].
  exists ms, t, rest, tail. unfold octets. rewrite E. cbn [fst snd]. split_and!; try done.
  - destruct Ht as [(-> & _)|[(-> & _)|(-> & _)]]; auto.
  - intros ->. destruct Ht as [(_ & -> & _)|[(? & _)|(? & _)]]; done.
  - intros ->. destruct Ht as [(-> & -> & H)|[(-> & -> & H & Ho)|(_ & _ & ?)]]; [| |done].
    + split; [done|]. split; [done|]. intros [Hne Hr]. exfalso. destruct H as [-> | H]; [done|]. apply H. destruct Hr as [-> |[r ->]]; [by left|right; eauto].
    + split; [done|]. split; [intros _|done]. split; [done|]. destruct Ho as [[-> _]|[r ->]]; eauto.
Qed.
Print Assumptions C177_exactly.

(** How the bytes were cut on their way does not matter: what has been handed on stays handed on when more arrives or the
    connection ends, and once the reader has returned nothing that arrives is looked at. *)
Theorem C177_pieces : forall (M : Type) size (rfc5424 : string -> option M) closed a b,
  exists more, (octets size rfc5424 closed (append a b)).1 = (octets size rfc5424 false a).1 ++ more /\
  ((octets size rfc5424 false a).2 = true -> octets size rfc5424 closed (append a b) = octets size rfc5424 false a).
Proof.
  intros M size rfc closed a b. unfold octets.
  destruct (loop size rfc false (S (String.length a)) (scan size false (mk_scan a 0 false))) as [rs e] eqn:E.
  assert (Hle : (S (String.length a) <= S (String.length (append a b)))%nat) by (rewrite slen_app; lia).
  destruct (loop_more size rfc closed b _ _ _ rs e Hle E) as (more & e' & E' & He).
  unfold grown in E'. cbn [sc_rest sc_len sc_ready] in E'. rewrite E'. exists more. split; [done|]. cbn [snd]. intros ->. destruct (He eq_refl) as [-> ->]. by rewrite app_nil_r.
Qed.
Print Assumptions C177_pieces.

(** A message that cannot be read, one longer than the buffer, or a byte where a length should be ends the connection with
    one error: nothing after it is looked at, however well formed. *)
Lemma ends (M : Type) size (rfc5424 : string -> option M) closed ms t s : Z.of_nat size < 2^63 -> stream frame ms t ->
  Forall (fun m => (String.length m <= size)%nat /\ is_Some (rfc5424 m)) ms ->
  ~ over closed s -> (forall fuel, loop size rfc5424 closed (S fuel) (scan size closed (mk_scan s 0 false)) = ([None], true)) ->
  octets size rfc5424 closed (append t s) = (map rfc5424 ms ++ [None], true).
Proof.
  intros Hsz Hs Hg Ho H. apply (stream_mono _ loose_frame) in Hs; [|exact frame_loose]. unfold octets.
  destruct ms as [|m ms]; [inversion Hs; subst; apply H|].
  destruct (front size rfc5424 Hsz closed (m :: ms) t Hs Hg ltac:(done) (S (String.length (append t s))) s) as [_ B].
  { rewrite slen_app. pose proof (stream_len _ _ Hs). lia. }
  destruct (B Ho) as (k & Hk & ->). destruct k as [|k]; [|by rewrite H].
  exfalso. pose proof (stream_len _ _ Hs). rewrite slen_app in Hk. cbn [length] in *. lia.
Qed.
Theorem C177_ends : forall (M : Type) size (rfc5424 : string -> option M) closed ms t s,
  Z.of_nat size < 2^63 -> stream frame ms t -> Forall (fun m => (String.length m <= size)%nat /\ is_Some (rfc5424 m)) ms ->
  (exists m f r, frame m f /\ s = append f r /\ (rfc5424 m = None \/ (size < String.length m)%nat)) \/
  (exists c r, s = String c r /\ (48 < nat_of_ascii c < 58 -> False)%nat /\ nat_of_ascii c <> 0%nat) ->
  octets size rfc5424 closed (append t s) = (map rfc5424 ms ++ [None], true).
Proof.
  intros M size rfc closed ms t s Hsz Hs Hg [(m & f & r & Hf & -> & Hm)|(c & r & -> & Hd & Hz)].
  - apply ends; [done..| |].
    + intros Ho. destruct Hf as (d & Hc & ->). apply counts_head in Hc as (c & d' & -> & D & _).
      destruct Ho as [[[=] _]|[r' [= E _]]]. by subst.
    + intros fuel. destruct (decide (String.length m <= size)%nat) as [Hle|Hgt].
      * destruct Hm as [Hm|?]; [|lia]. apply (loop_bad size rfc Hsz closed fuel m f r); [by apply frame_loose|done..].
      * apply (loop_long size rfc closed fuel m f r); [done|lia].
  - apply ends; [done..| |].
    + intros [[[=] _]|[r' [= -> _]]]. done.
    + intros fuel. apply loop_illegal; [by apply Nat.eqb_neq|]. destruct (is_digit c) eqn:D; [right|by left].
      unfold is_digit in D. apply andb_prop in D as [D1 D2]. apply Nat.leb_le in D1, D2. assert (nat_of_ascii c = 48)%nat by lia.
      rewrite <-(ascii_nat_embedding c). by rewrite H.
Qed.
Print Assumptions C177_ends.

(** So it is not so that a well-formed message in its frame is handed on whatever came before it. *)
Theorem C177_each_refuted : ~ forall size (rfc5424 : string -> option unit) ms t m,
  Z.of_nat size < 2^63 -> stream frame ms t -> Forall (fun m => (String.length m <= size)%nat) ms ->
  m ∈ ms -> is_Some (rfc5424 m) -> rfc5424 m ∈ (octets size rfc5424 true t).1.
Proof.
  intros H. specialize (H 100%nat (fun m => if String.eqb m "good" then Some tt else None) ["bad"; "good"] "3 bad4 good" "good").
  assert (N : ¬ Some tt ∈ [@None unit]) by (rewrite elem_of_list_singleton; done). apply N. apply H; [done| | | |].
  - change "3 bad4 good" with (append "3 bad" (append "4 good" "")).
    repeat constructor; [exists "3"|exists "4"]; (split; [split; [|done]|done]).
    + change (Z.of_nat _) with (digit_val "3"). by constructor.
    + change (Z.of_nat _) with (digit_val "4"). by constructor.
  - repeat constructor.
  - right. left.
  - done.
Qed.
Print Assumptions C177_each_refuted.

(** A connection that is ended without a byte counts as one invalid message; a zero byte between messages ends it without an
    error, and nothing after it is looked at. *)
Theorem C177_silent : forall (M : Type) size (rfc5424 : string -> option M) closed ms t r,
  octets size rfc5424 true EmptyString = ([None], true) /\
  (Z.of_nat size < 2^63 -> stream frame ms t -> Forall (fun m => (String.length m <= size)%nat /\ is_Some (rfc5424 m)) ms -> ms <> [] ->
   octets size rfc5424 closed (append t (String "000" r)) = (map rfc5424 ms, true)).
Proof.
  intros M size rfc closed ms t r. split; [done|]. intros Hsz Hs Hg Hne. apply (stream_mono _ loose_frame) in Hs; [|exact frame_loose]. unfold octets.
  destruct (front size rfc Hsz closed ms t Hs Hg Hne (S (String.length (append t (String "000" r)))) (String "000" r)) as [A _].
  { rewrite slen_app. pose proof (stream_len _ _ Hs). lia. }
  apply A. right. eauto.
Qed.
Print Assumptions C177_silent.

(** The server on the bytes of a connection: what is sent to log-cache are, in order, the envelopes that say what the framed
    messages say; none is counted as invalid. *)
Theorem C177_server : forall pf order send_ok size rfc5424 closed ms es t,
  any_order order -> Z.of_nat size < 2^63 -> stream frame ms t -> ms <> [] ->
  Forall2 (fun m e => (String.length m <= size)%nat /\ exists msg, rfc5424 m = Some msg /\ means pf msg e /\
                      forall d, sm_data msg = Some d -> (base.size d <= 1)%nat) ms es ->
  let s := serve pf order send_ok (octets size rfc5424 closed t).1 in
  sv_alive s = true /\ sv_sent s = es /\ sv_invalid s = 0%nat /\ (sv_ingress s + sv_dropped s = length ms)%nat.
Proof.
  intros pf order send_ok size rfc closed ms es t Hord Hsz Hs Hne H.
  assert (E : (octets size rfc closed t).1 = map rfc ms).
  { destruct (C177_delivered _ size rfc closed ms t Hsz Hs) as (_ & E1 & E2).
    - clear -H. induction H as [|m e ms es (Hm & msg & Hr & _) H IH]; constructor; [|done]. split; [done|]. by rewrite Hr.
    - destruct closed; [by rewrite (E2 Hne)|by rewrite E1]. }
  rewrite E. clear E Hs Hne t.
  unfold serve. change es with ([] ++ es). change (length ms) with (0 + 0 + length ms)%nat.
  set (s0 := mk_server 0 0 0 [] true). 
  assert (G : forall s0, sv_alive s0 = true -> let s := foldl (listen pf order send_ok) s0 (map rfc ms) in
    sv_alive s = true /\ sv_sent s = sv_sent s0 ++ es /\ sv_invalid s = sv_invalid s0 /\ (sv_ingress s + sv_dropped s = sv_ingress s0 + sv_dropped s0 + length ms)%nat).
  { clear s0. induction H as [|m e ms es (Hm & msg & Hr & Hme & Hd) H IH]; intros s0 Ha; cbn.
    - rewrite app_nil_r. split_and!; try done.
    - assert (Hc : convert pf order msg = Converted e) by (by apply convert_meaning).
      assert (El : exists a b, listen pf order send_ok s0 (rfc m) = mk_server (sv_ingress s0 + a) (sv_invalid s0) (sv_dropped s0 + b) (sv_sent s0 ++ [e]) true /\ (a + b = 1)%nat).
      { unfold listen. rewrite Ha, Hr, Hc. cbn. destruct (send_ok _ e); [exists 1%nat, 0%nat|exists 0%nat, 1%nat]; rewrite ?Nat.add_1_r, ?Nat.add_0_r; done. }
      destruct El as (a & b & -> & Hab). destruct (IH (mk_server (sv_ingress s0 + a) (sv_invalid s0) (sv_dropped s0 + b) (sv_sent s0 ++ [e]) true) eq_refl) as (H1 & H2 & H3 & H4).
      cbn in H2, H3, H4. rewrite <-app_assoc in H2. split_and!; [done..|]. rewrite H4. lia. }
  apply (G s0). done.
Qed.
Print Assumptions C177_server.

(** Two messages in their frames, read by a server with a buffer of 4096 bytes: in one go, in two pieces, with a newline
    after the first, and with the first one too long. *)
Definition one_line (m : string) : option smessage :=
  match m with
  | String "<" text => Some (mk_smsg (Some 14) (Some 1542384000123456789) (Some "app-guid") (Some "[APP/PROC/WEB/3]") (Some text) None)
  | _ => None
  end.
Definition a_log (text : string) : envelope := mk_env 1542384000123456789 "app-guid" "3" ∅ {["source_type" := "APP"]} (MLog text false).
Example C177_case : stream frame ["<one"; "<twenty four characters"] "4 <one23 <twenty four characters" /\
  (octets 4096 one_line false "4 <one23 <twenty four characters") = (map one_line ["<one"; "<twenty four characters"], false) /\
  (octets 4096 one_line false "4 <one23 <twenty fo") = ([one_line "<one"], false) /\
  (octets 4096 one_line false ("4 <one" ++ String "010" "23 <twenty four characters")%string) = ([one_line "<one"; None], true) /\
  (octets 10 one_line false "4 <one23 <twenty four characters4 <one") = ([one_line "<one"; None], true) /\
  sv_sent (serve no_float in_order (fun _ _ => true) (octets 4096 one_line true "4 <one23 <twenty four characters").1) = [a_log "one"; a_log "twenty four characters"].
Proof.
  split_and!; [|vm_compute; reflexivity..].
  change "4 <one23 <twenty four characters" with (append "4 <one" (append "23 <twenty four characters" "")).
  repeat constructor; [exists "4"|exists "23"]; (split; [split; [|done]|done]).
  - change (Z.of_nat _) with (digit_val "4"). by constructor.
  - change (Z.of_nat _) with (10 * digit_val "2" + digit_val "3"). change "23" with (append "2" "3"). by repeat constructor.
Qed.
