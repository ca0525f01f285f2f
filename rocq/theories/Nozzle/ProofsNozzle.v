(** Proofs about the nozzle and the batching client. *)
From stdpp Require Import prelude gmap sorting.
From Coq Require Import NArith.
From Verif.Nozzle Require Import Spec Model Observe Proofs.
Open Scope nat_scope.

Section Noz.
Context {E : Type}.
Implicit Types (s : noz E) (ls : list (nlabel E)).

Lemma received_app ls ls' : received (ls ++ ls') = received ls ++ received ls'.
Proof. induction ls as [|[] ls IH]; cbn; rewrite ?IH; done. Qed.
Lemma nrun_app c s ls ls' : nrun c s (ls ++ ls') = (s1 ← nrun c s ls; nrun c s1 ls').
Proof.
  revert s. induction ls as [|l ls IH]; intros s; [done|]. cbn [app nrun].
  destruct (nstep c s l); cbn [mbind option_bind]; [apply IH|done].
Qed.
Lemma roomy_prefix c k ls ls' : roomy c k (ls ++ ls') -> roomy c k ls.
Proof. intros H l1 l2 s1 -> Hr. apply (H l1 (l2 ++ ls') s1); [by rewrite app_assoc|done]. Qed.

Lemma in_flight_take (ws : list (option (list E))) i b :
  ws !! i = Some None -> omap id (<[i := Some b]> ws) ≡ₚ b :: omap id ws.
Proof.
  revert i. induction ws as [|w ws IH]; intros [|i]; cbn; [done|done| |].
  - intros [= ->]. done.
  - intros H. specialize (IH _ H). destruct w as [b'|]; cbn; [|done].
    rewrite IH. apply Permutation_swap.
Qed.
Lemma in_flight_answer (ws : list (option (list E))) i b :
  ws !! i = Some (Some b) -> omap id ws ≡ₚ b :: omap id (<[i := None]> ws).
Proof.
  revert i. induction ws as [|w ws IH]; intros [|i]; cbn; [done|done| |].
  - intros [= ->]. done.
  - intros H. specialize (IH _ H). destruct w as [b'|]; cbn; [|done].
    rewrite IH. apply Permutation_swap.
Qed.

Record ninv (c : ncfg) (k : nat) ls s (os : list (obs E)) (fl : list (bool * list E)) : Prop := {
  ni_ring : dinv (n_ring c) (received ls) (z_ring s);
  ni_seen : explains (take (N.to_nat (d_r (z_ring s))) (received ls)) os;
  ni_missed : dropped os = z_missed s;
  ni_batches : got os = concat (map snd fl) ++ z_envs s;
  ni_size : Forall (fun p => 0 < length p.2 <= n_batch c) fl;
  ni_envs : length (z_envs s) <= n_batch c;
  ni_envs' : z_flush s = false -> length (z_envs s) < n_batch c;
  ni_enq : marked fl ≡ₚ map fst (z_sent s) ++ in_flight s ++ z_ch s;
  ni_enq1 : k <= 1 -> marked fl = map fst (z_sent s) ++ in_flight s ++ z_ch s;
  ni_workers : length (z_workers s) = k;
  ni_room : roomy c k ls -> unmarked fl = [];
  ni_ingress : z_ingress s = N.of_nat (length (received ls));
  ni_egress : z_egress s = N.of_nat (length (concat (acked s)));
  ni_err : z_err s = N.of_nat (length (failed s))
}.

Lemma marked_app {A} (l l' : list (bool * A)) : marked (l ++ l') = marked l ++ marked l'.
Proof. apply omap_app. Qed.
Lemma unmarked_app {A} (l l' : list (bool * A)) : unmarked (l ++ l') = unmarked l ++ unmarked l'.
Proof. apply omap_app. Qed.

Lemma omap_none_replicate k : omap id (replicate k (@None (list E))) = [].
Proof. induction k as [|k IH]; cbn; done. Qed.

Lemma ninv_new c k : 0 < n_batch c -> ninv c k [] (noz_new k) [] [].
Proof.
  intros Hb. split; [apply dinv_new|cbn; constructor|..]; cbn; try done; try lia.
  - unfold in_flight. cbn. by rewrite omap_none_replicate.
  - unfold in_flight. cbn. by rewrite omap_none_replicate.
  - apply replicate_length.
Qed.

Lemma take_drop_split {A} (l : list A) i j (m : list A) :
  drop i l = m ++ drop j l -> i <= j -> j <= length l -> take j l = take i l ++ m.
Proof.
  intros Hd Hij Hj.
  assert (H1 : length m = j - i).
  { apply (f_equal length) in Hd. rewrite app_length, !drop_length in Hd. lia. }
  rewrite <- (take_drop i l) at 1. rewrite Hd.
  rewrite take_app_ge by (rewrite take_length; lia).
  f_equal. rewrite take_length, Nat.min_l by lia.
  rewrite take_app_le by lia. apply take_ge. lia.
Qed.

Lemma take_same {A} (l l' : list A) i : i <= length l -> take i (l ++ l') = take i l.
Proof. apply take_app_le. Qed.

Lemma ninv_step c k ls s os fl l s' :
  (0 < n_ring c)%N -> 0 < n_batch c ->
  nrun c (noz_new k) ls = Some s ->
  ninv c k ls s os fl -> nstep c s l = Some s' ->
  exists os' fl', ninv c k (ls ++ [l]) s' os' fl'.
Proof.
  intros Hn Hb Hrun Hi Hs.
  pose proof (di_w _ _ _ (ni_ring _ _ _ _ _ _ Hi)) as Hw.
  pose proof (di_r _ _ _ (ni_ring _ _ _ _ _ _ Hi)) as Hr.
  assert (Hroom' : roomy c k (ls ++ [l]) -> unmarked fl = [] /\ length (z_ch s) < n_chan c).
  { intros H. split; [apply (ni_room _ _ _ _ _ _ Hi); by eapply roomy_prefix|].
    by apply (H ls [l] s). }
  destruct Hi as [Hring Hseen Hmiss Hbat Hsize Henv Henv' Henq Henq1 Hwk Hroom Hin Heg Her].
  destruct l as [e| |fired|i|i ok]; cbn [nstep] in Hs.
  - (* NRecv *)
    injection Hs as <-. exists os, fl. split; cbn [z_ring z_envs z_flush z_ch z_workers z_sent z_ingress z_egress z_err z_missed]; try done.
    + rewrite received_app; cbn. by apply dinv_set.
    + rewrite received_app. cbn [diode_set d_r]. rewrite take_same; [done|]. lia.
    + intros H. by apply Hroom'.
    + rewrite received_app, app_length. cbn. lia.
  - (* NPoll *)
    destruct (z_flush s) eqn:Hf; [done|].
    destruct (diode_try (n_ring c) (z_ring s)) as [[d o] a] eqn:Ht. injection Hs as <-.
    destruct (dinv_try _ _ _ _ _ _ Hn Hring Ht) as [Hring' Hcase].
    destruct (try_explains _ _ _ _ _ _ Hn Hring Ht) as (seen & Hex & Hdrop).
    pose proof (di_w _ _ _ Hring') as Hw'. pose proof (di_r _ _ _ Hring') as Hr'.
    exists (os ++ seen_by o a), fl.
    split; cbn [z_ring z_envs z_flush z_ch z_workers z_sent z_ingress z_egress z_err z_missed]; try done.
    + rewrite received_app; cbn. by rewrite app_nil_r.
    + rewrite received_app; cbn. rewrite app_nil_r.
      rewrite (take_drop_split _ (N.to_nat (d_r (z_ring s))) _ seen Hdrop); [by apply explains_app| |lia].
      destruct Hcase as [(_ & _ & _ & ->)|(x & kk & _ & _ & _ & _ & _ & ->)]; lia.
    + rewrite dropped_app, Hmiss. f_equal. unfold seen_by.
      destruct a as [m|], o as [x|]; cbn; lia.
    + rewrite got_app, Hbat, <- app_assoc. f_equal. unfold seen_by.
      destruct a as [m|], o as [x|]; cbn; rewrite ?app_nil_r; done.
    + specialize (Henv' eq_refl). destruct o; rewrite ?app_length; cbn; lia.
    + intros H. by apply Hroom'.
    + rewrite received_app; cbn. by rewrite app_nil_r.
  - (* NSelect *)
    destruct (z_flush s) eqn:Hf; [|done]. cbn [negb] in Hs.
    assert (Hoff : 0 < length (z_envs s) -> exists os' fl', ninv c k (ls ++ [NSelect fired]) (offer c s) os' fl').
    { intros Hpos. unfold offer. destruct (decide (length (z_ch s) < n_chan c)) as [Hlt|Hge].
      - exists os, (fl ++ [(true, z_envs s)]).
        split; cbn [z_ring z_envs z_flush z_ch z_workers z_sent z_ingress z_egress z_err z_missed]; try done.
        + rewrite received_app; cbn. by rewrite app_nil_r.
        + rewrite received_app; cbn. by rewrite app_nil_r.
        + rewrite map_app, concat_app; cbn. by rewrite !app_nil_r.
        + apply Forall_app. split; [done|]. by repeat constructor.
        + cbn; lia.
        + rewrite marked_app. unfold in_flight in *. cbn. rewrite Henq, <- !app_assoc. done.
        + intros Hk. rewrite marked_app. unfold in_flight in *. cbn. rewrite Henq1, <- !app_assoc by done. done.
        + intros H. rewrite unmarked_app. cbn. rewrite app_nil_r. by apply Hroom'.
        + rewrite received_app; cbn. by rewrite app_nil_r.
      - exists os, (fl ++ [(false, z_envs s)]).
        split; cbn [z_ring z_envs z_flush z_ch z_workers z_sent z_ingress z_egress z_err z_missed]; try done.
        + rewrite received_app; cbn. by rewrite app_nil_r.
        + rewrite received_app; cbn. by rewrite app_nil_r.
        + rewrite map_app, concat_app; cbn. by rewrite !app_nil_r.
        + apply Forall_app. split; [done|]. by repeat constructor.
        + cbn; lia.
        + rewrite marked_app. unfold in_flight in *. cbn. rewrite app_nil_r. done.
        + intros Hk. rewrite marked_app. unfold in_flight in *. cbn. rewrite app_nil_r. by apply Henq1.
        + intros H. destruct (Hroom' H) as [_ H2]. lia.
        + rewrite received_app; cbn. by rewrite app_nil_r. }
    assert (Hno : length (z_envs s) < n_batch c -> exists os' fl', ninv c k (ls ++ [NSelect fired]) (no_offer s) os' fl').
    { intros Hlt. exists os, fl. unfold no_offer.
      split; cbn [z_ring z_envs z_flush z_ch z_workers z_sent z_ingress z_egress z_err z_missed]; try done.
      + rewrite received_app; cbn. by rewrite app_nil_r.
      + rewrite received_app; cbn. by rewrite app_nil_r.
      + intros H. by apply Hroom'.
      + rewrite received_app; cbn. by rewrite app_nil_r. }
    destruct fired.
    + destruct (decide (0 < length (z_envs s))) as [Hp|Hp]; injection Hs as <-; [by apply Hoff|].
      apply Hno. lia.
    + destruct (decide (n_batch c <= length (z_envs s))) as [Hp|Hp]; injection Hs as <-.
      * apply Hoff. lia.
      * apply Hno. lia.
  - (* NTake *)
    destruct (z_workers s !! i) as [[b0|]|] eqn:Hwi; [done| |done].
    destruct (z_ch s) as [|b ch] eqn:Hch; [done|]. injection Hs as <-.
    pose proof (in_flight_take _ _ b Hwi) as Hp.
    exists os, fl.
    split; cbn [z_ring z_envs z_flush z_ch z_workers z_sent z_ingress z_egress z_err z_missed]; try done.
    + rewrite received_app; cbn. by rewrite app_nil_r.
    + rewrite received_app; cbn. by rewrite app_nil_r.
    + rewrite Henq. unfold in_flight; cbn. rewrite Hp. f_equiv. symmetry. apply Permutation_middle.
    + intros Hk. rewrite Henq1 by done. f_equal. unfold in_flight; cbn.
      destruct (z_workers s) as [|w [|w' ws]] eqn:Ews; cbn in *; try lia; [done|].
      destruct i as [|i]; [|done]. cbn in *. by injection Hwi as ->.
    + by rewrite insert_length.
    + intros H. by apply Hroom'.
    + rewrite received_app; cbn. by rewrite app_nil_r.
  - (* NAnswer *)
    destruct (z_workers s !! i) as [[b|]|] eqn:Hwi; [|done|done]. injection Hs as <-.
    pose proof (in_flight_answer _ _ b Hwi) as Hp.
    exists os, fl.
    split; cbn [z_ring z_envs z_flush z_ch z_workers z_sent z_ingress z_egress z_err z_missed]; try done.
    + rewrite received_app; cbn. by rewrite app_nil_r.
    + rewrite received_app; cbn. by rewrite app_nil_r.
    + rewrite Henq. unfold in_flight; cbn. rewrite Hp, map_app, <- app_assoc. done.
    + intros Hk. rewrite Henq1, map_app, <- app_assoc by done. f_equal. unfold in_flight; cbn.
      destruct (z_workers s) as [|w [|w' ws]] eqn:Ews; cbn in *; try lia; [done|].
      destruct i as [|i]; [|done]. cbn in *. by injection Hwi as ->.
    + by rewrite insert_length.
    + intros H. by apply Hroom'.
    + rewrite received_app; cbn. by rewrite app_nil_r.
    + unfold acked in *. cbn. rewrite omap_app. cbn. destruct ok; cbn.
      * rewrite concat_app, app_length, Heg. cbn. rewrite app_nil_r. lia.
      * by rewrite app_nil_r.
    + unfold failed in *. cbn. rewrite omap_app, app_length, Her. cbn. destruct ok; cbn; lia.
Qed.

Lemma ninv_run c k ls s :
  (0 < n_ring c)%N -> 0 < n_batch c ->
  nrun c (noz_new k) ls = Some s -> exists os fl, ninv c k ls s os fl.
Proof.
  intros Hn Hb. revert s. induction ls as [|l ls IH] using rev_ind; intros s.
  - cbn. intros [= <-]. exists [], []. by apply ninv_new.
  - rewrite nrun_app. destruct (nrun c (noz_new k) ls) as [s1|] eqn:Hr; [|done].
    cbn. destruct (nstep c s1 l) as [s2|] eqn:Hs; [|done]. cbn. intros [= <-].
    destruct (IH s1 eq_refl) as (os & fl & Hi).
    by apply (ninv_step c k ls s1 os fl l s2).
Qed.

(** Where every received envelope is. *)
Lemma nozzle_accounting c k ls s :
  (0 < n_ring c)%N -> 0 < n_batch c -> nrun c (noz_new k) ls = Some s ->
  exists seen waiting os (fl : list (bool * list E)),
    received ls = seen ++ waiting /\ explains seen os /\
    (waiting = [] <-> (diode_try (n_ring c) (z_ring s)).1.2 = None) /\
    got os = concat (map snd fl) ++ z_envs s /\
    (forall m b, (m, b) ∈ fl -> 0 < length b <= n_batch c) /\
    marked fl ≡ₚ map fst (z_sent s) ++ in_flight s ++ z_ch s /\
    z_missed s = dropped os /\
    z_ingress s = N.of_nat (length (received ls)) /\
    z_egress s = N.of_nat (length (concat (acked s))) /\
    z_err s = N.of_nat (length (failed s)).
Proof.
  intros Hn Hb Hr. destruct (ninv_run c k ls s Hn Hb Hr) as (os & fl & Hi).
  destruct Hi as [Hring Hseen Hmiss Hbat Hsize Henv Henv' Henq Henq1 Hwk Hroom Hin Heg Her].
  pose proof (di_w _ _ _ Hring) as Hw. pose proof (di_r _ _ _ Hring) as Hrr.
  exists (take (N.to_nat (d_r (z_ring s))) (received ls)),
         (drop (N.to_nat (d_r (z_ring s))) (received ls)), os, fl.
  rewrite take_drop. split; [done|]. split; [done|]. split.
  { rewrite (try_none _ _ _ Hn Hring). split.
    - intros H1. apply (f_equal length) in H1. rewrite drop_length in H1. cbn in H1. lia.
    - intros H1. apply nil_length_inv. rewrite drop_length. lia. }
  split; [done|]. split; [|done].
  intros m b Hin'. rewrite Forall_forall in Hsize. apply (Hsize _ Hin').
Qed.

Lemma marked_all {A} (fl : list (bool * A)) : unmarked fl = [] -> marked fl = map snd fl.
Proof. induction fl as [|[[] b] fl IH]; cbn; [done| |done]. intros H. f_equal. by apply IH. Qed.

Lemma concat_perm {A} (l l' : list (list A)) : l ≡ₚ l' -> concat l ≡ₚ concat l'.
Proof. induction 1; cbn; [done|by f_equiv|rewrite !app_assoc; f_equiv; apply Permutation_app_comm|by etrans]. Qed.

Lemma nozzle_forwards c k ls s :
  (0 < n_ring c)%N -> 0 < n_batch c -> nrun c (noz_new k) ls = Some s ->
  roomy c k ls -> z_missed s = 0%N -> at_rest c s ->
  concat (map fst (z_sent s)) ≡ₚ received ls /\
  (k <= 1 -> concat (map fst (z_sent s)) = received ls).
Proof.
  intros Hn Hb Hr Hroomy Hm (Hrest & He & Hc & Hwk').
  destruct (ninv_run c k ls s Hn Hb Hr) as (os & fl & Hi).
  destruct Hi as [Hring Hseen Hmiss Hbat Hsize Henv Henv' Henq Henq1 Hwk Hroom Hin Heg Her].
  pose proof (di_w _ _ _ Hring) as Hw.
  apply (try_none _ _ _ Hn Hring) in Hrest.
  rewrite take_ge in Hseen by lia.
  assert (Hg : got os = received ls) by (apply explains_none; [done|congruence]).
  rewrite Hg, He, app_nil_r in Hbat.
  specialize (Hroom Hroomy). rewrite <- (marked_all fl Hroom) in Hbat.
  assert (Hif : in_flight s = []).
  { unfold in_flight. clear -Hwk'. induction (z_workers s) as [|w ws IH]; [done|].
    inversion_clear Hwk'; subst. cbn. by apply IH. }
  rewrite Hif, Hc in *. rewrite !app_nil_r in *. rewrite Hbat. split.
  - apply concat_perm. by symmetry.
  - intros Hk. by rewrite Henq1.
Qed.

(** What a flush does. *)
Lemma nozzle_flush c s s' :
  nstep c s (NSelect true) = Some s' ->
  z_envs s' = [] /\
  (length (z_ch s) < n_chan c -> concat (z_ch s') = concat (z_ch s) ++ z_envs s).
Proof.
  cbn. destruct (z_flush s); [|done]. cbn. intros [= <-].
  destruct (decide (0 < length (z_envs s))) as [Hp|Hp].
  - unfold offer. destruct (decide (length (z_ch s) < n_chan c)); cbn; split; try done.
    intros _. rewrite concat_app. cbn. by rewrite app_nil_r.
  - assert (z_envs s = []) as He by (apply nil_length_inv; lia).
    rewrite He. cbn. split; [done|]. intros _. by rewrite app_nil_r.
Qed.
End Noz.

(** ** The batching client *)
Section Bic.
Context {E : Type}.

Lemma accepted_app (ls ls' : list (blabel E)) : accepted (ls ++ ls') = accepted ls ++ accepted ls'.
Proof. induction ls as [|[] ls IH]; cbn; rewrite ?IH, ?app_assoc; done. Qed.

Lemma dinv_sets n es : (0 < n)%N -> forall xs (d : diode E),
  dinv n xs d -> dinv n (xs ++ es) (foldl (diode_set n) d es) /\ d_r (foldl (diode_set n) d es) = d_r d.
Proof.
  intros Hn. induction es as [|e es IH]; intros xs d Hi; cbn.
  - by rewrite app_nil_r.
  - destruct (IH (xs ++ [e]) (diode_set n d e) (dinv_set n xs d e Hn Hi)) as [H1 H2].
    rewrite <- app_assoc in H1. done.
Qed.

Record binv (n : N) (size : nat) (ls : list (blabel E)) (s : bic E) (os : list (obs E)) : Prop := {
  bi_ring : dinv n (accepted ls) (b_ring s);
  bi_seen : explains (take (N.to_nat (d_r (b_ring s))) (accepted ls)) os;
  bi_dropped : dropped os = b_dropped s;
  bi_got : got os = concat (map pr_envs (b_reqs s)) ++ b_batch s;
  bi_size : Forall (fun r => pr_local r = true /\ 0 < length (pr_envs r) <= size) (b_reqs s);
  bi_batch : length (b_batch s) < size
}.

Lemma binv_write n size ls s os ok :
  dinv n (accepted ls) (b_ring s) ->
  explains (take (N.to_nat (d_r (b_ring s))) (accepted ls)) os ->
  dropped os = b_dropped s ->
  got os = concat (map pr_envs (b_reqs s)) ++ b_batch s ->
  Forall (fun r => pr_local r = true /\ 0 < length (pr_envs r) <= size) (b_reqs s) ->
  length (b_batch s) <= size -> 0 < size ->
  binv n size ls (write_batch s ok) os.
Proof.
  intros H1 H2 H3 H4 H5 H6 H7. unfold write_batch. destruct (b_batch s) as [|e b] eqn:Hb.
  - split; try done; rewrite Hb; done.
  - split; cbn [b_ring b_batch b_reqs b_dropped]; try done.
    + rewrite map_app, concat_app. cbn. by rewrite !app_nil_r.
    + apply Forall_app. split; [done|]. apply Forall_singleton. cbn in *. split; [done|lia].
Qed.

Lemma binv_run n size ls : (0 < n)%N -> 0 < size -> exists os, binv n size ls (brun n size ls) os.
Proof.
  intros Hn Hsz. unfold brun. induction ls as [|l ls IH] using rev_ind.
  - exists []. split; [apply dinv_new|cbn; apply ex_nil|..]; cbn; (reflexivity || exact Hsz || apply Forall_nil_2).
  - destruct IH as (os & [Hring Hseen Hdr Hgot Hreq Hbat]).
    rewrite foldl_app. cbn [foldl].
    set (s := foldl (bstep n size) bic_new ls) in *. clearbody s.
    pose proof (di_w _ _ _ Hring) as Hw. pose proof (di_r _ _ _ Hring) as Hr.
    destruct l as [es|lapsed ok]; cbn [bstep].
    + exists os. unfold bic_send. destruct (dinv_sets n es Hn _ _ Hring) as [Hi Hr'].
      split; cbn [b_ring b_batch b_reqs b_dropped]; try done.
      * rewrite accepted_app. cbn. by rewrite app_nil_r.
      * rewrite accepted_app, Hr'. cbn. rewrite app_nil_r, take_app_le by lia. done.
    + unfold bic_loop. destruct (diode_try n (b_ring s)) as [[d o] a] eqn:Ht.
      destruct (dinv_try _ _ _ _ _ _ Hn Hring Ht) as [Hring' Hcase].
      destruct (try_explains _ _ _ _ _ _ Hn Hring Ht) as (seen & Hex & Hdrop).
      pose proof (di_w _ _ _ Hring') as Hw'. pose proof (di_r _ _ _ Hring') as Hr'.
      exists (os ++ seen_by o a).
      assert (Hseen' : explains (take (N.to_nat (d_r d)) (accepted ls)) (os ++ seen_by o a)).
      { rewrite (take_drop_split _ (N.to_nat (d_r (b_ring s))) _ seen Hdrop); [by apply explains_app| |lia].
        destruct Hcase as [(_ & _ & _ & ->)|(x & kk & _ & _ & _ & _ & _ & ->)]; lia. }
      assert (Hdr' : dropped (os ++ seen_by o a) = (b_dropped s + default 0 a)%N).
      { rewrite dropped_app, Hdr. f_equal. unfold seen_by. destruct a as [m|], o as [x|]; cbn; lia. }
      assert (Hl : accepted (ls ++ [BLoop lapsed ok]) = accepted ls)
        by (rewrite accepted_app; cbn; by rewrite app_nil_r).
      destruct o as [e|].
      * assert (Hg : got (os ++ seen_by (Some e) a) = concat (map pr_envs (b_reqs s)) ++ (b_batch s ++ [e])).
        { rewrite got_app, Hgot, <- !app_assoc. unfold seen_by. by destruct a. }
        assert (Hlen : length (b_batch s ++ [e]) <= size) by (rewrite app_length; cbn; lia).
        destruct (decide _) as [Hd|Hd]; cbn [b_batch] in Hd.
        -- apply binv_write; rewrite ?Hl; done.
        -- destruct lapsed; [apply binv_write; rewrite ?Hl; done|].
           split; rewrite ?Hl; try done. cbn [b_batch]. lia.
      * assert (Hg : got (os ++ seen_by None a) = concat (map pr_envs (b_reqs s)) ++ b_batch s).
        { rewrite got_app, Hgot. unfold seen_by. destruct a; cbn; by rewrite app_nil_r. }
        destruct lapsed; [apply binv_write; rewrite ?Hl; cbn [b_batch]; try done; lia|].
        split; rewrite ?Hl; done.
Qed.

Lemma bic_accounting n size (ls : list (blabel E)) :
  (0 < n)%N -> 0 < size ->
  exists seen waiting os,
    accepted ls = seen ++ waiting /\ explains seen os /\
    (waiting = [] <-> (diode_try n (b_ring (brun n size ls))).1.2 = None) /\
    got os = concat (map pr_envs (b_reqs (brun n size ls))) ++ b_batch (brun n size ls) /\
    length (b_batch (brun n size ls)) < size /\
    (forall r, r ∈ b_reqs (brun n size ls) -> pr_local r = true /\ 0 < length (pr_envs r) <= size) /\
    b_dropped (brun n size ls) = dropped os.
Proof.
  intros Hn Hsz. destruct (binv_run n size ls Hn Hsz) as (os & [Hring Hseen Hdr Hgot Hreq Hbat]).
  set (s := brun n size ls) in *. clearbody s.
  pose proof (di_w _ _ _ Hring) as Hw. pose proof (di_r _ _ _ Hring) as Hr.
  exists (take (N.to_nat (d_r (b_ring s))) (accepted ls)),
         (drop (N.to_nat (d_r (b_ring s))) (accepted ls)), os.
  rewrite take_drop. split; [done|]. split; [done|]. split.
  { rewrite (try_none _ _ _ Hn Hring). split.
    - intros H1. apply (f_equal length) in H1. rewrite drop_length in H1. cbn in H1. lia.
    - intros H1. apply nil_length_inv. rewrite drop_length. lia. }
  split; [done|]. split; [done|]. split; [|done].
  intros r Hin. rewrite Forall_forall in Hreq. by apply Hreq.
Qed.
End Bic.

(** ** Witnesses *)

(** With the constants of the code: 513 batches of one envelope are flushed
    before any worker runs; the last is lost although every call succeeds. *)
Definition flood : list (nlabel nat) :=
  concat (map (fun i => [NRecv i; NPoll; NSelect true]) (seq 0 513)) ++
  concat (replicate 512 [NTake 0; NAnswer 0 true]).

Lemma flood_loses :
  exists ls s, nrun nozzle_cfg (noz_new 2) ls = Some s /\
    (z_envs s = [] /\ z_ch s = [] /\ Forall (fun w => w = None) (z_workers s) /\
     (diode_try 100000 (z_ring s)).1.2 = None) /\
    z_ingress s = 513%N /\ z_egress s = 512%N /\ z_err s = 0%N /\ z_missed s = 0%N /\
    received ls = seq 0 513 /\ concat (map fst (z_sent s)) = seq 0 512.
Proof.
  assert (Hb : match nrun nozzle_cfg (noz_new 2) flood with
    | Some s => bool_decide (z_envs s = []) && bool_decide (z_ch s = []) &&
        bool_decide (z_workers s = [None; None]) && bool_decide ((diode_try 100000 (z_ring s)).1.2 = None) &&
        bool_decide (z_ingress s = 513%N) && bool_decide (z_egress s = 512%N) &&
        bool_decide (z_err s = 0%N) && bool_decide (z_missed s = 0%N) &&
        bool_decide (concat (map fst (z_sent s)) = seq 0 512)
    | None => false end = true) by (vm_compute; reflexivity).
  assert (Hrec : bool_decide (received flood = seq 0 513) = true) by (vm_compute; reflexivity).
  apply bool_decide_eq_true in Hrec.
  exists flood. generalize dependent (nrun nozzle_cfg (noz_new 2) flood).
  intros [s|] Hb; [|discriminate Hb].
  apply andb_true_iff in Hb as [Hb H9]. apply andb_true_iff in Hb as [Hb H8].
  apply andb_true_iff in Hb as [Hb H7]. apply andb_true_iff in Hb as [Hb H6].
  apply andb_true_iff in Hb as [Hb H5]. apply andb_true_iff in Hb as [Hb H4].
  apply andb_true_iff in Hb as [Hb H3]. apply andb_true_iff in Hb as [H1 H2].
  apply bool_decide_eq_true in H1, H2, H3, H4, H5, H6, H7, H8, H9.
  exists s. split; [reflexivity|]. split.
  { split; [exact H1|]. split; [exact H2|]. split; [|exact H4]. rewrite H3. by repeat constructor. }
  split; [exact H5|]. split; [exact H6|]. split; [exact H7|]. split; [exact H8|].
  split; [exact Hrec|exact H9].
Qed.

(** Two workers: the second batch overtakes the first. *)
Lemma workers_reorder :
  exists (ls : list (nlabel nat)) s, nrun nozzle_cfg (noz_new 2) ls = Some s /\
    received ls = [1; 2] /\ z_err s = 0%N /\ map fst (z_sent s) = [[2]; [1]].
Proof.
  exists [NRecv 1; NPoll; NSelect true; NRecv 2; NPoll; NSelect true;
     NTake 0; NTake 1; NAnswer 1 true; NAnswer 0 true].
  eexists. split; [vm_compute; reflexivity|]. done.
Qed.
