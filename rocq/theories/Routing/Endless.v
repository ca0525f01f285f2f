(** When reads are passed on for ever. *)
From stdpp Require Import prelude gmap strings list.
From Verif.Base Require Import GoInt Envelope.
From Verif.Store Require Import Model Spec.
From Verif.Routing Require Import Model Spec SpecEndless ProofsProxy.
Open Scope nat_scope.

Section Endless.
Context (hash : string -> Z) (compile : string -> option (string -> bool)) (now : Z) (rq : read_request) (c : list node).
Definition owners_of (m : node) : list nat := Model.lookup (hash (rr_source rq)) (n_table m).
Local Notation owners := owners_of.
Local Notation rd := (fun fuel rnds i => cluster_read fuel hash compile now rnds i rq c).
Hypothesis (Hlt : ∀ a m, c !! a = Some m -> ∀ i, i ∈ owners m -> i < length c).

(** ** Walks that are long enough repeat *)
Lemma repeats {A} `{EqDecision A} (l : list A) : ¬ NoDup l -> ∃ i j x, i < j ∧ l !! i = Some x ∧ l !! j = Some x.
Proof.
  induction l as [|x l IH]; intros H; [destruct H; constructor|]. destruct (decide (x ∈ l)) as [Hx|Hx].
  - apply elem_of_list_lookup in Hx as [j Hj]. exists 0, (S j), x. split; [lia|done].
  - destruct IH as (i & j & y & Hij & Hi & Hj). { intros Hl. apply H. by constructor. }
    exists (S i), (S j), y. split; [lia|done].
Qed.
Lemma pigeons (f : nat -> nat) L : (∀ n, n <= L -> f n < L) -> ∃ a b, a < b ∧ b <= L ∧ f a = f b.
Proof.
  intros Hf. destruct (repeats (f <$> seq 0 (S L))) as (a & b & x & Hab & Ha & Hb).
  - intros Hn. assert (Hs : incl (f <$> seq 0 (S L)) (seq 0 L)).
    { intros x Hx. apply elem_of_list_In, elem_of_list_fmap in Hx as (n & -> & Hn'). apply elem_of_seq in Hn'.
      apply in_seq. specialize (Hf n). lia. }
    apply NoDup_ListNoDup in Hn. pose proof (NoDup_incl_length Hn Hs) as Hlen. rewrite fmap_length, !seq_length in Hlen. lia.
  - rewrite list_lookup_fmap in Ha, Hb. apply fmap_Some in Ha as (u & Hu & ->), Hb as (v & Hv & E).
    apply lookup_seq in Hu as [-> _], Hv as [-> Hv]. exists a, b. split; [done|]. split; [lia|]. cbn in E. exact E.
Qed.
Lemma around (P : nat -> nat -> Prop) (f : nat -> nat) a b : a < b -> f a = f b -> (∀ n, n < b -> P (f n) (f (S n))) ->
  ∃ g, g 0 = f 0 ∧ ∀ n, P (g n) (g (S n)).
Proof.
  intros Hab E Hp. set (g n := if decide (n < a) then f n else f (a + (n - a) mod (b - a))).
  assert (Hg : ∀ n, g n = f (if decide (n < a) then n else a + (n - a) mod (b - a))) by (intros n; unfold g; by destruct (decide _)).
  exists g. split.
  - rewrite Hg. destruct (decide (0 < a)); [done|]. replace a with 0 in * by lia. cbn [Nat.add Nat.sub]. rewrite Nat.mod_0_l by lia. done.
  - intros n. rewrite !Hg. destruct (decide (n < a)) as [H1|H1].
    + destruct (decide (S n < a)) as [H2|H2]; [apply Hp; lia|]. replace (S n - a) with 0 by lia. rewrite Nat.mod_0_l by lia.
      replace (a + 0) with (S n) by lia. apply Hp. lia.
    + rewrite decide_False by lia. pose proof (Nat.mod_upper_bound (n - a) (b - a)) as Hm.
      destruct (decide (S ((n - a) mod (b - a)) = b - a)) as [Ez|Ez].
      * assert (Ezz : (S n - a) mod (b - a) = 0).
        { replace (S n - a) with ((n - a) + 1) by lia. rewrite <-Nat.add_mod_idemp_l by lia.
          replace ((n - a) mod (b - a) + 1) with (b - a) by lia. apply Nat.mod_same. lia. }
        rewrite Ezz, Nat.add_0_r, E. replace b with (S (a + (n - a) mod (b - a))) at 2 by lia. apply Hp. lia.
      * assert (Ezz : (S n - a) mod (b - a) = S ((n - a) mod (b - a))).
        { replace (S n - a) with ((n - a) + 1) by lia. rewrite <-Nat.add_mod_idemp_l by lia. rewrite Nat.mod_small by lia. lia. }
        rewrite Ezz, Nat.add_succ_r. apply Hp. lia.
Qed.

(** ** Reads and walks *)
Lemma route_of a m r : c !! a = Some m ->
  (owners m = [] ∧ read_route_of (owners m) (length c) a r = Some Unavailable) ∨
  (a ∈ owners m ∧ read_route_of (owners m) (length c) a r = Some (CallNode a)) ∨
  (∃ b, passes owners c a b ∧ b ≠ a ∧ b < length c ∧ read_route_of (owners m) (length c) a r = Some (CallNode b)).
Proof.
  intros Ha. destruct (read_route_spec (owners m) (length c) a r (Hlt a m Ha)) as (route & Hr & Hu & Hl & He).
  destruct (decide (owners m = [])) as [E|Hne]; [left; split; [done|]; rewrite Hr; f_equal; by apply Hu|].
  destruct (decide (a ∈ owners m)) as [Hin|Hni]; [right; left; split; [done|]; rewrite Hr; f_equal; by apply Hl|].
  right. right. destruct (He Hne) as (b & Hb & ->). exists b. split; [by exists m|]. split; [by intros ->|].
  split; [by eapply Hlt|done].
Qed.
Lemma none_walks fuel : ∀ rnds j, rd fuel rnds j = None -> ∃ f, f 0 = j ∧ ∀ n, n < fuel -> passes owners c (f n) (f (S n)).
Proof.
  induction fuel as [|fuel IH]; intros rnds j H; [exists (fun _ => j); split; [done|lia]|]. cbn [cluster_read] in H.
  destruct (c !! j) as [m|] eqn:Hj; [|done].
  destruct (route_of j m (rnds fuel) Hj) as [[_ Hr]|[[_ Hr]|(b & Hp & Hne & _ & Hr)]]; unfold owners in Hr; rewrite Hr in H.
  - done.
  - by rewrite Nat.eqb_refl in H.
  - destruct (Nat.eqb_spec b j) as [?|_]; [done|]. destruct (cluster_read fuel hash compile now rnds b rq c) as [[]|] eqn:E; [done|].
    apply IH in E as (f & H0 & Hf). exists (fun n => match n with 0 => j | S n => f n end). split; [done|].
    intros [|n] Hn; [by rewrite H0|]. apply Hf. lia.
Qed.
Lemma read_below fuel : ∀ rnds rnds' j, (∀ x, x < fuel -> rnds x = rnds' x) -> rd fuel rnds j = rd fuel rnds' j.
Proof.
  induction fuel as [|fuel IH]; intros rnds rnds' j H; [done|]. cbn [cluster_read]. destruct (c !! j); [|done].
  rewrite (H fuel) by lia. destruct (read_route_of _ _ _ _) as [[|b]|]; [done| |done]. destruct (b =? j); [done|].
  rewrite (IH rnds rnds' b); [done|]. intros x Hx. apply H. lia.
Qed.
Lemma walk_reads fuel : ∀ (f : nat -> nat), (∀ n, n < fuel -> passes owners c (f n) (f (S n))) -> ∃ rnds, rd fuel rnds (f 0) = None.
Proof.
  induction fuel as [|fuel IH]; intros f Hf; [by exists (fun _ => 0)|].
  destruct (IH (fun n => f (S n))) as [rnds Hr]; [intros n Hn; apply Hf; lia|].
  destruct (Hf 0) as (m & Hm & Hni & Hin); [lia|]. apply elem_of_list_lookup in Hin as [r Hi].
  exists (fun x => if decide (x = fuel) then r else rnds x). cbn [cluster_read]. rewrite Hm, decide_True by done.
  assert (Hroute : read_route_of (owners m) (length c) (f 0) r = Some (CallNode (f 1))).
  { unfold read_route_of. destruct (owners m) as [|o os] eqn:Eo; [done|]. rewrite <-Eo in *.
    destruct (existsb (Nat.eqb (f 0)) (owners m)) eqn:Ee; [by apply existsb_eqb in Ee|].
    rewrite Nat.mod_small by (by eapply lookup_lt_Some). rewrite Hi. cbn [mbind option_bind].
    assert (Hb : f 1 < length c) by (eapply Hlt; [exact Hm|by eapply elem_of_list_lookup_2]). apply Nat.ltb_lt in Hb. by rewrite Hb. }
  unfold owners in Hroute. rewrite Hroute. destruct (Nat.eqb_spec (f 1) (f 0)) as [E|_].
  { exfalso. apply Hni. rewrite <-E. by eapply elem_of_list_lookup_2. }
  rewrite (read_below fuel _ rnds); [by rewrite Hr|]. intros x Hx. rewrite decide_False by lia. done.
Qed.
Lemma answered fuel : ∀ rnds j ans hops, j < length c -> rd fuel rnds j = Some (ans, hops) ->
  ∃ f, f 0 = j ∧ (∀ n, n < hops -> passes owners c (f n) (f (S n))) ∧
    ∃ m, c !! (f hops) = Some m ∧
      ((owners m = [] ∧ ans = CUnavailable) ∨ (f hops ∈ owners m ∧ ans = CServed (f hops) (local_read compile now rq (n_store m)))).
Proof.
  induction fuel as [|fuel IH]; intros rnds j ans hops Hj H; [done|]. cbn [cluster_read] in H.
  destruct (c !! j) as [m|] eqn:Hm; [|by apply lookup_ge_None in Hm; lia].
  destruct (route_of j m (rnds fuel) Hm) as [[Ho Hr]|[[Ho Hr]|(b & Hp & Hne & Hb & Hr)]]; unfold owners in Hr; rewrite Hr in H.
  - injection H as <- <-. exists (fun _ => j). split; [done|]. split; [lia|]. exists m. split; [done|]. by left.
  - rewrite Nat.eqb_refl in H. injection H as <- <-. exists (fun _ => j). split; [done|]. split; [lia|]. exists m. split; [done|]. by right.
  - destruct (Nat.eqb_spec b j) as [?|_]; [done|]. destruct (cluster_read fuel hash compile now rnds b rq c) as [[a h]|] eqn:E; [|done].
    injection H as <- <-. apply IH in E as (f & H0 & Hf & Hend); [|done].
    exists (fun n => match n with 0 => j | S n => f n end). split; [done|]. split; [|done].
    intros [|n] Hn; [by rewrite H0|]. apply Hf. lia.
Qed.
Lemma walk_inside (f : nat -> nat) k : (∀ n, n < k -> passes owners c (f n) (f (S n))) -> ∀ n, n < k -> f n < length c.
Proof. intros Hf n Hn. destruct (Hf n Hn) as (m & Hm & _). by eapply lookup_lt_Some. Qed.
Lemma long_endless (f : nat -> nat) k : length c < k -> (∀ n, n < k -> passes owners c (f n) (f (S n))) -> endless owners c (f 0).
Proof.
  intros Hk Hf. destruct (pigeons f (length c)) as (a & b & Hab & Hb & E); [intros n Hn; apply (walk_inside f k Hf); lia|].
  apply (around (passes owners c) f a b Hab E). intros n Hn. apply Hf. lia.
Qed.
End Endless.
