(** Nodes wired by their settings. *)
From Coq Require Import Ascii String.
From stdpp Require Import prelude gmap strings list.
From Verif.Base Require Import GoInt Envelope Str Dec.
From Verif.Store Require Import Model Spec.
From Verif.Routing Require Import Model Spec ProofsCluster.
From Verif.Setup Require Import Model Spec.
Open Scope string_scope.
Open Scope list_scope.
Open Scope Z_scope.

(** ** The clients *)
Lemma peers_all dial index i addrs : (forall a, dial a = true) ->
  length (peers dial index i addrs) = length addrs /\
  forall j b, addrs !! j = Some b -> peers dial index i addrs !! j = Some (if decide (i + Z.of_nat j = index) then Here else There b).
Proof.
  intros Hd. revert i. induction addrs as [|a l IH]; intros i; [done|]. cbn [peers]. rewrite Hd. destruct (IH (i + 1)) as [IH1 IH2].
  destruct (Z.eqb_spec i index) as [E|E]; cbn [length]; (split; [by rewrite IH1|]); intros [|j] b.
  - intros [= <-]. cbn. rewrite decide_True by lia. done.
  - intros H. etransitivity; [exact (IH2 j b H)|]. f_equal. apply decide_ext. lia.
  - intros [= <-]. cbn. rewrite decide_False by lia. done.
  - intros H. etransitivity; [exact (IH2 j b H)|]. f_equal. apply decide_ext. lia.
Qed.
Lemma start_wired dial addrs k m a : (forall a, dial a = true) -> addrs !! k = Some a ->
  wired_at addrs k (start dial (mk_config a addrs (Z.of_nat k) m)).
Proof.
  intros Hd Ha. destruct (peers_all dial (Z.of_nat k) 0 addrs Hd) as [Hl Hp]. pose proof (lookup_lt_Some _ _ _ Ha) as Hk.
  split; [|split].
  - cbn [start l_local nc_index nc_addrs]. unfold local_index. destruct (Z.leb_spec 0 (Z.of_nat k)); [|lia].
    destruct (Z.ltb_spec (Z.of_nat k) (Z.of_nat (length addrs))); [|lia]. cbn. by rewrite Nat2Z.id.
  - exact Hl.
  - intros j b Hb. cbn [start l_peers nc_index nc_addrs]. rewrite (Hp j b Hb). f_equal. apply decide_ext. lia.
Qed.
Lemma start_outside dial c : ~ (0 <= nc_index c < Z.of_nat (length (nc_addrs c))) -> Here ∉ l_peers (start dial c).
Proof.
  intros H. cbn [start l_peers]. assert (H' : forall i, 0 <= i -> ~ (i <= nc_index c < i + Z.of_nat (length (nc_addrs c))) -> Here ∉ peers dial (nc_index c) i (nc_addrs c)).
  { clear H. induction (nc_addrs c) as [|a l IH]; intros i Hi H; cbn [peers length] in *; [apply not_elem_of_nil|].
    destruct (Z.eqb_spec i (nc_index c)) as [E|E]; [exfalso; lia|]. destruct (dial a).
    - rewrite not_elem_of_cons. split; [done|]. apply IH; lia.
    - apply IH; lia. }
  apply H'; lia.
Qed.
(** a node that does not know itself stores nothing *)
Lemma carry_outside now d calls d' out : Here ∉ l_peers d -> carry now d calls = Some (d', out) -> d' = d.
Proof.
  intros Hh. revert out. induction calls as [|[i r] calls IH]; intros out; cbn [carry]; [by intros [= <- _]|].
  destruct (l_peers d !! i) as [[|b]|] eqn:E; [|intros H|done].
  - by apply elem_of_list_lookup_2 in E.
  - destruct (carry now d calls) as [[d1 w]|] eqn:Ec; cbn in H; [|done]. injection H as <- _. by eapply IH.
Qed.
Lemma send_outside hash now a b r order w w' d : w_nodes w !! b = Some d -> Here ∉ l_peers d -> send_at hash now a r order w = Some w' -> w_nodes w' !! b = Some d.
Proof.
  intros Hb Hh. unfold send_at. destruct (w_nodes w !! a) as [da|] eqn:Ea; [|done]. cbn.
  destruct (send_with _ _ _ r order) as [calls|]; [|done]. cbn. destruct (carry now da calls) as [[d' out]|] eqn:Ec; [|done]. cbn. intros [= <-]. cbn.
  destruct (decide (a = b)) as [<-|Hn]; [|by rewrite lookup_insert_ne]. rewrite lookup_insert. rewrite Hb in Ea. injection Ea as <-. f_equal. by eapply carry_outside.
Qed.
Lemma arrive_outside hash now k b w w' d : w_nodes w !! b = Some d -> Here ∉ l_peers d -> arrive hash now k w = Some w' -> w_nodes w' !! b = Some d.
Proof.
  intros Hb Hh. unfold arrive. destruct (w_wire w !! k) as [[c es]|]; [|done]. cbn. destruct (w_nodes w !! c) as [dc|]; [|by intros [= <-]].
  intros H. eapply send_outside in H; [exact H|done|done].
Qed.

(** ** Delivery *)
Lemma deliver_app now a b c : deliver now (a ++ b) c = c' ← deliver now a c; deliver now b c'.
Proof.
  revert c. induction a as [|[i r] a IH]; intros c; [done|]. cbn [deliver app]. destruct (c !! i) as [n|]; [|done]. cbn.
  destruct (put_all now (get_batch r) (n_store n)) as [s|]; [|done]. cbn. apply IH.
Qed.
Definition matches (addrs : list string) (c : nat * send_request) (m : string * list envelope) : Prop :=
  addrs !! c.1 = Some m.1 /\ c.2 = mk_send true (Some m.2).
Lemma carry_wired now addrs k d calls d' out c :
  wired_at addrs k d -> (k < length addrs)%nat -> Forall (fun x => x.1 < length addrs)%nat calls -> Forall (fun x => exists es, x.2 = mk_send true (Some es)) calls ->
  carry now d calls = Some (d', out) -> c !! k = Some (bare d) ->
  wired_at addrs k d' /\ l_table d' = l_table d /\
  exists here there, calls ≡ₚ here ++ there /\ Forall2 (matches addrs) there out /\ deliver now here c = Some (<[k := bare d']> c).
Proof.
  intros Hw Hk. revert d out c Hw. induction calls as [|[i r] calls IH]; intros d out c Hw Hi Hr Hc Hck; cbn [carry] in Hc.
  { injection Hc as <- <-. split; [done|]. split; [done|]. exists [], []. split; [done|]. split; [constructor|]. cbn. by rewrite list_insert_id. }
  inversion Hi as [|? ? Hi1 Hi2]; subst. inversion Hr as [|? ? [es Hes] Hr2]; subst. cbn in Hes, Hi1. subst r.
  destruct (lookup_lt_is_Some_2 addrs i Hi1) as [b Hb]. rewrite (proj2 (proj2 Hw) i b Hb) in Hc. destruct (decide (i = k)) as [->|Hik].
  - destruct (put_all now (get_batch (mk_send true (Some es))) (l_store d)) as [s|] eqn:Es; cbn [mbind option_bind] in Hc; [|done].
    eapply (IH _ _ (<[k := mk_node (l_table d) s]> c)) in Hc as (Hw' & Ht & here & there & Hp & Hm & Hd); [| |done|done|].
    + split; [done|]. split; [done|]. exists ((k, mk_send true (Some es)) :: here), there. split; [by rewrite Hp|]. split; [done|].
      cbn [deliver]. rewrite Hck. cbn [mbind option_bind bare n_store n_table]. rewrite Es. cbn [mbind option_bind]. rewrite Hd. by rewrite list_insert_insert.
    + destruct Hw as (H1 & H2 & H3). split; [done|]. split; [done|]. exact H3.
    + apply list_lookup_insert. by eapply lookup_lt_Some.
  - destruct (carry now d calls) as [[d1 w]|] eqn:Ec; cbn [mbind option_bind] in Hc; [|done]. injection Hc as <- <-.
    destruct (IH d w c Hw Hi2 Hr2 Ec Hck) as (Hw' & Ht & here & there & Hp & Hm & Hd).
    split; [done|]. split; [done|]. exists here, ((i, mk_send true (Some es)) :: there). split; [|split; [by constructor|done]].
    rewrite Hp. apply Permutation_middle.
Qed.
Lemma cluster_lookup addrs w c k a : is_cluster addrs w c -> addrs !! k = Some a -> exists d, w_nodes w !! a = Some d /\ c !! k = Some (bare d).
Proof. intros H Ha. eapply Forall2_lookup_l in H as (n & Hn & d & Hd & ->); [|exact Ha]. by exists d. Qed.
Lemma cluster_set addrs w c k a d wr : NoDup addrs -> is_cluster addrs w c -> addrs !! k = Some a ->
  is_cluster addrs (mk_net (<[a := d]> (w_nodes w)) wr) (<[k := bare d]> c).
Proof.
  intros Hn Hc Ha. unfold is_cluster. apply Forall2_same_length_lookup. pose proof (Forall2_length _ _ _ Hc) as Hl.
  split; [by rewrite insert_length|]. intros j b n Hb Hj. cbn [w_nodes]. destruct (decide (j = k)) as [->|Hjk].
  - rewrite list_lookup_insert in Hj by (rewrite <- Hl; by eapply lookup_lt_Some). rewrite Ha in Hb. injection Hb as <-. injection Hj as <-.
    exists d. by rewrite lookup_insert.
  - rewrite list_lookup_insert_ne in Hj by done. destruct (cluster_lookup _ _ _ _ _ Hc Hb) as (d' & Hd' & E). rewrite E in Hj. injection Hj as <-.
    exists d'. split; [|done]. rewrite lookup_insert_ne; [done|]. intros ->. apply Hjk. by eapply NoDup_lookup.
Qed.
Lemma wired_set addrs w k a d wr : wired addrs w -> addrs !! k = Some a -> wired_at addrs k d -> wired addrs (mk_net (<[a := d]> (w_nodes w)) wr).
Proof.
  intros [Hn Hw] Ha Hd. split; [done|]. intros j b Hb. cbn [w_nodes]. destruct (decide (a = b)) as [<-|Hab].
  - rewrite lookup_insert. exists d. split; [done|]. assert (j = k) as -> by (by eapply NoDup_lookup). done.
  - rewrite lookup_insert_ne by done. by apply Hw.
Qed.
Lemma send_wired hash now addrs i a r order w w' c : wired addrs w -> is_cluster addrs w c -> addrs !! i = Some a ->
  (sr_local_only r = true -> exists es, r = mk_send true (Some es)) ->
  send_at hash now a r order w = Some w' ->
  exists d calls here there out c', w_nodes w !! a = Some d /\
    send_with (fun src => Model.lookup (hash src) (l_table d)) (length addrs) i r order = Some calls /\
    calls ≡ₚ here ++ there /\ Forall2 (matches addrs) there out /\ deliver now here c = Some c' /\
    w_wire w' = w_wire w ++ out /\ wired addrs w' /\ is_cluster addrs w' c' /\ (sr_local_only r = true -> there = [] /\ here = calls).
Proof.
  intros Hw Hc Ha Hr. unfold send_at. destruct (proj2 Hw i a Ha) as (d & Hd & Hwd). rewrite Hd. cbn [mbind option_bind].
  destruct Hwd as (Hl & Hlen & Hpeers) eqn:EE; clear EE. rewrite Hl, Hlen.
  destruct (send_with _ (length addrs) i r order) as [calls|] eqn:Es; [|done]. cbn [mbind option_bind].
  destruct (carry now d calls) as [[d' out]|] eqn:Ec; [|done]. cbn [mbind option_bind]. intros [= <-].
  destruct (cluster_lookup _ _ _ _ _ Hc Ha) as (d0 & Hd0 & Hci). rewrite Hd in Hd0. injection Hd0 as <-.
  pose proof (lookup_lt_Some _ _ _ Ha) as Hi.
  assert (Hcalls : Forall (fun x => x.1 < length addrs)%nat calls /\ Forall (fun x => exists es, x.2 = mk_send true (Some es)) calls).
  { unfold send_with in Es. destruct (sr_local_only r) eqn:Elo.
    - destruct (Nat.ltb_spec i (length addrs)); [|done]. injection Es as <-. destruct (Hr eq_refl) as [es ->]. split; repeat constructor; [done|]. by exists es.
    - destruct (sr_envelopes r); [|done]. destruct (forallb _ order) eqn:Ef; [|done]. injection Es as <-.
      rewrite forallb_forall in Ef. split; apply Forall_fmap, Forall_forall; intros x Hx; cbn.
      + apply elem_of_list_In, Ef in Hx. by apply Nat.ltb_lt in Hx.
      + by exists x.2. }
  destruct Hcalls as [H1 H2].
  destruct (carry_wired now addrs i d calls d' out c (conj Hl (conj Hlen Hpeers)) Hi H1 H2 Ec Hci) as (Hw' & Ht & here & there & Hp & Hm & Hdel).
  exists d, calls, here, there, out, (<[i := bare d']> c). split; [done|]. split; [done|]. split; [done|]. split; [done|]. split; [done|]. split; [done|].
  split; [by eapply wired_set|]. split; [by eapply cluster_set; [apply Hw|..]|].
  intros Elo. unfold send_with in Es. rewrite Elo in Es. destruct (Nat.ltb_spec i (length addrs)); [|done]. injection Es as <-.
  destruct (Hr Elo) as [es ->]. cbn [carry] in Ec. rewrite (Hpeers i a Ha), decide_True in Ec by done.
  destruct (put_all _ _ _); cbn in Ec; [|done]. injection Ec as <- <-. inversion Hm; subst. split; [done|]. rewrite app_nil_r in Hp. by apply Permutation_singleton_l in Hp.
Qed.
Lemma arrive_wired hash now addrs k w w' c : wired addrs w -> is_cluster addrs w c -> addressed addrs w -> arrive hash now k w = Some w' ->
  exists m l1 l2 x c', w_wire w = l1 ++ m :: l2 /\ w_wire w' = l1 ++ l2 /\ matches addrs x m /\
    deliver now [x] c = Some c' /\ wired addrs w' /\ is_cluster addrs w' c' /\ addressed addrs w'.
Proof.
  intros Hw Hc Had. unfold arrive. destruct (w_wire w !! k) as [[b es]|] eqn:Ek; [|done]. cbn [mbind option_bind].
  pose proof (take_drop_middle _ _ _ Ek) as Esplit.
  assert (Hb : b ∈ addrs) by (eapply Forall_lookup_1 in Had; [|exact Ek]; done). apply elem_of_list_lookup in Hb as [i Hb].
  destruct (proj2 Hw i b Hb) as (d & Hd & _). rewrite Hd. intros H.
  eapply (send_wired hash now addrs i b _ _ (mk_net (w_nodes w) (take k (w_wire w) ++ drop (S k) (w_wire w))) w' c) in H
    as (d' & calls & here & there & out & c' & Hd' & Es & Hp & Hm & Hdel & Hwire & Hw' & Hc' & Hloc); [|done|done|done|by intros _; exists es].
  destruct (Hloc eq_refl) as [-> ->]. inversion Hm; subst out. cbn [w_wire] in Hwire. rewrite app_nil_r in Hwire.
  unfold send_with in Es. cbn [sr_local_only] in Es. destruct (_ <? _)%nat; [|done]. injection Es as <-.
  exists (b, es), (take k (w_wire w)), (drop (S k) (w_wire w)), (i, mk_send true (Some es)), c'.
  split; [done|]. split; [done|]. split; [done|]. split; [done|]. split; [done|]. split; [done|].
  unfold addressed. rewrite Hwire. unfold addressed in Had. rewrite <- Esplit in Had. apply Forall_app in Had as [Ha1 Ha2]. inversion Ha2; subst. by apply Forall_app.
Qed.
Lemma arrivals_wired hash now addrs ks w w' c : wired addrs w -> is_cluster addrs w c -> addressed addrs w -> arrivals hash now ks w = Some w' -> w_wire w' = [] ->
  exists ms calls c', ms ≡ₚ w_wire w /\ Forall2 (matches addrs) calls ms /\ deliver now calls c = Some c' /\ wired addrs w' /\ is_cluster addrs w' c' /\
    length ks = length (w_wire w).
Proof.
  revert w c. induction ks as [|k ks IH]; intros w c Hw Hc Had; cbn [arrivals].
  - intros [= <-] He. exists [], [], c. rewrite He. split; [done|]. split; [constructor|]. done.
  - destruct (arrive hash now k w) as [w1|] eqn:Ea; [|done]. cbn [mbind option_bind]. intros Hr He.
    destruct (arrive_wired _ _ _ _ _ _ _ Hw Hc Had Ea) as (m & l1 & l2 & x & c1 & E & E1 & Hm & Hd & Hw1 & Hc1 & Had1).
    destruct (IH _ _ Hw1 Hc1 Had1 Hr He) as (ms & calls & c' & Hp & Hf & Hd' & Hw' & Hc' & Hlen).
    exists (m :: ms), (x :: calls), c'. split; [rewrite E, Hp, E1; apply Permutation_middle|]. split; [by constructor|].
    split; [change (x :: calls) with ([x] ++ calls); rewrite deliver_app, Hd; done|]. split; [done|]. split; [done|].
    cbn [length]. rewrite Hlen, E, E1, !app_length. cbn. lia.
Qed.
Lemma matches_fun addrs l l' ms : NoDup addrs -> Forall2 (matches addrs) l ms -> Forall2 (matches addrs) l' ms -> l = l'.
Proof.
  intros Hn H. revert l'. induction H as [|[i r] m l ms [H1 H2] _ IH]; intros l' H'; inversion H' as [|[i' r'] ? ? ? [H3 H4] H5]; subst; [done|].
  cbn in *. subst. f_equal; [|by apply IH]. f_equal. by eapply NoDup_lookup.
Qed.
(** a write and all that follows from it is a delivery in the cluster *)
Lemma write_wired hash now addrs i a batch order w w1 ks w2 c d : wired addrs w -> is_cluster addrs w c -> w_wire w = [] -> addrs !! i = Some a -> w_nodes w !! a = Some d ->
  order ≡ₚ map_to_list (envelopes_by_node (fun src => Model.lookup (hash src) (l_table d)) batch) ->
  send_at hash now a (mk_send false (Some batch)) order w = Some w1 -> arrivals hash now ks w1 = Some w2 -> w_wire w2 = [] ->
  exists calls c', send_calls (fun src => Model.lookup (hash src) (l_table d)) (length addrs) i (mk_send false (Some batch)) (Some calls) /\
    deliver now calls c = Some c' /\ wired addrs w2 /\ is_cluster addrs w2 c' /\ length ks = length (w_wire w1).
Proof.
  intros Hw Hc Hwire Ha Hd Ho Hs Hr He.
  assert (Hno : sr_local_only (mk_send false (Some batch)) = true -> exists es, mk_send false (Some batch) = mk_send true (Some es)) by done.
  destruct (send_wired _ _ _ _ _ _ _ _ _ c Hw Hc Ha Hno Hs) as (d' & calls & here & there & out & c1 & Hd' & Esend & Hp & Hm & Hdel & Hwire1 & Hw1 & Hc1 & _).
  rewrite Hd in Hd'. injection Hd' as <-. rewrite Hwire in Hwire1. cbn [app] in Hwire1.
  assert (Had : addressed addrs w1).
  { unfold addressed. rewrite Hwire1. clear -Hm. induction Hm as [|x m ? ? [Hm _] _ IH]; constructor; [|done]. by eapply elem_of_list_lookup_2. }
  destruct (arrivals_wired _ _ _ _ _ _ _ Hw1 Hc1 Had Hr He) as (ms & calls2 & c' & Hpm & Hf2 & Hdel2 & Hw2 & Hc2 & Hlen).
  rewrite Hwire1 in Hpm. assert (Hswap : Forall2 (fun m x => matches addrs x m) out there) by (clear -Hm; induction Hm; by constructor).
  destruct (Permutation_Forall2 (Permutation_sym Hpm) Hswap) as (there' & Hpt & Hf').
  assert (Hf'' : Forall2 (matches addrs) there' ms) by (clear -Hf'; induction Hf'; by constructor).
  assert (calls2 = there') as -> by (eapply matches_fun; [apply Hw|done|done]).
  unfold send_with in Esend. cbn [sr_local_only sr_envelopes] in Esend. destruct (forallb _ order) eqn:Ef; [|done]. injection Esend as <-.
  assert (Hperm : ((fun p : nat * list envelope => (p.1, mk_send true (Some p.2))) <$> order) ≡ₚ here ++ there') by (rewrite Hp, Hpt; done).
  symmetry in Hperm. destruct (Permutation_map_inv _ _ Hperm) as (order' & Eo & Hpo).
  exists (here ++ there'), c'. split; [|split; [|done]].
  - exists order'. split; [cbn; rewrite <- Ho; by symmetry|]. unfold send_with. cbn [sr_local_only sr_envelopes].
    rewrite Eo. replace (forallb _ order') with true; [done|]. symmetry. apply forallb_forall. intros x Hx. rewrite forallb_forall in Ef. apply Ef.
    apply elem_of_list_In. apply elem_of_list_In in Hx. by rewrite Hpo.
  - rewrite deliver_app, Hdel. done.
Qed.

(** ** Reads *)
Lemma read_wired hash compile now rnds addrs rq w c : wired addrs w -> is_cluster addrs w c -> forall fuel j b, addrs !! j = Some b ->
  match cluster_read fuel hash compile now rnds j rq c with
  | None => net_read fuel hash compile now rnds b rq w = None
  | Some (x, _) => exists y, net_read fuel hash compile now rnds b rq w = Some y /\ same_answer addrs x y
  end.
Proof.
  intros Hw Hc. pose proof (Forall2_length _ _ _ Hc) as Hl. induction fuel as [|fuel IH]; intros j b Hb; [done|]. cbn [cluster_read net_read].
  destruct (cluster_lookup _ _ _ _ _ Hc Hb) as (d & Hd & Ej). rewrite Hd, Ej. cbn [bare n_table n_store].
  destruct (proj2 Hw j b Hb) as (d' & Hd' & Hloc & Hlen & Hp). rewrite Hd in Hd'. injection Hd' as <-. rewrite Hloc, Hlen, Hl.
  destruct (read_route_of _ (length c) j (rnds fuel)) as [[|i]|] eqn:Er; [by eexists| |by eexists].
  assert (Hi : (i < length c)%nat).
  { unfold read_route_of in Er. destruct (Model.lookup _ _) as [|x idx] eqn:El; [done|]. destruct (existsb _ _).
    - destruct (Nat.ltb_spec j (length c)); [|done]. by injection Er as <-.
    - destruct ((x :: idx) !! _) as [y|]; [|done]. cbn [mbind option_bind] in Er. destruct (Nat.ltb_spec y (length c)); [|done]. by injection Er as <-. }
  rewrite <- Hl in Hi. destruct (lookup_lt_is_Some_2 _ _ Hi) as [e He]. rewrite (Hp i e He).
  destruct (Nat.eqb_spec i j) as [->|Hij].
  - rewrite decide_True by done. eexists. split; [done|]. done.
  - rewrite decide_False by done. specialize (IH i e He). destruct (cluster_read fuel hash compile now rnds i rq c) as [[x n]|]; done.
Qed.
(** the whole: a write through any node, delivered, is read through any node *)
Lemma wired_ryw hash compile now rnds addrs req i a j b batch order w w1 ks w2 d rq fuel :
  wired addrs w -> w_wire w = [] -> known_addrs addrs req -> no_overlap req ->
  (forall x dx, x ∈ addrs -> w_nodes w !! x = Some dx -> exists old, set_ranges addrs old req (l_table dx)) ->
  addrs !! i = Some a -> addrs !! j = Some b -> (2 <= fuel)%nat -> w_nodes w !! a = Some d ->
  order ≡ₚ map_to_list (envelopes_by_node (fun src => Model.lookup (hash src) (l_table d)) batch) ->
  send_at hash now a (mk_send false (Some batch)) order w = Some w1 -> arrivals hash now ks w1 = Some w2 -> w_wire w2 = [] ->
  let h := hash (rr_source rq) in
  (net_read fuel hash compile now rnds b rq w2 = Some NUnavailable /\ forall k, ~ owns addrs req h k) \/
  exists k ak es dk dk', addrs !! k = Some ak /\ owns addrs req h k /\ w_nodes w !! ak = Some dk /\ w_nodes w2 !! ak = Some dk' /\
    net_read fuel hash compile now rnds b rq w2 = Some (NServed ak (local_read compile now rq (l_store dk'))) /\
    run (l_store dk) (writes now es) = Some (l_store dk') /\ of_source (rr_source rq) es = of_source (rr_source rq) batch.
Proof.
  intros Hw Hwire Hk Hov Ht Ha Hb Hfuel Hd Ho Hs Hr He h.
  assert (Hc : exists c, is_cluster addrs w c).
  { assert (H : forall l, (forall x, x ∈ l -> is_Some (w_nodes w !! x)) -> exists c, Forall2 (fun a n => exists d, w_nodes w !! a = Some d /\ n = bare d) l c).
    { induction l as [|x l IHl]; intros Hl; [by exists []|]. destruct (Hl x ltac:(by left)) as [dx Hdx]. destruct IHl as [c Hc]; [intros y Hy; apply Hl; by right|].
      exists (bare dx :: c). constructor; [|done]. by exists dx. }
    apply H. intros x Hx. apply elem_of_list_lookup in Hx as [k Hx]. destruct (proj2 Hw k x Hx) as (dx & -> & _). done. }
  destruct Hc as [c Hc]. destruct (write_wired _ _ _ _ _ _ _ _ _ _ _ c d Hw Hc Hwire Ha Hd Ho Hs Hr He) as (calls & c' & Hsend & Hdel & Hw2 & Hc2 & _).
  pose proof (Forall2_length _ _ _ Hc) as Hl. destruct (cluster_lookup _ _ _ _ _ Hc Ha) as (d0 & Hd0 & Hci). rewrite Hd in Hd0. injection Hd0 as <-.
  assert (Hst : same_tables addrs req c).
  { split; [by symmetry|]. intros k n Hn. assert (Hlt : (k < length addrs)%nat) by (rewrite Hl; by eapply lookup_lt_Some).
    destruct (lookup_lt_is_Some_2 _ _ Hlt) as [x Hx]. destruct (cluster_lookup _ _ _ _ _ Hc Hx) as (dx & Hdx & E). rewrite Hn in E. injection E as ->.
    cbn. eapply Ht; [|exact Hdx]. by eapply elem_of_list_lookup_2. }
  rewrite Hl in Hsend. pose proof (read_wired hash compile now rnds addrs rq w2 c' Hw2 Hc2 fuel j b Hb) as Hread.
  assert (Hj : (j < length c)%nat) by (rewrite <- Hl; by eapply lookup_lt_Some).
  destruct (cluster_ryw hash compile now rnds addrs req c i j (bare d) batch calls c' rq fuel (proj1 Hw) Hk Hov Hst Hci Hj Hfuel Hsend Hdel)
    as [[Hcr Hno]|(k & hops & es & nk & nk' & Hcr & _ & Hown & _ & Hnk & Hnk' & Hrun & Hof)].
  - left. rewrite Hcr in Hread. destruct Hread as (y & -> & Hy). destruct y; try done. 
  - right. rewrite Hcr in Hread. destruct Hread as (y & Ey & Hy). destruct y as [| | |ak o]; try done. destruct Hy as [Hak ->].
    destruct (cluster_lookup _ _ _ _ _ Hc Hak) as (dk & Hdk & E1). destruct (cluster_lookup _ _ _ _ _ Hc2 Hak) as (dk' & Hdk' & E2).
    rewrite Hnk in E1. rewrite Hnk' in E2. injection E1 as ->. injection E2 as ->.
    exists k, ak, es, dk, dk'. done.
Qed.

(** ** Histories *)
Lemma cluster_exists addrs w : wired addrs w -> exists c, is_cluster addrs w c.
Proof.
  intros [_ H]. assert (Ha : Forall (fun a => exists d, w_nodes w !! a = Some d) addrs).
  { apply Forall_lookup. intros k a Hk. destruct (H k a Hk) as (d & Hd & _). by exists d. }
  clear H. induction Ha as [|a l [d Hd] _ [c IH]]; [exists []; constructor|]. exists (bare d :: c). constructor; [by exists d|done].
Qed.
(** a client-side step keeps the wiring of every node *)
Lemma carry_peers now d calls d' out : carry now d calls = Some (d', out) -> l_peers d' = l_peers d /\ l_local d' = l_local d /\ l_table d' = l_table d.
Proof.
  revert d d' out. induction calls as [|[i r] calls IH]; intros d d' out; cbn [carry]; [by intros [= <- <-]|].
  destruct (l_peers d !! i) as [[|b]|]; [| |done].
  - destruct (put_all now (get_batch r) (l_store d)) as [s|]; [|done]. cbn. intros H. by apply IH in H.
  - destruct (carry now d calls) as [[d1 w]|] eqn:E; [|done]. cbn. intros [= <- <-]. by eapply IH.
Qed.
Lemma send_nodes hash now a r order w w' : send_at hash now a r order w = Some w' ->
  exists d d', w_nodes w !! a = Some d /\ w_nodes w' = <[a := d']> (w_nodes w) /\ l_peers d' = l_peers d /\ l_local d' = l_local d.
Proof.
  unfold send_at. destruct (w_nodes w !! a) as [d|] eqn:Ea; [|done]. cbn. destruct (send_with _ _ _ r order) as [calls|]; [|done]. cbn.
  destruct (carry now d calls) as [[d' out]|] eqn:Ec; [|done]. cbn. intros [= <-]. exists d, d'. cbn. apply carry_peers in Ec as (? & ? & _). done.
Qed.
Lemma step_nodes hash w w' : net_step hash w w' -> w_nodes w' = w_nodes w \/
  exists a d d', w_nodes w !! a = Some d /\ w_nodes w' = <[a := d']> (w_nodes w) /\ l_peers d' = l_peers d /\ l_local d' = l_local d.
Proof.
  intros [now a r order w1 w1' H|now k w1 w1' H|a d t w1 H].
  - right. apply send_nodes in H as (d & d' & ?). by exists a, d, d'.
  - revert H. unfold arrive. destruct (w_wire w1 !! k) as [[b es]|]; [|done]. cbn. destruct (w_nodes w1 !! b) as [d0|]; [|by intros [= <-]; left].
    intros H. right. apply send_nodes in H as (d & d' & H & ?). cbn in *. by exists b, d, d'.
  - right. exists a, d. eexists. split; [done|]. split; [done|]. done.
Qed.
Lemma step_wired hash addrs w w' : net_step hash w w' -> wired addrs w -> wired addrs w'.
Proof.
  intros H [Hn Hw]. split; [done|]. intros k a Hk. destruct (Hw k a Hk) as (d & Hd & Hwd). apply step_nodes in H as [->|(b & e & e' & He & -> & Hp & Hl)]; [by exists d|].
  destruct (decide (b = a)) as [->|Hne]; [|exists d; by rewrite lookup_insert_ne]. exists e'. rewrite lookup_insert. split; [done|].
  rewrite He in Hd. injection Hd as ->. unfold wired_at in *. by rewrite Hp, Hl.
Qed.
Lemma steps_wired hash addrs w w' : rtc (net_step hash) w w' -> wired addrs w -> wired addrs w'.
Proof. induction 1; [done|]. intros. apply IHrtc. by eapply step_wired. Qed.
Lemma steps_outside hash w w' b d : rtc (net_step hash) w w' -> Here ∉ l_peers d -> w_nodes w !! b = Some d ->
  exists t, w_nodes w' !! b = Some (mk_live (l_peers d) (l_local d) t (l_store d)).
Proof.
  intros H Hn. revert d Hn. induction H as [|w w1 w' H _ IH]; intros d Hn Hb; [exists (l_table d); by destruct d|].
  destruct H as [now a r order w1 w1' H|now k w1 w1' H|a e t w1 H].
  - apply IH; [done|]. by eapply send_outside.
  - apply IH; [done|]. by eapply arrive_outside.
  - destruct (decide (a = b)) as [->|Hne].
    + rewrite Hb in H. injection H as <-. apply (IH (mk_live (l_peers d) (l_local d) t (l_store d))); [done|]. cbn. by rewrite lookup_insert.
    + apply IH; [done|]. cbn. by rewrite lookup_insert_ne.
Qed.
Lemma read_outside hash compile now rnds rq w b d : w_nodes w !! b = Some d -> Here ∉ l_peers d ->
  forall fuel a o, net_read fuel hash compile now rnds a rq w <> Some (NServed b o).
Proof.
  intros Hb Hn. induction fuel as [|fuel IH]; intros a o; [done|]. cbn [net_read]. destruct (w_nodes w !! a) as [e|] eqn:Ea; [|done].
  destruct (read_route_of _ _ _ _) as [[|j]|]; [done| |done]. destruct (l_peers e !! j) as [[|c]|] eqn:Ej; [|apply IH|done].
  intros [= -> _]. rewrite Ea in Hb. injection Hb as ->. apply Hn. by eapply elem_of_list_lookup_2.
Qed.
(** a read that a node sends back to itself *)
Lemma read_loops hash compile now rnds rq w a d j : w_nodes w !! a = Some d ->
  (forall rnd, read_route_of (Model.lookup (hash (rr_source rq)) (l_table d)) (length (l_peers d)) (l_local d) rnd = Some (CallNode j)) ->
  l_peers d !! j = Some (There a) -> forall fuel, net_read fuel hash compile now rnds a rq w = None.
Proof. intros Ha Hr Hj. induction fuel as [|fuel IH]; [done|]. cbn [net_read]. by rewrite Ha, Hr, Hj. Qed.
