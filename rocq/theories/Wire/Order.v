(** The order of fields, and fields that are not known. *)
From Coq Require Import Ascii String.
From stdpp Require Import prelude strings list gmap.
From Verif.Base Require Import GoInt Envelope.
From Verif.Routing Require Import Model.
From Verif.Gateway Require Import Model.
From Verif.Http Require Import Model.
From Verif.Json Require Import Text Pb Spec SpecPb.
From Verif.Wire Require Import Format Model Spec FormatProofs Proofs.
Open Scope string_scope.
Open Scope list_scope.
Open Scope Z_scope.

Definition commute {A} (step : reader A) (f g : field) : Prop :=
  forall a, (b ← step a f; step b g) = (b ← step a g; step b f).
Lemma read_on_cons {A} (step : reader A) a f fs : read_on step a (f :: fs) = b ← step a f; read_on step b fs.
Proof. done. Qed.
Lemma bind_assoc {A B C} (m : option A) (f : A -> option B) (g : B -> option C) : (y ← (x ← m; f x); g y) = x ← m; y ← f x; g y.
Proof. by destruct m. Qed.
Lemma move_front {A} (step : reader A) a f gs hs :
  (forall g, g ∈ gs -> commute step f g) -> read_on step a (gs ++ f :: hs) = read_on step a (f :: gs ++ hs).
Proof.
  revert a. induction gs as [|g gs IH]; intros a H; [done|]. cbn [app]. rewrite !read_on_cons.
  assert (Hc := H g (elem_of_list_here _ _) a).
  transitivity (b ← (b ← step a g; step b f); read_on step b (gs ++ hs)).
  - rewrite bind_assoc. destruct (step a g) as [b|]; [|done]. cbn [mbind option_bind]. rewrite IH; [done|]. intros; apply H; by right.
  - rewrite <-Hc, bind_assoc. done.
Qed.
(** two lists that agree slot by slot *)
Lemma slots_equal {A} (step : reader A) (slot : Z -> Z) fs gs a :
  (forall f g, slot f.1 <> slot g.1 -> commute step f g) ->
  (forall k, filter (fun f => slot f.1 = k) fs = filter (fun f => slot f.1 = k) gs) ->
  read_on step a fs = read_on step a gs.
Proof.
  intros Hc. revert gs a. induction fs as [|f fs IH]; intros gs a H.
  - destruct gs as [|g gs]; [done|]. specialize (H (slot g.1)). rewrite filter_nil, filter_cons_True in H by done. done.
  - pose proof (H (slot f.1)) as Hf. rewrite filter_cons_True in Hf by done.
    assert (exists g1 g2, gs = g1 ++ f :: g2 /\ forall g, g ∈ g1 -> slot g.1 <> slot f.1) as (g1 & g2 & -> & Hg1).
    { clear -Hf. induction gs as [|g gs IH]; [by rewrite filter_nil in Hf|]. destruct (decide (slot g.1 = slot f.1)) as [E|E].
      - rewrite filter_cons_True in Hf by done. injection Hf as <- _. exists [], gs. split; [done|]. intros x Hx. by apply elem_of_nil in Hx.
      - rewrite filter_cons_False in Hf by done. destruct (IH Hf) as (g1 & g2 & -> & Hg). exists (g :: g1), g2. split; [done|].
        intros x [->|Hx]%elem_of_cons; [done|by apply Hg]. }
    rewrite move_front by (intros g Hg; apply Hc; intros E; by apply (Hg1 g Hg)). rewrite !read_on_cons.
    destruct (step a f) as [b|]; [|done]. cbn [mbind option_bind]. apply IH. intros k. specialize (H k). rewrite filter_app, !filter_cons in H.
    rewrite filter_app. destruct (decide (slot f.1 = k)) as [E|E]; [|done].
    assert (E1 : filter (fun f0 : Z * wire => slot f0.1 = k) g1 = []).
    { subst k. clear -Hg1. induction g1 as [|g g1 IH]; [done|]. rewrite filter_cons_False; [apply IH; intros; apply Hg1; by right|apply Hg1; left]. }
    rewrite E1 in H |- *. cbn in H. by injection H.
Qed.
Lemma skip_field {A} (step : reader A) a fs f gs : (forall b, step b f = Some b) -> read_on step a (fs ++ f :: gs) = read_on step a (fs ++ gs).
Proof. intros H. rewrite !read_on_app. destruct (read_on step a fs) as [b|]; [|done]. cbn. by rewrite H. Qed.

(** ** Steps of different slots commute *)
(** a field either fails, or is skipped, or sets its slot, whatever the other slots hold *)
Ltac which := repeat match goal with |- context [?k =? ?n] => is_var k; destruct (Z.eqb_spec k n) as [->|?]; cbn [mbind option_bind] end.
Ltac simp := cbn -[valid merge unpack wrap64 wrap32 get_type Z.eqb insert].
Ltac fails := repeat match goal with
  | |- context [if valid ?s then _ else _] => destruct (valid s); simp
  | |- context [merge ?f ?b ?s] => destruct (merge f b s); simp
  | |- context [unpack ?k ?s] => destruct (unpack k s); simp
  end.
Ltac numbers := cbn [Z.eqb Pos.eqb mbind option_bind].
Ltac a_wire := match goal with w : wire |- _ => destruct w; simp end.
Ltac commuting := which; numbers; try done; try (exfalso; match goal with H : _ <> _ |- _ => apply H; reflexivity end); a_wire; a_wire; try done; fails; try done.

Lemma send_commute f g : f.1 <> g.1 -> commute send_step f g.
Proof. destruct f as [k v], g as [l w]. cbn [fst]. intros H a. destruct a. unfold send_step. commuting. Qed.
Lemma read_commute f g : f.1 <> g.1 -> commute read_step f g.
Proof.
  destruct f as [k v], g as [l w]. cbn [fst]. intros H a. destruct a. unfold read_step. commuting.
Qed.
Lemma info_commute f g : f.1 <> g.1 -> commute info_step f g.
Proof. destruct f as [k v], g as [l w]. cbn [fst]. intros H a. destruct a. unfold info_step. commuting. Qed.
Lemma envelope_commute f g : payload f.1 <> payload g.1 -> commute envelope_step f g.
Proof. destruct f as [k v], g as [l w]. cbn [fst]. intros H a. destruct a. unfold envelope_step, set_msg, get_entry. commuting. Qed.
Lemma instant_commute f g : f.1 <> g.1 -> commute instant_step f g.
Proof. destruct f as [k v], g as [l w]. cbn [fst]. intros H a. destruct a. unfold instant_step. commuting. Qed.
Lemma range_query_commute f g : f.1 <> g.1 -> commute range_query_step f g.
Proof. destruct f as [k v], g as [l w]. cbn [fst]. intros H a. destruct a. unfold range_query_step. commuting. Qed.
Lemma range_commute f g : f.1 <> g.1 -> commute range_step f g.
Proof. destruct f as [k v], g as [l w]. cbn [fst]. intros H a. destruct a. unfold range_step. commuting. Qed.

(** ** From fields to bytes *)
Lemma legal_ok fs : legal fs -> Forall field_ok fs.
Proof. intros H. eapply Forall_impl; [exact H|]. intros [k w] [H1 H2]. split; [done|]. by destruct w. Qed.
Lemma merge_legal {A} (step : reader A) a fs : legal fs -> merge step a (write_fields fs) = read_on step a fs.
Proof. intros H. unfold merge. by rewrite read_write_fields by by apply legal_ok. Qed.
Lemma legal_app fs gs : legal (fs ++ gs) <-> legal fs /\ legal gs.
Proof. apply Forall_app. Qed.
Lemma legal_cons f fs : legal (f :: fs) <-> legal [f] /\ legal fs.
Proof. apply (Forall_app _ [f] fs). Qed.
Lemma same_fields {A} (step : reader A) slot a fs gs :
  (forall f g : field, slot f.1 <> slot g.1 -> commute step f g) ->
  legal fs -> legal gs -> alike slot fs gs -> merge step a (write_fields fs) = merge step a (write_fields gs).
Proof. intros Hc H1 H2 Ha. rewrite !merge_legal by done. by eapply slots_equal. Qed.
Lemma same_skip {A} (step : reader A) a fs f gs :
  (forall b, step b f = Some b) -> legal (fs ++ f :: gs) -> merge step a (write_fields (fs ++ f :: gs)) = merge step a (write_fields (fs ++ gs)).
Proof.
  intros Hs H. pose proof H as H'. apply legal_app in H' as [H1 H2]. apply legal_cons in H2 as [_ H2].
  rewrite !merge_legal by (done || by apply legal_app). by apply skip_field.
Qed.
(** unknown numbers *)
Ltac unknown := intros Hk b; repeat match goal with |- context [?k =? ?n] => destruct (Z.eqb_spec k n) as [->|?]; [exfalso; by lia|] end; done.
Lemma send_unknown k w : ~ 1 <= k <= 2 -> forall b, send_step b (k, w) = Some b.
Proof. unfold send_step. unknown. Qed.
Lemma read_unknown k w : ~ 1 <= k <= 7 -> forall b, read_step b (k, w) = Some b.
Proof. unfold read_step. unknown. Qed.
Lemma envelope_unknown k w : ~ 1 <= k <= 10 -> forall b, envelope_step b (k, w) = Some b.
Proof. unfold envelope_step. unknown. Qed.
Lemma batch_unknown k w : k <> 1 -> forall b, batch_step b (k, w) = Some b.
Proof. unfold batch_step. unknown. Qed.
Lemma meta_unknown k w : k <> 1 -> forall b, meta_step b (k, w) = Some b.
Proof. unfold meta_step. unknown. Qed.
Lemma info_unknown k w : ~ 1 <= k <= 4 -> forall b, info_step b (k, w) = Some b.
Proof. unfold info_step. unknown. Qed.
Lemma range_unknown k w : ~ 1 <= k <= 2 -> forall b, range_step b (k, w) = Some b.
Proof. unfold range_step. unknown. Qed.
Lemma instant_unknown k w : ~ 1 <= k <= 2 -> forall b, instant_step b (k, w) = Some b.
Proof. unfold instant_step. unknown. Qed.
Lemma range_query_unknown k w : ~ 1 <= k <= 4 -> forall b, range_query_step b (k, w) = Some b.
Proof. unfold range_query_step. unknown. Qed.

(** ** Entries of maps *)
Lemma entry_alone {V} (getv : V -> wire -> option V) zero key w : wire_ok w -> small [(1, Bytes key); (2, w)] ->
  merge (entry_step getv) ("", zero) (write_fields [(1, Bytes key); (2, w)]) =
  if valid key then (fun v => (key, v)) <$> getv zero w else None.
Proof.
  intros Hw Hs. rewrite merge_write; [|repeat constructor; cbn; try lia; by destruct w|done]. cbn [read_on entry_step Z.eqb Pos.eqb get_text].
  destruct (valid key); [|done]. cbn. by destruct (getv zero w).
Qed.
Definition entry_ok (key : string) (w : wire) : Prop := carries w /\ small [(1, Bytes key); (2, w)].
Lemma entry_commutes {A V} (getv : V -> wire -> option V) zero (put : gmap string V -> A) (step : reader A) k key1 w1 key2 w2 m :
  key1 <> key2 -> entry_ok key1 w1 -> entry_ok key2 w2 ->
  (forall m s, step (put m) (k, Bytes s) = get_entry getv zero (Bytes s) m (put m) put) ->
  (b ← step (put m) (k, entry key1 w1); step b (k, entry key2 w2)) = (b ← step (put m) (k, entry key2 w2); step b (k, entry key1 w1)).
Proof.
  intros Hne [H1 H1'] [H2 H2'] Hst. unfold entry. rewrite !Hst. unfold get_entry, get_msg.
  rewrite !entry_alone by (done || by (destruct w1; done) || by (destruct w2; done)).
  destruct (valid key1) eqn:V1, (valid key2) eqn:V2; cbn [mbind option_bind fmap option_fmap option_map].
  all: destruct (getv zero w1) as [v1|] eqn:G1, (getv zero w2) as [v2|] eqn:G2; cbn [mbind option_bind fmap option_fmap option_map fst snd].
  all: rewrite ?Hst; unfold get_entry, get_msg;
    rewrite ?entry_alone by (done || by (destruct w1; done) || by (destruct w2; done)); rewrite ?V1, ?V2, ?G1, ?G2;
    cbn [mbind option_bind fmap option_fmap option_map fst snd]; try done.
  by rewrite insert_commute.
Qed.
Lemma tags_commute key1 w1 key2 w2 : key1 <> key2 -> entry_ok key1 w1 -> entry_ok key2 w2 ->
  commute envelope_step (9, entry key1 w1) (9, entry key2 w2).
Proof.
  intros H H1 H2 [ts src inst old tags m].
  by apply (entry_commutes get_text_value "" (fun t => mk_env ts src inst old t m) envelope_step 9 key1 w1 key2 w2 tags).
Qed.
Lemma old_tags_commute key1 w1 key2 w2 : key1 <> key2 -> entry_ok key1 w1 -> entry_ok key2 w2 ->
  commute envelope_step (3, entry key1 w1) (3, entry key2 w2).
Proof.
  intros H H1 H2 [ts src inst old tags m].
  by apply (entry_commutes dec_value "" (fun t => mk_env ts src inst t tags m) envelope_step 3 key1 w1 key2 w2 old).
Qed.
Lemma gauge_commute key1 w1 key2 w2 : key1 <> key2 -> entry_ok key1 w1 -> entry_ok key2 w2 ->
  commute gauge_step (1, entry key1 w1) (1, entry key2 w2).
Proof. intros H H1 H2 m. by apply (entry_commutes dec_gv (mk_gv "" 0) id gauge_step 1 key1 w1 key2 w2 m). Qed.
Lemma meta_response_commute key1 w1 key2 w2 : key1 <> key2 -> entry_ok key1 w1 -> entry_ok key2 w2 ->
  commute meta_response_step (1, entry key1 w1) (1, entry key2 w2).
Proof. intros H H1 H2 m. by apply (entry_commutes dec_info (MetaInfo 0 0 0 0) id meta_response_step 1 key1 w1 key2 w2 m). Qed.
Lemma table_commute key1 w1 key2 w2 : key1 <> key2 -> entry_ok key1 w1 -> entry_ok key2 w2 ->
  commute table_step (1, entry key1 w1) (1, entry key2 w2).
Proof. intros H H1 H2 m. by apply (entry_commutes dec_ranges [] id table_step 1 key1 w1 key2 w2 m). Qed.
Lemma swap_adjacent {A} (step : reader A) a f g fs gs : commute step f g ->
  read_on step a (fs ++ f :: g :: gs) = read_on step a (fs ++ g :: f :: gs).
Proof.
  intros H. rewrite !read_on_app. destruct (read_on step a fs) as [b|]; [|done]. cbn [mbind option_bind]. rewrite !read_on_cons.
  assert (E := H b). transitivity (y ← (x ← step b f; step x g); read_on step y gs); [by rewrite bind_assoc|].
  by rewrite E, bind_assoc.
Qed.
