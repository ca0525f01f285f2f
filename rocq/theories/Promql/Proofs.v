(** Lemmas about the PromQL front end. *)
From Coq Require Import Ascii String.
From stdpp Require Import prelude gmap strings list sorting.
From Coq Require Import Sorted.
From Verif.Base Require Import GoInt Envelope Str Url UrlProofs.
From Verif.Promql Require Import Model Spec.
Open Scope Z_scope.
#[local] Arguments String.append : simpl nomatch.

(** ** Sanitising *)
Lemma alnum_spec c : alnum c = true -> letter c ∨ digit c.
Proof.
  unfold alnum, byte_in, letter, digit. rewrite !orb_true_iff, !andb_true_iff, !Nat.leb_le. lia.
Qed.
Lemma first_ok c : (negb (range_A_z c) || negb (alnum c)) = false -> letter c.
Proof.
  rewrite orb_false_iff, !negb_false_iff. unfold range_A_z, alnum, byte_in, letter.
  rewrite !orb_true_iff, !andb_true_iff, !Nat.leb_le, ceqb_true.
  intros [[Ha| ->] Hb]; [lia|]. vm_compute in Hb. lia.
Qed.

Lemma sanitize_from_chars first skip s :
  chars_ok (fun c => letter c ∨ digit c ∨ c = "_"%char) (sanitize_from first skip s).
Proof.
  revert first skip. induction s as [|c s IH]; intros first skip; cbn [sanitize_from]; [constructor|].
  destruct skip as [|k]; [|apply IH].
  destruct (_ || _) eqn:E; constructor; try apply IH; [tauto|].
  apply orb_false_iff in E as [_ E]. apply negb_false_iff, alnum_spec in E. tauto.
Qed.

Lemma sanitize_from_first skip s :
  match sanitize_from true skip s with EmptyString => True | String c _ => ¬ digit c end.
Proof.
  revert skip. induction s as [|c s IH]; intros skip; cbn [sanitize_from]; [done|].
  destruct skip as [|k]; [|apply IH].
  destruct (_ || _) eqn:E.
  - unfold digit. vm_compute. lia.
  - apply (first_ok c) in E. unfold letter, digit in *. lia.
Qed.

Lemma sanitize_identifier s : identifier (sanitize s).
Proof. split; [apply sanitize_from_chars|apply sanitize_from_first]. Qed.

Lemma rune_width_ascii c s : (nat_of_ascii c <? 128)%nat = true -> rune_width (String c s) = 1%nat.
Proof.
  intros H. apply Nat.ltb_lt in H. unfold rune_width, byte_in.
  assert (Hg : forall lo, (128 <= lo -> (lo <=? nat_of_ascii c)%nat = false)%nat).
  { intros lo Hlo. apply Nat.leb_gt. lia. }
  rewrite !Hg by lia. cbn [andb orb].
  destruct s as [|? [|? [|? ?]]]; done.
Qed.

Lemma sanitize_from_id first s :
  chars_ok (fun c => letter c ∨ digit c ∨ c = "_"%char) s ->
  (first = true -> match s with EmptyString => True | String c _ => ¬ digit c end) ->
  sanitize_from first 0 s = s.
Proof.
  intros H. revert first. induction H as [|c s Hc Hs IH]; intros first Hf; [done|].
  cbn [sanitize_from].
  assert (Hc128 : (nat_of_ascii c <? 128)%nat = true).
  { apply Nat.ltb_lt. destruct Hc as [Hc|[Hc| ->]]; [unfold letter in Hc; lia|unfold digit in Hc; lia|vm_compute; lia]. }
  destruct (_ || _) eqn:E.
  - rewrite rune_width_ascii by done. cbn [Nat.sub]. rewrite IH by discriminate. f_equal.
    apply orb_true_iff in E as [E|E].
    + apply andb_true_iff in E as [-> E]. apply negb_true_iff in E. unfold range_A_z, byte_in in E.
      apply orb_false_iff in E as [E1 E2]. apply andb_false_iff in E1. rewrite !Nat.leb_gt in E1.
      apply ceqb_false in E2. specialize (Hf eq_refl). destruct Hc as [Hc|[Hc|Hc]]; [|done|done].
      unfold letter in Hc. lia.
    + apply negb_true_iff in E. unfold alnum, byte_in in E.
      rewrite !orb_false_iff, !andb_false_iff, !Nat.leb_gt in E.
      destruct Hc as [Hc|[Hc|Hc]]; [unfold letter in Hc; lia|unfold digit in Hc; lia|done].
  - f_equal. apply IH. discriminate.
Qed.

Lemma sanitize_id s : identifier s -> sanitize s = s.
Proof. intros [H1 H2]. apply sanitize_from_id; auto. Qed.

(** ** Seek *)
Lemma search_loop_spec fuel f i j :
  (i <= j)%nat -> (j - i < fuel)%nat ->
  (forall a b, (a <= b)%nat -> f a = true -> f b = true) ->
  (forall a, (a < i)%nat -> f a = false) ->
  exists r, search_loop fuel f i j = Some r /\ (i <= r <= j)%nat /\
    (forall a, (a < r)%nat -> f a = false) /\ ((r < j)%nat -> f r = true).
Proof.
  revert i j. induction fuel as [|fuel IH]; intros i j Hij Hf Hm Hlt; [lia|].
  cbn [search_loop]. destruct (Nat.leb_spec j i).
  - exists i. split; [done|]. split; [lia|]. split; [done|]. lia.
  - assert (Hh : (i <= (i + j) / 2 < j)%nat).
    { split; [apply Nat.div_le_lower_bound; lia|apply Nat.div_lt_upper_bound; lia]. }
    set (h := ((i + j) / 2)%nat) in *. clearbody h.
    destruct (f h) eqn:E.
    + destruct (IH i h) as (r & Hr & Hb & Hl & Hg); [lia|lia|done|done|].
      exists r. rewrite Hr. split; [done|]. split; [lia|]. split; [done|]. intros _.
      destruct (decide (r < h)%nat); [by apply Hg|]. replace r with h by lia. done.
    + assert (Hf' : forall a, (a < h + 1)%nat -> f a = false).
      { intros a Ha. destruct (f a) eqn:Ea; [|done]. rewrite (Hm a h) in E; [done|lia|done]. }
      destruct (IH (h + 1)%nat j) as (r & Hr & Hb & Hl & Hg); [lia|lia|done|done|].
      exists r. rewrite Hr. split; [done|]. split; [lia|]. done.
Qed.

Lemma times_sorted_lookup ps i j a b :
  times_sorted ps -> (i <= j)%nat -> ps !! i = Some a -> ps !! j = Some b -> p_t a <= p_t b.
Proof.
  intros Hs. revert i j. induction Hs as [|p ps Hs IH Hall]; intros i j Hij Ha Hb; [done|].
  destruct i as [|i], j as [|j]; cbn in *; try lia.
  - simplify_eq. done.
  - simplify_eq. rewrite Forall_forall in Hall. apply Hall. by eapply elem_of_list_lookup_2.
  - eapply (IH i j); eauto. lia.
Qed.

Lemma seek_spec t it :
  times_sorted (it_points it) ->
  exists it' found, seek t it = Some (it', found) /\ it_points it' = it_points it /\
    exists before after, it_points it = before ++ after /\
      Forall (fun p => p_t p < t) before /\ Forall (fun p => t <= p_t p) after /\
      it_cur it' = Z.of_nat (length before) /\ at_ it' = head after /\
      (found = true <-> after <> []).
Proof.
  intros Hs. destruct it as [cur ps]. cbn [it_points] in *. unfold seek. cbn [it_points].
  set (n := length ps).
  set (f := λ i : nat, match ps !! i with Some p => t <=? p_t p | None => false end).
  (* beyond the end f is false: search only below n *)
  set (g := λ i : nat, match ps !! i with Some p => t <=? p_t p | None => true end).
  assert (Hfg : forall fuel i j, (j <= n)%nat -> search_loop fuel f i j = search_loop fuel g i j).
  { induction fuel as [|fuel IH]; intros i j Hj; cbn [search_loop]; [done|].
    destruct (Nat.leb_spec j i); [done|].
    assert (Hh : ((i + j) / 2 < j)%nat) by (apply Nat.div_lt_upper_bound; lia).
    set (h := ((i + j) / 2)%nat) in *. clearbody h.
    replace (f h) with (g h).
    2:{ unfold f, g. destruct (ps !! h) eqn:E; [done|]. apply lookup_ge_None in E. unfold n in *. lia. }
    rewrite !IH by lia. done. }
  rewrite Hfg by done.
  destruct (search_loop_spec (S n) g 0 n) as (r & Hr & Hb & Hl & Hg); [lia|lia| | |].
  { intros a b Hab Ha. unfold g in *. destruct (ps !! b) as [pb|] eqn:Eb; [|done].
    destruct (ps !! a) as [pa|] eqn:Ea.
    - apply Z.leb_le in Ha. apply Z.leb_le. pose proof (times_sorted_lookup _ _ _ _ _ Hs Hab Ea Eb). lia.
    - apply lookup_ge_None in Ea. apply lookup_lt_Some in Eb. lia. }
  { lia. }
  rewrite Hr. cbn [mbind option_bind]. do 2 eexists. split; [done|]. cbn [it_points it_cur]. split; [done|].
  exists (take r ps), (drop r ps). split; [by rewrite take_drop|].
  assert (Hlen : length (take r ps) = r) by (rewrite take_length; unfold n in *; lia).
  split; [|split; [|split; [|split]]].
  - apply Forall_lookup. intros i p Hp. apply lookup_take_Some in Hp as [Hp Hi].
    specialize (Hl i Hi). unfold g in Hl. rewrite Hp in Hl. apply Z.leb_gt in Hl. done.
  - apply Forall_lookup. intros i p Hp. rewrite lookup_drop in Hp.
    assert (r < n)%nat by (apply lookup_lt_Some in Hp; unfold n; lia).
    specialize (Hg ltac:(done)). unfold g in Hg. destruct (ps !! r) as [pr|] eqn:Er.
    + apply Z.leb_le in Hg. assert (p_t pr <= p_t p) by (eapply (times_sorted_lookup ps r (r + i)); eauto; lia). lia.
    + apply lookup_ge_None in Er. unfold n in *. lia.
  - by rewrite Hlen.
  - unfold at_. cbn [it_cur it_points]. destruct (Z.ltb_spec (Z.of_nat r) 0); [lia|].
    rewrite Nat2Z.id. rewrite <-(Nat.add_0_r r) at 1. rewrite <-lookup_drop. by destruct (drop r ps).
  - rewrite Z.ltb_lt. split.
    + intros Hlt E. apply (f_equal length) in E. rewrite drop_length in E. cbn in E. unfold n in *. lia.
    + intros Hne. assert (length (drop r ps) <> 0)%nat by (by destruct (drop r ps)).
      rewrite drop_length in H. unfold n in *. lia.
Qed.

(** ** Series builder *)
Definition of_id (id : string) (samples : list sample_in) : list sample_in :=
  filter (fun s => series_id s.1 = id) samples.

Lemma build_from_lookup b samples id :
  foldl builder_add b samples !! id =
    match of_id id samples with
    | [] => b !! id
    | s :: _ =>
        let d := match b !! id with Some d => d | None => mk_series s.1 [] end in
        Some (mk_series (s_tags d) (s_points d ++ (of_id id samples).*2))
    end.
Proof.
  revert b. induction samples as [|[l p] samples IH]; intros b; [done|].
  cbn [foldl]. rewrite IH. unfold of_id in *. rewrite filter_cons. unfold builder_add. cbn [fst snd].
  destruct (decide (series_id l = id)) as [->|Hne].
  - rewrite lookup_insert. rewrite fmap_cons. cbn [snd s_tags s_points fst].
    destruct (filter _ samples) as [|s0 rest] eqn:E; [done|]. cbn [s_tags s_points].
    rewrite <-app_assoc. done.
  - rewrite lookup_insert_ne by done. destruct (filter _ samples); done.
Qed.

Lemma build_lookup samples id :
  build samples !! id =
    match of_id id samples with
    | [] => None
    | s :: _ => Some (mk_series s.1 ((of_id id samples).*2))
    end.
Proof.
  unfold build. rewrite build_from_lookup, lookup_empty. by destruct (of_id id samples).
Qed.

(** every series holds the points of its textual key, in order *)
Lemma build_series samples id s :
  build samples !! id = Some s ->
  s_points s = (of_id id samples).*2 /\ s_points s <> [] /\ exists p, (s_tags s, p) ∈ samples /\ series_id (s_tags s) = id.
Proof.
  rewrite build_lookup. destruct (of_id id samples) as [|[l p] rest] eqn:E; [done|].
  intros [= <-]. cbn. split; [done|]. split; [done|]. exists p.
  assert (H : (l, p) ∈ of_id id samples) by (rewrite E; left).
  unfold of_id in H. apply elem_of_list_filter in H as [H1 H2]. done.
Qed.

Lemma points_perm samples :
  (fst <$> map_to_list (build samples)) ≡ₚ (fst <$> map_to_list (build samples)) ->
  concat ((fun kv => s_points kv.2) <$> map_to_list (build samples)) ≡ₚ samples.*2.
Proof.
  intros _. induction samples as [|[l p] samples IH] using rev_ind.
  - unfold build. cbn. rewrite map_to_list_empty. done.
  - unfold build. rewrite foldl_app. cbn [foldl]. fold (build samples).
    unfold builder_add. cbn [fst snd]. rewrite fmap_app. cbn [fmap list_fmap snd].
    set (b := build samples) in *. set (id := series_id l).
    destruct (b !! id) as [d|] eqn:E.
    + rewrite <-(insert_delete b id d E) in IH |- *.
      rewrite insert_insert.
      rewrite map_to_list_insert in IH |- * by apply lookup_delete.
      rewrite fmap_cons in IH |- *. cbn [concat s_points snd] in IH |- *.
      rewrite <-IH. rewrite <-!app_assoc. f_equiv. apply Permutation_app_comm.
    + rewrite map_to_list_insert by done. rewrite fmap_cons. cbn [concat s_points snd app].
      rewrite IH. apply Permutation_app_comm with (l := [p]).
Qed.

(** *** injectivity of the textual key *)
Definition dash (c : ascii) : bool := ceqb "-" c.
Definition kv_text (l : gmap string string) (ks : list string) : string :=
  foldl (fun acc k => append acc (append "-" (append k (append "-" (default EmptyString (l !! k)))))) EmptyString ks.

Lemma append_nil_r s : append s EmptyString = s.
Proof. induction s as [|c s IH]; cbn; [done|]. by rewrite IH. Qed.
Lemma append_assoc a b c : append (append a b) c = append a (append b c).
Proof. induction a as [|x a IH]; cbn; [done|]. by rewrite IH. Qed.

Lemma foldl_append (f : string -> string) acc ks :
  foldl (fun acc k => append acc (f k)) acc ks = append acc (foldl (fun acc k => append acc (f k)) EmptyString ks).
Proof.
  revert acc. induction ks as [|k ks IH]; intros acc; cbn [foldl]; [by rewrite append_nil_r|].
  rewrite IH, (IH (append EmptyString (f k))). cbn [append]. by rewrite append_assoc.
Qed.

Lemma split_on_app_tok p (a b : string) c :
  p c = true -> split_on p (append a (String c b)) = split_on p a ++ split_on p b.
Proof.
  intros Hc. induction a as [|d a IH]; cbn [append split_on].
  - by rewrite Hc.
  - destruct (p d); [by rewrite IH|]. rewrite IH.
    destruct (split_on p a) eqn:E; [by destruct (split_on_nonempty p a)|]. done.
Qed.

(** the dash-separated parts of a textual key: label name, then the parts of its value *)
Definition toks (l : gmap string string) (k : string) : list string :=
  k :: split "-" (default EmptyString (l !! k)).

Lemma kv_text_toks l ks :
  Forall (fun k => has_char "-" k = false) ks ->
  split "-" (kv_text l ks) = EmptyString :: concat (toks l <$> ks).
Proof.
  intros H. unfold kv_text. induction ks as [|k ks IH] using rev_ind; [done|].
  apply Forall_app in H as [H1 H2]. apply Forall_cons in H2 as [Hk _].
  rewrite foldl_app. cbn [foldl]. set (t := foldl _ _ ks) in *.
  cbn [append]. unfold split in *. rewrite split_on_app_tok by apply ceqb_refl.
  rewrite (IH H1). rewrite fmap_app, concat_app. cbn [fmap list_fmap concat app]. f_equal. f_equal.
  rewrite split_on_app_tok by apply ceqb_refl.
  rewrite (split_on_none _ k); [|done]. rewrite app_nil_r. done.
Qed.

Lemma toks_inj (names : gset string) (l1 l2 : gmap string string) ks1 ks2 :
  (forall k, k ∈ ks1 -> k ∈ names /\ Forall (fun w => w ∉ names) (tail (split "-" (default EmptyString (l1 !! k))))) ->
  (forall k, k ∈ ks2 -> k ∈ names /\ Forall (fun w => w ∉ names) (tail (split "-" (default EmptyString (l2 !! k))))) ->
  concat (toks l1 <$> ks1) = concat (toks l2 <$> ks2) ->
  ks1 = ks2 /\ forall k, k ∈ ks1 -> split "-" (default EmptyString (l1 !! k)) = split "-" (default EmptyString (l2 !! k)).
Proof.
  revert ks2. induction ks1 as [|k1 ks1 IH]; intros ks2 H1 H2 E.
  - destruct ks2; [|done]. split; [done|]. intros k Hk. by apply elem_of_nil in Hk.
  - destruct ks2 as [|k2 ks2]; [done|].
    rewrite !fmap_cons in E. cbn [concat] in E. unfold toks at 1 3 in E. cbn [app] in E.
    injection E as -> E.
    destruct (H1 k2 ltac:(left)) as [Hk1 Hn1]. destruct (H2 k2 ltac:(left)) as [_ Hn2].
    destruct (split "-" (default EmptyString (l1 !! k2))) as [|a1 r1] eqn:E1;
      [by destruct (split_on_nonempty (ceqb "-") (default EmptyString (l1 !! k2)))|].
    destruct (split "-" (default EmptyString (l2 !! k2))) as [|a2 r2] eqn:E2;
      [by destruct (split_on_nonempty (ceqb "-") (default EmptyString (l2 !! k2)))|].
    cbn [app tail] in *. injection E as -> E.
    assert (Hr : r1 = r2 /\ concat (toks l1 <$> ks1) = concat (toks l2 <$> ks2)).
    { assert (G1 : match concat (toks l1 <$> ks1) with [] => True | w :: _ => w ∈ names end).
      { destruct ks1 as [|k ks1]; [done|]. cbn. apply H1. right; left. }
      assert (G2 : match concat (toks l2 <$> ks2) with [] => True | w :: _ => w ∈ names end).
      { destruct ks2 as [|k ks2]; [done|]. cbn. apply H2. right; left. }
      set (c1 := concat (toks l1 <$> ks1)) in *. set (c2 := concat (toks l2 <$> ks2)) in *. clearbody c1 c2.
      clear -E Hn1 Hn2 G1 G2. revert r2 E Hn2. induction Hn1 as [|w r1 Hw Hn1 IHr]; intros r2 E Hn2.
      - destruct r2 as [|w2 r2]; [done|]. cbn in E. subst c1. apply Forall_cons in Hn2 as [Hw2 _]. done.
      - destruct r2 as [|w2 r2].
        + cbn in E. subst c2. done.
        + cbn in E. injection E as -> E. apply Forall_cons in Hn2 as [_ Hn2].
          destruct (IHr r2 E Hn2) as [-> ->]. done. }
    destruct Hr as [-> E'].
    destruct (IH ks2) as [-> Hsp].
    { intros k Hk. apply H1. by right. }
    { intros k Hk. apply H2. by right. }
    { done. }
    split; [done|]. intros k Hk. apply elem_of_cons in Hk as [->|Hk]; [by rewrite E1, E2|auto].
Qed.

Lemma join_split c s : join c (split c s) = s.
Proof.
  unfold split. induction s as [|d s IH]; [done|]. cbn [split_on].
  destruct (ceqb c d) eqn:E.
  - apply ceqb_true in E as ->. destruct (split_on (ceqb d) s) as [|w ws] eqn:Es; [by destruct (split_on_nonempty (ceqb d) s)|].
    rewrite <-IH. done.
  - destruct (split_on (ceqb c) s) as [|w ws] eqn:Es; [by destruct (split_on_nonempty (ceqb c) s)|].
    rewrite <-IH. destruct ws; done.
Qed.

Lemma series_id_inj names l1 l2 :
  clear_labels names l1 -> clear_labels names l2 -> series_id l1 = series_id l2 -> l1 = l2.
Proof.
  intros H1 H2 E.
  assert (Hin : forall (l : gmap string string) k, k ∈ sort_strings ((map_to_list l).*1) <-> is_Some (l !! k)).
  { intros l k. rewrite sort_strings_perm, elem_of_list_fmap. split.
    - intros [[k' x] [-> H]]. apply elem_of_map_to_list in H. by eexists.
    - intros [x H]. exists (k, x). split; [done|]. by apply elem_of_map_to_list. }
  assert (Hd : forall l, clear_labels names l -> Forall (fun k => has_char "-" k = false) (sort_strings ((map_to_list l).*1))).
  { intros l Hl. apply Forall_forall. intros k Hk. apply Hin in Hk as [v Hv]. by destruct (Hl k v Hv) as (_ & ? & _). }
  apply (f_equal (split "-")) in E. unfold series_id in E.
  change (split "-" (kv_text l1 (sort_strings ((map_to_list l1).*1))) = split "-" (kv_text l2 (sort_strings ((map_to_list l2).*1)))) in E.
  rewrite !kv_text_toks in E by auto. injection E as E.
  assert (Hn : forall l, clear_labels names l -> forall k, k ∈ sort_strings ((map_to_list l).*1) ->
     k ∈ names /\ Forall (fun w => w ∉ names) (tail (split "-" (default EmptyString (l !! k))))).
  { intros l Hl k Hk. apply Hin in Hk as [v Hv]. destruct (Hl k v Hv) as (Hk & _ & Hw). split; [done|].
    rewrite Hv. cbn. apply Forall_forall. done. }
  apply (toks_inj names) in E as [Eks Esp]; [|by apply Hn|by apply Hn].
  apply map_eq. intros k.
  destruct (l1 !! k) as [v1|] eqn:E1.
  - assert (Hk1 : k ∈ sort_strings ((map_to_list l1).*1)) by (apply Hin; by eexists).
    assert (Hk2 : k ∈ sort_strings ((map_to_list l2).*1)) by (by rewrite <-Eks).
    apply Hin in Hk2 as [v2 Hv2]. specialize (Esp k Hk1). rewrite E1, Hv2 in Esp. cbn [default] in Esp.
    rewrite Hv2. f_equal. rewrite <-(join_split "-" v1), <-(join_split "-" v2). f_equal. exact Esp.
  - destruct (l2 !! k) as [v2|] eqn:E2; [|done].
    assert (Hk2 : k ∈ sort_strings ((map_to_list l2).*1)) by (apply Hin; by eexists).
    rewrite <-Eks in Hk2. apply Hin in Hk2 as [v1 Hv1]. congruence.
Qed.

Lemma filter_ext_in {A} (P Q : A -> Prop) `{Hdp : !forall x, Decision (P x)} `{Hdq : !forall x, Decision (Q x)} (l : list A) :
  (forall x, x ∈ l -> P x <-> Q x) -> filter P l = filter Q l.
Proof.
  induction l as [|x l IH]; intros H; [done|]. rewrite !filter_cons.
  rewrite IH by (intros; apply H; by right).
  assert (Hx : P x <-> Q x) by (apply H; left).
  destruct (decide (P x)), (decide (Q x)); tauto || done.
Qed.

Lemma build_exact names samples :
  Forall (fun s => clear_labels names s.1) samples ->
  forall l, clear_labels names l ->
    build samples !! series_id l =
      match points_of l samples with [] => None | ps => Some (mk_series l ps) end.
Proof.
  intros Hall l Hl. rewrite build_lookup. rewrite Forall_forall in Hall.
  assert (E : of_id (series_id l) samples = filter (fun s => s.1 = l) samples).
  { unfold of_id. apply filter_ext_in. intros s Hs. split; [|by intros ->].
    intros Hid. eapply series_id_inj; [apply Hall, Hs|done|done]. }
  rewrite E. unfold points_of. destruct (filter _ samples) as [|[l' p] rest] eqn:Ef; [done|].
  assert (Hin : (l', p) ∈ filter (fun s : sample_in => s.1 = l) samples) by (rewrite Ef; left).
  apply elem_of_list_filter in Hin as [H _]. cbn in H. subst l'. done.
Qed.
