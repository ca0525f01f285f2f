(** Lemmas about the string and net/url functions. *)
From Coq Require Import Ascii String.
From stdpp Require Import prelude strings gmap sorting.
From Verif.Base Require Import Str Url.

#[local] Arguments String.append : simpl nomatch.

(** ** bytes *)
Lemma ceqb_true a b : ceqb a b = true <-> a = b.
Proof. unfold ceqb. rewrite bool_decide_eq_true. done. Qed.
Lemma ceqb_refl a : ceqb a a = true.
Proof. by apply ceqb_true. Qed.
Lemma ceqb_false a b : ceqb a b = false <-> a <> b.
Proof. unfold ceqb. rewrite bool_decide_eq_false. done. Qed.

Lemma has_char_cons c d s : has_char c (String d s) = ceqb c d || has_char c s.
Proof. done. Qed.

Lemma str_any_app p a b : str_any p (append a b) = str_any p a || str_any p b.
Proof. induction a as [|c a IH]; cbn [append str_any]; [done|]. rewrite IH. by rewrite orb_assoc. Qed.

Lemma str_all_app p a b : str_all p (append a b) = str_all p a && str_all p b.
Proof. induction a as [|c a IH]; cbn [append str_all]; [done|]. rewrite IH. by rewrite andb_assoc. Qed.

Lemma str_any_ext p q s : (forall c, p c = q c) -> str_any p s = str_any q s.
Proof. intros H. induction s as [|c s IH]; simpl; [done|]. by rewrite H, IH. Qed.

Lemma str_any_false_impl (p q : ascii -> bool) s :
  (forall c, q c = true -> p c = true) -> str_any p s = false -> str_any q s = false.
Proof.
  intros H. induction s as [|c s IH]; simpl; [done|].
  rewrite !orb_false_iff. intros [Hc Hs]. split; [|auto].
  destruct (q c) eqn:E; [|done]. apply H in E. congruence.
Qed.

(** ** split and join *)
Lemma split_on_nonempty p s : split_on p s <> [].
Proof. destruct s as [|c s]; simpl; [done|]. destruct (p c); [done|]. by destruct (split_on p s). Qed.

Lemma split_on_none p s : str_any p s = false -> split_on p s = [s].
Proof.
  induction s as [|c s IH]; simpl; [done|]. rewrite orb_false_iff. intros [-> H].
  by rewrite (IH H).
Qed.

Lemma split_on_app p w c s :
  str_any p w = false -> p c = true ->
  split_on p (append w (String c s)) = w :: split_on p s.
Proof.
  intros Hw Hc. induction w as [|d w IH]; cbn [append split_on].
  - by rewrite Hc.
  - simpl in Hw. apply orb_false_iff in Hw as [Hd Hw]. rewrite Hd, (IH Hw). done.
Qed.

Lemma split_join p c l :
  p c = true -> l <> [] -> Forall (fun w => str_any p w = false) l ->
  split_on p (join c l) = l.
Proof.
  intros Hc Hne Hall. induction Hall as [|w l Hw Hall IH]; [done|].
  destruct l as [|w' l]; [by apply split_on_none|].
  change (join c (w :: w' :: l)) with (append w (String c (join c (w' :: l)))).
  rewrite split_on_app by done. f_equal. by apply IH.
Qed.

Lemma split_elem_clean p s w : w ∈ split_on p s -> str_any p w = false.
Proof.
  revert w. induction s as [|c s IH]; simpl; intros w Hw.
  - apply elem_of_list_singleton in Hw as ->. done.
  - destruct (p c) eqn:Hc.
    + apply elem_of_cons in Hw as [->|Hw]; [done|auto].
    + destruct (split_on p s) as [|v vs] eqn:E; [by destruct (split_on_nonempty p s)|].
      apply elem_of_cons in Hw as [->|Hw].
      * simpl. rewrite Hc. apply IH. left.
      * apply IH. by right.
Qed.

Lemma cut_some c a b : has_char c a = false -> cut c (append a (String c b)) = Some (a, b).
Proof.
  induction a as [|d a IH]; cbn [append cut]; intros H.
  - by rewrite ceqb_refl.
  - unfold has_char in *. simpl in H. apply orb_false_iff in H as [-> H]. by rewrite (IH H).
Qed.

Lemma strip_prefix_app pre s : strip_prefix pre (append pre s) = Some s.
Proof. induction pre as [|c pre IH]; cbn [append strip_prefix]; [done|]. by rewrite ceqb_refl. Qed.
Lemma strip_prefix_some pre s r : strip_prefix pre s = Some r -> s = append pre r.
Proof.
  revert s. induction pre as [|c pre IH]; intros [|d s]; simpl; intros H; try (by simplify_eq).
  destruct (ceqb c d) eqn:E; [|done]. apply ceqb_true in E as ->. f_equal. auto.
Qed.

(** ** escaping *)
Lemma hex_roundtrip c :
  unhex (hex_digit (nat_of_ascii c / 16)) = Some (nat_of_ascii c / 16) /\
  unhex (hex_digit (nat_of_ascii c mod 16)) = Some (nat_of_ascii c mod 16) /\
  ascii_of_nat (16 * (nat_of_ascii c / 16) + nat_of_ascii c mod 16) = c.
Proof. destruct c as [[] [] [] [] [] [] [] []]; vm_compute; done. Qed.

Lemma unreserved_plain c :
  unreserved c = true -> ceqb c "%" = false /\ ceqb c "+" = false /\ ceqb c "&" = false /\
                         ceqb c ";" = false /\ ceqb c "=" = false.
Proof. destruct c as [[] [] [] [] [] [] [] []]; vm_compute; intros; done. Qed.

Lemma hex_plain c :
  let d1 := hex_digit (nat_of_ascii c / 16) in let d2 := hex_digit (nat_of_ascii c mod 16) in
  (ceqb d1 "&" || ceqb d1 ";" || ceqb d1 "=" || ceqb d2 "&" || ceqb d2 ";" || ceqb d2 "=") = false.
Proof. destruct c as [[] [] [] [] [] [] [] []]; vm_compute; done. Qed.

Theorem query_unescape_escape s : query_unescape (query_escape s) = Some s.
Proof.
  induction s as [|c s IH]; [done|].
  cbn [query_escape]. destruct (ceqb c " ") eqn:E1.
  - apply ceqb_true in E1 as ->. cbn [query_unescape].
    change (ceqb "+" "%") with false. change (ceqb "+" "+") with true. cbn. by rewrite IH.
  - destruct (unreserved c) eqn:E2.
    + destruct (unreserved_plain c E2) as (H1 & H2 & _). cbn [query_unescape].
      rewrite H1, H2. cbn. by rewrite IH.
    + cbn [query_unescape]. change (ceqb "%" "%") with true. cbn [mbind option_bind].
      destruct (hex_roundtrip c) as (H1 & H2 & H3). rewrite H1, H2. cbn [mbind option_bind].
      rewrite IH. cbn [mbind option_bind]. by rewrite H3.
Qed.

Definition qsep (c : ascii) : bool := ceqb c "&" || ceqb c ";".

Lemma query_escape_clean s :
  str_any (fun c => ceqb c "&" || ceqb c ";" || ceqb c "=") (query_escape s) = false.
Proof.
  induction s as [|c s IH]; [done|]. cbn [query_escape].
  destruct (ceqb c " ") eqn:E1; [cbn [str_any]; by rewrite IH|].
  destruct (unreserved c) eqn:E2.
  - destruct (unreserved_plain c E2) as (_ & _ & H1 & H2 & H3). cbn [str_any].
    by rewrite H1, H2, H3, IH.
  - pose proof (hex_plain c) as H. cbn zeta in H. cbn [str_any]. rewrite IH.
    rewrite !orb_false_iff in H. destruct H as [[[[[-> ->] ->] ->] ->] ->]. done.
Qed.

Lemma escape_no_sep s : str_any qsep (query_escape s) = false.
Proof.
  eapply str_any_false_impl; [|apply query_escape_clean]. unfold qsep. intros c ->. done.
Qed.
Lemma escape_no_eq s : has_char "=" (query_escape s) = false.
Proof.
  unfold has_char. eapply str_any_false_impl; [|apply query_escape_clean].
  intros c H%ceqb_true. subst. done.
Qed.

Definition enc1 (kx : string * string) : string :=
  append (query_escape kx.1) (String "=" (query_escape kx.2)).

Lemma parse_param_enc1 kx : parse_param (enc1 kx) = Some kx.
Proof.
  destruct kx as [k x]. unfold parse_param, enc1. cbn [fst snd].
  rewrite (cut_some "=" _ _ (escape_no_eq k)), !query_unescape_escape. cbn.
  by destruct (query_escape k).
Qed.

Lemma enc1_no_sep kx : str_any qsep (enc1 kx) = false.
Proof. unfold enc1. rewrite str_any_app. cbn. by rewrite !escape_no_sep. Qed.

Lemma omap_map_some {A B} (f : B -> option A) (g : A -> B) (l : list A) :
  (forall x, f (g x) = Some x) -> omap f (g <$> l) = l.
Proof. intros H. induction l as [|x l IH]; [done|]. cbn. rewrite H. f_equal. exact IH. Qed.

(** ** collecting the pairs *)
Definition collect (v : values) (ps : list (string * string)) : values :=
  foldl (fun v '(k, x) => vadd k x v) v ps.

Definition of_key (k : string) (ps : list (string * string)) : list string :=
  (filter (fun kx => kx.1 = k) ps).*2.

Lemma collect_lookup v ps k :
  collect v ps !! k = match of_key k ps with
                      | [] => v !! k
                      | xs => Some (default [] (v !! k) ++ xs)
                      end.
Proof.
  revert v. induction ps as [|[k' x] ps IH]; intros v; [done|].
  cbn [collect foldl]. fold (collect (vadd k' x v) ps). rewrite IH.
  unfold of_key, vadd. rewrite filter_cons. cbn [fst].
  destruct (decide (k' = k)) as [->|Hne].
  - rewrite lookup_insert. cbn.
    destruct ((filter (λ kx, kx.1 = k) ps).*2) eqn:E; [done|]. by rewrite <-app_assoc.
  - rewrite lookup_insert_ne by done. done.
Qed.

Lemma of_key_app k a b : of_key k (a ++ b) = of_key k a ++ of_key k b.
Proof. unfold of_key. by rewrite filter_app, fmap_app. Qed.

Lemma of_key_self k xs : of_key k (pair k <$> xs) = xs.
Proof.
  induction xs as [|x xs IH]; [done|]. rewrite fmap_cons. unfold of_key in *. rewrite filter_cons. cbn [fst].
  rewrite decide_True by done. rewrite fmap_cons. cbn [snd]. f_equal. exact IH.
Qed.
Lemma of_key_other k k' (xs : list string) : k' <> k -> of_key k (pair k' <$> xs) = [].
Proof.
  intros Hne. induction xs as [|x xs IH]; [done|]. rewrite fmap_cons. unfold of_key in *. rewrite filter_cons.
  cbn [fst]. by rewrite decide_False.
Qed.

Lemma of_key_bind k ks (v : values) :
  NoDup ks -> of_key k (k' ← ks; pair k' <$> default [] (v !! k'))
              = if decide (k ∈ ks) then default [] (v !! k) else [].
Proof.
  induction ks as [|k0 ks IH]; intros Hnd; [done|].
  apply NoDup_cons in Hnd as [Hni Hnd]. rewrite bind_cons, of_key_app.
  rewrite IH by done. destruct (decide (k0 = k)) as [->|Hne].
  - rewrite of_key_self. rewrite decide_False by done. rewrite app_nil_r.
    rewrite decide_True by left. done.
  - rewrite of_key_other by done. cbn. apply decide_ext. rewrite elem_of_cons. naive_solver.
Qed.

Lemma sort_strings_perm l : sort_strings l ≡ₚ l.
Proof. apply merge_sort_Permutation. Qed.

Lemma join_nil c : join c [] = EmptyString.
Proof. done. Qed.

(** Values.Encode followed by ParseQuery gives the values back: no key without values. *)
Theorem parse_encode (v : values) :
  map_Forall (fun _ xs => xs <> []) v -> parse_query (encode_query v) = v.
Proof.
  intros Hne. unfold parse_query, encode_query.
  replace ((λ '(k, x), append (query_escape k) (String "=" (query_escape x))) <$> encode_pairs v)
    with (enc1 <$> encode_pairs v).
  2:{ apply list_fmap_ext. intros ? [? ?] _. done. }
  assert (Hsplit : omap parse_param (split_on (λ c, ceqb c "&" || ceqb c ";") (join "&" (enc1 <$> encode_pairs v)))
                   = encode_pairs v).
  { destruct (encode_pairs v) as [|p ps] eqn:E; [done|].
    change (λ c, ceqb c "&" || ceqb c ";") with qsep.
    rewrite split_join; [|done|done|].
    - apply omap_map_some, parse_param_enc1.
    - apply Forall_fmap, Forall_true. intros kx. apply enc1_no_sep. }
  rewrite Hsplit. fold (collect ∅ (encode_pairs v)). apply map_eq. intros k.
  rewrite collect_lookup. unfold encode_pairs.
  rewrite of_key_bind.
  2:{ eapply NoDup_Permutation_proper; [apply sort_strings_perm|]. apply NoDup_fst_map_to_list. }
  rewrite lookup_empty.
  assert (Hin : k ∈ sort_strings ((map_to_list v).*1) <-> is_Some (v !! k)).
  { rewrite sort_strings_perm, elem_of_list_fmap. split.
    - intros [[k' x] [-> H]]. apply elem_of_map_to_list in H. by eexists.
    - intros [x H]. exists (k, x). split; [done|]. by apply elem_of_map_to_list. }
  destruct (decide _) as [Hi|Hi].
  - apply Hin in Hi as [xs Hxs]. rewrite Hxs. cbn. specialize (Hne k xs Hxs). cbn in Hne.
    by destruct xs.
  - destruct (v !! k) eqn:E; [|done]. exfalso. apply Hi, Hin. by eexists.
Qed.

Lemma parse_query_nonempty q : map_Forall (fun _ xs => xs <> []) (parse_query q).
Proof.
  intros k xs H. unfold parse_query in H.
  match type of H with foldl ?f ∅ ?l !! _ = _ => change (foldl f ∅ l) with (collect ∅ l) in H end.
  rewrite collect_lookup, lookup_empty in H.
  destruct (of_key _ _) eqn:E; [done|]. injection H as <-. done.
Qed.

Lemma vset_nonempty k x v :
  map_Forall (fun _ (xs : list string) => xs <> []) v -> map_Forall (fun _ xs => xs <> []) (vset k x v).
Proof. intros H. unfold vset. by apply map_Forall_insert_2. Qed.

Lemma vadd_nonempty k x v :
  map_Forall (fun _ (xs : list string) => xs <> []) v -> map_Forall (fun _ xs => xs <> []) (vadd k x v).
Proof. intros H. unfold vadd. apply map_Forall_insert_2; [|done]. by destruct (default _ _). Qed.
