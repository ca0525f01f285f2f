(** Queries: soundness for every tree, exactness for time-ordered content. *)
From stdpp Require Import prelude gmap strings.
From Coq Require Import ZifyBool ZifyNat.
From Verif.Base Require Import GoInt Envelope.
From Verif.Store Require Import Avl AvlProofs GoHeap GoHeapProofs Model Spec ProofsBase ProofsHist ProofsAcct.
Open Scope Z_scope.

(** ** Filters *)
Lemma filter_by_name_projects nf e e' : filter_by_name nf e = Some e' ↔ projects nf e e'.
Proof.
  split.
  - unfold filter_by_name. destruct nf as [m|]; [|intros [= <-]; constructor].
    destruct (e_msg e) as [| |ms| | |] eqn:E; try done.
    + destruct (m name) eqn:Em; [|done]. intros [= <-]. eapply proj_counter; eauto.
    + case_bool_decide as Hne; [done|]. intros [= <-]. eapply proj_gauge; eauto.
      * intros k. destruct (m k) eqn:Em.
        -- destruct (ms !! k) eqn:Ek.
           ++ apply map_filter_lookup_Some. split; [done|simpl; done].
           ++ by apply map_filter_lookup_None_2; left.
        -- apply map_filter_lookup_None_2. right. intros x Hx. simpl. by rewrite Em.
      * apply map_choose in Hne as (k & v & Hk). eauto.
    + destruct (m name) eqn:Em; [|done]. intros [= <-]. eapply proj_timer; eauto.
  - intros Hp. destruct Hp as [e|m e n d t E Em|m e n d t E Em|m e ms ms' E Hl (k & v & Hk)]; simpl; auto;
      rewrite E, ?Em; auto.
    assert (Eq : ms' = filter (fun p => m p.1 = true) ms).
    { apply map_eq. intros i. rewrite Hl. destruct (m i) eqn:Ei.
      - destruct (ms !! i) eqn:Ek; symmetry.
        + apply map_filter_lookup_Some. done.
        + by apply map_filter_lookup_None_2; left.
      - symmetry. apply map_filter_lookup_None_2. right. intros x Hx. simpl. by rewrite Ei. }
    rewrite <-Eq. case_bool_decide as He; [|done]. rewrite He in Hk. by rewrite lookup_empty in Hk.
Qed.

Lemma check_type_spec e t b : check_type e t = Some b -> (b = true ↔ is_of_type e t).
Proof.
  unfold check_type, is_of_type. destruct t, (e_msg e); intros; simplify_eq; naive_solver.
Qed.

Lemma valid_type_spec e types b : valid_type e types = Some b -> (b = true ↔ wanted_type types e).
Proof.
  destruct types as [ts|]; simpl; [|by intros [= <-]].
  revert b. induction ts as [|t ts IH]; simpl; intros b.
  - intros [= <-]. split; [done|]. intros (t & Ht & _). by inversion Ht.
  - destruct (check_type e t) as [b1|] eqn:E; [|done]. simpl.
    pose proof (check_type_spec _ _ _ E) as Hb1. destruct b1.
    + intros [= <-]. split; [|done]. intros _. exists t. split; [by left|by apply Hb1].
    + intros Hv. rewrite (IH _ Hv). split.
      * intros (t' & Hin & Ht). exists t'. split; [by right|done].
      * intros (t' & Hin & Ht). apply elem_of_cons in Hin as [->|Hin]; [|eauto].
        apply Hb1 in Ht. done.
Qed.

(** what the query presents for one stored envelope, as a function *)
Definition pick (q : query) (e : envelope) : option envelope :=
  if (q_start q <=? e_ts e) && (e_ts e <? q_end q) then
    e' ← filter_by_name (q_name q) e;
    match valid_type e' (q_types q) with Some true => Some e' | _ => None end
  else None.

Lemma pick_sound q e e' : pick q e = Some e' -> selected q e e'.
Proof.
  unfold pick. destruct (Z.leb_spec (q_start q) (e_ts e)); [|done].
  destruct (Z.ltb_spec (e_ts e) (q_end q)); [|done]. simpl.
  destruct (filter_by_name (q_name q) e) as [e1|] eqn:E; [|done]. simpl.
  destruct (valid_type e1 (q_types q)) as [[]|] eqn:Ev; try done. intros [= <-].
  split; [lia|]. split; [by apply filter_by_name_projects|]. by apply (valid_type_spec _ _ _ Ev).
Qed.

(** an envelope for which evaluating the filters does not panic *)
Definition total_at (q : query) (e : envelope) : Prop :=
  ∀ e', filter_by_name (q_name q) e = Some e' -> valid_type e' (q_types q) ≠ None.

Lemma pick_complete q e e' :
  known_types (q_types q) -> selected q e e' -> pick q e = Some e'.
Proof.
  intros Ht (Hw & Hp & Hwt). unfold pick.
  destruct (Z.leb_spec (q_start q) (e_ts e)); [|lia].
  destruct (Z.ltb_spec (e_ts e) (q_end q)); [|lia]. simpl.
  apply filter_by_name_projects in Hp. rewrite Hp. simpl.
  destruct (valid_type_known e' (q_types q) Ht) as [b Ev].
  rewrite Ev. apply (valid_type_spec _ _ _ Ev) in Hwt. by subst b.
Qed.

Lemma answers_pick q l : known_types (q_types q) -> answers q l (omap (pick q) l).
Proof.
  intros Ht. induction l as [|e l IH]; simpl; [constructor|].
  destruct (pick q e) as [e'|] eqn:E.
  - constructor; auto. by apply pick_sound.
  - constructor; auto. intros e' Hs. apply (pick_complete q e e' Ht) in Hs. congruence.
Qed.

Lemma answers_fun q l o1 : answers q l o1 -> ∀ o2, answers q l o2 -> known_types (q_types q) -> o1 = o2.
Proof.
  induction 1 as [|e e' l out Hs Ha IH|e l out Hn Ha IH]; intros o2 H2 Ht; inversion H2; subst; auto.
  - f_equal; auto. apply (pick_complete _ _ _ Ht) in Hs. 
    match goal with H : selected q e ?x |- _ => apply (pick_complete _ _ _ Ht) in H end. congruence.
  - exfalso. match goal with H : ∀ e', ¬ selected q e e' |- _ => by eapply H end.
  - exfalso. by eapply Hn.
Qed.

(** visit in terms of pick for envelopes inside the window *)
Lemma visit_pick q res e r b :
  q_start q <= e_ts e < q_end q ->
  visit (q_types q) (q_name q) (q_limit q) res e = Some (r, b) ->
  r = res ++ option_list (pick q e) ∧
  (b = true -> q_limit q <= Z.of_nat (length r)) ∧
  (b = false -> r = res ∨ Z.of_nat (length r) < q_limit q).
Proof.
  intros Hw. unfold visit, pick. destruct (Z.leb_spec (q_start q) (e_ts e)); [|lia].
  destruct (Z.ltb_spec (e_ts e) (q_end q)); [|lia]. simpl.
  destruct (filter_by_name (q_name q) e) as [e'|]; simpl.
  - destruct (valid_type e' (q_types q)) as [[]|]; simpl; intros; simplify_eq; simpl; rewrite ?app_nil_r;
      (split; [done|split; [lia|auto]]); intros; right; lia.
  - intros [= <- <-]. rewrite app_nil_r. split; [done|]. split; [done|]. by left.
Qed.

Notation f_of q := (visit (q_types q) (q_name q) (q_limit q)).
Notation asc q := (tree_asc (q_start q) (q_end q) (f_of q)).
Notation desc q := (tree_desc (q_start q) (q_end q) (f_of q)).

(** ** Soundness for every tree *)
Definition picks (q : query) (sub : list (Z * envelope)) (out : list envelope) : Prop :=
  Forall2 (fun p e' => pick q p.2 = Some e') sub out.

Lemma visit_sound q k res e r b :
  q_start q <= e_ts e < q_end q ->
  f_of q res e = Some (r, b) ->
  ∃ sub out, r = res ++ out ∧ sublist sub [(k, e)] ∧ picks q sub out.
Proof.
  intros Hw Hv. apply visit_pick in Hv as [-> _]; [|done].
  destruct (pick q e) as [e'|] eqn:E.
  - exists [(k, e)], [e']. split; [done|]. split; [done|]. by repeat constructor.
  - exists [], []. split; [done|]. split; [apply sublist_nil_l|constructor].
Qed.

Lemma asc_sound q t : ∀ res r b, asc q t res = Some (r, b) ->
  ∃ sub out, r = res ++ out ∧ sublist sub (inorder t) ∧ picks q sub out.
Proof.
  induction t as [|bb k e l IHl rt IHr]; intros res r b; cbn [tree_asc inorder].
  { intros [= <- <-]. exists [], []. rewrite app_nil_r. repeat constructor. }
  destruct (Z.leb_spec (q_start q) (e_ts e)) as [Hst|Hst].
  - destruct (asc q l res) as [[res1 b1]|] eqn:El; [|done]. cbn [mbind option_bind].
    destruct (IHl _ _ _ El) as (sub1 & out1 & -> & Hsub1 & Hp1).
    destruct b1.
    { intros [= <- <-]. exists sub1, out1. split; [done|]. split; [|done].
      by apply sublist_inserts_r. }
    assert (Hmid : ∀ res2 b2, (if q_end q <=? e_ts e then Some (res ++ out1, true) else f_of q (res ++ out1) e) = Some (res2, b2) ->
      ∃ sub2 out2, res2 = (res ++ out1) ++ out2 ∧ sublist sub2 [(k, e)] ∧ picks q sub2 out2).
    { intros res2 b2. destruct (Z.leb_spec (q_end q) (e_ts e)).
      - intros [= <- <-]. exists [], []. split; [by rewrite app_nil_r|]. split; [apply sublist_nil_l|constructor].
      - intros Hv. eapply visit_sound; eauto. }
    destruct (if q_end q <=? e_ts e then _ else _) as [[res2 b2]|]; [|done]. cbn [mbind option_bind].
    destruct (Hmid _ _ eq_refl) as (sub2 & out2 & -> & Hsub2 & Hp2).
    destruct (b2 && _).
    { intros [= <- <-]. exists (sub1 ++ sub2), (out1 ++ out2). split; [by rewrite app_assoc|].
      split; [|by apply Forall2_app].
      apply sublist_app; [done|]. etrans; [exact Hsub2|]. apply sublist_skip, sublist_nil_l. }
    intros Er. destruct (IHr _ _ _ Er) as (sub3 & out3 & -> & Hsub3 & Hp3).
    exists (sub1 ++ sub2 ++ sub3), (out1 ++ out2 ++ out3). split; [by rewrite !app_assoc|].
    split; [|by repeat apply Forall2_app].
    apply sublist_app; [done|]. by apply (sublist_app sub2 [(k, e)]).
  - intros Er. destruct (IHr _ _ _ Er) as (sub & out & -> & Hsub & Hp).
    exists sub, out. split; [done|]. split; [|done]. apply sublist_inserts_l. by constructor.
Qed.

Lemma desc_sound q t : ∀ res r b, desc q t res = Some (r, b) ->
  ∃ sub out, r = res ++ out ∧ sublist sub (reverse (inorder t)) ∧ picks q sub out.
Proof.
  induction t as [|bb k e l IHl rt IHr]; intros res r b; cbn [tree_desc inorder].
  { intros [= <- <-]. exists [], []. rewrite app_nil_r. repeat constructor. }
  rewrite reverse_app, reverse_cons.
  destruct (Z.ltb_spec (e_ts e) (q_end q)) as [Hst|Hst].
  - destruct (desc q rt res) as [[res1 b1]|] eqn:El; [|done]. cbn [mbind option_bind].
    destruct (IHr _ _ _ El) as (sub1 & out1 & -> & Hsub1 & Hp1).
    destruct b1.
    { intros [= <- <-]. exists sub1, out1. split; [done|]. split; [|done].
      by apply sublist_inserts_r, sublist_inserts_r. }
    assert (Hmid : ∀ res2 b2, (if e_ts e <? q_start q then Some (res ++ out1, true) else f_of q (res ++ out1) e) = Some (res2, b2) ->
      ∃ sub2 out2, res2 = (res ++ out1) ++ out2 ∧ sublist sub2 [(k, e)] ∧ picks q sub2 out2).
    { intros res2 b2. destruct (Z.ltb_spec (e_ts e) (q_start q)).
      - intros [= <- <-]. exists [], []. split; [by rewrite app_nil_r|]. split; [apply sublist_nil_l|constructor].
      - intros Hv. eapply visit_sound; eauto. }
    destruct (if e_ts e <? q_start q then _ else _) as [[res2 b2]|]; [|done]. cbn [mbind option_bind].
    destruct (Hmid _ _ eq_refl) as (sub2 & out2 & -> & Hsub2 & Hp2).
    destruct (b2 && _).
    { intros [= <- <-]. exists (sub1 ++ sub2), (out1 ++ out2). split; [by rewrite app_assoc|].
      split; [|by apply Forall2_app].
      apply sublist_inserts_r. by apply sublist_app. }
    intros Er. destruct (IHl _ _ _ Er) as (sub3 & out3 & -> & Hsub3 & Hp3).
    exists ((sub1 ++ sub2) ++ sub3), ((out1 ++ out2) ++ out3). split; [by rewrite !app_assoc|].
    split; [|by repeat apply Forall2_app].
    apply sublist_app; [|done]. by apply sublist_app.
  - intros Er. destruct (IHl _ _ _ Er) as (sub & out & -> & Hsub & Hp).
    exists sub, out. split; [done|]. split; [|done]. by apply sublist_inserts_l.
Qed.

Lemma get_sound src q s res :
  get_env src q s = Some res ->
  ∃ sub, sublist sub (if q_desc q then reverse (stored s src) else stored s src) ∧
         Forall2 (fun p e' => selected q p.2 e') sub res.
Proof.
  unfold get_env, stored. destruct (st_index s !! src) as [sg|].
  - destruct (q_desc q).
    + destruct (desc q _ []) as [[r b]|] eqn:E; [|done]. simpl. intros [= <-].
      destruct (desc_sound _ _ _ _ _ E) as (sub & out & -> & Hsub & Hp).
      exists sub. split; [done|]. eapply Forall2_impl; [exact Hp|]. intros. by apply pick_sound.
    + destruct (asc q _ []) as [[r b]|] eqn:E; [|done]. simpl. intros [= <-].
      destruct (asc_sound _ _ _ _ _ E) as (sub & out & -> & Hsub & Hp).
      exists sub. split; [done|]. eapply Forall2_impl; [exact Hp|]. intros. by apply pick_sound.
  - intros [= <-]. exists []. split; [apply sublist_nil_l|constructor].
Qed.

(** ** Prefix property for time-ordered content *)
Lemma time_sorted_app l1 l2 :
  time_sorted (l1 ++ l2) ↔
  time_sorted l1 ∧ time_sorted l2 ∧ (∀ x y, x ∈ l1 -> y ∈ l2 -> e_ts x <= e_ts y).
Proof.
  induction l1 as [|e l1 IH]; simpl.
  - split; [intros H; repeat split; auto; intros x y Hx; by inversion Hx|naive_solver].
  - rewrite Forall_app, IH. rewrite !Forall_forall. split.
    + intros [[H1 H2] [H3 [H4 H5]]]. repeat split; auto.
      intros x y Hx Hy. apply elem_of_cons in Hx as [->|Hx]; auto.
    + intros [[H1 H2] [H3 H4]]. repeat split; auto.
      * intros y Hy. apply H4; [by left|done].
      * intros x y Hx Hy. apply H4; [by right|done].
Qed.

Lemma pick_out_early q e : e_ts e < q_start q -> pick q e = None.
Proof. intros. unfold pick. by destruct (Z.leb_spec (q_start q) (e_ts e)); [lia|]. Qed.
Lemma pick_out_late q e : q_end q <= e_ts e -> pick q e = None.
Proof. intros. unfold pick. destruct (_ <=? _); [|done]. simpl. by destruct (Z.ltb_spec (e_ts e) (q_end q)); [lia|]. Qed.

Lemma omap_none {A B} (f : A -> option B) l : (∀ x, x ∈ l -> f x = None) -> omap f l = [].
Proof.
  induction l as [|x l IH]; intros H; simpl; [done|]. rewrite (H x) by (by left). apply IH.
  intros y Hy. apply H. by right.
Qed.

Definition envs (t : tree envelope) : list envelope := (inorder t).*2.

Lemma envs_node b k e l r : envs (Node b k e l r) = envs l ++ e :: envs r.
Proof. unfold envs. simpl. by rewrite fmap_app. Qed.

Definition prefix_spec (q : query) (L : list envelope) (res r : list envelope) (b : bool) : Prop :=
  if b then ∃ L1 L2, L = L1 ++ L2 ∧ r = res ++ omap (pick q) L1 ∧
            (q_limit q <= Z.of_nat (length r) ∨
             ((∀ x, x ∈ L2 -> pick q x = None) ∧ ∃ x, x ∈ L ∧ q_end q <= e_ts x))
  else r = res ++ omap (pick q) L.

Lemma asc_prefix q t : time_sorted (envs t) -> ∀ res r b, asc q t res = Some (r, b) ->
  prefix_spec q (envs t) res r b.
Proof.
  induction t as [|bb k e l IHl rt IHr]; intros Hs res r b; cbn [tree_asc].
  { intros [= <- <-]. simpl. by rewrite app_nil_r. }
  rewrite envs_node in *. apply time_sorted_app in Hs as (Hsl & Hs2 & Hlt).
  destruct Hs2 as [Hfe Hsr]. rewrite Forall_forall in Hfe.
  destruct (Z.leb_spec (q_start q) (e_ts e)) as [Hst|Hst].
  - destruct (asc q l res) as [[res1 b1]|] eqn:El; [|done]. cbn [mbind option_bind].
    pose proof (IHl Hsl _ _ _ El) as Hl. destruct b1.
    { intros [= <- <-]. destruct Hl as (L1 & L2 & EL & Er & Hor).
      exists L1, (L2 ++ e :: envs rt). rewrite EL, <-app_assoc. split; [done|]. split; [done|].
      destruct Hor as [|[Hnone (x & Hx & Hxe)]]; [by left|]. right. split.
      - intros y Hy. apply elem_of_app in Hy as [Hy|Hy]; [by apply Hnone|].
        apply pick_out_late. transitivity (e_ts x); [done|]. apply Hlt; [rewrite EL; by rewrite EL in Hx|done].
      - exists x. split; [|done]. apply elem_of_app. rewrite EL in Hx. apply elem_of_app in Hx as [|]; [by left|].
        right. apply elem_of_app. by left. }
    simpl in Hl. subst res1.
    destruct (Z.leb_spec (q_end q) (e_ts e)) as [Hen|Hen].
    + cbn [mbind option_bind]. cbn [andb].
      assert (Hlate : ∀ y, y ∈ e :: envs rt -> pick q y = None).
      { intros y Hy. apply pick_out_late. apply elem_of_cons in Hy as [->|Hy]; [done|]. specialize (Hfe _ Hy). lia. }
      destruct (negb _).
      * intros [= <- <-]. exists (envs l), (e :: envs rt). split; [done|]. split; [done|].
        right. split; [done|]. exists e. split; [|done]. apply elem_of_app. right. by left.
      * intros Er. pose proof (IHr Hsr _ _ _ Er) as Hr. destruct b; simpl in Hr |- *.
        -- destruct Hr as (L1 & L2 & EL & -> & Hor). exists (envs l ++ e :: L1), L2. rewrite EL. split; [by rewrite <-app_assoc|].
           rewrite omap_app. simpl. rewrite (Hlate e) by (by left). rewrite app_assoc. split; [done|].
           destruct Hor as [|[Hnone (x & Hx & Hxe)]]; [by left|]. right. split; [done|].
           exists x. split; [|done]. apply elem_of_app. right. right. by rewrite <-EL.
        -- rewrite Hr. rewrite omap_app. simpl. rewrite (Hlate e) by (by left). by rewrite <-app_assoc.
    + destruct (f_of q _ e) as [[res2 b2]|] eqn:Ev; [|done]. cbn [mbind option_bind].
      apply visit_pick in Ev as (-> & Hb2 & _); [|lia].
      assert (Eomap : ∀ L, omap (pick q) (envs l ++ e :: L) = omap (pick q) (envs l) ++ option_list (pick q e) ++ omap (pick q) L).
      { intros L. rewrite omap_app. f_equal. simpl. by destruct (pick q e). }
      destruct b2; cbn [andb]; [destruct (negb _)|].
      * intros [= <- <-]. exists (envs l ++ [e]), (envs rt). split; [by rewrite <-app_assoc|].
        rewrite Eomap. simpl. rewrite app_nil_r, app_assoc. split; [done|]. left. by apply Hb2.
      * intros Er. pose proof (IHr Hsr _ _ _ Er) as Hr. destruct b; simpl in Hr |- *.
        -- destruct Hr as (L1 & L2 & EL & -> & Hor). exists (envs l ++ e :: L1), L2. rewrite EL. split; [by rewrite <-app_assoc|].
           rewrite Eomap. rewrite !app_assoc. rewrite ?app_assoc in Hor. split; [done|].
           destruct Hor as [|[Hnone (x & Hx & Hxe)]]; [by left|]. right. split; [done|].
           exists x. split; [|done]. apply elem_of_app. right. right. by rewrite <-EL.
        -- rewrite Hr, Eomap. by rewrite !app_assoc.
      * intros Er. pose proof (IHr Hsr _ _ _ Er) as Hr. destruct b; simpl in Hr |- *.
        -- destruct Hr as (L1 & L2 & EL & -> & Hor). exists (envs l ++ e :: L1), L2. rewrite EL. split; [by rewrite <-app_assoc|].
           rewrite Eomap. rewrite !app_assoc. rewrite ?app_assoc in Hor. split; [done|].
           destruct Hor as [|[Hnone (x & Hx & Hxe)]]; [by left|]. right. split; [done|].
           exists x. split; [|done]. apply elem_of_app. right. right. by rewrite <-EL.
        -- rewrite Hr, Eomap. by rewrite !app_assoc.
  - intros Er. pose proof (IHr Hsr _ _ _ Er) as Hr.
    assert (Hearly : omap (pick q) (envs l) = [] ∧ pick q e = None).
    { split; [|by apply pick_out_early]. apply omap_none. intros x Hx. apply pick_out_early.
      specialize (Hlt x e Hx ltac:(by left)). lia. }
    destruct Hearly as [He1 He2].
    destruct b; simpl in Hr |- *.
    + destruct Hr as (L1 & L2 & EL & -> & Hor). exists (envs l ++ e :: L1), L2. rewrite EL. split; [by rewrite <-app_assoc|].
      rewrite omap_app, He1. simpl. rewrite He2. split; [done|].
      destruct Hor as [|[Hnone (x & Hx & Hxe)]]; [by left|]. right. split; [done|].
      exists x. split; [|done]. apply elem_of_app. right. right. by rewrite <-EL.
    + rewrite Hr, omap_app, He1. simpl. by rewrite He2.
Qed.

Definition prefix_spec_d (q : query) (L : list envelope) (res r : list envelope) (b : bool) : Prop :=
  if b then ∃ L1 L2, L = L1 ++ L2 ∧ r = res ++ omap (pick q) L1 ∧
            (q_limit q <= Z.of_nat (length r) ∨
             ((∀ x, x ∈ L2 -> pick q x = None) ∧ ∃ x, x ∈ L ∧ e_ts x < q_start q))
  else r = res ++ omap (pick q) L.

Definition renvs (t : tree envelope) : list envelope := reverse (envs t).
Lemma renvs_node b k e l r : renvs (Node b k e l r) = renvs r ++ e :: renvs l.
Proof. unfold renvs. rewrite envs_node, reverse_app, reverse_cons. by rewrite <-app_assoc. Qed.

Lemma desc_prefix q t : time_sorted (envs t) -> ∀ res r b, desc q t res = Some (r, b) ->
  prefix_spec_d q (renvs t) res r b.
Proof.
  induction t as [|bb k e l IHl rt IHr]; intros Hs res r b; cbn [tree_desc].
  { intros [= <- <-]. simpl. by rewrite app_nil_r. }
  rewrite renvs_node. rewrite envs_node in Hs. apply time_sorted_app in Hs as (Hsl & Hs2 & Hlt).
  destruct Hs2 as [Hfe Hsr]. rewrite Forall_forall in Hfe.
  assert (Hle : ∀ x, x ∈ renvs l -> e_ts x <= e_ts e).
  { intros x Hx. apply Hlt; [by apply elem_of_reverse|by left]. }
  assert (Hge : ∀ x, x ∈ renvs rt -> e_ts e <= e_ts x).
  { intros x Hx. apply Hfe. by apply elem_of_reverse. }
  destruct (Z.ltb_spec (e_ts e) (q_end q)) as [Hst|Hst].
  - destruct (desc q rt res) as [[res1 b1]|] eqn:El; [|done]. cbn [mbind option_bind].
    pose proof (IHr Hsr _ _ _ El) as Hl. destruct b1.
    { intros [= <- <-]. destruct Hl as (L1 & L2 & EL & Er & Hor).
      exists L1, (L2 ++ e :: renvs l). rewrite EL, <-app_assoc. split; [done|]. split; [done|].
      destruct Hor as [|[Hnone (x & Hx & Hxe)]]; [by left|]. right. split.
      - intros y Hy. apply elem_of_app in Hy as [Hy|Hy]; [by apply Hnone|].
        apply pick_out_early. specialize (Hge x Hx).
        apply elem_of_cons in Hy as [->|Hy]; [lia|]. specialize (Hle y Hy). lia.
      - exists x. split; [|done]. apply elem_of_app. rewrite EL in Hx. apply elem_of_app in Hx as [|]; [by left|].
        right. apply elem_of_app. by left. }
    simpl in Hl. subst res1.
    destruct (Z.ltb_spec (e_ts e) (q_start q)) as [Hen|Hen].
    + cbn [mbind option_bind]. cbn [andb].
      assert (Hlate : ∀ y, y ∈ e :: renvs l -> pick q y = None).
      { intros y Hy. apply pick_out_early. apply elem_of_cons in Hy as [->|Hy]; [done|]. specialize (Hle _ Hy). lia. }
      destruct (negb _).
      * intros [= <- <-]. exists (renvs rt), (e :: renvs l). split; [done|]. split; [done|].
        right. split; [done|]. exists e. split; [|done]. apply elem_of_app. right. by left.
      * intros Er. pose proof (IHl Hsl _ _ _ Er) as Hr. destruct b; simpl in Hr |- *.
        -- destruct Hr as (L1 & L2 & EL & -> & Hor). exists (renvs rt ++ e :: L1), L2. rewrite EL. split; [by rewrite <-app_assoc|].
           rewrite omap_app. simpl. rewrite (Hlate e) by (by left). rewrite app_assoc. split; [done|].
           destruct Hor as [|[Hnone (x & Hx & Hxe)]]; [by left|]. right. split; [done|].
           exists x. split; [|done]. apply elem_of_app. right. right. by rewrite <-EL.
        -- rewrite Hr. rewrite omap_app. simpl. rewrite (Hlate e) by (by left). by rewrite <-app_assoc.
    + destruct (f_of q _ e) as [[res2 b2]|] eqn:Ev; [|done]. cbn [mbind option_bind].
      apply visit_pick in Ev as (-> & Hb2 & _); [|lia].
      assert (Eomap : ∀ L, omap (pick q) (renvs rt ++ e :: L) = omap (pick q) (renvs rt) ++ option_list (pick q e) ++ omap (pick q) L).
      { intros L. rewrite omap_app. f_equal. simpl. by destruct (pick q e). }
      assert (Hcont : desc q l ((res ++ omap (pick q) (renvs rt)) ++ option_list (pick q e)) = Some (r, b) ->
         prefix_spec_d q (renvs rt ++ e :: renvs l) res r b).
      { intros Er. pose proof (IHl Hsl _ _ _ Er) as Hr. destruct b; simpl in Hr |- *.
        - destruct Hr as (L1 & L2 & EL & -> & Hor). exists (renvs rt ++ e :: L1), L2. rewrite EL. split; [by rewrite <-app_assoc|].
           rewrite Eomap. rewrite !app_assoc. rewrite ?app_assoc in Hor. split; [done|].
           destruct Hor as [|[Hnone (x & Hx & Hxe)]]; [by left|]. right. split; [done|].
           exists x. split; [|done]. apply elem_of_app. right. right. by rewrite <-EL.
        - rewrite Hr, Eomap. by rewrite !app_assoc. }
      destruct b2; cbn [andb]; [destruct (negb _)|]; auto.
      intros [= <- <-]. exists (renvs rt ++ [e]), (renvs l). split; [by rewrite <-app_assoc|].
      rewrite Eomap. simpl. rewrite app_nil_r, app_assoc. split; [done|]. left. by apply Hb2.
  - intros Er. pose proof (IHl Hsl _ _ _ Er) as Hr.
    assert (Hearly : omap (pick q) (renvs rt) = [] ∧ pick q e = None).
    { split; [|by apply pick_out_late]. apply omap_none. intros x Hx. apply pick_out_late.
      specialize (Hge x Hx). lia. }
    destruct Hearly as [He1 He2].
    destruct b; simpl in Hr |- *.
    + destruct Hr as (L1 & L2 & EL & -> & Hor). exists (renvs rt ++ e :: L1), L2. rewrite EL. split; [by rewrite <-app_assoc|].
      rewrite omap_app, He1. simpl. rewrite He2. split; [done|].
      destruct Hor as [|[Hnone (x & Hx & Hxe)]]; [by left|]. right. split; [done|].
      exists x. split; [|done]. apply elem_of_app. right. right. by rewrite <-EL.
    + rewrite Hr, omap_app, He1. simpl. by rewrite He2.
Qed.

(** ** Exact limit when no entry was fudged *)
Definition exact_keys (l : list (Z * envelope)) : Prop := Forall (fun p => p.1 = e_ts p.2) l.

Lemma fudge_member_exact b k e l r d :
  exact_keys (inorder (Node b k e l r)) ->
  fudge_member k e (match d with DL => l | DR => r end) = false.
Proof.
  unfold exact_keys, fudge_member. simpl. rewrite Forall_app, Forall_cons. intros (Hl & He & Hr). simpl in He.
  rewrite <-He, Z.eqb_refl. simpl.
  destruct d.
  - destruct l as [|b' k' e' l' r']; [done|]. simpl in Hl. rewrite Forall_app, Forall_cons in Hl.
    destruct Hl as (_ & He' & _). simpl in He'. by rewrite <-He', Z.eqb_refl.
  - destruct r as [|b' k' e' l' r']; [done|]. simpl in Hr. rewrite Forall_app, Forall_cons in Hr.
    destruct Hr as (_ & He' & _). simpl in He'. by rewrite <-He', Z.eqb_refl.
Qed.

Lemma visit_len q res e r b :
  f_of q res e = Some (r, b) ->
  Z.of_nat (length res) < q_limit q ->
  Z.of_nat (length r) <= q_limit q ∧ (b = false -> Z.of_nat (length r) < q_limit q).
Proof.
  unfold visit. destruct (filter_by_name _ e) as [e'|]; [|intros [= <- <-]; lia].
  destruct (valid_type e' _) as [ok|]; [|done]. simpl. intros [= <- <-] Hl.
  destruct ok; rewrite ?app_length; simpl; lia.
Qed.

Lemma asc_len q t : exact_keys (inorder t) -> ∀ res r b, asc q t res = Some (r, b) ->
  Z.of_nat (length res) < q_limit q ->
  Z.of_nat (length r) <= q_limit q ∧ (b = false -> Z.of_nat (length r) < q_limit q).
Proof.
  induction t as [|bb k e l IHl rt IHr]; intros Hx res r b; cbn [tree_asc].
  { intros [= <- <-]. lia. }
  pose proof (fudge_member_exact _ _ _ _ _ DR Hx) as Hf. cbn in Hf.
  unfold exact_keys in Hx. cbn [inorder] in Hx. rewrite Forall_app, Forall_cons in Hx. destruct Hx as (Hxl & _ & Hxr).
  destruct (_ <=? _); [|by apply IHr].
  destruct (asc q l res) as [[res1 b1]|] eqn:El; [|done]. cbn [mbind option_bind].
  intros E Hl. destruct (IHl Hxl _ _ _ El Hl) as [Hl1 Hl2]. destruct b1.
  { injection E as <- <-. done. }
  specialize (Hl2 eq_refl). rewrite Hf in E.
  destruct (_ <=? _).
  - cbn [mbind option_bind andb negb] in E. injection E as <- <-. split; [lia|done].
  - destruct (f_of q res1 e) as [[res2 b2]|] eqn:Ev; [|done]. cbn [mbind option_bind] in E.
    destruct (visit_len _ _ _ _ _ Ev Hl2) as [Hv1 Hv2]. destruct b2; cbn [andb negb] in E.
    + injection E as <- <-. done.
    + eapply (IHr Hxr _ _ _ E). by apply Hv2.
Qed.

Lemma desc_len q t : exact_keys (inorder t) -> ∀ res r b, desc q t res = Some (r, b) ->
  Z.of_nat (length res) < q_limit q ->
  Z.of_nat (length r) <= q_limit q ∧ (b = false -> Z.of_nat (length r) < q_limit q).
Proof.
  induction t as [|bb k e l IHl rt IHr]; intros Hx res r b; cbn [tree_desc].
  { intros [= <- <-]. lia. }
  pose proof (fudge_member_exact _ _ _ _ _ DL Hx) as Hf. cbn in Hf.
  unfold exact_keys in Hx. cbn [inorder] in Hx. rewrite Forall_app, Forall_cons in Hx. destruct Hx as (Hxl & _ & Hxr).
  destruct (_ <? _); [|by apply IHl].
  destruct (desc q rt res) as [[res1 b1]|] eqn:El; [|done]. cbn [mbind option_bind].
  intros E Hl. destruct (IHr Hxr _ _ _ El Hl) as [Hl1 Hl2]. destruct b1.
  { injection E as <- <-. done. }
  specialize (Hl2 eq_refl). rewrite Hf in E.
  destruct (_ <? _).
  - cbn [mbind option_bind andb negb] in E. injection E as <- <-. split; [lia|done].
  - destruct (f_of q res1 e) as [[res2 b2]|] eqn:Ev; [|done]. cbn [mbind option_bind] in E.
    destruct (visit_len _ _ _ _ _ Ev Hl2) as [Hv1 Hv2]. destruct b2; cbn [andb negb] in E.
    + injection E as <- <-. done.
    + eapply (IHl Hxl _ _ _ E). by apply Hv2.
Qed.

(** ** Get on time-ordered content *)
Lemma get_prefix src q s res :
  time_sorted (stored s src).*2 -> get_env src q s = Some res ->
  ∃ rest, omap (pick q) (if q_desc q then reverse (stored s src).*2 else (stored s src).*2) = res ++ rest ∧
    (rest = [] ∨ q_limit q <= Z.of_nat (length res)).
Proof.
  unfold get_env, stored. destruct (st_index s !! src) as [sg|].
  - intros Hs. change ((inorder (av_root (sg_tree sg))).*2) with (envs (av_root (sg_tree sg))) in *.
    destruct (q_desc q).
    + destruct (desc q _ []) as [[r b]|] eqn:E; [|done]. simpl. intros [= <-].
      pose proof (desc_prefix _ _ Hs _ _ _ E) as Hp. unfold prefix_spec_d, renvs in Hp. destruct b.
      * destruct Hp as (L1 & L2 & -> & -> & Hor). simpl. rewrite omap_app. eexists. split; [done|].
        destruct Hor as [|[Hn _]]; [by right|left]. by apply omap_none.
      * simpl in Hp. exists []. rewrite app_nil_r. rewrite Hp. auto.
    + destruct (asc q _ []) as [[r b]|] eqn:E; [|done]. simpl. intros [= <-].
      pose proof (asc_prefix _ _ Hs _ _ _ E) as Hp. unfold prefix_spec in Hp. destruct b.
      * destruct Hp as (L1 & L2 & -> & -> & Hor). simpl. rewrite omap_app. eexists. split; [done|].
        destruct Hor as [|[Hn _]]; [by right|left]. by apply omap_none.
      * simpl in Hp. exists []. rewrite app_nil_r. rewrite Hp. auto.
  - intros _ [= <-]. exists []. destruct (q_desc q); simpl; auto.
Qed.

Lemma sorted_exact_time l : sorted l -> exact_keys l -> time_sorted l.*2.
Proof.
  induction l as [|[k e] l IH]; simpl; [done|]. intros [Hf Hs] Hx. inversion Hx as [|? ? Hk Hx']; subst. simpl in Hk.
  split; [|by apply IH]. apply Forall_fmap. apply Forall_forall. intros [k' e'] Hin. simpl.
  rewrite Forall_forall in Hf. specialize (Hf _ Hin). unfold exact_keys in Hx'. rewrite Forall_forall in Hx'.
  specialize (Hx' _ Hin). simpl in *. lia.
Qed.

Lemma get_exact src q s res :
  inv s -> exact_keys (stored s src) -> 1 <= q_limit q -> get_env src q s = Some res ->
  res = take (Z.to_nat (q_limit q))
          (omap (pick q) (if q_desc q then reverse (stored s src).*2 else (stored s src).*2)).
Proof.
  intros Hi Hx Hl Hg.
  pose proof (sorted_exact_time _ (inv_sorted s src Hi) Hx) as Hts.
  destruct (get_prefix _ _ _ _ Hts Hg) as (rest & -> & Hrest).
  assert (Hlen : Z.of_nat (length res) <= q_limit q).
  { unfold get_env, stored in *. destruct (st_index s !! src) as [sg|].
    - destruct (q_desc q).
      + destruct (desc q _ []) as [[r b]|] eqn:E; [|done]. simpl in Hg. injection Hg as <-.
        eapply (desc_len _ _ Hx _ _ _ E). simpl. lia.
      + destruct (asc q _ []) as [[r b]|] eqn:E; [|done]. simpl in Hg. injection Hg as <-.
        eapply (asc_len _ _ Hx _ _ _ E). simpl. lia.
    - injection Hg as <-. simpl. lia. }
  destruct Hrest as [->|Hge].
  - rewrite app_nil_r. rewrite take_ge; [done|lia].
  - rewrite take_app_alt; [done|lia].
Qed.

(** ** Histories with distinct timestamps *)
Definition exact_hist (s : store) (done_ : list op) : Prop :=
  ∀ src, Forall (fun p => p.1 = e_ts p.2 ∧ p.2 ∈ puts_to src done_) (stored s src).

Lemma puts_to_snoc src ops o :
  puts_to src (ops ++ [o]) = puts_to src ops ++ puts_to src [o].
Proof. unfold puts_to. by rewrite omap_app. Qed.

Lemma Forall_linsert_mono {V} (P : Z * V -> Prop) k v l : P (k, v) -> Forall P l -> Forall P (linsert k v l).
Proof. apply Forall_linsert. Qed.

Lemma stored_insert_eq s src sg c o i eg x si p m fu :
  stored (mk_store (<[src:=sg]> (st_index s)) c o m fu i eg x si p) src = ent sg.
Proof. unfold stored. simpl. by rewrite lookup_insert. Qed.

Lemma stored_insert_ne s src src' sg c o i eg x si p m fu : src ≠ src' ->
  stored (mk_store (<[src:=sg]> (st_index s)) c o m fu i eg x si p) src' = stored s src'.
Proof. intros. unfold stored. simpl. by rewrite lookup_insert_ne. Qed.

Lemma Forall_base_of (P : Z * envelope -> Prop) m l : Forall P l -> Forall P (base_of m l).
Proof. unfold base_of. destruct (_ <=? _); auto. destruct 1; simpl; auto. Qed.

(** truncation only shrinks: no accounting needed *)
Lemma prune_loop_sub n : ∀ h s s' h', inv s -> prune_loop n h s = Some (s', h') ->
  ∀ src, ∃ r, stored s src = r ++ stored s' src.
Proof.
  induction n as [|n IH]; intros h s s' h' Hi E src0; cbn [prune_loop] in E.
  { injection E as -> ->. by exists []. }
  destruct (heap_pop fst h) as [[[k src] h1]|]; [|done]. cbn [mbind option_bind] in E.
  destruct (remove_oldest src s) as [[s1 nx]|] eqn:Er; [|done]. cbn [mbind option_bind] in E.
  destruct (st_index s !! src) as [sg|] eqn:Es; [|by unfold remove_oldest in Er; rewrite Es in Er].
  destruct (inv_head s Hi _ _ Es) as (e0 & l0 & He).
  assert (Hi1 : inv s1) by (eapply inv_remove; eauto).
  assert (H1 : ∃ r, stored s src0 = r ++ stored s1 src0).
  { pose proof (remove_oldest_spec src s sg _ _ _ (inv_tree s Hi _ _ Es) Es He) as Hr.
    unfold stored. destruct (decide (src0 = src)) as [->|].
    - rewrite Es. fold (ent sg). rewrite He. destruct l0 as [|[k' e'] l'].
      + rewrite Er in Hr. injection Hr as -> ->. simpl. rewrite lookup_delete. eexists. by rewrite app_nil_r.
      + destruct Hr as (t' & _ & Ht & Hr). rewrite Er in Hr. injection Hr as -> ->. simpl. rewrite lookup_insert. simpl.
        rewrite Ht. by eexists [_].
    - destruct l0 as [|[k' e'] l'].
      + rewrite Er in Hr. injection Hr as -> ->. simpl. rewrite lookup_delete_ne by done. by exists [].
      + destruct Hr as (t' & _ & Ht & Hr). rewrite Er in Hr. injection Hr as -> ->. simpl.
        rewrite lookup_insert_ne by done. by exists []. }
  assert (∃ h2, prune_loop n h2 s1 = Some (s', h')) as [h2 E'] by (destruct nx; eauto).
  destruct (IH _ _ _ _ Hi1 E' src0) as [r2 H2]. destruct H1 as [r1 H1]. exists (r1 ++ r2). by rewrite H1, H2, app_assoc.
Qed.

Lemma truncate_sub q pri now s s' : inv s -> truncate q pri now s = Some s' ->
  ∀ src, ∃ r, stored s src = r ++ stored s' src.
Proof.
  intros Hi. unfold truncate. destruct (q =? 0); [intros [= ->] src; by exists []|].
  destruct (build_heap _ _) as [h|]; [|done]. cbn [mbind option_bind].
  destruct (prune_loop _ h s) as [[s1 h1]|] eqn:E; [|done]. cbn [mbind option_bind].
  pose proof (prune_loop_sub _ _ _ _ _ Hi E) as Hsub.
  destruct h1 as [|x h1].
  - intros [= <-]. done.
  - destruct (raw_pop (x :: h1)) as [[[ts src] h']|]; [|done]. cbn [mbind option_bind].
    intros [= <-]. done.
Qed.

Lemma step_exact s done_ o s' :
  inv s -> st_fudge s = 4000 -> exact_hist s done_ ->
  (∀ src, Forall (fun e => in64 (e_ts e)) (puts_to src (done_ ++ [o])) ) ->
  (∀ src, NoDup (e_ts <$> puts_to src (done_ ++ [o]))) ->
  step s o = Some s' -> exact_hist s' (done_ ++ [o]) ∧ st_fudge s' = 4000.
Proof.
  intros Hi Hfu Hex H64 Hnd Hs.
  assert (Hmono : ∀ src l, Forall (fun p => p.1 = e_ts p.2 ∧ p.2 ∈ puts_to src done_) l ->
                           Forall (fun p : Z * envelope => p.1 = e_ts p.2 ∧ p.2 ∈ puts_to src (done_ ++ [o])) l).
  { intros src l Hl. eapply Forall_impl; [exact Hl|]. intros p [? ?]. split; [done|]. rewrite puts_to_snoc. apply elem_of_app. by left. }
  destruct o as [e src now|q pri now|src q|]; simpl in Hs.
  - destruct (put_env_spec e src now s (inv_max s Hi) (inv_tree s Hi src))
      as (f & sg' & Hf & Hocc & _ & _ & Hent & _ & _ & _ & E).
    rewrite E in Hs. injection Hs as <-. split; [|done]. intros x.
    destruct (decide (src = x)) as [<-|Hne].
    + rewrite stored_insert_eq, Hent.
      assert (Hin64 : in64 (e_ts e)).
      { specialize (H64 src). rewrite Forall_forall in H64. apply H64. rewrite puts_to_snoc. apply elem_of_app. right.
        unfold puts_to. simpl. rewrite decide_True by done. by left. }
      assert (f = 0).
      { destruct (decide (f = 0)); [done|]. exfalso.
        specialize (Hocc 0 ltac:(lia)). rewrite Z.add_0_r, wrap64_id in Hocc by done.
        apply elem_of_list_fmap in Hocc as ([k e'] & Hk & Hin). simpl in Hk.
        pose proof (Forall_base_of _ (st_max s) _ (Hex src)) as Hb. rewrite Forall_forall in Hb.
        apply Hb in Hin as [Hk' Hin]. simpl in *.
        specialize (Hnd src). rewrite puts_to_snoc in Hnd. unfold puts_to at 2 in Hnd. simpl in Hnd.
        rewrite decide_True in Hnd by done. rewrite fmap_app in Hnd. apply NoDup_app in Hnd as (_ & Hnd & _).
        apply (Hnd (e_ts e')); [apply elem_of_list_fmap; eauto|]. rewrite <-Hk', <-Hk. by left. }
      subst f. rewrite Z.add_0_r, wrap64_id by done. apply Forall_linsert.
      * simpl. split; [done|]. rewrite puts_to_snoc. apply elem_of_app. right. unfold puts_to. simpl.
        rewrite decide_True by done. by left.
      * apply Forall_base_of, Hmono, Hex.
    + rewrite stored_insert_ne by done. apply Hmono, Hex.
  - assert (st_fudge s' = st_fudge s).
    { clear -Hs Hi. unfold truncate in Hs. destruct (q =? 0); [by injection Hs as ->|].
      destruct (build_heap _ _) as [h|]; [|done]. cbn [mbind option_bind] in Hs.
      destruct (prune_loop _ h s) as [[s1 h1]|] eqn:E; [|done]. cbn [mbind option_bind] in Hs.
      assert (Hfud : ∀ n h s s1 h1, prune_loop n h s = Some (s1, h1) -> st_fudge s1 = st_fudge s).
      { clear. induction n as [|n IH]; intros h s s1 h1 E; cbn [prune_loop] in E; [by injection E as -> ->|].
        destruct (heap_pop fst h) as [[[k src] h2]|]; [|done]. cbn [mbind option_bind] in E.
        destruct (remove_oldest src s) as [[s2 nx]|] eqn:Er; [|done]. cbn [mbind option_bind] in E.
        assert (st_fudge s2 = st_fudge s) as <-.
        { unfold remove_oldest in Er. destruct (st_index s !! src) as [sg|]; [|done]. cbn [mbind option_bind] in Er.
          destruct (_ =? 0); [by simplify_eq|]. destruct (avl_left _) as [[]|]; [|done]. cbn [mbind option_bind] in Er.
          destruct (avl_remove _ _); [|done]. cbn [mbind option_bind] in Er.
          destruct (_ =? 0); [by simplify_eq|]. destruct (avl_left _) as [[]|]; [|done]. cbn [mbind option_bind] in Er.
          by simplify_eq. }
        destruct nx; eauto. }
      apply Hfud in E. destruct h1 as [|x h1].
      - by injection Hs as <-.
      - destruct (raw_pop (x :: h1)) as [[[ts src] h']|]; [|done]. cbn [mbind option_bind] in Hs. by injection Hs as <-. }
    split; [|congruence]. intros x. destruct (truncate_sub _ _ _ _ _ Hi Hs x) as [r Hr].
    specialize (Hex x). rewrite Hr in Hex. apply Forall_app in Hex as [_ Hex]. by apply Hmono.
  - destruct (get_env src q s); [|done]. simpl in Hs. injection Hs as <-. split; [|done].
    intros x. apply Hmono, (Hex x).
  - injection Hs as <-. split; [|done]. intros x. apply Hmono, (Hex x).
Qed.

Lemma run_exact ops : ∀ s done_ s',
  inv s -> st_fudge s = 4000 -> exact_hist s done_ ->
  (∀ src, Forall (fun e => in64 (e_ts e)) (puts_to src (done_ ++ ops)) ) ->
  (∀ src, NoDup (e_ts <$> puts_to src (done_ ++ ops))) ->
  run s ops = Some s' -> exact_hist s' (done_ ++ ops).
Proof.
  induction ops as [|o ops IH]; intros s done_ s' Hi Hfu Hex H64 Hnd E; simpl in *.
  { injection E as <-. by rewrite app_nil_r. }
  destruct (step s o) as [s1|] eqn:Es; [|done]. simpl in E.
  destruct (step_exact s done_ o s1) as [Hex1 Hfu1]; auto.
  { intros src. specialize (H64 src). rewrite cons_middle, app_assoc in H64. unfold puts_to in H64.
    rewrite omap_app in H64. apply Forall_app in H64 as [? _]. done. }
  { intros src. specialize (Hnd src). rewrite cons_middle, app_assoc in Hnd. unfold puts_to in Hnd.
    rewrite omap_app, fmap_app in Hnd. apply NoDup_app in Hnd as [? _]. done. }
  destruct (step_inv s o s1 Hi Es) as [Hi1 _].
  rewrite cons_middle, app_assoc. eapply IH; eauto; rewrite <-app_assoc; done.
Qed.

Lemma exact_hist_keys s d src : exact_hist s d -> exact_keys (stored s src).
Proof. intros H. eapply Forall_impl; [apply H|]. by intros p [? _]. Qed.

Lemma get_exact_answers m ops s src q res :
  1 <= m -> run (new_store m) ops = Some s ->
  (∀ x, Forall (fun e => in64 (e_ts e)) (puts_to x ops)) ->
  (∀ x, NoDup (e_ts <$> puts_to x ops)) ->
  known_types (q_types q) -> 1 <= q_limit q -> get_env src q s = Some res ->
  ∃ all, answers q (if q_desc q then reverse (stored s src).*2 else (stored s src).*2) all ∧
         res = take (Z.to_nat (q_limit q)) all.
Proof.
  intros Hm Hr H64 Hnd Hk Hl Hg.
  pose proof (run_exact ops (new_store m) [] s (inv_new m Hm) eq_refl ltac:(intros x; constructor) H64 Hnd Hr) as Hex.
  destruct (run_inv ops _ _ (inv_new m Hm) Hr) as [Hi _].
  eexists. split; [apply answers_pick; done|]. apply get_exact; auto. by eapply exact_hist_keys.
Qed.
