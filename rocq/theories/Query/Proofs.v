(** Lemmas about whole queries. *)
From Coq Require Import Ascii String.
From stdpp Require Import prelude gmap strings list.
From Verif.Base Require Import GoInt Envelope.
From Verif.Promql Require Import Model Spec Proofs ProofsSelect.
From Verif.Query Require Import Model Spec.
Open Scope Z_scope.

Section runs.
Context (reader : data_reader) (order : gmap string gauge_value -> list (string * gauge_value))
  (oids : gset string -> list string) (oser : gmap string series -> list series).

(** the reads of one selection *)
Lemma gather_reads mint maxt ms ids : forall i evs r,
  gather reader order mint maxt ms i ids = (evs, r) ->
  Forall is_read evs /\
  Forall (fun ev => exists id f, id ∈ ids /\ ev = EvRead (select_read mint maxt id) f) evs /\
  sources evs `prefix_of` ids /\
  match r with
  | inl _ => sources evs = ids /\ forall e, ~ failed_read evs e
  | inr e => failed_read evs e /\ (forall e', failed_read evs e' -> e' = e) /\
      exists l d, evs = l ++ [EvRead d (Some e)] /\ forall e', ~ failed_read l e'
  end.
Proof.
  induction ids as [|id ids IH]; intros i evs r H; cbn [gather] in H.
  - injection H as <- <-. split; [done|]. split; [done|]. split; [done|]. split; [done|].
    intros e (x & Hx). by apply elem_of_nil in Hx.
  - destruct (reader i (select_read mint maxt id)) as [es|e].
    + destruct (gather reader order mint maxt ms (S i) ids) as [evs' r'] eqn:E.
      injection H as <- <-. destruct (IH _ _ _ E) as (H1 & H2 & H3 & H4).
      assert (Hf : forall e, failed_read (EvRead (select_read mint maxt id) None :: evs') e <-> failed_read evs' e).
      { intros e. unfold failed_read. split; intros [x Hx]; exists x.
        - apply elem_of_cons in Hx as [Hx|Hx]; [discriminate|done].
        - by right. }
      split; [by constructor|]. split; [|split].
      * constructor; [exists id, None; split; [left|done]|]. eapply Forall_impl; [exact H2|].
        intros ev (x & f & ? & ?). exists x, f. split; [by right|done].
      * cbn. by apply prefix_cons.
      * destruct r' as [ss|e].
        -- destruct H4 as [H4 H5]. split; [change (id :: sources evs' = id :: ids); by rewrite H4|]. intros e He. apply (H5 e). by apply Hf.
        -- destruct H4 as (H4 & H5 & l & d & -> & H6). split; [by apply Hf|]. split; [intros e' He'; apply H5; by apply Hf|].
           exists (EvRead (select_read mint maxt id) None :: l), d. split; [done|].
           intros e' (x & Hx). apply elem_of_cons in Hx as [Hx|Hx]; [discriminate|]. apply (H6 e'). by exists x.
    + injection H as <- <-. split; [by repeat constructor|]. split; [|split].
      * constructor; [|done]. exists id, (Some e). split; [left|done].
      * cbn. apply prefix_cons, prefix_nil.
      * split; [exists (select_read mint maxt id); left|]. split.
        -- intros e' (x & Hx). apply elem_of_list_singleton in Hx. congruence.
        -- exists [], (select_read mint maxt id). split; [done|]. intros e' (x & Hx). by apply elem_of_nil in Hx.
Qed.

Context (Hoids : iterates_ids oids).

Lemma ids_nodup ms : NoDup (oids (id_set (selector_ids ms))).
Proof. rewrite (Hoids _). apply NoDup_elements. Qed.

Lemma select_run_spec mint maxt ms i evs r :
  select_run reader order oids oser mint maxt ms i = (evs, r) ->
  Forall is_read evs /\ NoDup (sources evs) /\
  Forall (fun ev => exists id f, asks ms id /\ ev = EvRead (select_read mint maxt id) f) evs /\
  match r with
  | inl _ => (forall id, id ∈ sources evs <-> asks ms id) /\ (exists id, asks ms id) /\ forall e, ~ failed_read evs e
  | inr e =>
      (evs = [] /\ (forall id, ~ asks ms id) /\ e = no_source_id (sel_metric ms)) \/
      (exists l d, evs = l ++ [EvRead d (Some e)] /\ (forall e', ~ failed_read l e') /\ exists id, asks ms id)
  end.
Proof using Hoids.
  unfold select_run. intros H. pose proof (asked_in oids ms) as Hask. pose proof (ids_nodup ms) as Hnd.
  set (ids := oids (id_set (selector_ids ms))) in *. clearbody ids.
  destruct (length ids =? 0)%nat eqn:El.
  - injection H as <- <-. apply Nat.eqb_eq in El. apply nil_length_inv in El.
    split; [done|]. split; [constructor|]. split; [done|]. left. split; [done|]. split; [|done].
    intros id Hid. apply Hask in Hid; [|done]. rewrite El in Hid. by apply elem_of_nil in Hid.
  - destruct (gather reader order mint maxt ms i ids) as [evs' r'] eqn:E. injection H as -> <-.
    destruct (gather_reads _ _ _ _ _ _ _ E) as (H1 & H2 & [rest H3] & H4).
    assert (Hex : exists id, asks ms id).
    { destruct ids as [|x l]; [done|]. exists x. apply (Hask x); [done|]. left. }
    split; [done|]. split.
    { rewrite H3 in Hnd. by apply NoDup_app in Hnd as [? _]. }
    split.
    { eapply Forall_impl; [exact H2|]. intros ev (id & f & Hid & ->). exists id, f. split; [|done]. by apply Hask. }
    destruct r' as [ss|e].
    + destruct H4 as [H4 H5]. split; [|by split]. intros id. rewrite H4. by apply Hask.
    + right. destruct H4 as (_ & _ & l & d & -> & H6). exists l, d. done.
Qed.

Lemma failed_app l1 l2 e : failed_read (l1 ++ l2) e <-> failed_read l1 e \/ failed_read l2 e.
Proof.
  unfold failed_read. split.
  - intros [r Hr]. apply elem_of_app in Hr as [Hr|Hr]; eauto.
  - intros [[r Hr]|[r Hr]]; exists r; apply elem_of_app; auto.
Qed.
Lemma no_select_in evs a b ms : Forall is_read evs -> EvSelect a b ms ∈ evs -> False.
Proof. intros H Hin. rewrite Forall_forall in H. exact (H _ Hin). Qed.

(** Where the closure's error comes from *)
Lemma exec_trouble e : forall i c evs c' out,
  exec reader order oids oser e i c = (evs, c', out) ->
  returns e out /\
  (~ trouble evs -> c' = c) /\
  (trouble evs -> exists err, c' = Some err /\ (failed_read evs err \/ exists ms, sourceless evs ms /\ err = no_source_id (sel_metric ms))).
Proof using Hoids.
  induction e as [r|mint maxt ms k IH]; intros i c evs c' out H; cbn [exec] in H.
  - injection H as <- <- <-. split; [constructor|]. split; [done|].
    intros [(e & r' & Hr)|(ms & a & b & Hr & _)]; by apply elem_of_nil in Hr.
  - destruct (select_run reader order oids oser mint maxt ms i) as [evs1 r1] eqn:E1.
    destruct (exec reader order oids oser (k r1) _ _) as [[evs2 c2] out2] eqn:E2. injection H as <- <- <-.
    destruct (IH _ _ _ _ _ _ E2) as (IHr & IHn & IHt). clear IH.
    destruct (select_run_spec _ _ _ _ _ _ E1) as (S1 & S2 & S3 & S4).
    set (evs := EvSelect mint maxt ms :: evs1 ++ evs2).
    assert (Hf : forall e, failed_read evs e <-> failed_read evs1 e \/ failed_read evs2 e).
    { intros e. rewrite <- failed_app. unfold failed_read, evs. split; intros [x Hx]; exists x.
      - apply elem_of_cons in Hx as [Hx|Hx]; [discriminate|done].
      - by right. }
    assert (Hs : forall m, sourceless evs m <-> (m = ms /\ forall id, ~ asks ms id) \/ sourceless evs2 m).
    { intros m. unfold sourceless, evs. split.
      - intros (a & b & Hx & Hno). apply elem_of_cons in Hx as [Hx|Hx]; [injection Hx as -> -> ->; by left|].
        apply elem_of_app in Hx as [Hx|Hx]; [exfalso; by eapply no_select_in|]. right. eauto.
      - intros [[-> Hno]|(a & b & Hx & Hno)].
        + exists mint, maxt. split; [left|done].
        + exists a, b. split; [|done]. right. apply elem_of_app. by right. }
    assert (Hlift : forall err, failed_read evs2 err \/ (exists m, sourceless evs2 m /\ err = no_source_id (sel_metric m)) ->
      failed_read evs err \/ exists m, sourceless evs m /\ err = no_source_id (sel_metric m)).
    { intros err [Hx|(m & Hm & ->)]; [left; apply Hf; by right|]. right. exists m. split; [|done]. apply Hs. by right. }
    split; [by econstructor|].
    destruct (decide (r1 = r1)) as [_|]; [|done].
    destruct r1 as [ss|err].
    + destruct S4 as (_ & Hsome & Hnf). split.
      * intros Hnt. apply IHn. intros [[e He]|[m Hm]]; apply Hnt; [left; exists e; apply Hf; by right|].
        right. exists m. apply Hs. by right.
      * intros [[e He]|[m Hm]].
        -- apply Hf in He as [He|He]; [by destruct (Hnf e)|].
           destruct IHt as (err & -> & He'); [left; by exists e|]. exists err. split; [done|]. by apply Hlift.
        -- apply Hs in Hm as [[-> Hno]|Hm]; [destruct Hsome as [id Hid]; by destruct (Hno id)|].
           destruct IHt as (err & -> & He'); [right; by exists m|]. exists err. split; [done|]. by apply Hlift.
    + assert (Herr : failed_read evs err \/ exists m, sourceless evs m /\ err = no_source_id (sel_metric m)).
      { destruct S4 as [(-> & Hno & ->)|(l & d & -> & _ & _)].
        - right. exists ms. split; [|done]. apply Hs. by left.
        - left. apply Hf. left. exists d. apply elem_of_app. right. left. }
      split.
      * intros Hnt. destruct Hnt. destruct Herr as [Hx|(m & Hm & _)]; [left; by exists err|right; by exists m].
      * intros _. destruct (decide (c2 = Some err)) as [->|Hne]; [exists err; by split|].
        assert (Ht2 : trouble evs2 \/ ~ trouble evs2).
        { clear -IHn IHt Hne. (* decidable through the closure *)
          destruct (existsb (fun ev => match ev with EvRead _ (Some _) => true | EvSelect _ _ m => bool_decide (selector_ids m = []) | _ => false end) evs2) eqn:Ex.
          - left. apply existsb_exists in Ex as (ev & Hin & Hev). apply elem_of_list_In in Hin. destruct ev as [a b m|r [e|]]; [| |done].
            + right. exists m, a, b. split; [done|]. apply bool_decide_eq_true in Hev. intros id Hid. apply selector_ids_spec in Hid.
              rewrite Hev in Hid. by apply elem_of_nil in Hid.
            + left. exists e, r. done.
          - right. intros [(e & r & Hr)|(m & a & b & Hr & Hno)].
            + assert (existsb (fun ev => match ev with EvRead _ (Some _) => true | EvSelect _ _ m => bool_decide (selector_ids m = []) | _ => false end) evs2 = true); [|congruence].
              apply existsb_exists. eexists. split; [apply elem_of_list_In; exact Hr|done].
            + assert (existsb (fun ev => match ev with EvRead _ (Some _) => true | EvSelect _ _ m => bool_decide (selector_ids m = []) | _ => false end) evs2 = true); [|congruence].
              apply existsb_exists. eexists. split; [apply elem_of_list_In; exact Hr|]. apply bool_decide_eq_true.
              destruct (selector_ids m) as [|x l] eqn:Em; [done|]. destruct (Hno x). apply selector_ids_spec. rewrite Em. left. }
        destruct Ht2 as [Ht2|Ht2]; [|specialize (IHn Ht2); by rewrite IHn in Hne].
        destruct (IHt Ht2) as (err' & -> & He'). exists err'. split; [done|]. by apply Hlift.
Qed.

(** every event list is a sequence of selections, each followed by its reads *)
Lemma exec_blocks e : forall i c evs c' out,
  exec reader order oids oser e i c = (evs, c', out) ->
  match evs with [] => True | ev :: _ => ~ is_read ev end /\
  forall ok, selects_only ok e -> forall pre r f post, evs = pre ++ EvRead r f :: post ->
  exists pre1 a b ms mid, pre = pre1 ++ EvSelect a b ms :: mid /\ Forall is_read mid /\ ok ms /\
    asks ms (dr_source r) /\ r = select_read a b (dr_source r).
Proof using Hoids.
  induction e as [r|mint maxt ms k IH]; intros i c evs c' out H; cbn [exec] in H.
  - injection H as <- <- <-. split; [done|]. intros ok _ pre r' f post E. by destruct pre.
  - destruct (select_run reader order oids oser mint maxt ms i) as [evs1 r1] eqn:E1.
    destruct (exec reader order oids oser (k r1) _ _) as [[evs2 c2] out2] eqn:E2. injection H as <- <- <-.
    split; [by intros []|]. intros ok Hok pre r f post E. inversion_clear Hok as [|? ? ? ? Hms Hk].
    destruct (select_run_spec _ _ _ _ _ _ E1) as (S1 & _ & S3 & _).
    destruct pre as [|ev pre]; [discriminate|]. cbn in E. injection E as <- E.
    destruct (IH _ _ _ _ _ _ E2) as (_ & IH2).
    apply app_eq_inv in E as [(l & -> & E)|(l & -> & E)].
    + (* the read is in evs2, or begins it *)
      destruct l as [|x l].
      * cbn in E. destruct (IH2 ok (Hk r1) [] r f post (eq_sym E)) as (p1 & a & b & m & mid & Hp & _). by destruct p1.
      * cbn in E. injection E as <- E. exists [], mint, maxt, ms, pre.
        assert (Hin : EvRead r f ∈ pre ++ EvRead r f :: l) by (apply elem_of_app; right; left).
        split; [done|]. split; [by apply Forall_app in S1 as [? _]|]. split; [done|].
        rewrite Forall_forall in S3. destruct (S3 _ Hin) as (id & f' & Hid & Heq). injection Heq as -> ->. by split.
    + destruct (IH2 ok (Hk r1) l r f post) as (p1 & a & b & m & mid & -> & Hr); [by symmetry|].
      exists (EvSelect mint maxt ms :: evs1 ++ p1), a, b, m, mid. split; [|done]. cbn. by rewrite <- app_assoc.
Qed.

Lemma app_select_eq (l1 l2 r1 r2 : list event) :
  Forall is_read l1 -> Forall is_read r1 ->
  match l2 with [] => True | ev :: _ => ~ is_read ev end -> match r2 with [] => True | ev :: _ => ~ is_read ev end ->
  l1 ++ l2 = r1 ++ r2 -> l1 = r1 /\ l2 = r2.
Proof using.
  clear. revert r1. induction l1 as [|x l1 IH]; intros [|y r1] H1 H2 H3 H4 E; cbn in E.
  - done.
  - subst l2. inversion H2; subst. done.
  - subst r2. inversion H1; subst. done.
  - injection E as -> E. inversion H1; subst. inversion H2; subst. destruct (IH r1) as [-> ->]; auto.
Qed.

Lemma exec_block e : forall i c evs c' out,
  exec reader order oids oser e i c = (evs, c', out) ->
  forall a b ms reads, block evs a b ms reads ->
  NoDup (sources reads) /\
  ((forall err, ~ failed_read reads err) -> forall id, asks ms id <-> id ∈ sources reads) /\
  (forall pre r err post, reads = pre ++ EvRead r (Some err) :: post -> post = []).
Proof using Hoids.
  induction e as [r|mint maxt ms0 k IH]; intros i c evs c' out H a b ms reads (pre & post & Hevs & Hr & Hp); cbn [exec] in H.
  - injection H as <- <- <-. by destruct pre.
  - destruct (select_run reader order oids oser mint maxt ms0 i) as [evs1 r1] eqn:E1.
    destruct (exec reader order oids oser (k r1) _ _) as [[evs2 c2] out2] eqn:E2. injection H as <- <- <-.
    destruct (select_run_spec _ _ _ _ _ _ E1) as (S1 & S2 & S3 & S4).
    destruct (exec_blocks _ _ _ _ _ _ E2) as (Hhd & _).
    destruct pre as [|ev pre]; cbn in Hevs.
    + injection Hevs as <- <- <- E. destruct (app_select_eq evs1 evs2 reads post) as [-> ->]; [done..|].
      split; [done|]. destruct r1 as [ss|err].
      * destruct S4 as (G1 & _ & G2). split; [intros _ id; by rewrite G1|].
        intros p r err q ->. destruct (G2 err). exists r. apply elem_of_app. right. left.
      * destruct S4 as [(-> & G1 & ->)|(l & d & -> & G1 & _)].
        -- split; [|intros p r err q Hx; by destruct p].
           intros _ id. split; intros Hx; [by destruct (G1 id)|by apply elem_of_nil in Hx].
        -- split; [intros G; destruct (G err); exists d; apply elem_of_app; right; left|].
           intros p r err' q Hx. destruct q as [|y q _] using rev_ind; [done|].
           exfalso. rewrite app_comm_cons, app_assoc in Hx. apply app_inj_tail in Hx as [Hx _].
           apply (G1 err'). exists r. rewrite Hx. apply elem_of_app. right. left.
    + injection Hevs as <- E. apply (IH _ _ _ _ _ _ E2 a b ms reads).
      apply app_eq_inv in E as [(l & -> & E)|(l & -> & E)].
      * destruct l as [|x l]; [exists [], post; by rewrite E|]. cbn in E. injection E as <- _.
        exfalso. apply Forall_app in S1 as [_ S1]. by inversion S1.
      * exists l, post. by rewrite E.
Qed.
End runs.

(** ** Conversion of results *)
Lemma metric_map_labels ls : same_labels ls (metric_map ls).
Proof.
  intros Hnd k v. unfold metric_map.
  enough (G : forall m0, (forall k, k ∈ ls.*1 -> m0 !! k = None) ->
    foldl (fun (m : gmap string string) kv => <[kv.1 := kv.2]> m) m0 ls !! k = Some v <-> m0 !! k = Some v \/ (k, v) ∈ ls).
  { rewrite (G ∅); [|by intros]. rewrite lookup_empty. split; [intros [?|?]; done|by right]. }
  induction ls as [|[k' v'] ls IH]; intros m0 Hm0; cbn [foldl].
  - split; [by left|]. intros [?|Hx]; [done|by apply elem_of_nil in Hx].
  - apply NoDup_cons in Hnd as [Hn Hnd]. rewrite (IH Hnd).
    + cbn [fst snd]. destruct (decide (k = k')) as [->|Hne].
      * rewrite lookup_insert. assert (E : m0 !! k' = None) by (apply Hm0; left). rewrite E. split.
        -- intros [Hx|Hx]; [injection Hx as ->; right; left|]. right. by right.
        -- intros [Hx|Hx]; [done|]. apply elem_of_cons in Hx as [Hx|Hx]; [injection Hx as ->; by left|by right].
      * rewrite lookup_insert_ne by done. rewrite elem_of_cons. split; [intros [?|?]; auto|].
        intros [?|[Hx|?]]; [by left|congruence|by right].
    + intros x Hx. cbn. rewrite lookup_insert_ne; [apply Hm0; by right|]. intros ->. done.
Qed.

Lemma points_same (fmt : Z -> string) (time : string -> Z -> Prop) ps :
  Forall (fun t => time (fmt t) t) ps.*1 -> Forall2 (same_point time) ps (map (to_point fmt) ps).
Proof.
  induction ps as [|[t v] ps IH]; intros H; [constructor|]. cbn in H. apply Forall_cons in H as [H1 H2].
  cbn. constructor; [split; done|by apply IH].
Qed.
Lemma vector_carries (fmt : Z -> string) (time : string -> Z -> Prop) (ss : list (list (string * string) * (Z * f64))) :
  Forall (fun t => time (fmt t) t) (times_in (VVector ss)) ->
  carries time (VVector ss) (RVector (map (fun s => (metric_map s.1, to_point fmt s.2)) ss)).
Proof.
  intros H. constructor. cbn in H. induction ss as [|[l [t v]] ss IH]; [constructor|].
  cbn in H. apply Forall_cons in H as [H1 H2]. cbn. constructor; [|by apply IH].
  split; [apply metric_map_labels|done].
Qed.
Lemma matrix_carries (fmt : Z -> string) (time : string -> Z -> Prop) (ss : list (list (string * string) * list (Z * f64))) :
  Forall (fun t => time (fmt t) t) (times_in (VMatrix ss)) ->
  carries time (VMatrix ss) (RMatrix (map (fun s => (metric_map s.1, map (to_point fmt) s.2)) ss)).
Proof.
  intros H. constructor. cbn [times_in] in H. induction ss as [|[l ps] ss IH]; [constructor|].
  cbn in H. apply Forall_app in H as [H1 H2]. cbn. constructor; [|by apply IH].
  split; [apply metric_map_labels|by apply points_same].
Qed.
