(** Invariants of concurrent calls of the OAuth2 HTTP client. *)
From Coq Require Import Ascii String Lia.
From stdpp Require Import prelude gmap strings list.
From Verif.Base Require Import Str Url UrlProofs.
From Verif.Oauth2 Require Import Model Spec.
Open Scope string_scope.
Open Scope list_scope.
Open Scope Z_scope.

Lemma rejects_rejected r : rejects r = bool_decide (rejected r).
Proof.
  destruct (decide (rejected r)) as [H|H].
  - rewrite (bool_decide_eq_true_2 _ H). destruct H as (st & rest & -> & H). cbn.
    apply orb_true_iff. rewrite !bool_decide_eq_true. lia.
  - rewrite (bool_decide_eq_false_2 _ H). destruct r as [[st rest]|]; [|done]. cbn.
    apply orb_false_iff. rewrite !bool_decide_eq_false.
    destruct (decide (200 <= st < 300)); [lia|]. destruct H. by exists st, rest.
Qed.

Lemma own_app i h1 h2 : own i (h1 ++ h2) = own i h1 ++ own i h2.
Proof. unfold own. by rewrite filter_app, fmap_app. Qed.
Lemma own_same i h a : own i (h ++ [(i, a)]) = own i h ++ [a].
Proof. rewrite own_app. unfold own. rewrite (filter_cons_True _ (i, a)); done. Qed.
Lemma own_other i j h a : i <> j -> own i (h ++ [(j, a)]) = own i h.
Proof. intros N. rewrite own_app. unfold own at 2. rewrite filter_cons_False by (cbn; congruence). by rewrite filter_nil, app_nil_r. Qed.
Lemma own_elem i a h : a ∈ own i h <-> (i, a) ∈ h.
Proof.
  unfold own. rewrite elem_of_list_fmap. split.
  - intros ([j b] & -> & H). apply elem_of_list_filter in H as [<- H]. exact H.
  - intros H. exists (i, a). split; [done|]. by apply elem_of_list_filter.
Qed.

Section Proofs.
Context (json_token : string -> option (string * string)) (C : config).
Notation move := (Model.move json_token C).
Notation step := (Model.step json_token C).
Notation reachable := (Model.reachable json_token C).
Notation token_of := (Model.token_of json_token).
Notation issued := (Spec.issued json_token).

Lemma token_of_gives r t : token_of r = Some t <-> gives json_token r t.
Proof.
  unfold Model.token_of, gives. destruct r as [[st body]|]; [|naive_solver].
  destruct (decide (st = 200)) as [->|N].
  - rewrite bool_decide_eq_true_2 by done. destruct (json_token body) as [[ty ac]|] eqn:E.
    + split; [intros [= <-]; eauto 10|]. intros (b & ty' & ac' & [= <-] & H & ->). rewrite E in H. by injection H as -> ->.
    + split; [done|]. intros (b & ty' & ac' & [= <-] & H & ->). congruence.
  - rewrite bool_decide_eq_false_2 by done. split; [done|]. naive_solver.
Qed.

Lemma append_nonempty ty ac : append ty (append " " ac) <> "".
Proof. destruct ty; cbn; done. Qed.
Lemma token_nonempty r t : token_of r = Some t -> t <> "".
Proof. rewrite token_of_gives. intros (b & ty & ac & _ & _ & ->). apply append_nonempty. Qed.

(** ** The history of one call *)
(** Histories up to the load of the token that is returned, and of calls without a token *)
Definition shape_load (l : list act) : Prop :=
  (exists t, t <> "" /\ l = [AOther; ALoad t]) \/
  (exists r t, token_of r = Some t /\ l = [AOther; ALoad ""; APost (request_for C) r; AStore t]).
Definition shape_fail (l : list act) : Prop :=
  (cf_addr_ok C = false /\ l = [AOther; ALoad ""; AOther]) \/
  (exists r, token_of r = None /\ l = [AOther; ALoad ""; APost (request_for C) r]).

(** What a call's history is at each point *)
Definition shape (header : option (list string)) (p : pc) (l : list act) : Prop :=
  match header with
  | Some h => (p = Start (Some h) /\ l = []) \/ (exists r, p = Done r /\ l = [ASend (Some h) r])
  | None =>
      match p with
      | Start o => o = None /\ l = []
      | Test => l = [AOther]
      | Ask => l = [AOther; ALoad ""]
      | Store t => exists r, token_of r = Some t /\ l = [AOther; ALoad ""; APost (request_for C) r]
      | Load => shape_load l
      | Unlock (Some t) => exists l0, shape_load l0 /\ l = l0 ++ [ALoad t]
      | Unlock None => shape_fail l
      | Send t => exists l0, shape_load l0 /\ l = l0 ++ [ALoad t; AOther]
      | Clear r => rejects r = true /\ exists l0 t, shape_load l0 /\ l = l0 ++ [ALoad t; AOther; ASend (Some [t]) r]
      | Done r => (r = None /\ exists l0, shape_fail l0 /\ l = l0 ++ [AOther]) \/
                  (exists l0 t, shape_load l0 /\
                     l = l0 ++ [ALoad t; AOther; ASend (Some [t]) r] ++ if rejects r then [AStore ""] else [])
      end
  end.

Lemma shape_move header p l m a p' m' : shape header p l -> move p m a p' m' -> shape header p' (l ++ [a]).
Proof.
  destruct header as [h|]; cbn.
  - intros [[-> ->]|(r & -> & ->)] M; inversion M; subst. right. eauto.
  - intros S M; inversion M; subst; cbn in S |- *.
    + by destruct S.
    + by destruct S as [_ ->].
    + subst l. left. eauto.
    + subst l. by match goal with H : m_token _ = "" |- _ => rewrite H end.
    + eauto.
    + subst l. left. eauto.
    + subst l. destruct (token_of r) eqn:E; cbn; [eauto|]. right. eauto.
    + destruct S as (r & E & ->). right. eauto.
    + destruct t as [t|]; cbn.
      * destruct S as (l0 & S & ->). exists l0. split; [done|]. by rewrite <- app_assoc.
      * left. split; [done|]. eauto.
    + destruct S as (l0 & S & ->). destruct (rejects r) eqn:R; cbn.
      * split; [done|]. exists l0, t. split; [done|]. by rewrite <- app_assoc.
      * right. exists l0, t. split; [done|]. rewrite R, <- app_assoc. done.
    + destruct S as (R & l0 & t & S & ->). right. exists l0, t. split; [done|]. rewrite R, <- app_assoc. done.
Qed.

(** ** Invariants of all calls *)
Definition critical (p : pc) : Prop := match p with Test | Load | Ask | Store _ | Unlock _ => True | _ => False end.
Global Instance critical_dec p : Decision (critical p).
Proof. destruct p; cbn; apply _. Defined.

(** Since call i began, a rejected call forgot the token *)
Definition forgotten (i : nat) (h : list (nat * act)) : Prop :=
  exists h1 a h2 k h3, h = h1 ++ (i, a) :: h2 ++ (k, AStore "") :: h3.

Record inv (s : sys) : Prop := {
  v_shape : forall i header p, s_calls s !! i = Some (header, p) -> shape header p (own i (s_log s));
  v_log : forall i a, (i, a) ∈ s_log s -> (i < length (s_calls s))%nat;
  v_lock : forall i header p, s_calls s !! i = Some (header, p) -> critical p -> m_locked (s_mem s) = true;
  v_mutex : forall i j hi pi hj pj, s_calls s !! i = Some (hi, pi) -> s_calls s !! j = Some (hj, pj) ->
              critical pi -> critical pj -> i = j;
  v_held : m_locked (s_mem s) = true -> exists i header p, s_calls s !! i = Some (header, p) /\ critical p;
  v_token : m_token (s_mem s) = "" \/ issued (s_log s) (m_token (s_mem s));
  v_ask : forall i header, s_calls s !! i = Some (header, Ask) -> m_token (s_mem s) = "";
  v_value : forall i header p t, s_calls s !! i = Some (header, p) -> p = Unlock (Some t) \/ p = Send t ->
              t = "" \/ issued (s_log s) t;
  v_sent : forall i t r p, (i, ASend (Some [t]) r) ∈ s_log s -> s_calls s !! i = Some (None, p) ->
              t = "" \/ issued (s_log s) t;
  v_load : forall i header, s_calls s !! i = Some (header, Load) -> m_token (s_mem s) = "" -> forgotten i (s_log s);
  v_empty : forall i header p, s_calls s !! i = Some (header, p) -> p = Unlock (Some "") \/ p = Send "" ->
              forgotten i (s_log s);
}.

Lemma issued_mono h x t : issued h t -> issued (h ++ [x]) t.
Proof. intros (i & q & r & H & G). exists i, q, r. split; [|done]. apply elem_of_app. by left. Qed.
Lemma forgotten_mono i h x : forgotten i h -> forgotten i (h ++ [x]).
Proof.
  intros (h1 & a & h2 & k & h3 & ->). exists h1, a, h2, k, (h3 ++ [x]).
  rewrite <- app_assoc. cbn. by rewrite <- app_assoc.
Qed.
Lemma forgotten_now i a h k : (i, a) ∈ h -> forgotten i (h ++ [(k, AStore "")]).
Proof. intros (h1 & h2 & ->)%elem_of_list_split. exists h1, a, h2, k, []. by rewrite <- app_assoc. Qed.

Lemma insert_cases {A} (l : list A) i x j y :
  <[i:=x]> l !! j = Some y -> (i = j /\ y = x) \/ (i <> j /\ l !! j = Some y).
Proof. intros H. apply list_lookup_insert_Some in H as [(-> & -> & _)|[N H]]; [by left|by right]. Qed.

Lemma inv_initial : inv initial.
Proof. split; cbn; intros; try done; try (by left); by apply not_elem_of_nil in H. Qed.

Lemma shape_critical_none header p l : shape header p l -> critical p -> header = None.
Proof. destruct header; [|done]. intros [[-> _]|(r & -> & _)]; done. Qed.

Lemma inv_call s header : inv s -> inv (Sys (s_mem s) (s_calls s ++ [(header, Start header)]) (s_log s)).
Proof.
  intros I.
  assert (L : forall i x, (s_calls s ++ [(header, Start header)]) !! i = Some x ->
              s_calls s !! i = Some x \/ (i = length (s_calls s) /\ x = (header, Start header))).
  { intros i x H. apply lookup_app_Some in H as [H|[G H]]; [by left|right].
    apply list_lookup_singleton_Some in H as [H <-]. split; [lia|done]. }
  split; cbn [s_mem s_calls s_log].
  - intros i h p H. apply L in H as [H|[-> H]]; [by eapply v_shape|]. injection H as -> ->.
    assert (own (length (s_calls s)) (s_log s) = []) as ->.
    { destruct (own (length (s_calls s)) (s_log s)) as [|a l] eqn:E; [done|].
      assert (a ∈ own (length (s_calls s)) (s_log s)) as H by (rewrite E; left).
      apply own_elem, (v_log _ I) in H. lia. }
    destruct header; cbn; auto.
  - intros i a H. rewrite app_length. apply (v_log _ I) in H. lia.
  - intros i h p H. apply L in H as [H|[-> [= -> ->]]]; [by eapply v_lock|done].
  - intros i j hi pi hj pj Hi Hj. apply L in Hi as [Hi|[-> [= -> ->]]]; [|done].
    apply L in Hj as [Hj|[-> [= -> ->]]]; [|done]. by eapply v_mutex.
  - intros H. destruct (v_held _ I H) as (i & h & p & E & P). exists i, h, p. split; [|done]. by apply lookup_app_l_Some.
  - apply v_token, I.
  - intros i h H. apply L in H as [H|[-> [=]]]. by eapply v_ask.
  - intros i h p t H P. apply L in H as [H|[-> [= -> ->]]]; [by eapply v_value|]. by destruct P.
  - intros i t r p H E. pose proof (v_log _ I _ _ H). apply L in E as [E|[-> _]]; [by eapply v_sent|lia].
  - intros i h H. apply L in H as [H|[-> [=]]]. by eapply v_load.
  - intros i h p H P. apply L in H as [H|[-> [= -> ->]]]; [by eapply v_empty|]. by destruct P.
Qed.

(** What a move does to the lock *)
Lemma move_lock p m a p' m' : move p m a p' m' ->
  (~ critical p /\ critical p' /\ m_locked m = false /\ m_locked m' = true) \/
  (critical p /\ critical p' /\ m_locked m' = m_locked m) \/
  (critical p /\ ~ critical p' /\ m_locked m' = false) \/
  (~ critical p /\ ~ critical p' /\ m_locked m' = m_locked m).
Proof.
  intros M; inversion M; subst; cbn; try tauto.
  - right. left. by destruct (token_of r).
  - right. right. left. destruct t; cbn; tauto.
  - right. right. right. destruct (rejects r); cbn; tauto.
Qed.

(** What a move does to the token *)
Lemma move_token p m a p' m' : move p m a p' m' ->
  m_token m' = m_token m \/ (exists t, p = Store t /\ m_token m' = t) \/ (a = AStore "" /\ m_token m' = "").
Proof. intros M; inversion M; subst; cbn; eauto. Qed.

Lemma store_issued s i header t : inv s -> s_calls s !! i = Some (header, Store t) -> issued (s_log s) t /\ t <> "".
Proof.
  intros I E. pose proof (v_shape _ I _ _ _ E) as S.
  rewrite (shape_critical_none _ _ _ S Logic.I) in S. destruct S as (r & T & O).
  split; [|by eapply token_nonempty]. exists i, (request_for C), r. split; [|by apply token_of_gives].
  apply own_elem. rewrite O. right. right. left.
Qed.

Lemma load_began s i header : inv s -> s_calls s !! i = Some (header, Load) -> exists a, (i, a) ∈ s_log s.
Proof.
  intros I E. pose proof (v_shape _ I _ _ _ E) as S.
  rewrite (shape_critical_none _ _ _ S Logic.I) in S. exists AOther. apply own_elem.
  destruct S as [(t & _ & ->)|(r & t & _ & ->)]; left.
Qed.

Lemma inv_move s i header p a p' m' :
  inv s -> s_calls s !! i = Some (header, p) -> move p (s_mem s) a p' m' ->
  inv (Sys m' (<[i := (header, p')]> (s_calls s)) (s_log s ++ [(i, a)])).
Proof.
  intros I E M. pose proof (v_shape _ I _ _ _ E) as S. pose proof (shape_move _ _ _ _ _ _ _ S M) as S'.
  pose proof (move_lock _ _ _ _ _ M) as ML. pose proof (move_token _ _ _ _ _ M) as MT.
  split; cbn [s_mem s_calls s_log].
  - intros j h q H. apply insert_cases in H as [[<- [= -> ->]]|[N H]].
    + by rewrite own_same.
    + rewrite own_other by done. by eapply v_shape.
  - intros j b H. rewrite insert_length. apply elem_of_app in H as [H|H]; [by eapply v_log|].
    apply elem_of_list_singleton in H as [= -> ->]. by eapply lookup_lt_Some.
  - intros j h q H Q. apply insert_cases in H as [[<- [= -> ->]]|[N H]].
    + destruct ML as [(? & ? & ? & ?)|[(? & ? & ->)|[(? & ? & ?)|(? & ? & ?)]]]; try done. by eapply v_lock.
    + pose proof (v_lock _ I _ _ _ H Q) as K.
      destruct ML as [(? & ? & ? & ?)|[(? & ? & ->)|[(P & ? & ?)|(? & ? & ->)]]]; try done.
      destruct N. by eapply v_mutex.
  - intros j k hj pj hk pk Hj Hk Pj Pk.
    assert (X : forall l hl pl, critical p' -> i <> l -> s_calls s !! l = Some (hl, pl) -> critical pl -> i = l).
    { intros l hl pl P' N H P. pose proof (v_lock _ I _ _ _ H P) as K.
      destruct ML as [(? & ? & ? & ?)|[(? & ? & ?)|[(? & ? & ?)|(? & ? & ?)]]]; try done; [congruence|].
      by eapply v_mutex. }
    apply insert_cases in Hj as [[<- [= -> ->]]|[Nj Hj]]; apply insert_cases in Hk as [[<- [= -> ->]]|[Nk Hk]].
    + done.
    + by eapply X.
    + symmetry. by eapply X.
    + by eapply v_mutex.
  - intros K. pose proof (lookup_lt_Some _ _ _ E) as Lt.
    destruct ML as [(? & P' & ? & ?)|[(? & P' & ?)|[(? & ? & ?)|(P & P' & U)]]].
    + exists i, header, p'. split; [|done]. by apply list_lookup_insert.
    + exists i, header, p'. split; [|done]. by apply list_lookup_insert.
    + congruence.
    + rewrite U in K. destruct (v_held _ I K) as (j & h & q & H & Q). exists j, h, q. split; [|done].
      rewrite list_lookup_insert_ne; [done|]. intros ->. congruence.
  - destruct MT as [->|[(t & -> & ->)|[_ ->]]]; [|right|by left].
    + destruct (v_token _ I) as [?|?]; [by left|right]. by apply issued_mono.
    + apply issued_mono. by eapply store_issued.
  - intros j h H. apply insert_cases in H as [[<- [= <- Q]]|[N H]].
    + inversion M; subst; try done; try (by destruct (token_of r)); try (by destruct t); by destruct (rejects r).
    + pose proof (v_ask _ I _ _ H) as K. destruct MT as [->|[(t & -> & ->)|[_ ->]]]; [done| |done].
      destruct N. by eapply v_mutex.
  - intros j h q t H Q. apply insert_cases in H as [[<- [= -> ->]]|[N H]].
    + assert (t = "" \/ issued (s_log s) t) as [?|?]; [|by left|right; by apply issued_mono].
      destruct Q as [-> | ->]; inversion M; subst.
      * apply v_token, I.
      * by destruct (token_of r).
      * by destruct t0.
      * by destruct (rejects r).
      * by destruct (token_of r).
      * destruct t0 as [t0|]; [|done].
        match goal with X : Send _ = Send _ |- _ => injection X as -> end. eapply v_value; [done..|]. by left.
      * by destruct (rejects r).
    + destruct (v_value _ I _ _ _ _ H Q) as [?|?]; [by left|right]. by apply issued_mono.
  - intros j t r q H Q. assert (K : exists q0, s_calls s !! j = Some (None, q0)).
    { apply insert_cases in Q as [[<- [= <- <-]]|[N Q]]; eauto. }
    destruct K as (q0 & K).
    assert (t = "" \/ issued (s_log s) t) as [?|?]; [|by left|right; by apply issued_mono].
    apply elem_of_app in H as [H|H]; [by eapply v_sent|].
    apply elem_of_list_singleton in H as [= -> <-]. rewrite E in K. injection K as -> <-.
    inversion M; subst; [by destruct S|]. eapply (v_value _ I); [done|]. by right.
  - intros j h H T. apply insert_cases in H as [[<- [= <- Q]]|[N H]].
    + inversion M; subst; try done; try (by destruct (token_of r)); try (by destruct t); try (by destruct (rejects r)).
      by destruct (store_issued _ _ _ _ I E).
    + destruct MT as [U|[(t & -> & U)|[-> U]]].
      * apply forgotten_mono. eapply v_load; [done..|]. congruence.
      * destruct (store_issued _ _ _ _ I E) as [_ B]. congruence.
      * destruct (load_began _ _ _ I H) as (b & B). by eapply forgotten_now.
  - intros j h q H Q. apply forgotten_mono. apply insert_cases in H as [[<- [= -> ->]]|[N H]].
    + destruct Q as [-> | ->]; inversion M; subst.
      * eapply v_load; done.
      * by destruct (token_of r).
      * by destruct t.
      * by destruct (rejects r).
      * by destruct (token_of r).
      * destruct t as [t|]; [|done].
        match goal with X : Send _ = Send _ |- _ => injection X as -> end. eapply v_empty; [done..|]. by left.
      * by destruct (rejects r).
    + by eapply v_empty.
Qed.

Lemma inv_step s s' : inv s -> step s s' -> inv s'.
Proof.
  intros I H. destruct H as [m cs h header|m cs h i header p a p' m' E M].
  - by apply (inv_call (Sys m cs h)).
  - by eapply (inv_move (Sys m cs h)).
Qed.
Lemma inv_steps s s' : rtc step s s' -> inv s -> inv s'.
Proof. induction 1; eauto using inv_step. Qed.
Lemma inv_reachable s : reachable s -> inv s.
Proof. intros H. by eapply inv_steps, inv_initial. Qed.

(** ** Counting *)
Definition is_clear (x : nat * act) : bool := match x.2 with AStore t => bool_decide (t = "") | _ => false end.
Definition clears (h : list (nat * act)) : nat := length (filter (fun x => is_clear x = true) h).
Definition is_clearing (x : option (list string) * pc) : bool := match x.2 with Clear _ => true | _ => false end.
Definition clearing (cs : list (option (list string) * pc)) : nat := length (filter (fun x => is_clearing x = true) cs).

Lemma clears_snoc h x : clears (h ++ [x]) = (clears h + if is_clear x then 1 else 0)%nat.
Proof.
  unfold clears. rewrite filter_app, app_length. f_equal. destruct (is_clear x) eqn:E.
  - rewrite filter_cons_True by done. done.
  - rewrite filter_cons_False by congruence. done.
Qed.
Lemma count_insert {A} (f : A -> bool) (l : list A) i x y : l !! i = Some x ->
  (length (filter (fun z => f z = true) (<[i:=y]> l)) + (if f x then 1 else 0) =
   length (filter (fun z => f z = true) l) + (if f y then 1 else 0))%nat.
Proof.
  intros E. pose proof (lookup_lt_Some _ _ _ E) as Lt. rewrite insert_take_drop by done.
  rewrite <- (take_drop_middle l i x E) at 3. rewrite !filter_app, !app_length, !filter_cons.
  destruct (f x), (f y); repeat case_decide; try done; cbn; lia.
Qed.

Definition tokens (h : list (nat * act)) : nat :=
  length (omap (fun x => match x.2 with APost _ r => token_of r | _ => None end) h).
Lemma tokens_snoc h x :
  tokens (h ++ [x]) = (tokens h + match x.2 with APost _ r => if token_of r then 1 else 0 | _ => 0 end)%nat.
Proof.
  unfold tokens. rewrite omap_app, app_length. f_equal. destruct x as [i a]. cbn.
  destruct a; try done. by destruct (token_of r).
Qed.

Lemma rejection_call s header x : inv s -> x ∈ s_log s ->
  rejection (Sys (s_mem s) (s_calls s ++ [(header, Start header)]) (s_log s)) x = rejection s x.
Proof.
  intros I H. destruct x as [i a]. unfold rejection. cbn. rewrite lookup_app_l; [done|]. by eapply v_log.
Qed.
Lemma rejection_move s i header p p' m' h x : s_calls s !! i = Some (header, p) ->
  rejection (Sys m' (<[i:=(header, p')]> (s_calls s)) h) x = rejection s x.
Proof.
  intros E. destruct x as [j a]. unfold rejection. cbn. destruct a; try done.
  destruct (decide (i = j)) as [<-|N].
  - rewrite list_lookup_insert by (by eapply lookup_lt_Some). by rewrite E.
  - by rewrite list_lookup_insert_ne.
Qed.
Lemma filter_same {A} (f g : A -> bool) (l : list A) : (forall x, x ∈ l -> f x = g x) ->
  filter (fun x => f x = true) l = filter (fun x => g x = true) l.
Proof.
  induction l as [|x l IH]; intros H; [done|]. rewrite !filter_cons. rewrite (H x) by left.
  destruct (decide (g x = true)); [f_equal|]; apply IH; intros y Y; apply H; by right.
Qed.

Record counts (s : sys) : Prop := {
  n_most : (tokens (s_log s) <= clears (s_log s) + 1)%nat;
  n_none : m_token (s_mem s) = "" -> (forall i header t, s_calls s !! i <> Some (header, Store t)) ->
             (tokens (s_log s) <= clears (s_log s))%nat;
  n_rejections : rejections s = (clears (s_log s) + clearing (s_calls s))%nat;
}.

Lemma counts_call s header : inv s -> counts s ->
  counts (Sys (s_mem s) (s_calls s ++ [(header, Start header)]) (s_log s)).
Proof.
  intros I N. split; cbn [s_mem s_calls s_log].
  - apply N.
  - intros T S. apply (n_none _ N T). intros i h t E. destruct (S i h t). by apply lookup_app_l_Some.
  - unfold rejections. cbn [s_log].
    rewrite (filter_same _ (rejection s)) by (intros x X; by apply rejection_call).
    fold (rejections s). rewrite (n_rejections _ N). unfold clearing.
    rewrite filter_app, app_length, filter_cons_False by done. cbn. lia.
Qed.

Lemma counts_move s i header p a p' m' :
  inv s -> counts s -> s_calls s !! i = Some (header, p) -> move p (s_mem s) a p' m' ->
  counts (Sys m' (<[i := (header, p')]> (s_calls s)) (s_log s ++ [(i, a)])).
Proof.
  intros I N E M. pose proof (v_shape _ I _ _ _ E) as S.
  pose proof (n_most _ N) as N1. pose proof (n_none _ N) as N2. pose proof (n_rejections _ N) as N3.
  pose proof (lookup_lt_Some _ _ _ E) as Lt.
  assert (NS : critical p -> (forall t, p <> Store t) -> forall j h t, s_calls s !! j <> Some (h, Store t)).
  { intros P NP j h t H. assert (i = j) as <- by (by eapply (v_mutex _ I)). rewrite E in H. injection H as _ ->. by eapply NP. }
  assert (OT : (forall t, p <> Store t) -> (forall j h t, <[i:=(header, p')]> (s_calls s) !! j <> Some (h, Store t)) ->
               forall j h t, s_calls s !! j <> Some (h, Store t)).
  { intros NP H j h t K. destruct (decide (i = j)) as [<-|D].
    - rewrite E in K. injection K as _ ->. by eapply NP.
    - apply (H j h t). by rewrite list_lookup_insert_ne. }
  split; cbn [s_mem s_calls s_log].
  - rewrite tokens_snoc, clears_snoc. cbn [snd].
    inversion M; subst; cbn [is_clear snd]; try lia.
    + pose proof (v_ask _ I _ _ E) as T. specialize (N2 T (NS Logic.I ltac:(done))). destruct (token_of r); lia.
  - rewrite tokens_snoc, clears_snoc. cbn [snd].
    inversion M; subst; cbn [is_clear snd m_token]; intros T K.
    + rewrite Nat.add_0_r. pose proof (N2 T (OT ltac:(done) K)). lia.
    + assert (T0 : m_token (s_mem s) = "") by (match goal with X : _ = s_mem s |- _ => rewrite <- X end; done). pose proof (N2 T0 (OT ltac:(done) K)). lia.
    + pose proof (N2 T (OT ltac:(done) K)). lia.
    + pose proof (N2 T (OT ltac:(done) K)). lia.
    + pose proof (N2 T (OT ltac:(done) K)). lia.
    + pose proof (N2 T (OT ltac:(done) K)). lia.
    + pose proof (N2 T (OT ltac:(done) K)). destruct (token_of r) as [t|] eqn:R; [|lia].
      destruct (K i header t). by apply list_lookup_insert.
    + by destruct (store_issued _ _ _ _ I E).
    + pose proof (N2 T (OT ltac:(done) K)). lia.
    + pose proof (N2 T (OT ltac:(done) K)). lia.
    + rewrite bool_decide_eq_true_2 by done. lia.
  - unfold rejections. cbn [s_log].
    rewrite (filter_same _ (rejection s)) by (intros x _; by apply rejection_move with p).
    rewrite filter_app, app_length. fold (rejections s). rewrite N3, clears_snoc.
    pose proof (count_insert is_clearing (s_calls s) i (header, p) (header, p') E) as CI.
    fold (clearing (s_calls s)) in CI. fold (clearing (<[i:=(header, p')]> (s_calls s))) in CI.
    rewrite filter_cons, filter_nil.
    assert (RJ : rejection s (i, a) = match a, header with ASend _ r, None => rejects r | _, _ => false end).
    { unfold rejection. cbn [fst snd]. rewrite E. destruct a; try done. destruct header; [done|]. by rewrite rejects_rejected. }
    rewrite RJ.
    assert (LN : forall (b : bool) (x : nat * act), length (if decide (b = true) then [x] else []) = if b then 1%nat else 0%nat).
    { intros [] x; by case_decide. }
    rewrite LN. clear LN RJ N1 N2 N3 NS OT N.
    inversion M; subst; cbn [is_clear is_clearing snd] in *; try lia.
    + destruct header; [lia|]. by destruct S.
    + destruct (token_of r); cbn in *; lia.
    + destruct (store_issued _ _ _ _ I E) as [_ B]. rewrite bool_decide_eq_false_2 by done. lia.
    + destruct t; cbn in *; lia.
    + destruct header as [h|]; [by destruct S as [[? _]|(? & ? & _)]|]. destruct (rejects r); cbn in *; lia.
    + rewrite bool_decide_eq_true_2 by done. lia.
Qed.

Lemma counts_steps s s' : rtc step s s' -> inv s -> counts s -> counts s'.
Proof.
  induction 1 as [|s s1 s' H _ IH]; [done|]. intros I N. apply IH; [by eapply inv_step|].
  destruct H as [m cs h header|m cs h i header p a p' m' E M].
  - by apply (counts_call (Sys m cs h)).
  - by eapply (counts_move (Sys m cs h)).
Qed.

Lemma tokens_bound s : reachable s -> (tokens_given json_token s <= 1 + rejections s)%nat.
Proof.
  intros H. assert (N : counts s).
  { eapply counts_steps; [done|apply inv_initial|]. split; cbn; [lia|lia|done]. }
  rewrite (n_rejections _ N). pose proof (n_most _ N). unfold tokens_given. fold (tokens (s_log s)). lia.
Qed.

(** ** How each entry of the history came about *)
Lemma headers_step s s' i header p : step s s' -> s_calls s !! i = Some (header, p) ->
  exists p', s_calls s' !! i = Some (header, p').
Proof.
  intros H E. destruct H as [m cs h header'|m cs h j header' q a q' m' E' M]; cbn in *.
  - exists p. by apply lookup_app_l_Some.
  - destruct (decide (j = i)) as [->|N].
    + rewrite E in E'. injection E' as <- <-. exists q'. apply list_lookup_insert. by eapply lookup_lt_Some.
    + exists p. by rewrite list_lookup_insert_ne.
Qed.

Lemma history s h i a h' : reachable s -> s_log s = h ++ (i, a) :: h' ->
  exists s0 header p p' m', reachable s0 /\ s_log s0 = h /\ s_calls s0 !! i = Some (header, p) /\
    move p (s_mem s0) a p' m' /\ exists q, s_calls s !! i = Some (header, q).
Proof.
  intros R. revert s R h'. apply (rtc_ind_r (fun s => forall h', s_log s = h ++ (i, a) :: h' ->
    exists s0 header p p' m', reachable s0 /\ s_log s0 = h /\ s_calls s0 !! i = Some (header, p) /\
      move p (s_mem s0) a p' m' /\ exists q, s_calls s !! i = Some (header, q))).
  { intros h' L. cbn in L. by destruct h. }
  intros s s' R H IH h' L.
  destruct H as [m cs hh header|m cs hh j header q b q' m' E M]; cbn in L.
  - destruct (IH _ L) as (s0 & hd & p & p' & m' & R0 & L0 & E0 & M0 & q & Q). exists s0, hd, p, p', m'. do 4 (split; [done|]).
    exists q. cbn in *. by apply lookup_app_l_Some.
  - destruct h' as [|x h' _] using rev_ind.
    + apply app_inj_tail in L as [-> [= -> ->]]. exists (Sys m cs h), header, q, q', m'.
      do 4 (split; [done|]). exists q'. cbn. apply list_lookup_insert. by eapply lookup_lt_Some.
    + rewrite app_comm_cons, app_assoc in L. apply app_inj_tail in L as [-> _].
      destruct (IH h' eq_refl) as (s0 & hd & p & p' & m0 & R0 & L0 & E0 & M0 & q0 & Q).
      exists s0, hd, p, p', m0. do 4 (split; [done|]). cbn in *. destruct (decide (j = i)) as [->|N].
      * rewrite E in Q. injection Q as <- <-. exists q'. apply list_lookup_insert. by eapply lookup_lt_Some.
      * exists q0. by rewrite list_lookup_insert_ne.
Qed.

Lemma shape_load_stores l t : shape_load l -> AStore t ∈ l -> t <> "" /\ exists r, APost (request_for C) r ∈ l /\ token_of r = Some t.
Proof.
  intros [(t' & N & ->)|(r & t' & R & ->)] H.
  - set_solver.
  - assert (t = t') as -> by set_solver. split; [by eapply token_nonempty|]. exists r. split; [|done]. set_solver.
Qed.
Lemma shape_fail_stores l t : shape_fail l -> AStore t ∉ l.
Proof. intros [(_ & ->)|(r & R & ->)] H; set_solver. Qed.
Lemma shape_load_sends l hd r : shape_load l -> ASend hd r ∉ l.
Proof. intros [(t' & N & ->)|(r' & t' & R & ->)] H; set_solver. Qed.
Lemma shape_fail_sends l hd r : shape_fail l -> ASend hd r ∉ l.
Proof. intros [(_ & ->)|(r' & R & ->)] H; set_solver. Qed.

(** A store was of a token that was asked for, or follows a refusal and ends the call *)
Lemma shape_store header p l t : shape header p l -> AStore t ∈ l ->
  header = None /\
  ((t <> "" /\ exists r, APost (request_for C) r ∈ l /\ token_of r = Some t) \/
   (t = "" /\ exists t' r, p = Done r /\ ASend (Some [t']) r ∈ l /\ rejects r = true)).
Proof.
  intros S H. destruct header as [h|].
  { destruct S as [[-> ->]|(r & -> & ->)]; set_solver. }
  split; [done|]. destruct p as [o| | | |t0|[t0|]|t0|r|r]; cbn in S.
  - destruct S as [_ ->]. set_solver.
  - subst l. set_solver.
  - left. by apply shape_load_stores.
  - subst l. set_solver.
  - destruct S as (r & _ & ->). set_solver.
  - destruct S as (l0 & S & ->). apply elem_of_app in H as [H|H]; [|set_solver].
    left. destruct (shape_load_stores _ _ S H) as (N & r & P & T). split; [done|]. exists r. set_solver.
  - by destruct (shape_fail_stores _ t S).
  - destruct S as (l0 & S & ->). apply elem_of_app in H as [H|H]; [|set_solver].
    left. destruct (shape_load_stores _ _ S H) as (N & r & P & T). split; [done|]. exists r. set_solver.
  - destruct S as (R & l0 & t1 & S & ->). apply elem_of_app in H as [H|H]; [|set_solver].
    left. destruct (shape_load_stores _ _ S H) as (N & r' & P & T). split; [done|]. exists r'. set_solver.
  - destruct S as [(_ & l0 & S & ->)|(l0 & t1 & S & ->)].
    + apply elem_of_app in H as [H|H]; [|set_solver]. by destruct (shape_fail_stores _ t S).
    + apply elem_of_app in H as [H|H].
      * left. destruct (shape_load_stores _ _ S H) as (N & r' & P & T). split; [done|]. exists r'. set_solver.
      * right. destruct (rejects r) eqn:R; [|set_solver]. assert (t = "") as -> by set_solver.
        split; [done|]. exists t1, r. split; [done|]. split; [|done]. set_solver.
Qed.

Lemma store_in_log s i t : inv s -> (i, AStore t) ∈ s_log s ->
  (t <> "" /\ exists r, (i, APost (request_for C) r) ∈ s_log s /\ token_of r = Some t) \/
  (t = "" /\ over s i /\ exists t' r, (i, ASend (Some [t']) r) ∈ s_log s /\ rejected r).
Proof.
  intros I H. pose proof (v_log _ I _ _ H) as L. apply lookup_lt_is_Some in L as [[header p] E].
  pose proof (v_shape _ I _ _ _ E) as S. apply own_elem in H.
  destruct (shape_store _ _ _ _ S H) as [-> [(N & r & P & T)|(-> & t' & r & -> & P & R)]].
  - left. split; [done|]. exists r. split; [|done]. by apply own_elem.
  - right. split; [done|]. split; [by exists None, r|]. exists t', r. split; [by apply own_elem|].
    rewrite rejects_rejected in R. by apply bool_decide_eq_true in R.
Qed.

Lemma sent_header s h i t r h' : reachable s -> s_log s = h ++ (i, ASend (Some [t]) r) :: h' -> needs_token s i ->
  issued h t \/ (t = "" /\ interfered i h).
Proof.
  intros R L [q0 Q0]. destruct (history _ _ _ _ _ R L) as (s0 & header & p & p' & m' & R0 & <- & E & M & q & Q).
  rewrite Q0 in Q. injection Q as <- <-. pose proof (inv_reachable _ R0) as I.
  inversion M; subst.
  { by destruct (v_shape _ I _ _ _ E). }
  destruct (v_value _ I _ _ _ t E) as [-> |?]; [by right| |by left]. right. split; [done|].
  destruct (v_empty _ I _ _ _ E) as (h1 & a & h2 & k & h3 & L0); [by right|].
  exists h1, a, h2, k, h3. split; [done|].
  destruct (store_in_log s0 k "" I) as [[? _]|(_ & O & t' & r' & X & Y)]; [|done|].
  { rewrite L0. set_solver. }
  split; [|eauto]. intros ->. destruct O as (hd & r0 & O). congruence.
Qed.

(** ** Whole calls *)
Lemma given_requests s i h r : reachable s -> s_calls s !! i = Some (Some h, Done r) -> requests i s = [ASend (Some h) r].
Proof.
  intros R E. pose proof (v_shape _ (inv_reachable _ R) _ _ _ E) as S. unfold requests.
  destruct S as [[? _]|(r' & [= <-] & ->)]; done.
Qed.

Lemma own_requests s i r : reachable s -> s_calls s !! i = Some (None, Done r) ->
  (cf_addr_ok C = false /\ r = None /\ requests i s = []) \/
  (exists r0, (~ exists t, gives json_token r0 t) /\ r = None /\ requests i s = [APost (request_for C) r0]) \/
  (exists t, requests i s = [ASend (Some [t]) r]) \/
  (exists r0 t0 t, gives json_token r0 t0 /\ requests i s = [APost (request_for C) r0; ASend (Some [t]) r]).
Proof.
  intros R E. pose proof (v_shape _ (inv_reachable _ R) _ _ _ E) as S. unfold requests.
  destruct S as [(-> & l0 & F & ->)|(l0 & t & F & ->)].
  - destruct F as [(A & ->)|(r0 & T & ->)]; [by left|]. right. left. exists r0. split; [|done].
    intros (t & G). apply token_of_gives in G. congruence.
  - right. right. rewrite !filter_app. destruct F as [(t0 & N & ->)|(r0 & t0 & T & ->)].
    + left. exists t. by destruct (rejects r).
    + right. exists r0, t0, t. split; [by apply token_of_gives|]. by destruct (rejects r).
Qed.

Lemma shape_length header p l : shape header p l -> (length l <= 8)%nat.
Proof.
  assert (FL : forall l, shape_load l -> (length l <= 4)%nat) by (intros ? [(? & ? & ->)|(? & ? & ? & ->)]; cbn; lia).
  assert (FF : forall l, shape_fail l -> (length l <= 3)%nat) by (intros ? [(? & ->)|(? & ? & ->)]; cbn; lia).
  intros S. destruct header as [h|].
  { destruct S as [[-> ->]|(r & -> & ->)]; cbn; lia. }
  destruct p as [o| | | |t0|[t0|]|t0|r|r]; cbn in S.
  - destruct S as [_ ->]. cbn. lia.
  - subst l. cbn; lia.
  - apply FL in S. lia.
  - subst l. cbn; lia.
  - destruct S as (r & _ & ->). cbn; lia.
  - destruct S as (l0 & S & ->). apply FL in S. rewrite app_length. cbn. lia.
  - apply FF in S. lia.
  - destruct S as (l0 & S & ->). apply FL in S. rewrite app_length. cbn. lia.
  - destruct S as (R & l0 & t1 & S & ->). apply FL in S. rewrite app_length. cbn. lia.
  - destruct S as [(_ & l0 & S & ->)|(l0 & t1 & S & ->)].
    + apply FF in S. rewrite app_length. cbn. lia.
    + apply FL in S. rewrite !app_length. destruct (rejects r); cbn; lia.
Qed.
Lemma bounded s i : reachable s -> (length (own i (s_log s)) <= 8)%nat.
Proof.
  intros R. pose proof (inv_reachable _ R) as I. destruct (own i (s_log s)) as [|a l] eqn:O; [cbn; lia|].
  assert (H : (i, a) ∈ s_log s) by (apply own_elem; rewrite O; left).
  apply (v_log _ I) in H. apply lookup_lt_is_Some in H as [[header p] E]. rewrite <- O.
  eapply shape_length, (v_shape _ I), E.
Qed.

(** ** Progress *)
Lemma can_move p m : (forall r, p <> Done r) -> (p = Start None -> m_locked m = false) ->
  exists a p' m', move p m a p' m'.
Proof.
  intros D K. destruct p as [[h|]| | | |t|t|t|r|r].
  - exists (ASend (Some h) None). eexists _, _. constructor.
  - destruct m as [lk tk]. cbn in K. rewrite (K eq_refl). eexists _, _, _. constructor.
  - destruct (decide (m_token m = "")); eexists _, _, _; [by apply m_have_not|by apply m_have].
  - eexists _, _, _. apply m_load.
  - destruct (cf_addr_ok C) eqn:A; [|eexists _, _, _; by apply m_bad_addr].
    exists (APost (request_for C) None). eexists _, _. by apply m_post.
  - eexists _, _, _. apply m_store.
  - eexists _, _, _. apply m_unlock.
  - exists (ASend (Some [t]) None). eexists _, _. apply m_send.
  - eexists _, _, _. apply m_clear.
  - by destruct (D r).
Qed.
Lemma not_over_pc s i header p : s_calls s !! i = Some (header, p) -> ~ over s i -> forall r, p <> Done r.
Proof. intros E N r ->. apply N. by exists header, r. Qed.

Lemma progress s i : reachable s -> (i < length (s_calls s))%nat -> ~ over s i ->
  exists k a m' cs', ~ over s k /\ step s (Sys m' cs' (s_log s ++ [(k, a)])).
Proof.
  intros R L N. pose proof (inv_reachable _ R) as I. destruct s as [m cs h]. cbn in L.
  apply lookup_lt_is_Some in L as [[header p] E].
  assert (X : forall k hd q, cs !! k = Some (hd, q) -> ~ over (Sys m cs h) k -> (q = Start None -> m_locked m = false) ->
              exists k a m' cs', ~ over (Sys m cs h) k /\ step (Sys m cs h) (Sys m' cs' (h ++ [(k, a)]))).
  { intros k hd q Q O W. destruct (can_move q m) as (a & q' & m' & M); [by eapply (not_over_pc (Sys m cs h))|done|].
    exists k, a, m', (<[k := (hd, q')]> cs). split; [done|]. by eapply step_move. }
  destruct (m_locked m) eqn:K; [|by eapply X].
  destruct (v_held _ I K) as (k & hd & q & Q & P). cbn in Q. eapply X; [done| |].
  - intros (hd' & r & O). cbn in O. rewrite Q in O. injection O as -> ->. done.
  - by intros ->.
Qed.

(** ** A refused token is given up *)
Lemma over_step s s' i : step s s' -> over s i -> over s' i.
Proof.
  intros H (header & r & E). destruct H as [m cs h header'|m cs h j header' q a q' m' E' M]; cbn in *.
  - exists header, r. by apply lookup_app_l_Some.
  - exists header, r. cbn. destruct (decide (j = i)) as [->|N]; [|by rewrite list_lookup_insert_ne].
    rewrite E in E'. injection E' as <- <-. inversion M.
Qed.

Record fresh (s1 s : sys) : Prop := {
  f_log : exists h2, s_log s = s_log s1 ++ h2;
  f_calls : (length (s_calls s1) <= length (s_calls s))%nat;
  f_over : forall k, over s1 k -> over s k;
  f_token : m_token (s_mem s) = "" \/ exists k, ~ over s1 k /\ (k, AStore (m_token (s_mem s))) ∈ s_log s;
  f_value : forall j header p t, (length (s_calls s1) <= j)%nat -> s_calls s !! j = Some (header, p) ->
              p = Unlock (Some t) \/ p = Send t -> t = "" \/ exists k, ~ over s1 k /\ (k, AStore t) ∈ s_log s;
  f_sent : forall j p t r, (length (s_calls s1) <= j)%nat -> s_calls s !! j = Some (None, p) ->
              (j, ASend (Some [t]) r) ∈ s_log s -> t = "" \/ exists k, ~ over s1 k /\ (k, AStore t) ∈ s_log s;
}.

Lemma fresh_step s1 s s' : inv s -> fresh s1 s -> step s s' -> fresh s1 s'.
Proof.
  intros I F H. destruct F as [[h2 F1] F2 F3 F4 F5 F6]. assert (FO : forall k, over s1 k -> over s' k) by eauto using over_step.
  destruct H as [m cs h header|m cs h i header p a p' m' E M]; cbn in *.
  - split; cbn [s_mem s_calls s_log]; try done.
    + by exists h2.
    + rewrite app_length. lia.
    + intros j hd q t J H Q. apply lookup_app_Some in H as [H|[_ H]]; [by eapply F5|].
      apply list_lookup_singleton_Some in H as [_ [= <- <-]]. by destruct Q.
    + intros j q t r J H Q. pose proof (v_log _ I _ _ Q) as L. cbn in L. rewrite lookup_app_l in H by done. by eapply F6.
  - assert (NO : ~ over s1 i).
    { intros O. apply F3 in O as (hd & r & O). cbn in O. rewrite E in O. injection O as -> ->. inversion M. }
    assert (MO : forall t, (exists k, ~ over s1 k /\ (k, AStore t) ∈ h) -> exists k, ~ over s1 k /\ (k, AStore t) ∈ h ++ [(i, a)]).
    { intros t (k & O & K). exists k. split; [done|]. apply elem_of_app. by left. }
    split; cbn [s_mem s_calls s_log]; try done.
    + exists (h2 ++ [(i, a)]). rewrite F1. by rewrite app_assoc.
    + by rewrite insert_length.
    + destruct (move_token _ _ _ _ _ M) as [->|[(t & -> & U)|[_ ->]]]; [|right|by left].
      * destruct F4 as [?|F4]; [by left|right; by apply MO].
      * exists i. split; [done|]. inversion M; subst. cbn. apply elem_of_app. right. left.
    + intros j hd q t J H Q. assert (t = "" \/ exists k, ~ over s1 k /\ (k, AStore t) ∈ h) as [?|?]; [|by left|right; by apply MO].
      apply insert_cases in H as [[<- [= -> ->]]|[N H]]; [|by eapply F5].
      destruct Q as [-> | ->]; inversion M; subst.
      * done.
      * by destruct (token_of r).
      * by destruct t0.
      * by destruct (rejects r).
      * by destruct (token_of r).
      * destruct t0 as [t0|]; [|done].
        match goal with X : Send _ = Send _ |- _ => injection X as -> end. eapply F5; [done..|]. by left.
      * by destruct (rejects r).
    + intros j q t r J H Q. assert (t = "" \/ exists k, ~ over s1 k /\ (k, AStore t) ∈ h) as [?|?]; [|by left|right; by apply MO].
      assert (K : exists q0, cs !! j = Some (None, q0)) by (apply insert_cases in H as [[<- [= <- <-]]|[N H]]; eauto).
      destruct K as (q0 & K). apply elem_of_app in Q as [Q|Q]; [by eapply F6|].
      apply elem_of_list_singleton in Q as [= -> <-]. rewrite E in K. injection K as -> <-.
      inversion M; subst; [by destruct (v_shape _ I _ _ _ E)|]. eapply F5; [done..|]. by right.
Qed.

Lemma fresh_steps s1 s s' : rtc step s s' -> inv s -> fresh s1 s -> fresh s1 s'.
Proof. induction 1; eauto using inv_step, fresh_step. Qed.

(** The step that ends a refused call forgets the token *)
Lemma refused_end s s1 i p hd r : inv s -> step s s1 -> s_calls s !! i = Some (None, p) -> ~ over s i -> over s1 i ->
  (i, ASend hd r) ∈ s_log s1 -> rejected r -> m_token (s_mem s1) = "".
Proof.
  intros I H E N O Q J. destruct H as [m cs h header|m cs h j header q a q' m' E' M]; cbn in *.
  { destruct N. destruct O as (hd' & r' & O). cbn in O. rewrite lookup_app_l in O by (by eapply lookup_lt_Some).
    by exists hd', r'. }
  destruct (decide (j = i)) as [->|D].
  2:{ destruct N. destruct O as (hd' & r' & O). cbn in O. rewrite list_lookup_insert_ne in O by done. by exists hd', r'. }
  rewrite E in E'. injection E' as <- <-. destruct O as (hd' & r' & O). cbn in O.
  rewrite list_lookup_insert in O by (by eapply lookup_lt_Some). injection O as <- ->.
  pose proof (v_shape _ I _ _ _ E) as S. cbn [s_log] in S. apply own_elem in Q. rewrite own_same in Q.
  remember (own i h) as l eqn:Hl. clear Hl.
  inversion M; subst; cbn in S.
  - by destruct S.
  - by destruct (token_of r0).
  - destruct t; [done|]. apply elem_of_app in Q as [Q|Q]; [|set_solver]. by destruct (shape_fail_sends _ hd r S).
  - match goal with X : (if rejects ?r then _ else _) = _ |- _ => destruct (rejects r) eqn:RJ; [done|] end.
    destruct S as (l0 & S & ->). rewrite <- app_assoc in Q. apply elem_of_app in Q as [Q|Q].
    + by destruct (shape_load_sends _ hd r S).
    + assert (r = r0) as -> by set_solver. rewrite rejects_rejected in RJ. by apply bool_decide_eq_false in RJ.
  - done.
Qed.

Lemma given_up s s1 s' i p hd r j p' t r' :
  reachable s -> step s s1 -> s_calls s !! i = Some (None, p) -> ~ over s i -> over s1 i ->
  (i, ASend hd r) ∈ s_log s1 -> rejected r ->
  rtc step s1 s' -> (length (s_calls s1) <= j)%nat -> s_calls s' !! j = Some (None, p') ->
  (j, ASend (Some [t]) r') ∈ s_log s' -> t <> "" ->
  exists k r0, ~ over s1 k /\ (k, APost (request_for C) r0) ∈ s_log s' /\ gives json_token r0 t.
Proof.
  intros R H E N O Q J RS L E' Q' T. pose proof (inv_reachable _ R) as I. pose proof (inv_step _ _ I H) as I1.
  pose proof (inv_steps _ _ RS I1) as I'.
  assert (F : fresh s1 s').
  { eapply fresh_steps; [done..|]. split; try done.
    - exists []. by rewrite app_nil_r.
    - left. eapply (refused_end s s1 i); done.
    - intros k hk q t0 K X. apply lookup_lt_Some in X. lia.
    - intros k q t0 r0 K X. apply lookup_lt_Some in X. lia. }
  destruct (f_sent _ _ F _ _ _ _ L E' Q') as [->|(k & NO & K)]; [done|].
  destruct (store_in_log _ _ _ I' K) as [(_ & r0 & P & G)|[-> _]]; [|done].
  exists k, r0. split; [done|]. split; [done|]. by apply token_of_gives.
Qed.

(** ** Credentials *)
Lemma request_presents : presents C (request_for C).
Proof.
  unfold presents, request_for. destruct (bool_decide (cf_username C = "")).
  - cbn. split; [done|]. rewrite parse_encode.
    + unfold vset. rewrite insert_empty. apply map_eq. intros k.
      destruct (decide (k = "grant_type")) as [->|]; [by simplify_map_eq|].
      destruct (decide (k = "client_id")) as [->|]; by simplify_map_eq.
    + by repeat apply vset_nonempty.
  - cbn. split; [done|]. rewrite parse_encode.
    + unfold vset. apply map_eq. intros k.
      destruct (decide (k = "password")) as [->|]; [by simplify_map_eq|].
      destruct (decide (k = "username")) as [->|]; [by simplify_map_eq|].
      destruct (decide (k = "grant_type")) as [->|]; [by simplify_map_eq|].
      destruct (decide (k = "client_secret")) as [->|]; [by simplify_map_eq|].
      destruct (decide (k = "client_id")) as [->|]; by simplify_map_eq.
    + by repeat apply vset_nonempty.
Qed.
Lemma posts_present s i q r : reachable s -> (i, APost q r) ∈ s_log s -> presents C q.
Proof.
  intros R (h & h' & L)%elem_of_list_split.
  destruct (history _ _ _ _ _ R L) as (s0 & header & p & p' & m' & R0 & L0 & E & M & q0 & Q).
  inversion M; subst. apply request_presents.
Qed.
End Proofs.
