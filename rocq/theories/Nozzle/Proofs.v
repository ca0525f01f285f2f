(** Proofs about the ring buffer. *)
From stdpp Require Import prelude gmap sorting.
From Coq Require Import NArith.
From Verif.Nozzle Require Import Spec Model.
Open Scope nat_scope.

Lemma mod_same_close (n a b : N) :
  (0 < n -> a `mod` n = b `mod` n -> a <= b -> b - a < n -> a = b)%N.
Proof.
  intros Hn Hm Hle Hlt.
  pose proof (N.div_mod a n ltac:(lia)) as Ha.
  pose proof (N.div_mod b n ltac:(lia)) as Hb.
  rewrite Hm in Ha.
  assert (a / n <= b / n)%N by (apply N.div_le_mono; lia).
  assert (Hd : (b / n = a / n \/ a / n + 1 <= b / n)%N) by lia.
  destruct Hd as [Hd|Hd]; [rewrite Hd in Hb; lia|].
  assert (n * (a / n + 1) <= n * (b / n))%N by (apply N.mul_le_mono_l; exact Hd).
  lia.
Qed.

Section Diode.
Context {A : Type}.
Implicit Types (d : diode A) (xs : list A).

(** [xs] is everything that was put. *)
Record dinv (n : N) (xs : list A) d : Prop := {
  di_w : d_w d = N.of_nat (length xs);
  di_r : (d_r d <= d_w d)%N;
  di_slot : forall i q x, d_buf d !! i = Some (q, x) ->
      (q < d_w d /\ q `mod` n = i /\ d_w d - q <= n)%N /\ xs !! N.to_nat q = Some x;
  di_live : forall k x, xs !! N.to_nat k = Some x -> (d_r d <= k -> d_w d - k <= n ->
      d_buf d !! (k `mod` n) = Some (k, x))%N
}.

Lemma dinv_new n : dinv n [] (@diode_new A).
Proof.
  split; cbn; [done|lia| |].
  - intros i q x H. by rewrite lookup_empty in H.
  - intros k x H. by rewrite lookup_nil in H.
Qed.

Lemma dinv_set n xs d x : (0 < n)%N -> dinv n xs d -> dinv n (xs ++ [x]) (diode_set n d x).
Proof.
  intros Hn [Hw Hr Hs Hl]. split; cbn.
  - rewrite app_length; cbn. lia.
  - lia.
  - intros i q y H. destruct (decide (i = (d_w d `mod` n)%N)) as [->|Hne].
    + rewrite lookup_insert in H. injection H as <- <-. split; [lia|].
      rewrite Hw, Nat2N.id, lookup_app_r, Nat.sub_diag by lia. done.
    + rewrite lookup_insert_ne in H by done. destruct (Hs _ _ _ H) as [(H1 & H2 & H3) H4].
      split; [|by apply lookup_app_l_Some].
      split; [lia|]. split; [done|].
      destruct (N.le_gt_cases (d_w d + 1 - q) n) as [?|Hgt]; [done|].
      exfalso. apply Hne. subst i.
      assert (Hqn : (d_w d = q + 1 * n)%N) by lia.
      rewrite Hqn. by rewrite N.mod_add by lia.
  - intros k y H Hk Hkn. apply lookup_app_Some in H as [H|[Hge H]].
    + pose proof (lookup_lt_Some _ _ _ H) as Hlt.
      rewrite lookup_insert_ne; [apply Hl; [done|lia|lia]|].
      intros He. assert (k = d_w d) by (apply (mod_same_close n); [lia|done|lia|lia]). lia.
    + assert (Hi : N.to_nat k - length xs = 0).
      { apply lookup_lt_Some in H. cbn in H. lia. }
      rewrite Hi in H. cbn in H. injection H as <-.
      assert (k = d_w d) as -> by lia. by rewrite lookup_insert.
Qed.

(** What TryNext does, in terms of the values not yet consumed. *)
Lemma dinv_try n xs d d' o a :
  (0 < n)%N -> dinv n xs d -> diode_try n d = (d', o, a) ->
  dinv n xs d' /\
  ((d_r d = d_w d /\ o = None /\ a = None /\ d_r d' = d_r d) \/
   (exists x k, (d_r d < d_w d)%N /\ k = (n * ((d_w d - 1 - d_r d) / n))%N /\
      o = Some x /\ xs !! N.to_nat (d_r d + k) = Some x /\
      a = (if (k =? 0)%N then None else Some k) /\ d_r d' = (d_r d + k + 1)%N)).
Proof.
  intros Hn Hi. pose proof Hi as [Hw Hr Hs Hl]. unfold diode_try.
  destruct (N.eq_dec (d_r d) (d_w d)) as [He|Hne].
  - destruct (d_buf d !! (d_r d `mod` n)%N) as [[q x]|] eqn:Hb.
    + destruct (Hs _ _ _ Hb) as [(H1 & H2 & H3) H4].
      assert (Hq : (q <? d_r d)%N = true) by (apply N.ltb_lt; lia). rewrite Hq.
      intros [= <- <- <-]. split; [|left; done].
      split; cbn; [done|done| |].
      * intros i q' x' H. apply lookup_delete_Some in H as [_ H]. by apply Hs.
      * intros k y Hy Hk. apply lookup_lt_Some in Hy. exfalso; lia.
    + intros [= <- <- <-]. split; [done|]. by left.
  - assert (Hlt : (d_r d < d_w d)%N) by lia.
    remember ((d_w d - 1 - d_r d) / n)%N as t eqn:Et.
    assert (Hdiv : (d_w d - 1 - d_r d = n * t + (d_w d - 1 - d_r d) `mod` n)%N)
      by (rewrite Et; apply N.div_mod; lia).
    assert (Hrem : ((d_w d - 1 - d_r d) `mod` n < n)%N) by (apply N.mod_lt; lia).
    remember ((d_w d - 1 - d_r d) `mod` n)%N as m eqn:Em. clear Em.
    remember (n * t)%N as nt eqn:Ent.
    set (s := (d_r d + nt)%N).
    assert (Hsw : (s < d_w d /\ d_w d - s <= n)%N) by (subst s; lia).
    destruct (lookup_lt_is_Some_2 xs (N.to_nat s) ltac:(lia)) as [x Hx].
    assert (Hb : d_buf d !! (d_r d `mod` n)%N = Some (s, x)).
    { replace (d_r d `mod` n)%N with (s `mod` n)%N; [apply Hl; [done|subst s; lia|lia]|].
      subst s. rewrite Ent, (N.mul_comm n t). apply N.mod_add. lia. }
    rewrite Hb.
    assert (Hq : (s <? d_r d)%N = false) by (apply N.ltb_ge; subst s; lia). rewrite Hq.
    assert (Hdel : dinv n xs (Diode (delete (d_r d `mod` n)%N (d_buf d)) (d_w d) (s + 1))).
    { split; cbn; [done|lia| |].
      - intros i q' x' H. apply lookup_delete_Some in H as [_ H]. by apply Hs.
      - intros k y Hy Hk Hkn. rewrite lookup_delete_ne; [apply Hl; [done|subst s; lia|done]|].
        intros Heq. apply lookup_lt_Some in Hy.
        assert (s = k); [|lia].
        apply (mod_same_close n); [done| |lia|lia].
        rewrite <- Heq. subst s. rewrite Ent, (N.mul_comm n t). apply N.mod_add. lia. }
    destruct (d_r d <? s)%N eqn:Hrs.
    + apply N.ltb_lt in Hrs. intros [= <- <- <-]. split; [done|]. right.
      exists x, nt. split; [done|]. split; [by rewrite Ent, Et|]. split; [done|]. split; [done|].
      split; [|subst s; cbn; lia].
      destruct (nt =? 0)%N eqn:H0; [apply N.eqb_eq in H0; subst s; lia|].
      f_equal. subst s. lia.
    + apply N.ltb_ge in Hrs. intros [= <- <- <-].
      assert (Hs0 : s = d_r d) by (subst s; lia).
      rewrite Hs0 in Hdel. split; [exact Hdel|]. right.
      exists x, nt. split; [done|]. split; [by rewrite Ent, Et|]. split; [done|]. split; [done|].
      split; [|cbn; subst s; lia].
      destruct (nt =? 0)%N eqn:H0; [done|]. apply N.eqb_neq in H0. subst s; lia.
Qed.

Lemma try_none n xs d : (0 < n)%N -> dinv n xs d ->
  ((diode_try n d).1.2 = None <-> d_r d = d_w d).
Proof.
  intros Hn Hi. destruct (diode_try n d) as [[d' o] a] eqn:Ht.
  destruct (dinv_try n xs d d' o a Hn Hi Ht) as [_ [(H1 & H2 & _)|(x & k & H1 & _ & H2 & _)]]; cbn.
  - subst; done.
  - subst; split; [done|lia].
Qed.

Lemma explains_app xs os (ys : list A) os' :
  explains xs os -> explains ys os' -> explains (xs ++ ys) (os ++ os').
Proof.
  induction 1 as [|x xs os H IH|l k xs os Hk H IH]; intros Hy; cbn; [done| |].
  - constructor; auto.
  - rewrite <- app_assoc. constructor; auto.
Qed.

Lemma got_app (os os' : list (obs A)) : got (os ++ os') = got os ++ got os'.
Proof. induction os as [|[x|k] os IH]; cbn; [done|by rewrite IH|done]. Qed.
Lemma dropped_app (os os' : list (obs A)) : dropped (os ++ os') = (dropped os + dropped os')%N.
Proof. induction os as [|[x|k] os IH]; cbn; [done|done|rewrite IH; lia]. Qed.
Lemma explains_length xs os : explains xs os ->
  N.of_nat (length xs) = (N.of_nat (length (got os)) + dropped os)%N.
Proof.
  induction 1 as [|x xs os H IH|l k xs os Hk H IH]; cbn; [done|lia|].
  rewrite app_length. lia.
Qed.
Lemma explains_none xs os : explains xs os -> dropped os = 0%N -> got os = xs.
Proof.
  induction 1 as [|x xs os H IH|l k xs os Hk H IH]; cbn; intros Hd; [done|by rewrite IH|].
  destruct l; cbn in *; [|lia]. apply IH. lia.
Qed.
Lemma explains_sublist xs os : explains xs os -> sublist (got os) xs.
Proof.
  induction 1 as [|x xs os H IH|l k xs os Hk H IH]; cbn; [done|by constructor|].
  by apply sublist_inserts_l.
Qed.

(** The observations of one TryNext. *)
Definition seen_by (o : option A) (a : option N) : list (obs A) :=
  match a with Some k => [Dropped k] | None => [] end ++
  match o with Some x => [Got x] | None => [] end.

Lemma try_explains n xs d d' o a :
  (0 < n)%N -> dinv n xs d -> diode_try n d = (d', o, a) ->
  exists seen, explains seen (seen_by o a) /\
    drop (N.to_nat (d_r d)) xs = seen ++ drop (N.to_nat (d_r d')) xs.
Proof.
  intros Hn Hi Ht. pose proof (di_w _ _ _ Hi) as Hw.
  destruct (dinv_try n xs d d' o a Hn Hi Ht) as [_ [(H1 & -> & -> & H4)|(x & k & H1 & H2 & -> & Hx & -> & H5)]].
  - exists []. split; [constructor|]. by rewrite H4.
  - exists (take (N.to_nat k) (drop (N.to_nat (d_r d)) xs) ++ [x]). split.
    + unfold seen_by. destruct (k =? 0)%N eqn:Hk.
      * apply N.eqb_eq in Hk. rewrite Hk. cbn [N.to_nat]. rewrite take_0.
        apply ex_got, ex_nil.
      * apply ex_dropped; [|apply ex_got, ex_nil].
        rewrite take_length, drop_length.
        apply lookup_lt_Some in Hx. lia.
    + rewrite H5.
      replace (N.to_nat (d_r d + k + 1)) with (S (N.to_nat (d_r d + k))) by lia.
      replace (N.to_nat (d_r d + k)) with (N.to_nat (d_r d) + N.to_nat k) in * by lia.
      rewrite <- app_assoc. cbn [app].
      rewrite <- (drop_S xs x _ Hx), <- drop_drop, take_drop. done.
Qed.

Lemma run_explains n : (0 < n)%N -> forall ops xs d d' os,
  dinv n xs d -> diode_run n d ops = (d', os) ->
  dinv n (xs ++ puts ops) d' /\
  exists seen, explains seen os /\
    drop (N.to_nat (d_r d)) (xs ++ puts ops) = seen ++ drop (N.to_nat (d_r d')) (xs ++ puts ops).
Proof.
  intros Hn. induction ops as [|[x|] ops IH]; intros xs d d' os Hi; cbn [diode_run puts].
  - intros [= <- <-]. rewrite app_nil_r. split; [done|]. exists []. split; [constructor|done].
  - intros Hr. apply (IH (xs ++ [x])) in Hr; [|by apply dinv_set].
    rewrite <- app_assoc in Hr. exact Hr.
  - destruct (diode_try n d) as [[d1 o] a] eqn:Ht.
    destruct (diode_run n d1 ops) as [d2 os2] eqn:Hr. intros [= <- <-].
    destruct (dinv_try n xs d d1 o a Hn Hi Ht) as [Hi1 Hc].
    destruct (IH xs d1 d2 os2 Hi1 Hr) as [Hi2 (seen2 & He2 & Hd2)].
    split; [done|].
    destruct (try_explains n xs d d1 o a Hn Hi Ht) as (seen1 & He1 & Hd1).
    exists (seen1 ++ seen2). split.
    + rewrite app_assoc. apply (explains_app seen1 (seen_by o a)); done.
    + rewrite <- app_assoc, <- Hd2.
      rewrite drop_app_le by (pose proof (di_w _ _ _ Hi); pose proof (di_r _ _ _ Hi); lia).
      rewrite Hd1, <- app_assoc.
      rewrite drop_app_le by (pose proof (di_w _ _ _ Hi1); pose proof (di_r _ _ _ Hi1); lia).
      done.
Qed.

Lemma run_accounting n ops d os :
  (0 < n)%N -> diode_run n diode_new ops = (d, os) ->
  exists seen rest, puts ops = seen ++ rest /\ explains seen os /\
    ((diode_try n d).1.2 = None <-> rest = []).
Proof.
  intros Hn Hr.
  destruct (run_explains n Hn ops [] diode_new d os (dinv_new n) Hr) as [Hi (seen & He & Hd)].
  cbn in Hi, Hd. exists seen, (drop (N.to_nat (d_r d)) (puts ops)).
  split; [done|]. split; [done|].
  rewrite (try_none n _ d Hn Hi).
  pose proof (di_w _ _ _ Hi). pose proof (di_r _ _ _ Hi). split.
  - intros ->. apply nil_length_inv. rewrite drop_length. lia.
  - intros H1. apply (f_equal length) in H1. rewrite drop_length in H1. cbn in H1. lia.
Qed.

(** Nothing is lost while the consumer keeps up. *)
Lemma run_app n (ops1 ops2 : list (bufop A)) d :
  diode_run n d (ops1 ++ ops2) =
  let '(d1, os1) := diode_run n d ops1 in
  let '(d2, os2) := diode_run n d1 ops2 in (d2, os1 ++ os2).
Proof.
  revert d. induction ops1 as [|[x|] ops1 IH]; intros d; cbn [diode_run app].
  - by destruct (diode_run n d ops2).
  - apply IH.
  - destruct (diode_try n d) as [[d1 o] a]. rewrite IH.
    destruct (diode_run n d1 ops1) as [d2 os2].
    destruct (diode_run n d2 ops2) as [d3 os3]. by rewrite <- !app_assoc.
Qed.

Lemma puts_app (ops1 ops2 : list (bufop A)) : puts (ops1 ++ ops2) = puts ops1 ++ puts ops2.
Proof. induction ops1 as [|[x|] ops1 IH]; cbn; [done|by rewrite IH|done]. Qed.

Lemma run_no_loss n ops :
  (0 < n)%N ->
  (forall ops1 ops2, ops = ops1 ++ ops2 ->
     N.of_nat (length (puts ops1)) <= N.of_nat (length (got (diode_run n diode_new ops1).2)) + n)%N ->
  dropped (diode_run n (@diode_new A) ops).2 = 0%N.
Proof.
  intros Hn. induction ops as [|op ops IH] using rev_ind; intros Hk; [done|].
  assert (IH' := IH ltac:(intros o1 o2 ->; apply (Hk o1 (o2 ++ [op])); by rewrite app_assoc)).
  clear IH. specialize (Hk ops [op] eq_refl).
  rewrite run_app. destruct (diode_run n diode_new ops) as [d1 os1] eqn:Hr.
  cbn [snd] in *.
  destruct op as [x|]; cbn [diode_run].
  { cbn. by rewrite app_nil_r. }
  destruct (diode_try n d1) as [[d2 o] a] eqn:Ht. cbn [snd].
  rewrite app_nil_r, !dropped_app, IH'.
  destruct (run_explains n Hn ops [] diode_new d1 os1 (dinv_new n) Hr) as [Hi (seen & He & Hd)].
  cbn in Hi, Hd.
  assert (Hgot : N.of_nat (length (got os1)) = d_r d1).
  { pose proof (explains_length _ _ He) as Hl. rewrite IH' in Hl.
    apply (f_equal length) in Hd. rewrite app_length, !drop_length in Hd.
    pose proof (di_w _ _ _ Hi). pose proof (di_r _ _ _ Hi). lia. }
  rewrite Hgot in Hk.
  destruct (dinv_try n _ d1 d2 o a Hn Hi Ht) as [_ [(H1 & -> & -> & H4)|(x & k & H1 & H2 & -> & Hx & -> & H5)]].
  - done.
  - pose proof (di_w _ _ _ Hi) as Hw.
    assert (k = 0)%N as ->; [|done].
    rewrite H2, N.div_small by lia. lia.
Qed.

End Diode.

(** Two producers at once: the write of one is lost without notice. *)
Lemma try_empty {A} n (d : diode A) : d_buf d !! (d_r d `mod` n)%N = None ->
  diode_try n d = (d, None, None).
Proof. intros H. unfold diode_try. by rewrite H. Qed.

Lemma run_empty {A} n (d : diode A) m : d_buf d !! (d_r d `mod` n)%N = None ->
  diode_run n d (replicate m Next) = (d, []).
Proof.
  intros H. induction m as [|m IH]; [done|].
  cbn [replicate diode_run]. rewrite (try_empty _ _ H), IH. done.
Qed.

Lemma race_loses :
  let s0 := Racy diode_new [PIdle [1]; PIdle [2]] in
  exists (is : list nat) s,
    rrun 10000 s0 is = Some s /\ y_prods s = [PIdle []; PIdle []] /\
    forall m, (diode_run 10000 (y_ring s) (replicate (S m) Next)).2 = [Got 2].
Proof.
  exists [0; 1; 0; 1; 0; 1].
  eexists. split; [vm_compute; reflexivity|]. split; [reflexivity|].
  intros m. cbn [replicate diode_run y_ring].
  match goal with |- context [diode_try 10000 ?d] => set (d0 := d) end.
  assert (Ht : let '(d1, o, a) := diode_try 10000 d0 in
    d_buf d1 !! (d_r d1 `mod` 10000)%N = None /\ o = Some 2 /\ a = None) by (vm_compute; done).
  destruct (diode_try 10000 d0) as [[d1 o] a]. destruct Ht as (H1 & -> & ->).
  rewrite run_empty by exact H1. reflexivity.
Qed.
