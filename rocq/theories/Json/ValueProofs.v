(** Numbers and values of Json/Text.v. *)
From Coq Require Import Ascii String.
From stdpp Require Import prelude strings list.
From Verif.Base Require Import Str Url UrlProofs Dec.
From Verif.Marshaler Require Import Model.
From Verif.Json Require Import Text Spec TextProofs.
Open Scope string_scope.
Open Scope list_scope.
#[local] Arguments String.append : simpl nomatch.

(** ** Numbers *)
Lemma digit_range c : is_digit c = true <-> range 48 57 c.
Proof. unfold is_digit, range. rewrite andb_true_iff, !Nat.leb_le. lia. Qed.
Lemma run_digits s : digit_run s -> starts_digit s = true /\ forall t, starts_digit t = false -> drop_digits (append s t) = t.
Proof.
  induction 1 as [c Hc|c s Hc Hs [_ IH]]; (split; [by apply digit_range|]); intros t Ht; simpl; rewrite (proj2 (digit_range c) Hc).
  - destruct t as [|d t]; [done|]. cbn in Ht. cbn. by rewrite Ht.
  - by apply IH.
Qed.
Lemma digits_run s : starts_digit s = true -> exists a, digit_run a /\ s = append a (drop_digits s) /\ starts_digit (drop_digits s) = false.
Proof.
  induction s as [|c s IH]; [done|]. intros H. cbn in H. cbn [drop_digits]. rewrite H.
  destruct (starts_digit s) eqn:E.
  - destruct (IH eq_refl) as (a & Ha & Ea & Et). exists (String c a). split; [constructor; [by apply digit_range|done]|].
    split; [|done]. simpl. by rewrite <-Ea.
  - exists (String c ""). split; [constructor; by apply digit_range|]. simpl.
    destruct s as [|d s]; [done|]. cbn in E. cbn [drop_digits]. by rewrite E.
Qed.
Lemma some_digits_iff s : some_digits s = true <-> digit_run s.
Proof.
  unfold some_digits. rewrite andb_true_iff. split.
  - intros [H1 H2]. apply bool_decide_eq_true in H2. destruct (digits_run s H1) as (a & Ha & E & _). rewrite H2, append_nil in E. by subst.
  - intros H. destruct (run_digits s H) as [H1 H2]. split; [done|]. apply bool_decide_eq_true.
    rewrite <-(append_nil s) at 1. by apply H2.
Qed.
Lemma sign_digit c : ceqb c "+" || ceqb c "-" = true -> is_digit c = false.
Proof. rewrite orb_true_iff. unfold ceqb. intros [H|H]; apply bool_decide_eq_true in H as ->; reflexivity. Qed.
Lemma exponent_iff s : exponent_ok s = true <-> exponent_text s.
Proof.
  split.
  - destruct s as [|e r]; [constructor|]. cbn [exponent_ok]. rewrite andb_true_iff. intros [He Hr].
    assert (He' : String e "" ∈ ["e"; "E"]).
    { rewrite orb_true_iff in He. unfold ceqb in He. destruct He as [He|He]; apply bool_decide_eq_true in He as ->; set_solver. }
    destruct r as [|g r]; [done|]. destruct (ceqb g "+" || ceqb g "-") eqn:Eg.
    + apply some_digits_iff in Hr. apply (exp_some (String e "") (String g "") r); [done| |done].
      rewrite orb_true_iff in Eg. unfold ceqb in Eg. destruct Eg as [Eg|Eg]; apply bool_decide_eq_true in Eg as ->; set_solver.
    + apply some_digits_iff in Hr. apply (exp_some (String e "") "" (String g r)); [done|set_solver|done].
  - intros [|e sign t He Hs Ht]; [done|]. apply some_digits_iff in Ht.
    rewrite !elem_of_cons, elem_of_nil in He. rewrite !elem_of_cons, elem_of_nil in Hs. destruct Hs as [->|[->|[->|[]]]].
    + destruct t as [|g t]; [done|]. destruct (ceqb g "+" || ceqb g "-") eqn:Eg.
      { apply sign_digit in Eg. unfold some_digits in Ht. cbn in Ht. by rewrite Eg in Ht. }
      destruct He as [->|[->|[]]]; simpl; by rewrite Eg.
    + destruct He as [->|[->|[]]]; exact Ht.
    + destruct He as [->|[->|[]]]; exact Ht.
Qed.
Lemma exponent_no_digit s : exponent_text s -> starts_digit s = false.
Proof.
  intros [|e sign t He _ _]; [done|]. rewrite !elem_of_cons, elem_of_nil in He. by destruct He as [->|[->|[]]].
Qed.
Lemma fraction_iff s : fraction_ok s = true <-> exists f e, s = append f e /\ fraction_text f /\ exponent_text e.
Proof.
  split.
  - destruct s as [|c r]; [intros _; exists "", ""; repeat constructor|]. cbn [fraction_ok]. destruct (ceqb c ".") eqn:Ec.
    + unfold ceqb in Ec. apply bool_decide_eq_true in Ec as ->. rewrite andb_true_iff. intros [Hd He].
      destruct (digits_run r Hd) as (a & Ha & E & _). exists (append "." a), (drop_digits r).
      split; [simpl; by rewrite <-E|]. split; [by constructor|by apply exponent_iff].
    + intros He. exists "", (String c r). split; [done|]. split; [constructor|by apply exponent_iff].
  - intros (f & e & -> & Hf & He). destruct Hf as [|a Ha].
    + simpl. destruct e as [|c e]; [done|]. cbn [fraction_ok]. destruct (ceqb c ".") eqn:Ec; [|by apply exponent_iff].
      unfold ceqb in Ec. apply bool_decide_eq_true in Ec as ->. apply exponent_iff in He. discriminate He.
    + rewrite append_assoc. simpl. change (ceqb "." ".") with true. cbn iota. rewrite andb_true_iff. destruct (run_digits a Ha) as [H1 H2].
      rewrite H2 by (by apply exponent_no_digit). split; [|by apply exponent_iff].
      destruct a; [done|]. exact H1.
Qed.
Lemma fraction_no_digit s : fraction_ok s = true -> starts_digit s = false.
Proof.
  intros H. destruct s as [|c r]; [done|]. cbn in *. destruct (ceqb c ".") eqn:Ec.
  - unfold ceqb in Ec. by apply bool_decide_eq_true in Ec as ->.
  - apply andb_prop in H as [H _]. rewrite orb_true_iff in H. unfold ceqb in H. by destruct H as [H|H]; apply bool_decide_eq_true in H as ->.
Qed.
Lemma magnitude_iff s : magnitude_ok s = true <->
  exists w r, s = append w r /\ digit_run w /\ (forall x, w = String "0" x -> x = "") /\ fraction_ok r = true.
Proof.
  split.
  - destruct s as [|c r]; [done|]. cbn [magnitude_ok]. destruct (ceqb c "0") eqn:Ec.
    + unfold ceqb in Ec. apply bool_decide_eq_true in Ec as ->. intros H. exists "0", r. split; [done|]. split; [constructor; by apply digit_range|].
      split; [by intros x [= <-]|done].
    + rewrite andb_true_iff. intros [Hd Hf]. destruct (digits_run (String c r)) as (a & Ha & E & _); [exact Hd|].
      cbn [drop_digits] in E. rewrite Hd in E. exists a, (drop_digits r). split; [done|]. split; [done|]. split; [|done].
      intros x ->. simpl in E. injection E as -> _. done.
  - intros (w & r & -> & Hw & Hz & Hf). destruct (run_digits w Hw) as [H1 H2]. specialize (H2 r (fraction_no_digit r Hf)).
    destruct w as [|c w]; [done|]. simpl. destruct (ceqb c "0") eqn:Ec.
    + unfold ceqb in Ec. apply bool_decide_eq_true in Ec as ->. by rewrite (Hz w eq_refl).
    + cbn in H1. rewrite H1. simpl in H2. rewrite H1 in H2. by rewrite H2.
Qed.
Lemma number_iff s : is_number s = true <-> number_text s.
Proof.
  assert (M : forall t, magnitude_ok t = true <-> exists whole frac exp, t = append whole (append frac exp) /\ digit_run whole /\
    (forall x, whole = String "0" x -> x = "") /\ fraction_text frac /\ exponent_text exp).
  { intros t. rewrite magnitude_iff. split.
    - intros (w & r & -> & Hw & Hz & Hf). apply fraction_iff in Hf as (f & e & -> & ? & ?). exists w, f, e. done.
    - intros (w & f & e & -> & Hw & Hz & ? & ?). exists w, (append f e). split; [done|]. split; [done|]. split; [done|].
      apply fraction_iff. exists f, e. done. }
  split.
  - intros H. destruct s as [|c r]; [done|]. cbn [is_number] in H. destruct (ceqb c "-") eqn:Ec.
    + unfold ceqb in Ec. apply bool_decide_eq_true in Ec as ->. apply M in H as (w & f & e & -> & ? & ? & ? & ?).
      apply (number_intro "-" w f e); try done. set_solver.
    + apply M in H as (w & f & e & -> & ? & ? & ? & ?). apply (number_intro "" w f e); try done. set_solver.
  - intros [sign w f e Hs Hw Hz Hf He]. assert (Hm : magnitude_ok (append w (append f e)) = true) by (apply M; eauto 10).
    rewrite !elem_of_cons, elem_of_nil in Hs. destruct Hs as [->|[->|[]]].
    + simpl. destruct w as [|c w]; [by inversion Hw|]. simpl in Hm |- *. destruct (ceqb c "-") eqn:Ec; [|done].
      unfold ceqb in Ec. apply bool_decide_eq_true in Ec as ->. discriminate Hm.
    + exact Hm.
Qed.
Lemma number_chars s : number_text s -> str_all number_char s = true.
Proof.
  assert (A : forall a b, str_all number_char a = true -> str_all number_char b = true -> str_all number_char (append a b) = true).
  { intros a b Ha Hb. induction a as [|c a IH]; simpl; [done|]. cbn in Ha. apply andb_prop in Ha as [-> Ha]. by apply IH. }
  assert (D : forall a, digit_run a -> str_all number_char a = true).
  { induction 1 as [c Hc|c a Hc _ IH]; cbn; unfold number_char; rewrite (proj2 (digit_range c) Hc); [done|]. exact IH. }
  intros [sign w f e Hs Hw _ Hf He]. apply A; [|apply A; [by apply D|apply A]].
  - rewrite !elem_of_cons, elem_of_nil in Hs. by destruct Hs as [->|[->|[]]].
  - destruct Hf as [|a Ha]; [done|]. apply A; [done|by apply D].
  - destruct He as [|e sg a H1 H2 Ha]; [done|]. rewrite !elem_of_cons, elem_of_nil in H1. rewrite !elem_of_cons, elem_of_nil in H2.
    apply A; [by destruct H1 as [->|[->|[]]]|]. apply A; [by destruct H2 as [->|[->|[->|[]]]]|by apply D].
Qed.
Lemma number_head s : number_text s -> exists c r, s = String c r /\ number_char c = true.
Proof.
  intros H. pose proof (number_chars s H) as Hc. apply number_iff in H. destruct s as [|c r]; [done|]. cbn in Hc. apply andb_prop in Hc as [Hc _]. eauto.
Qed.

(** what may follow a value *)
Definition ends (r : string) : Prop := match r with String c _ => number_char c = false | EmptyString => True end.
Lemma span_all s : forall r, str_all number_char s = true -> ends r -> span_number (append s r) = (s, r).
Proof.
  induction s as [|c s IH]; intros r H Hr; simpl.
  - destruct r as [|c r]; [done|]. cbn in *. by rewrite Hr.
  - cbn in H. apply andb_prop in H as [Hc Hs]. rewrite Hc. by rewrite IH.
Qed.

(** ** Values *)
Fixpoint json_rect' (P : json -> Prop) (Hn : P JNull) (Hb : forall b, P (JBool b)) (Ht : forall t, P (JNum t)) (Hs : forall s, P (JStr s))
    (Ha : forall l, Forall P l -> P (JArr l)) (Ho : forall l, Forall (fun kj => P kj.2) l -> P (JObj l)) (j : json) : P j :=
  match j with
  | JNull => Hn
  | JBool b => Hb b
  | JNum t => Ht t
  | JStr s => Hs s
  | JArr l => Ha l ((fix go l : Forall P l := match l with [] => Forall_nil_2 P | x :: l => Forall_cons_2 P x l (json_rect' P Hn Hb Ht Hs Ha Ho x) (go l) end) l)
  | JObj l => Ho l ((fix go l : Forall (fun kj : string * json => P kj.2) l := match l with
                                 | [] => Forall_nil_2 _
                                 | x :: l => Forall_cons_2 (fun kj : string * json => P kj.2) x l (json_rect' P Hn Hb Ht Hs Ha Ho x.2) (go l)
                                 end) l)
  end.
(** the tree without bytes that are not UTF-8 *)
Fixpoint tidy (j : json) : json :=
  match j with
  | JStr s => JStr (utf8_clean s)
  | JArr l => JArr (map tidy l)
  | JObj l => JObj (map (fun kj => (utf8_clean kj.1, tidy kj.2)) l)
  | j => j
  end.
(** numbers are numbers *)
Inductive numeric : json -> Prop :=
| n_null : numeric JNull
| n_bool b : numeric (JBool b)
| n_num t : number_text t -> numeric (JNum t)
| n_str s : numeric (JStr s)
| n_arr l : Forall numeric l -> numeric (JArr l)
| n_obj l : Forall (fun kj => numeric kj.2) l -> numeric (JObj l).
Fixpoint need (j : json) : nat :=
  match j with
  | JArr l => S (foldr (fun j n => S (need j + n)) 0 l)
  | JObj l => S (foldr (fun kj n => S (need kj.2 + n)) 0 l)
  | _ => 1
  end%nat.

Lemma write_head j : numeric j -> exists c r, write j = String c r /\ is_space c = false /\ ceqb c "]" = false.
Proof.
  intros H. destruct H as [|b|t Ht|s|l _|l _].
  - by do 2 eexists.
  - destruct b; by do 2 eexists.
  - destruct (number_head t Ht) as (c & r & -> & Hc). exists c, r. split; [done|].
    destruct c as [[] [] [] [] [] [] [] []]; try discriminate Hc; done.
  - by do 2 eexists.
  - by do 2 eexists.
  - by do 2 eexists.
Qed.
Lemma join_cons2 c (x y : string) l : join c (x :: y :: l) = append x (String c (join c (y :: l))).
Proof. done. Qed.

Definition reads_back (j : json) : Prop := forall n r, (need j <= n)%nat -> ends r -> value n (append (write j) r) = Some (tidy j, r).
Lemma elements_write l : Forall numeric l -> Forall reads_back l -> l <> [] -> forall n r,
  (foldr (fun j n => S (need j + n)) 0 l <= n)%nat -> ends r ->
  elements n (append (join "," (map write l)) (String "]" r)) = Some (map tidy l, r).
Proof.
  induction 1 as [|j l Hj Hl IH]; [done|]. intros Hr _ n r Hn He. apply Forall_cons in Hr as [Hr Hrs]. cbn [foldr] in Hn.
  destruct n as [|n]; [lia|]. destruct l as [|j' l].
  - cbn [map join elements]. rewrite Hr by (cbn in *; first [lia|done]). cbn. done.
  - cbn [map]. rewrite join_cons2, append_assoc. cbn [elements]. rewrite Hr by (first [lia|done]). simpl.
    change (String "," (append (join "," (write j' :: map write l)) (String "]" r))) with
      (String "," (append (join "," (map write (j' :: l))) (String "]" r))).
    change (ceqb "," ",") with true. cbn iota. rewrite (IH Hrs) by (first [done|lia]). done.
Qed.
Lemma members_write l : Forall (fun kj => numeric kj.2) l -> Forall (fun kj : string * json => reads_back kj.2) l -> l <> [] -> forall n r,
  (foldr (fun (kj : string * json) n => S (need kj.2 + n)) 0 l <= n)%nat -> ends r ->
  members n (append (join "," (map (fun kj => append (write_string kj.1) (String ":" (write kj.2))) l)) (String "}" r)) =
    Some (map (fun kj => (utf8_clean kj.1, tidy kj.2)) l, r).
Proof.
  induction 1 as [|[k j] l Hj Hl IH]; [done|]. intros Hr _ n r Hn He. apply Forall_cons in Hr as [Hr Hrs]. cbn [foldr] in Hn.
  destruct n as [|n]; [lia|]. cbn [fst snd] in *.
  assert (E : forall t, ends t -> members (S n) (append (append (write_string k) (String ":" (write j))) t) =
    match skip t with
    | String c r => if ceqb c "," then '(l, r) ← members n r; Some ((utf8_clean k, tidy j) :: l, r)
                    else if ceqb c "}" then Some ([(utf8_clean k, tidy j)], r) else None
    | EmptyString => None
    end).
  { intros t Ht. unfold write_string. rewrite append_assoc. simpl.
    change (ceqb dquote dquote) with true. cbn iota. rewrite append_assoc. simpl. rewrite read_written_string. simpl.
    change (ceqb ":" ":") with true. cbn iota. rewrite Hr by (first [done|lia]). done. }
  destruct l as [|kj l].
  - cbn [map join fst snd]. by rewrite (E (String "}" r)) by done.
  - cbn [map]. rewrite join_cons2, append_assoc. cbn [fst snd].
    set (tail := append (String "," _) _).
    rewrite (E tail) by done. subst tail. simpl. change (ceqb "," ",") with true. cbn iota.
    match goal with |- context [members n ?x] => replace x with
      (append (join "," (map (fun kj => append (write_string kj.1) (String ":" (write kj.2))) (kj :: l))) (String "}" r)) by done end.
    rewrite (IH Hrs) by (first [done|lia]). done.
Qed.
Lemma literal_write (j : json) (w : string) : j ∈ [JNull; JBool true; JBool false] -> reads_back j.
Proof.
  intros H n r Hn _. destruct n as [|n]; [cbn in Hn; rewrite !elem_of_cons, elem_of_nil in H; destruct H as [->|[->|[->|[]]]]; cbn in Hn; lia|].
  rewrite !elem_of_cons, elem_of_nil in H. destruct H as [->|[->|[->|[]]]]; reflexivity.
Qed.
Lemma value_write j : numeric j -> reads_back j.
Proof.
  induction j as [|b|t|s|l IH|l IH] using json_rect'; intros H.
  - apply literal_write; [exact ""|set_solver].
  - apply literal_write; [exact ""|destruct b; set_solver].
  - inversion H as [| |t' Ht| | |]; subst. intros n r Hn He. destruct n as [|n]; [cbn in Hn; lia|].
    destruct (number_head t Ht) as (c & t' & -> & Hc). cbn [write value].
    assert (Hs : skip (append (String c t') r) = append (String c t') r).
    { simpl. destruct (is_space c) eqn:Es; [|done]. exfalso. destruct c as [[] [] [] [] [] [] [] []]; try discriminate Hc; discriminate Es. }
    rewrite Hs. change (append (String c t') r) with (String c (append t' r)). cbn iota.
    assert (Hq : ceqb c dquote = false /\ ceqb c "[" = false /\ ceqb c "{" = false).
    { destruct c as [[] [] [] [] [] [] [] []]; try discriminate Hc; done. }
    destruct Hq as (-> & -> & ->). rewrite Hc.
    change (String c (append t' r)) with (append (String c t') r). rewrite (span_all (String c t') r (number_chars _ Ht) He).
    by rewrite (proj2 (number_iff _) Ht).
  - intros n r Hn _. destruct n as [|n]; [cbn in Hn; lia|]. cbn [write value]. unfold write_string. simpl.
    change (ceqb dquote dquote) with true. cbn iota. rewrite append_assoc. simpl. rewrite read_written_string. done.
  - inversion H as [| | | |l' Hl|]; subst. intros n r Hn He. cbn [need] in Hn. destruct n as [|n]; [lia|]. cbn [write value]. simpl.
    rewrite append_assoc. simpl. destruct l as [|j l]; [done|].
    assert (Hr : Forall reads_back (j :: l)). { clear -IH Hl. induction IH; [constructor|]. apply Forall_cons in Hl as [? ?]. constructor; auto. }
    pose proof (elements_write (j :: l) Hl Hr ltac:(done) n r ltac:(lia) He) as Ee.
    apply Forall_cons in Hl as [Hj _]. destruct (write_head j Hj) as (c & t & Ew & Hs & Hc).
    set (text := append _ _) in *. assert (Et : exists t', text = String c t').
    { subst text. cbn [map]. destruct l as [|j' l]; [cbn [map join]; rewrite Ew; simpl; eauto|]. cbn [map]. rewrite join_cons2, Ew. simpl. eauto. }
    destruct Et as [t' Et]. rewrite Et in *. cbn [skip]. rewrite Hs. cbn iota. rewrite Hc, Ee. done.
  - inversion H as [| | | | |l' Hl]; subst. intros n r Hn He. cbn [need] in Hn. destruct n as [|n]; [lia|]. cbn [write value]. simpl.
    rewrite append_assoc. simpl. destruct l as [|kj l]; [done|].
    assert (Hr : Forall (fun kj : string * json => reads_back kj.2) (kj :: l)).
    { clear -IH Hl. induction IH; [constructor|]. apply Forall_cons in Hl as [? ?]. constructor; auto. }
    pose proof (members_write (kj :: l) Hl Hr ltac:(done) n r ltac:(lia) He) as Ee.
    set (text := append _ _) in *. assert (Et : exists t', text = String dquote t').
    { subst text. cbn [map]. destruct l as [|j' l]; [cbn [map join]; simpl; eauto|]. cbn [map]. rewrite join_cons2. unfold write_string at 1. simpl. eauto. }
    destruct Et as [t' Et]. rewrite Et in *. cbn [skip]. change (is_space dquote) with false. cbn iota. change (ceqb dquote "}") with false. cbn iota.
    rewrite Ee. done.
Qed.

(** ** Enough calls *)
Lemma length_join c l : (String.length (join c l) + 1 >= foldr (fun x n => String.length x + 1 + n) 0 l)%nat.
Proof.
  induction l as [|x [|y l] IH]; [cbn; lia|cbn; lia|]. rewrite join_cons2, length_append. cbn [String.length foldr] in *. lia.
Qed.
Lemma need_length j : numeric j -> (need j <= 2 * String.length (write j))%nat.
Proof.
  induction j as [|b|t|s|l IH|l IH] using json_rect'; intros H.
  - cbn. lia.
  - destruct b; cbn; lia.
  - inversion H as [| |t' Ht| | |]; subst. destruct (number_head t Ht) as (c & t' & -> & _). cbn. lia.
  - cbn. lia.
  - inversion H as [| | | |l' Hl|]; subst. cbn [need write String.length]. rewrite length_append. cbn [String.length].
    pose proof (length_join "," (map write l)) as Hj.
    assert (Hx : (foldr (fun j n => S (need j + n)) 0 l <= 2 * foldr (fun x n => String.length x + 1 + n) 0 (map write l))%nat).
    { clear -IH Hl. induction IH as [|j l Hj _ IH]; [done|]. apply Forall_cons in Hl as [Hjn Hl]. cbn [foldr map]. specialize (Hj Hjn). specialize (IH Hl). lia. }
    lia.
  - inversion H as [| | | | |l' Hl]; subst. cbn [need write String.length]. rewrite length_append. cbn [String.length].
    set (f := fun kj : string * json => append (write_string kj.1) (String ":" (write kj.2))). pose proof (length_join "," (map f l)) as Hj.
    assert (Hx : (foldr (fun (kj : string * json) n => S (need kj.2 + n)) 0 l <= 2 * foldr (fun x n => String.length x + 1 + n) 0 (map f l))%nat).
    { clear -IH Hl. induction IH as [|kj l Hj _ IH]; [done|]. apply Forall_cons in Hl as [Hjn Hl]. cbn [foldr map]. specialize (Hj Hjn). specialize (IH Hl).
      unfold f at 1. rewrite length_append. cbn [String.length]. lia. }
    lia.
Qed.
Lemma value_enough j r : numeric j -> ends r -> value (enough (append (write j) r)) (append (write j) r) = Some (tidy j, r).
Proof.
  intros Hj Hr. apply value_write; [done| |done]. unfold enough. rewrite length_append. pose proof (need_length j Hj). lia.
Qed.
Lemma first_write j r : numeric j -> ends r -> read_first (append (write j) r) = Some (tidy j).
Proof. intros Hj Hr. unfold read_first. by rewrite value_enough. Qed.
Lemma whole_write j r : numeric j -> ends r -> skip r = "" -> read_whole (append (write j) r) = Some (tidy j).
Proof. intros Hj Hr Hs. unfold read_whole. rewrite value_enough by done. cbn. by rewrite Hs. Qed.
Lemma writable_numeric j : writable j -> numeric j /\ tidy j = j.
Proof.
  induction j as [|b|t|s|l IH|l IH] using json_rect'; intros H; inversion H; subst; (split; [constructor|]); try done.
  - cbn. by rewrite utf8_clean_id.
  - clear H. rename select (Forall writable l) into Hl. induction IH as [|j l Hj _ IHl]; [constructor|]. apply Forall_cons in Hl as [? ?].
    constructor; [by apply Hj|by apply IHl].
  - clear H. rename select (Forall writable l) into Hl. cbn. f_equal. induction IH as [|j l Hj _ IHl]; [done|]. apply Forall_cons in Hl as [? ?].
    cbn. f_equal; [by apply Hj|by apply IHl].
  - clear H. rename select (Forall _ l) into Hl. induction IH as [|j l Hj _ IHl]; [constructor|]. apply Forall_cons in Hl as [[? ?] ?].
    constructor; [by apply Hj|by apply IHl].
  - clear H. rename select (Forall _ l) into Hl. cbn. f_equal. induction IH as [|[k j] l Hj _ IHl]; [done|]. apply Forall_cons in Hl as [[? ?] ?].
    cbn in *. f_equal; [|by apply IHl]. f_equal; [by apply utf8_clean_id|by apply Hj].
Qed.
