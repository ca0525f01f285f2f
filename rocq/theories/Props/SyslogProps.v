(** Properties of the syslog server (C65, C66, C81), each followed by a case meeting its hypotheses.
    Vocabulary: Syslog/Spec.v, Base/Dec.v (numeral).  Programs: Syslog/Model.v. *)
From Coq Require Import Ascii String.
From stdpp Require Import prelude gmap strings list.
From Verif.Base Require Import GoInt Envelope Str Dec.
From Verif.Syslog Require Import Model Spec Proofs.
Open Scope Z_scope.

(** ** C65 *)
(** Every envelope made from a message says what the message says; a message answered with an error has a
    structured data element that says nothing. *)
Lemma conversion pf order msg :
  any_order order ->
  (∀ e, convert pf order msg = Converted e -> means pf msg e) ∧
  (convert pf order msg = Invalid -> unusable pf msg).
Proof. intros H. split; [by apply convert_means|by apply convert_invalid]. Qed.
Theorem C65_conversion : ∀ pf order msg,
  any_order order ->
  (∀ e, convert pf order msg = Converted e -> means pf msg e) ∧
  (convert pf order msg = Invalid -> unusable pf msg).
Proof. exact conversion. Qed.
Print Assumptions C65_conversion.

(** Conversely a message with at most one structured data element that means something is converted to
    exactly that. *)
Theorem C65_complete : ∀ pf order, any_order order -> ∀ msg e,
  (∀ d, sm_data msg = Some d -> (size d <= 1)%nat) -> means pf msg e -> convert pf order msg = Converted e.
Proof. exact convert_meaning. Qed.
Print Assumptions C65_complete.

(** Over a whole connection: as long as the process lives, every result of the parser is counted once, as
    ingress, invalid or dropped; what is sent is, in order, what the usable messages mean, and nothing else. *)
Theorem C65_accounting : ∀ pf order, any_order order -> ∀ send_ok rs,
  let s := serve pf order send_ok rs in
  sv_alive s = true ->
  ∃ l, Forall2 (fun r o => match o with
                           | Some e => ∃ msg, r = Some msg ∧ means pf msg e
                           | None => r = None ∨ ∃ msg, r = Some msg ∧ unusable pf msg
                           end) rs l ∧
    sv_sent s = omap id l ∧
    (sv_invalid s + sv_ingress s + sv_dropped s = length rs)%nat ∧
    (sv_ingress s + sv_dropped s = length (omap id l))%nat.
Proof. exact serve_ok. Qed.
Print Assumptions C65_accounting.

Definition no_float (_ : string) : option f64 := None.
Definition in_order (d : gmap string (gmap string string)) := map_to_list d.
Definition log_msg : smessage :=
  mk_smsg (Some 14) (Some 1542384000123456789) (Some "app-guid") (Some "[APP/PROC/WEB/3]") (Some "  hello world
") None.
Definition counter_msg (delta : string) : smessage :=
  mk_smsg (Some 14) (Some 1542384000123456789) (Some "app-guid") (Some "[3]") None
    (Some {["counter@47450" := {["name" := "requests"; "delta" := delta; "total" := "12"]}]}).
Example C65_case : any_order in_order ∧
  convert no_float in_order log_msg =
    Converted (mk_env 1542384000123456789 "app-guid" "3" ∅ {["source_type" := "APP"]} (MLog "hello world" false)) ∧
  convert no_float in_order (counter_msg "5") = Converted (mk_env 1542384000123456789 "app-guid" "3" ∅ ∅ (MCounter "requests" 5 12)) ∧
  convert no_float in_order (counter_msg "5x") = Invalid ∧
  sv_alive (serve no_float in_order (fun _ _ => true) [Some log_msg; None; Some (counter_msg "x"); Some (counter_msg "1")]) = true ∧
  length (sv_sent (serve no_float in_order (fun _ _ => true) [Some log_msg; None; Some (counter_msg "x"); Some (counter_msg "1")])) = 2%nat.
Proof. split; [intros d; reflexivity|]. repeat split; vm_compute; reflexivity. Qed.

(** ** C66 *)
(** A message without app name, process id or time, or without text and structured data, kills the process. *)
Lemma crashes : ∃ msg, ∀ pf order send_ok rs, sv_alive (serve pf order send_ok (Some msg :: rs)) = false.
Proof.
  exists (mk_smsg (Some 14) (Some 0) None (Some "[APP/0]") (Some "hello") None). intros pf order send_ok rs.
  unfold serve. cbn [foldl]. rewrite listen_dead; reflexivity.
Qed.
Theorem C66_crash_refuted : ∃ msg, ∀ pf order send_ok rs, sv_alive (serve pf order send_ok (Some msg :: rs)) = false.
Proof. exact crashes. Qed.
Print Assumptions C66_crash_refuted.
(** Exactly the incomplete messages do; with complete ones only the server keeps running. *)
Lemma crash_exactly pf order : any_order order ->
  (∀ msg, convert pf order msg = Crash ↔ ¬ complete msg) ∧
  (∀ send_ok rs, Forall (fun r => match r with Some msg => complete msg | None => True end) rs ->
     sv_alive (serve pf order send_ok rs) = true).
Proof. intros H. split; [by apply convert_crash|by apply serve_alive]. Qed.
Theorem C66_complete_partial : ∀ pf order, any_order order ->
  (∀ msg, convert pf order msg = Crash ↔ ¬ complete msg) ∧
  (∀ send_ok rs, Forall (fun r => match r with Some msg => complete msg | None => True end) rs ->
     sv_alive (serve pf order send_ok rs) = true).
Proof. exact crash_exactly. Qed.
Print Assumptions C66_complete_partial.
Example C66_case : Forall (fun r => match r with Some msg => complete msg | None => True end) [Some log_msg; None; Some (counter_msg "x")].
Proof.
  constructor; [|constructor; [done|constructor; [|constructor]]].
  - split; [by eexists|]. split; [by eexists|]. split; [by eexists|]. intros _. split; by eexists.
  - split; [by eexists|]. split; [by eexists|]. split; [by eexists|]. intros [H|H]; [discriminate|].
    apply (f_equal (fun o : option (gmap string (gmap string string)) => bool_decide (o = Some ∅))) in H.
    vm_compute in H. discriminate.
Qed.

(** ** C81: the outcome depends on the message only *)
(** Two structured data elements: Go's map order decides. *)
Definition two_msg : smessage :=
  mk_smsg (Some 14) (Some 5) (Some "app") (Some "[0]") None
    (Some {["event@1" := {["title" := "t"; "body" := "b"]}; "timer@1" := {["name" := "n"; "start" := "1"; "stop" := "2"]}]}).
Lemma order_matters : ∃ msg pf o1 o2 e1 e2, any_order o1 ∧ any_order o2 ∧ e1 ≠ e2 ∧
  convert pf o1 msg = Converted e1 ∧ convert pf o2 msg = Converted e2.
Proof.
  exists two_msg, no_float, in_order, (fun d => reverse (map_to_list d)).
  destruct (convert no_float in_order two_msg) as [| |e1] eqn:E1; [vm_compute in E1; done|vm_compute in E1; done|].
  destruct (convert no_float (fun d => reverse (map_to_list d)) two_msg) as [| |e2] eqn:E2; [vm_compute in E2; done|vm_compute in E2; done|].
  exists e1, e2. split; [intros d; reflexivity|]. split; [intros d; apply reverse_Permutation|]. split; [|done].
  vm_compute in E1, E2. injection E1 as <-. injection E2 as <-. discriminate.
Qed.
Theorem C81_order_refuted : ∃ msg pf o1 o2 e1 e2, any_order o1 ∧ any_order o2 ∧ e1 ≠ e2 ∧
  convert pf o1 msg = Converted e1 ∧ convert pf o2 msg = Converted e2.
Proof. exact order_matters. Qed.
Print Assumptions C81_order_refuted.
(** With at most one element it does not. *)
Lemma order_irrelevant pf o1 o2 msg : any_order o1 -> any_order o2 ->
  (∀ d, sm_data msg = Some d -> (size d <= 1)%nat) -> convert pf o1 msg = convert pf o2 msg.
Proof.
  intros H1 H2 Hsz. destruct (convert pf o1 msg) as [| |e] eqn:E.
  - apply convert_crash in E; [|done]. symmetry. by apply convert_crash.
  - destruct (convert pf o2 msg) as [| |e] eqn:E2; [|done|].
    + apply convert_crash in E2; [|done]. apply (convert_crash pf o1 H1) in E2. congruence.
    + apply convert_means in E2; [|done]. apply (convert_meaning pf o1 H1) in E2; [congruence|done].
  - apply convert_means in E; [|done]. symmetry. by apply (convert_meaning pf o2 H2).
Qed.
Theorem C81_order_partial : ∀ pf o1 o2 msg, any_order o1 -> any_order o2 ->
  (∀ d, sm_data msg = Some d -> (size d <= 1)%nat) -> convert pf o1 msg = convert pf o2 msg.
Proof. exact order_irrelevant. Qed.
Print Assumptions C81_order_partial.
Example C81_case : ∀ d, sm_data (counter_msg "5") = Some d -> (size d <= 1)%nat.
Proof. intros d [= <-]. rewrite map_size_singleton. lia. Qed.
(** In general the outcome is that of one of the elements alone, and each element is decisive under some
    order; so the order does not matter exactly if all elements come to the same. *)
Definition only (msg : smessage) (kind : string) (m : gmap string string) : smessage :=
  mk_smsg (sm_priority msg) (sm_time msg) (sm_app msg) (sm_proc msg) (sm_text msg) (Some {[kind := m]}).
Lemma head_single o kind m : any_order o -> head (o ({[kind := m]} : gmap string (gmap string string))) = Some (kind, m).
Proof.
  intros Ho. specialize (Ho {[kind := m]}). rewrite map_to_list_singleton in Ho.
  apply Permutation_singleton_r in Ho as ->. done.
Qed.
Lemma outcomes pf msg d : sm_data msg = Some d ->
  (∀ o, any_order o -> d ≠ ∅ -> ∃ kind m, d !! kind = Some m ∧ convert pf o msg = convert pf o (only msg kind m)) ∧
  (∀ kind m, d !! kind = Some m -> ∃ o, any_order o ∧ convert pf o msg = convert pf o (only msg kind m)).
Proof.
  intros Hd. split.
  - intros o Ho Hne. destruct (o d) as [|[kind m] r] eqn:E.
    + exfalso. pose proof (Ho d) as Hp. rewrite E in Hp. apply Permutation_nil_l in Hp. symmetry in Hp.
      by apply map_to_list_empty_iff in Hp.
    + exists kind, m. split. { apply elem_of_map_to_list. rewrite <- (Ho d), E. left. }
      unfold convert, only. cbn [sm_proc sm_app sm_time sm_data sm_text sm_priority].
      rewrite Hd. cbn [mbind option_bind]. rewrite E, (head_single o) by done. done.
  - intros kind m Hk.
    exists (fun x => if bool_decide (x = d) then (kind, m) :: map_to_list (delete kind d) else map_to_list x).
    assert (Ho : any_order (fun x => if bool_decide (x = d) then (kind, m) :: map_to_list (delete kind d) else map_to_list x)).
    { intros x. destruct (bool_decide_reflect (x = d)) as [->|_]; [|done]. by rewrite map_to_list_delete. }
    split; [exact Ho|]. unfold convert, only. cbn [sm_proc sm_app sm_time sm_data sm_text sm_priority].
    rewrite Hd. cbn [mbind option_bind].
    pose proof (head_single _ kind m Ho) as Hs. cbn beta in Hs. rewrite Hs.
    rewrite bool_decide_true by done. done.
Qed.
Theorem C81_outcomes : ∀ pf msg d, sm_data msg = Some d ->
  (∀ o, any_order o -> d ≠ ∅ -> ∃ kind m, d !! kind = Some m ∧ convert pf o msg = convert pf o (only msg kind m)) ∧
  (∀ kind m, d !! kind = Some m -> ∃ o, any_order o ∧ convert pf o msg = convert pf o (only msg kind m)).
Proof. exact outcomes. Qed.
Print Assumptions C81_outcomes.
Lemma order_exact pf msg d o : sm_data msg = Some d -> any_order o ->
  ((∀ o1 o2, any_order o1 -> any_order o2 -> convert pf o1 msg = convert pf o2 msg) ↔
   (∀ k1 m1 k2 m2, d !! k1 = Some m1 -> d !! k2 = Some m2 -> convert pf o (only msg k1 m1) = convert pf o (only msg k2 m2))).
Proof.
  intros Hd Ho. destruct (outcomes pf msg d Hd) as [Hs Hc].
  assert (Hone : ∀ o1 o2 k m, any_order o1 -> any_order o2 -> convert pf o1 (only msg k m) = convert pf o2 (only msg k m)).
  { intros o1 o2 k m H1 H2. apply order_irrelevant; [done|done|]. intros d' [= <-]. rewrite map_size_singleton. lia. }
  split.
  - intros H k1 m1 k2 m2 E1 E2. destruct (Hc _ _ E1) as (o1 & H1 & C1). destruct (Hc _ _ E2) as (o2 & H2 & C2).
    rewrite (Hone o o1), (Hone o o2), <- C1, <- C2 by done. by apply H.
  - intros H o1 o2 H1 H2. destruct (decide (d = ∅)) as [->|Hne].
    + unfold convert. rewrite Hd. cbn [mbind option_bind].
      assert (E : ∀ o', any_order o' -> o' ∅ = []).
      { intros o' Ho'. specialize (Ho' ∅). rewrite map_to_list_empty in Ho'. by apply Permutation_nil_r in Ho'. }
      by rewrite !E by done.
    + destruct (Hs o1 H1 Hne) as (k1 & m1 & E1 & C1). destruct (Hs o2 H2 Hne) as (k2 & m2 & E2 & C2).
      rewrite C1, C2, (Hone o1 o), (Hone o2 o) by done. by apply H.
Qed.
Theorem C81_exact : ∀ pf msg d o, sm_data msg = Some d -> any_order o ->
  ((∀ o1 o2, any_order o1 -> any_order o2 -> convert pf o1 msg = convert pf o2 msg) ↔
   (∀ k1 m1 k2 m2, d !! k1 = Some m1 -> d !! k2 = Some m2 -> convert pf o (only msg k1 m1) = convert pf o (only msg k2 m2))).
Proof. exact order_exact. Qed.
Print Assumptions C81_exact.
(** two elements that come to the same, and two that do not *)
Definition same_msg : smessage :=
  mk_smsg (Some 14) (Some 5) (Some "app") (Some "[0]") None
    (Some {["event@1" := {["title" := "t"; "body" := "b"]}; "event@2" := {["title" := "t"; "body" := "b"; "x" := "y"]}]}).
Example C81_exact_case : any_order in_order ∧
  (∀ o1 o2, any_order o1 -> any_order o2 -> convert no_float o1 same_msg = convert no_float o2 same_msg) ∧
  ¬ (∀ o1 o2, any_order o1 -> any_order o2 -> convert no_float o1 two_msg = convert no_float o2 two_msg).
Proof.
  assert (Hi : any_order in_order) by (intros d; reflexivity). split; [done|]. split.
  - eapply (order_exact no_float same_msg _ in_order); [reflexivity|done|].
    assert (E : ∀ k m, (match sm_data same_msg with Some d => d | None => ∅ end) !! k = Some m ->
              convert no_float in_order (only same_msg k m) = convert no_float in_order (only same_msg "event@1" {["title" := "t"; "body" := "b"]})).
    { intros k m H. cbn in H. apply lookup_insert_Some in H as [[<- <-]|[_ H]]; [done|].
      apply lookup_singleton_Some in H as [<- <-]. vm_compute. reflexivity. }
    intros k1 m1 k2 m2 H1 H2. rewrite (E _ _ H1), (E _ _ H2). done.
  - intros H. specialize (H in_order (fun d => reverse (map_to_list d)) Hi). 
    specialize (H ltac:(intros d; apply reverse_Permutation)). vm_compute in H. discriminate.
Qed.
