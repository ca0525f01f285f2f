(** Further theorems of properties stated elsewhere, found wanting against wrong programs: C82 (several goroutines
    in Send), C36 (exactly when reads circulate), C150 (the characters of a query string), C160 (numbers that are none). *)
From Coq Require Import Ascii String NArith.
From stdpp Require Import prelude strings gmap list.
From Verif.Base Require Import GoInt Envelope Str Url.
From Verif.Nozzle Require Import Spec Model Proofs Race.
From Verif.Marshaler Require Import Model.
From Verif.Json Require Import Text Pb.
From Verif.Store Require Import Model.
From Verif.Routing Require Import Model SpecEndless Endless.
From Verif.Props Require Import RoutingProps.
Open Scope string_scope.
Open Scope list_scope.

(** ** C82 *)
(** However many goroutines are in Send, and whatever the size of the buffer: if all of them start before one of them has
    moved the index, what one of them was given is kept and the rest is lost, and nothing is ever counted as dropped *)
Theorem C82_race_all_refuted : forall {A} (n : N) (xs : list A) x, (0 < n)%N -> exists (is : list nat) s,
  rrun n (Racy diode_new ((fun x => PIdle [x]) <$> (xs ++ [x]))) is = Some s /\ Forall (fun p => p = PIdle []) (y_prods s) /\
  forall m, (diode_run n (y_ring s) (replicate (S m) Next)).2 = [Got x].
Proof.
  intros A n xs x Hn. eexists _, _. split; [apply all_at_once|]. split; [by apply Forall_replicate|]. intros m. cbn [y_ring]. by apply one_left.
Qed.
Print Assumptions C82_race_all_refuted.
(** Calls of which each ends before the next begins put what they are given, in that order, whoever makes them *)
Theorem C82_serial_partial : forall {A} (n : N) (d : diode A) ps turns xs ps', taken ps turns xs ps' ->
  exists d', rrun n (Racy d ps) (whole_calls turns) = Some (Racy d' ps') /\ diode_run n d (Put <$> xs) = (d', []).
Proof. intros A. exact serial_run. Qed.
Print Assumptions C82_serial_partial.
Example C82_serial_ex : taken [PIdle [1; 2]; PIdle [3]] [0; 1; 0]%nat [1; 3; 2] [PIdle []; PIdle []].
Proof. repeat econstructor. Qed.

(** ** C150 *)
(** What RFC 3986 allows in the query of a URI as data: unreserved characters, percent-encoded bytes and, from the
    reserved ones, the plus sign that stands for a space *)
Inductive uri_data : string -> Prop :=
| data_end : uri_data ""
| data_char c s : (exists i, String.get i "ABCDEFGHIJKLMNOPQRSTUVWXYZabcdefghijklmnopqrstuvwxyz0123456789-._~+" = Some c) -> uri_data s -> uri_data (String c s)
| data_byte a b s : (exists i, String.get i "0123456789ABCDEF" = Some a) -> (exists i, String.get i "0123456789ABCDEF" = Some b) ->
    uri_data s -> uri_data (String "%" (String a (String b s))).
Lemma unreserved_listed c : unreserved c = true -> exists i, String.get i "ABCDEFGHIJKLMNOPQRSTUVWXYZabcdefghijklmnopqrstuvwxyz0123456789-._~+" = Some c.
Proof. destruct c as [[] [] [] [] [] [] [] []]; intros H; try (vm_compute in H; discriminate H).
  all: match goal with |- exists i, String.get i ?l = Some ?c =>
    let rec go k := first [exists k; reflexivity | let k' := eval compute in (S k) in go k'] in go O end.
Qed.
Lemma hex_listed n : (n < 16)%nat -> exists i, String.get i "0123456789ABCDEF" = Some (hex_digit n).
Proof. intros H. exists n. do 16 (destruct n as [|n]; [reflexivity|]). lia. Qed.
Theorem C150_legal : forall s, uri_data (query_escape s).
Proof.
  induction s as [|c s IH]; [constructor|]. cbn [query_escape]. destruct (ceqb c " ").
  { constructor; [by exists 66%nat|done]. }
  destruct (unreserved c) eqn:E; [constructor; [by apply unreserved_listed|done]|].
  pose proof (nat_ascii_bounded c). apply data_byte; [apply hex_listed, Nat.div_lt_upper_bound; lia|apply hex_listed, Nat.mod_upper_bound; lia|done].
Qed.
Print Assumptions C150_legal.
Example C150_legal_ex : query_escape "a {b}/~" = "a+%7Bb%7D%2F~".
Proof. reflexivity. Qed.

(** ** C160 *)
(** The bits of an IEEE 754 double: all ones in the exponent, and the fraction not zero for no number, zero for an infinity *)
Definition no_number (f : f64) : Prop := (f / 2^52 mod 2^11 = 2^11 - 1)%Z /\ (f mod 2^52 <> 0)%Z.
Definition infinity (negative : bool) : f64 := if negative then 0xFFF0000000000000%Z else 0x7FF0000000000000%Z.
Lemma is_nan_iff f : (0 <= f < 2^64)%Z -> is_nan f = true <-> no_number f.
Proof.
  intros H. unfold is_nan, no_number, inf. rewrite Z.ltb_lt. change (2^63)%Z with 9223372036854775808%Z. change (2^64)%Z with 18446744073709551616%Z in H.
  change (2^52)%Z with 4503599627370496%Z. change (2^11)%Z with 2048%Z. Z.to_euclidean_division_equations. lia.
Qed.
(** Such values of a gauge are written as the words of the JSON mapping and read back as what they are *)
Theorem C160_special : forall F f unit, (0 <= f < 2^64)%Z ->
  (no_number f -> enc_float F f = JStr "NaN" /\ exists f', dec_gauge F (enc_gauge F (Style false true) (mk_gv unit f)) = Some (mk_gv unit f') /\ no_number f') /\
  (f = infinity false -> enc_float F f = JStr "Infinity" /\ dec_gauge F (enc_gauge F (Style false true) (mk_gv unit f)) = Some (mk_gv unit f)) /\
  (f = infinity true -> enc_float F f = JStr "-Infinity" /\ dec_gauge F (enc_gauge F (Style false true) (mk_gv unit f)) = Some (mk_gv unit f)).
Proof.
  intros F f unit Hf. split; [|split].
  - intros H. apply is_nan_iff in H as E; [|done]. assert (Ej : enc_float F f = JStr "NaN") by (unfold enc_float; by rewrite E). split; [done|]. exists nan. split; [|by vm_compute].
    unfold dec_gauge, enc_gauge, enc_object, enc_fields, enc_field, omitted, float_field. cbn [gv_unit gv_value emit_defaults]. rewrite Ej. cbn. by rewrite ?andb_false_r.
  - intros ->. assert (Ej : enc_float F (infinity false) = JStr "Infinity") by (by vm_compute). split; [done|].
    unfold dec_gauge, enc_gauge, enc_object, enc_fields, enc_field, omitted, float_field. cbn [gv_unit gv_value emit_defaults]. rewrite Ej. cbn. by rewrite ?andb_false_r.
  - intros ->. assert (Ej : enc_float F (infinity true) = JStr "-Infinity") by (by vm_compute). split; [done|].
    unfold dec_gauge, enc_gauge, enc_object, enc_fields, enc_field, omitted, float_field. cbn [gv_unit gv_value emit_defaults]. rewrite Ej. cbn. by rewrite ?andb_false_r.
Qed.
Print Assumptions C160_special.
Example C160_special_ex : no_number 0x7FF8000000000001 /\ no_number 0xFFF0000000000001 /\ ~ no_number (infinity true).
Proof. repeat split; try (by vm_compute). intros [_ H]. by vm_compute in H. Qed.

(** ** C36 *)
(** Exactly when reads of a source, sent to node j, can circulate: when from j on nodes can pass them on, none of them naming
    itself for the source, without an end.  Otherwise every read, whatever is drawn at random, is passed on less often than
    there are nodes and is answered by a node that names itself for the source, or by one that names nobody. *)
Theorem C36_exact : forall hash compile now rq c j,
  let owners := fun m : node => Routing.Model.lookup (hash (rr_source rq)) (n_table m) in
  (forall a m b, c !! a = Some m -> b ∈ owners m -> (b < length c)%nat) -> (j < length c)%nat ->
  (endless owners c j -> forall fuel, exists rnds, cluster_read fuel hash compile now rnds j rq c = None) /\
  (~ endless owners c j -> forall rnds fuel, (length c < fuel)%nat -> exists ans hops (f : nat -> nat) m,
     cluster_read fuel hash compile now rnds j rq c = Some (ans, hops) /\ (hops < length c)%nat /\
     f 0%nat = j /\ (forall n, (n < hops)%nat -> passes owners c (f n) (f (S n))) /\ c !! f hops = Some m /\
     ((owners m = [] /\ ans = CUnavailable) \/ (f hops ∈ owners m /\ ans = CServed (f hops) (local_read compile now rq (n_store m))))).
Proof.
  intros hash compile now rq c j owners Hlt Hj.
  assert (Hlt' : forall a m, c !! a = Some m -> forall i, i ∈ owners_of hash rq m -> (i < length c)%nat) by (intros a m Ha i Hi; by eapply Hlt).
  split.
  - intros (f & <- & Hf) fuel. apply (walk_reads hash compile now rq c Hlt' fuel f). intros n _. apply Hf.
  - intros Hn rnds fuel Hfuel. destruct (cluster_read fuel hash compile now rnds j rq c) as [[ans hops]|] eqn:E.
    + destruct (answered hash compile now rq c Hlt' fuel rnds j ans hops Hj E) as (f & H0 & Hf & m & Hm & Hans).
      exists ans, hops, f, m. split; [done|]. split; [|done]. destruct (decide (hops < length c)%nat) as [|Hge]; [done|]. exfalso.
      destruct (pigeons f (length c)) as (a & b & Hab & Hb & Eab).
      { intros n Hle. destruct (decide (n < hops)%nat) as [Hlt2|]; [by eapply walk_inside in Hf|]. replace n with hops by lia. by eapply lookup_lt_Some. }
      apply Hn. rewrite <-H0. apply (around (passes owners c) f a b Hab Eab). intros n Hnb. apply Hf. lia.
    + exfalso. apply none_walks in E as (f & <- & Hf); [|done]. apply Hn. by apply (long_endless hash rq c f fuel).
Qed.
Print Assumptions C36_exact.
(** A ring of three nodes, each naming the next for every hash, passes reads on for ever; a chain of them does not. *)
Definition naming (i : nat) : node := mk_node [mk_ri (mk_range 0 18446744073709551615) i] (new_store 5).
Definition owners_at_7 (m : node) : list nat := Routing.Model.lookup 7 (n_table m).
Example C36_exact_ex :
  endless owners_at_7 (naming <$> [1; 2; 0]%nat) 0 /\ ~ endless owners_at_7 (naming <$> [1; 2; 2]%nat) 0 /\
  forall a m b, (naming <$> [1; 2; 0]%nat) !! a = Some m -> b ∈ owners_at_7 m -> (b < 3)%nat.
Proof.
  split_and!.
  - exists (fun n => n mod 3)%nat. split; [done|]. intros n.
    assert (H : (n mod 3 < 3)%nat) by (apply Nat.mod_upper_bound; lia).
    assert (E : (S n mod 3 = S (n mod 3) mod 3)%nat) by (rewrite <-(Nat.add_1_r n), <-Nat.add_mod_idemp_l by lia; f_equal; lia).
    rewrite E. destruct (n mod 3)%nat as [|[|[|]]]; [eexists; split; [reflexivity|]; cbn; set_solver..|lia].
  - intros (f & H0 & Hf).
    assert (L : forall a b, passes owners_at_7 (naming <$> [1; 2; 2]%nat) a b -> (a = 0 /\ b = 1)%nat \/ (a = 1 /\ b = 2)%nat).
    { intros a b (m & Hm & Hni & Hin). destruct a as [|[|[|a]]]; cbn in Hm; [injection Hm as <-..|done]; cbn in Hni, Hin; set_solver. }
    pose proof (L _ _ (Hf 0%nat)) as H1. pose proof (L _ _ (Hf 1%nat)) as H2. pose proof (L _ _ (Hf 2%nat)) as H3. lia.
  - intros a m b Ha Hb. destruct a as [|[|[|a]]]; cbn in Ha; [injection Ha as <-..|done]; cbn in Hb; apply elem_of_list_singleton in Hb; lia.
Qed.
