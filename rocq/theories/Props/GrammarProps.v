(** C170: what the JSON readers accept is what RFC 8259 calls a text, and they take it for what it stands for. *)
From Coq Require Import Ascii String.
From stdpp Require Import prelude strings list.
From Verif.Base Require Import Str Url UrlProofs Dec.
From Verif.Marshaler Require Import Model.
From Verif.Json Require Import Text Spec TextProofs ValueProofs SpecGrammar Grammar.
Open Scope string_scope.
Open Scope list_scope.

(** json.Unmarshal reads the texts of the grammar, and no others; each for the tree it stands for *)
Theorem C170_read t j : read_whole t = Some j <-> json_text t j.
Proof. apply whole_iff. Qed.
Print Assumptions C170_read.

(** ... so a text stands for one tree *)
Theorem C170_one t j j' : json_text t j -> json_text t j' -> j = j'.
Proof. rewrite <- !C170_read. intros -> [= <-]. done. Qed.
Print Assumptions C170_one.

(** ... and what is no text is refused *)
Theorem C170_refused t : read_whole t = None <-> ~ exists j, json_text t j.
Proof.
  split.
  - intros H [j Hj]. apply C170_read in Hj. congruence.
  - intros H. destruct (read_whole t) as [j|] eqn:E; [|done]. destruct H. exists j. by apply C170_read.
Qed.
Print Assumptions C170_refused.

(** json.Decoder reads the value the text begins with, whatever follows it ... *)
Theorem C170_first t j : read_first t = Some j -> exists w s r, t = append w (append s r) /\ blank w /\ value_text s j.
Proof. apply first_sound. Qed.
Print Assumptions C170_first.
(** ... unless what follows could belong to a number: a digit, a sign, a point, an e *)
Definition number_ends (r : string) : Prop :=
  forall c r', r = String c r' -> ~ (48 <= code c <= 57)%N /\ c ∉ ["-"; "+"; "."; "e"; "E"]%char.
Theorem C170_begins w s r j : blank w -> value_text s j -> number_ends r -> read_first (append w (append s r)) = Some j.
Proof.
  intros Hw Hs Hr. apply first_complete; [done|done|]. destruct r as [|c r]; [done|]. destruct (Hr c r eq_refl) as [H1 H2]. cbn.
  destruct (number_char c) eqn:E; [|done]. exfalso. unfold number_char in E. rewrite !orb_true_iff, !ceqb_true in E.
  rewrite !elem_of_cons, elem_of_nil in H2. destruct E as [[[[[E|E]|E]|E]|E]|E]; [|tauto..].
  apply digit_range, range_code in E. apply H1. done.
Qed.
Print Assumptions C170_begins.

(** What the gateway writes is a text, and it stands for the tree that was written *)
Theorem C170_written j : writable j -> json_text (write j) j.
Proof.
  intros H. apply C170_read. destruct (writable_numeric j H) as [Hn Ht]. rewrite <- Ht at 2. rewrite <- (append_nil (write j)).
  by apply whole_write.
Qed.
Print Assumptions C170_written.

(** The hypotheses are met: blanks, escapes, a character beyond the first plane, a lone surrogate, a byte that is no UTF-8 *)
Example C170_case_text : json_text " { ""a\u0041"" : [1.5e3, ""\ud83d\ude00"" ,null] , ""b"":{ } } "
  (JObj [("aA", JArr [JNum "1.5e3"; JStr "😀"; JNull]); ("b", JObj [])]).
Proof. apply C170_read. by vm_compute. Qed.
Example C170_case_lone : json_text """\ud83dx""" (JStr "�x").
Proof. apply C170_read. by vm_compute. Qed.
Example C170_case_byte : json_text (String "034" (String "255" (String "034" ""))) (JStr "�").
Proof. apply C170_read. by vm_compute. Qed.
Example C170_case_none : Forall (fun t => ~ exists j, json_text t j)
  [""; "[1,]"; "01"; "{""a"":1,}"; "{a:1}"; "'a'"; "1 2"; "nul"; "[1"; """\x"""; "+1"; ".5"; "1."; "NaN"; """a"; """\ud8"""; String "011" "1"].
Proof. repeat constructor; apply C170_refused; by vm_compute. Qed.
Example C170_case_first : read_first "{""a"":1}trailing" = Some (JObj [("a", JNum "1")]) /\ read_first "true]" = Some (JBool true) /\
  number_ends "trailing" /\ read_first "1e" = None.
Proof.
  split; [by vm_compute|]. split; [by vm_compute|]. split; [|by vm_compute].
  intros c r [= <- <-]. split; [vm_compute; by intros [_ []]|]. rewrite !elem_of_cons, elem_of_nil. naive_solver.
Qed.
Example C170_case_written : writable (JObj [("<k>", JStr "a"); ("n", JArr [JNum "-5"])]) /\
  write (JObj [("<k>", JStr "a"); ("n", JArr [JNum "-5"])]) = "{""\u003ck\u003e"":""a"",""n"":[-5]}".
Proof.
  split; [|by vm_compute]. constructor. repeat apply Forall_cons_2; [..|constructor]; cbn [fst snd]; (split; [by apply utf8_iff|]); constructor; [by apply utf8_iff|].
  apply Forall_cons_2; [|constructor]. constructor. by apply number_iff.
Qed.
