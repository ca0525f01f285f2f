(** Libraries that meet the assumptions of the properties of the client, for the examples. *)
From Coq Require Import Ascii String.
From stdpp Require Import prelude strings gmap list countable.
From Verif.Base Require Import GoInt Envelope Str Url UrlProofs Dec.
From Verif.Routing Require Import Model.
From Verif.Gateway Require Import Model Spec Proofs Decode.
From Verif.Marshaler Require Import Model Spec.
From Verif.Http Require Import Model Spec Semver Proofs Proofs2.
Open Scope string_scope.
Open Scope list_scope.
Open Scope Z_scope.

(** ** A reader of info pages *)
Definition dq : ascii := ascii_of_nat 34.
Definition read_info (s : string) : option json :=
  r ← strip_prefix (append "{" quote) s;
  '(k1, r) ← cut dq r;
  r ← strip_prefix (append ":" quote) r;
  '(s1, r) ← cut dq r;
  r ← strip_prefix (append "," quote) r;
  '(k2, r) ← cut dq r;
  r ← strip_prefix (append ":" quote) r;
  '(s2, r) ← cut dq r;
  Some (JObj [(k1, JStr s1); (k2, JStr s2)]).
Lemma plain_no_quote s : plain s -> has_char dq s = false.
Proof.
  intros H. destruct (has_char dq s) eqn:E; [|done]. apply has_char_iff in E as (a & b & ->).
  destruct (H a dq b eq_refl) as (_ & Hn & _). done.
Qed.
Lemma read_info_doc k1 s1 k2 s2 : plain k1 -> plain s1 -> plain k2 -> plain s2 ->
  read_info (two_strings k1 s1 k2 s2) = Some (JObj [(k1, JStr s1); (k2, JStr s2)]).
Proof.
  intros H1 H2 H3 H4. unfold read_info.
  assert (E : two_strings k1 s1 k2 s2 = append (append "{" quote) (append k1 (String dq (append (append ":" quote) (append s1 (String dq
    (append (append "," quote) (append k2 (String dq (append (append ":" quote) (append s2 (String dq (append "}" (String (ascii_of_nat 10) ""))))))))))))))
    by (unfold two_strings; rewrite !quoted_app; reflexivity).
  rewrite E. repeat (rewrite strip_prefix_app; cbn [mbind option_bind]; rewrite cut_some by (by apply plain_no_quote); cbn [mbind option_bind]).
  done.
Qed.

(** ** Trees as texts *)
Fixpoint bits (p : positive) : string :=
  match p with xH => "" | xO p => String "0" (bits p) | xI p => String "1" (bits p) end.
Fixpoint unbits (s : string) : option positive :=
  match s with
  | EmptyString => Some 1%positive
  | String c s => p ← unbits s; if ceqb c "0" then Some (xO p) else if ceqb c "1" then Some (xI p) else None
  end.
Lemma unbits_bits p : unbits (bits p) = Some p.
Proof. induction p as [p IH|p IH|]; cbn; [rewrite IH|rewrite IH|]; done. Qed.

Fixpoint to_tree (j : json) : gen_tree (bool + string) :=
  match j with
  | JNull => GenNode 0 []
  | JBool b => GenLeaf (inl b)
  | JNum s => GenNode 1 [GenLeaf (inr s)]
  | JStr s => GenLeaf (inr s)
  | JArr l => GenNode 2 (map to_tree l)
  | JObj l => GenNode 3 (map (fun kj => GenNode 4 [GenLeaf (inr kj.1); to_tree kj.2]) l)
  end.
Fixpoint of_tree (t : gen_tree (bool + string)) : json :=
  match t with
  | GenLeaf (inl b) => JBool b
  | GenLeaf (inr s) => JStr s
  | GenNode 1 [GenLeaf (inr s)] => JNum s
  | GenNode 2 l => JArr (map of_tree l)
  | GenNode 3 l => JObj (map (fun t => match t with
                                       | GenNode 4 [GenLeaf (inr k); t] => (k, of_tree t)
                                       | _ => ("", JNull)
                                       end) l)
  | _ => JNull
  end.
Fixpoint of_to_tree (j : json) : of_tree (to_tree j) = j.
Proof.
  destruct j as [|b|s|s|l|l]; cbn; try done.
  - f_equal. induction l as [|x l IH]; cbn; [done|]. by rewrite of_to_tree, IH.
  - f_equal. induction l as [|[k x] l IH]; cbn; [done|]. by rewrite of_to_tree, IH.
Qed.
Definition write_tree (j : json) : string := String "#" (bits (encode (to_tree j))).
Definition read_tree (s : string) : option json :=
  match s with
  | String c s => if ceqb c "#" then of_tree <$> (unbits s ≫= decode) else None
  | EmptyString => None
  end.
Lemma read_write_tree j : read_tree (write_tree j) = Some j.
Proof. unfold write_tree, read_tree. cbn. rewrite unbits_bits. cbn. rewrite decode_encode. cbn. by rewrite of_to_tree. Qed.

(** grpc-gateway's table, v1.9 *)
Definition status_table (code : Z) : Z :=
  if code =? 0 then 200 else if code =? 1 then 408 else if code =? 3 then 400 else if code =? 4 then 504
  else if code =? 5 then 404 else if code =? 6 then 409 else if code =? 7 then 403 else if code =? 8 then 429
  else if code =? 9 then 412 else if code =? 10 then 409 else if code =? 11 then 400 else if code =? 12 then 501
  else if code =? 14 then 503 else if code =? 16 then 401 else 500.

(** Envelopes [l] and metadata [m] are the only ones the toy library writes. *)
Definition toy_codec (l : list envelope) (m : gmap string meta_info) : codec :=
  let parse s := match read_tree s with Some j => Some j | None => read_info s end in
  Codec parse parse write_tree (fun _ => Some l) (fun _ => "E") (fun _ => Some m) (fun _ => "M") (fun ns => format_int ns) status_table.
Lemma toy_reads_info l m : reads_info (toy_codec l m).
Proof. intros k1 s1 k2 s2 H1 H2 H3 H4. cbn [first_json toy_codec]. change (read_tree (two_strings k1 s1 k2 s2)) with (@None json). by apply read_info_doc. Qed.
Lemma toy_reads_results l m L : reads_results (toy_codec l m) L.
Proof.
  split.
  - intros a j _. unfold toy_codec. cbn [first_json whole_json write_json]. by rewrite read_write_tree.
  - intros msg. unfold toy_codec. cbn [first_json whole_json write_json]. by rewrite read_write_tree.
Qed.
Lemma toy_errors l m : errors_not_200 (toy_codec l m).
Proof.
  intros code Hc. cbn. unfold status_table. destruct (Z.eqb_spec code 0); [done|].
  repeat match goal with |- context [if ?b then _ else _] => destruct b; [done|] end. done.
Qed.
