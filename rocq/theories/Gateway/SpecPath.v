(** Paths of URLs: what they name, and the plain way of writing them. *)
From Coq Require Import Ascii String.
From stdpp Require Import prelude strings list.
Open Scope string_scope.
Open Scope list_scope.

(** no slash in it *)
Definition slashless (w : string) : Prop := forall a b, w <> append a (append "/" b).
(** the segments of a path: what stands between its slashes *)
Definition segments (p : string) (ws : list string) : Prop :=
  ws <> [] /\ Forall slashless ws /\ p = String.concat "/" ws.

(** Going along segments, from one directory to another, both given from the root: an empty segment and "."
    stay, ".." goes up (and stays at the root), any other goes down *)
Inductive goes : list string -> list string -> list string -> Prop :=
| goes_there at_ : goes at_ [] at_
| goes_stay at_ w ws to_ : w = "" \/ w = "." -> goes at_ ws to_ -> goes at_ (w :: ws) to_
| goes_up at_ ws to_ : goes (removelast at_) ws to_ -> goes at_ (".." :: ws) to_
| goes_down at_ w ws to_ : w <> "" -> w <> "." -> w <> ".." -> goes (at_ ++ [w]) ws to_ -> goes at_ (w :: ws) to_.
(** what a path names *)
Definition names (p : string) (place : list string) : Prop := exists ws, segments p ws /\ goes [] ws place.

(** whether a directory is meant *)
Definition slashed (p : string) : Prop := exists a, p = append a "/".

(** A plain path: every name of the place after a slash, nothing else but perhaps a last slash *)
Definition name (w : string) : Prop := w <> "" /\ w <> "." /\ w <> ".." /\ slashless w.
Definition plain (p : string) : Prop :=
  p = "/" \/
  exists ws, ws <> [] /\ Forall name ws /\
    (p = append "/" (String.concat "/" ws) \/ p = append "/" (append (String.concat "/" ws) "/")).
