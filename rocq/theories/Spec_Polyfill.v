(** What a module binds, before and after the polyfill.  Independent of the polyfill. *)
From Verif Require Import Base PyAst Polyfill.

(** what a name stands for: something imported, or whatever a statement defines *)
Inductive origin : Set :=
| Imported (level : nat) (module : option string) (name : string)
| Defined (s : stmt).
Definition node_binds (n : node) : list (string * origin) :=
  match n with
  | From m names level => map (fun x => (match snd x with Some a => a | None => fst x end, Imported level m (fst x))) names
  | Node s => map (fun x => (x, Defined s)) (bound_by s)
  end.
(** the last binding counts *)
Definition meaning (l : list node) (x : string) : option origin := dget x (rev (flat_map node_binds l)).
Definition moved (o : origin) : origin :=
  match o with
  | Imported 0 (Some "typing") "Literal" => Imported 0 (Some "typing_extensions") "Literal"
  | _ => o
  end.
(** an import needs at least one name *)
Definition valid_node (n : node) : Prop := match n with From _ [] _ => False | _ => True end.
Definition from_typing (n : node) : bool :=
  match n with From (Some "typing") _ _ => true | _ => false end.
Definition from_extensions (n : node) : bool :=
  match n with From (Some "typing_extensions") _ _ => true | _ => false end.
(** [from typing import ...] without dots and [as] *)
Definition absolute (n : node) : Prop :=
  match n with From (Some "typing") names level => level = 0%nat /\ Forall (fun x => snd x = None) names | _ => True end.
(** more than Literal is imported *)
Definition more_than_literal (n : node) : Prop :=
  match n with From (Some "typing") names _ => exists x, In x (map fst names) /\ x <> "Literal" | _ => True end.
Definition untouched (n : node) : bool := negb (from_typing n || from_extensions n).
