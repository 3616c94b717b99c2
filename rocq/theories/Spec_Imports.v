(** What the import statements of a module fetch and bind.  Independent of the generator. *)
From Verif Require Import Base PyAst.
From Coq Require Export Permutation.

Definition dotted (m n : string) : string := m +s+ "." +s+ n.
(** the names bound by an import statement, with the object they are bound to
    ([import a.b] binds [a]; the generator only emits [import a]) *)
Definition import_binds (s : stmt) : list (string * string) :=
  match s with
  | SImport ns => map (fun n => (n, n)) ns
  | SImportFrom m ns => map (fun n => (n, dotted m n)) ns
  | _ => []
  end.
Definition bindings (l : list stmt) : list (string * string) := flat_map import_binds l.
Definition imported (l : list stmt) : list string := map snd (bindings l).
Definition is_import (s : stmt) : Prop :=
  match s with SImport _ | SImportFrom _ _ => True | _ => False end.
(** the object a name is bound to after the imports have run: the last import wins *)
Definition bound_to (l : list stmt) (n : string) : option string := dget n (rev (bindings l)).

(** some of Python's builtin types *)
Definition simple_types : list string := ["bool"; "str"; "int"; "float"; "dict"; "list"; "tuple"].

(** an iteration order of Python sets: any rearrangement of the elements *)
Definition set_order (iter : list string -> list string) : Prop := forall l, Permutation (iter l) l.

(** two modules that differ only in the order in which the same objects are imported and in
    which blocks of helper definitions appear *)
Definition same_up_to_order (t t' : list stmt) : Prop :=
  exists imps imps' blocks blocks' rest,
    t = imps ++ concat blocks ++ rest /\ t' = imps' ++ concat blocks' ++ rest
    /\ Forall is_import imps /\ Forall is_import imps'
    /\ Permutation (bindings imps) (bindings imps')
    /\ Permutation blocks blocks'.
