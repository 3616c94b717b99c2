(** turms/parsers/polyfill.py.  No proofs in this file. *)
From Verif Require Import Base PyAst.

(** A statement of a module as far as the polyfill looks at it: [from module import name as
    asname, ...] with [level] leading dots (and possibly no module), or any other statement. *)
Inductive node : Set :=
| From (module : option string) (names : list (string * option string)) (level : nat)
| Node (s : stmt).

(** polyfill.py:25-58 polyfill_python_seven; [iter] is the iteration order of a set *)
Definition polyfill_node (iter : list string -> list string) (n : node) : list node :=
  match n with
  | From (Some "typing") names _ =>
      let aliases := dedup (map fst names) in
      let need_extensions := filter (fun x => String.eqb x "Literal") aliases in
      let okay_imports := filter (fun x => negb (mem x need_extensions)) aliases in
      let import m l := From (Some m) (map (fun x => (x, None)) (iter l)) 0 in
      (match need_extensions with [] => [] | _ => [import "typing_extensions" need_extensions] end)
      ++ [import "typing" okay_imports]
  | _ => [n]
  end.
Definition polyfill_python_seven (iter : list string -> list string) (asts : list node) : list node :=
  flat_map (polyfill_node iter) asts.
(** polyfill.py:69-76 PolyfillParser.parse_ast; [python_version] as validated (polyfill.py:14-22) *)
Definition polyfill_parse (python_version : string) (iter : list string -> list string) (asts : list node) : list node :=
  if String.eqb python_version "3.7" then polyfill_python_seven iter asts else asts.

(** the statements the plugins emit: imports without [as] and without dots *)
Definition node_of_stmt (s : stmt) : node :=
  match s with
  | SImportFrom m names => From (Some m) (map (fun x => (x, None)) names) 0
  | _ => Node s
  end.
