(** The part of Python's [ast] that the generator emits.
    [ctx], [lineno] and [type_params] are dropped: they do not influence the
    rendered source.  No proofs in this file. *)
From Verif Require Import Base.

Inductive const : Set :=
| CNone | CBool (b : bool) | CInt (z : Z) | CFloat (s : string) | CStr (s : string) | CEllipsis.

Inductive cmpop : Set := OpIs | OpIsNot | OpNotEq.

Inductive expr : Set :=
| EName (id : string)
| EConst (c : const)
| ESub (value slice : expr)                               (* value[slice] *)
| ETuple (elts : list expr)
| EList (elts : list expr)
| EDict (items : list (expr * expr))
| ECall (f : expr) (args : list expr) (kws : list (option string * expr))  (* [None] = **e *)
| EAttr (value : expr) (attr : string)
| ECompare (l : expr) (op : cmpop) (r : expr)
| EAwait (e : expr)
| EYield (e : expr)
| ELambda (params : list string) (body : expr).

(** Function parameters: positional parameters with their annotation; [a_defaults] holds
    the defaults of the last [length a_defaults] parameters, as in [ast.arguments]. *)
Record pyarg : Set := PyArg { pa_name : string; pa_ann : option expr }.
Record pyargs : Set := PyArgs { a_args : list pyarg; a_defaults : list expr }.

Inductive stmt : Set :=
| SAnn (target : string) (annotation : expr) (value : option expr)
| SAssign (target : expr) (value : expr)
| SExpr (e : expr)
| SClass (name : string) (bases : list expr) (body : list stmt) (decorators : list expr)
| SFunc (is_async : bool) (name : string) (args : pyargs) (body : list stmt)
        (returns : option expr) (decorators : list expr)
| SImport (names : list string)
| SImportFrom (module : string) (names : list string)
| SReturn (e : option expr)
| SIf (test : expr) (body : list stmt)
| SFor (is_async : bool) (targets : list string) (iter : expr) (body : list stmt)
| SBreak
| SRaise (e : expr)
| SPass
| SText (src : string).    (* code emitted from a source template whose inside is not modelled *)

Definition docstring (s : string) : stmt := SExpr (EConst (CStr s)).
Definition estr (s : string) : expr := EConst (CStr s).
Definition enone : expr := EConst CNone.

Definition optional_of (e : expr) : expr := ESub (EName "Optional") e.
Definition list_of (e : expr) : expr := ESub (EName "List") e.
Definition tuple_of (e : expr) : expr := ESub (EName "Tuple") (ETuple [e; EConst CEllipsis]).
Definition union_of (l : list expr) : expr := ESub (EName "Union") (ETuple l).
Definition annotated_of (l : list expr) : expr := ESub (EName "Annotated") (ETuple l).
Definition literal_of (s : string) : expr := ESub (EName "Literal") (estr s).
Definition field_call (kws : list (string * expr)) : expr :=
  ECall (EName "Field") [] (map (fun kv => (Some (fst kv), snd kv)) kws).

(** Names of the classes, functions, aliases a statement binds at module level *)
Definition bound_by (s : stmt) : list string :=
  match s with
  | SAnn t _ _ => [t]
  | SAssign (EName t) _ => [t]
  | SClass n _ _ _ => [n]
  | SFunc _ n _ _ _ _ => [n]
  | SImport ns => ns
  | SImportFrom _ ns => ns
  | _ => []
  end.

(** ** Rendering of annotations ([ast.unparse]), for the expression forms that occur in
    type annotations.  String constants are rendered with single quotes and without
    escapes (names only). *)
Fixpoint unparse (e : expr) : string :=
  match e with
  | EName n => n
  | EConst CNone => "None"
  | EConst (CBool true) => "True"
  | EConst (CBool false) => "False"
  | EConst (CStr s) => "'" +s+ s +s+ "'"
  | EConst CEllipsis => "..."
  | EConst _ => "0"
  | ESub v (ETuple l) => unparse v +s+ "[" +s+ join ", " (map unparse l) +s+ "]"
  | ESub v s => unparse v +s+ "[" +s+ unparse s +s+ "]"
  | EAttr v a => unparse v +s+ "." +s+ a
  | ETuple l => "(" +s+ join ", " (map unparse l) +s+ ")"
  | ECall f args _ => unparse f +s+ "(" +s+ join ", " (map unparse args) +s+ ")"
  | _ => ""
  end.
