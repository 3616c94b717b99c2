(** Directives of a schema in a strawberry module.  Independent of the generator. *)
From Verif Require Import Base PyAst Gql Config Stylers Spec_KeptSb.

(** a literal of the SDL as a Python expression *)
Inductive literal : vnode -> expr -> Prop :=
| li_null : literal VNull (EConst CNone)
| li_string : forall t b, literal (VString t b) (EConst (CStr t))
| li_bool : forall b, literal (VBool b) (EConst (CBool b))
| li_list : forall l es, Forall2 literal l es -> literal (VList l) (EList es).
(** literals without numbers, enum values and objects *)
Fixpoint textual (v : vnode) : bool :=
  match v with
  | VNull | VString _ _ | VBool _ => true
  | VList l => forallb textual l
  | _ => false
  end.
(** the call for a directive: its class, and its arguments by their names *)
Definition same_call (d : directive) (e : expr) : Prop :=
  exists kws, e = ECall (EName (dir_name d)) [] kws
  /\ Forall2 (fun a kw => fst kw = Some (fst a) /\ (textual (snd a) = true -> literal (snd a) (snd kw))) (dir_args d) kws.
(** what strawberry is told to apply *)
Definition calls_in (kws : list (option string * expr)) : list expr :=
  flat_map (fun kv => match kv with (Some "directives", EList es) => es | _ => [] end) kws.
Definition custom (builtin : list string) (ds : list directive) : list directive := filter (fun d => negb (mem (dir_name d) builtin)) ds.
Definition applies (builtin : list string) (ds : list directive) (kws : list (option string * expr)) : Prop :=
  Forall2 same_call (custom builtin ds) (calls_in kws).
(** the parameters of the class of a directive *)
Definition attributes (body : list stmt) : list string := flat_map (fun m => match m with SAnn n _ _ => [n] | _ => [] end) body.
