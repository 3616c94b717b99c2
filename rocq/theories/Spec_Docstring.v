(** What docstrings of generated functions and factories say (website/docs/plugins/funcs.md:11,
    inputfuncs.md:80).  Independent of the generator. *)
From Verif Require Import Base PyAst Gql Config Stylers Spec_Funcs.

(** an entry of the list of parameters: its name and what follows *)
Definition entry_text (e : string * string) : string := "    " +s+ fst e +s+ snd e +s+ nl.
(** a docstring that starts with [head] and has the entries, under a title, before [tail] *)
Definition docs (head title : string) (entries : list (string * string)) (tail text : string) : Prop :=
  exists more, text = head +s+ more +s+ nl +s+ nl +s+ title +s+ nl +s+ join "" (map entry_text entries) +s+ tail.
(** GraphQL: the descriptions of the arguments that a variable is given to, in the fields of the operation *)
Definition top_args (o : operation) : list (string * (string * vnode)) :=
  flat_map (fun x => match x with SelField f => map (fun a => (fn_name f, a)) (fn_args f) | _ => [] end) (op_sels o).
Definition arg_text (s : schema) (root field arg : string) : list string :=
  match get_field_def s root field with
  | Some fd => match dget arg (fd_args fd) with
               | Some a => match arg_desc a with Some (String x d) => [String x d] | _ => [] end
               | None => [] end
  | None => [] end.
Definition given_to (s : schema) (root : string) (o : operation) (v : string) : list string :=
  flat_map (fun fa => match snd (snd fa) with VVar w => if String.eqb w v then arg_text s root (fst fa) (fst (snd fa)) else [] | _ => [] end) (top_args o).
Definition variable_text (s : schema) (root : string) (o : operation) (v : string) : string :=
  match given_to s root o v with [] => "No description" | l => join " AND " l end.
(** variables are given to arguments of the same name *)
Definition same_names (o : operation) : Prop := forall f a v, In (f, (a, VVar v)) (top_args o) -> a = v.
(** the entry of a variable: its type and description *)
Definition describes (st : list styler) (text : string -> string) (v : vardef) (e : string * string) : Prop :=
  fst e = style_with sty_parameter st (v_name v)
  /\ exists label default, snd e = if requiredb v then " (" +s+ label +s+ "): " +s+ text (v_name v)
       else " (" +s+ label +s+ ", optional): " +s+ text (v_name v) +s+ ". " +s+ default.
(** a field with a description has the description *)
Definition describes_field (st : list styler) (k : string) (y : inputfield) (e : string * string) : Prop :=
  fst e = style_with sty_parameter st k
  /\ forall x d, if_desc y = Some (String x d) -> snd e = ": " +s+ String x d.
