(** graphql-core 3.2 [print_ast] (graphql/language/printer.py) on executable definitions, and
    utils.py:535-553.  graphql-core is a dependency and not part of /repo; this follows its
    published printer.  No proofs in this file.
    [print_string] prints a string literal (plain or block). *)
From Verif Require Import Base Gql Documents.

(** printer.py [join]: joins the non-empty parts; [wrap]; [indent]; [block] *)
Definition nonempty (l : list string) : list string := filter (fun x => negb (String.eqb x "")) l.
Definition pjoin (sep : string) (l : list string) : string := join sep (nonempty l).
Definition wrap (a m b : string) : string := if String.eqb m "" then "" else a +s+ m +s+ b.
(** [s.replace("\n", "\n  ")] *)
Fixpoint shift (s : string) : string :=
  match s with
  | EmptyString => EmptyString
  | String a r => if Ascii.eqb a newline then String a (String " " (String " " (shift r))) else String a (shift r)
  end.
Definition indent (s : string) : string := wrap "  " (shift s) "".
Definition block (l : list string) : string :=
  match l with [] => "" | _ => "{" +s+ nl +s+ indent (pjoin nl l) +s+ nl +s+ "}" end.

Section Print.
Variable print_string : string -> bool -> string.

Fixpoint print_value (v : vnode) : string :=
  match v with
  | VInt s | VFloat s | VEnum s => s
  | VString s b => print_string s b
  | VBool true => "true" | VBool false => "false"
  | VNull => "null"
  | VList l => "[" +s+ pjoin ", " (map print_value l) +s+ "]"
  | VObject l => "{" +s+ pjoin ", " (map (fun kv => fst kv +s+ ": " +s+ print_value (snd kv)) l) +s+ "}"
  | VVar s => "$" +s+ s
  end.
Definition print_arg (kv : string * vnode) : string := fst kv +s+ ": " +s+ print_value (snd kv).
Definition print_directive (d : directive) : string :=
  "@" +s+ dir_name d +s+ wrap "(" (pjoin ", " (map print_arg (dir_args d))) ")".
Definition print_directives (l : list directive) : string := pjoin " " (map print_directive l).
Fixpoint print_type (t : gty) : string :=
  match t with
  | GNamed n => n
  | GList t => "[" +s+ print_type t +s+ "]"
  | GNonNull t => print_type t +s+ "!"
  end.
Definition args_line (prefix : string) (args : list (string * vnode)) : string :=
  let line := prefix +s+ wrap "(" (pjoin ", " (map print_arg args)) ")" in
  if (80 <? String.length line)%nat
  then prefix +s+ wrap ("(" +s+ nl) (indent (pjoin nl (map print_arg args))) (nl +s+ ")")
  else line.
Fixpoint print_sel (x : selection) : string :=
  match x with
  | SelField f => print_field f
  | SelSpread n ds => "..." +s+ n +s+ wrap " " (print_directives ds) ""
  | SelInline cond ds l =>
      pjoin " " ["..."; wrap "on " (opt_str cond) ""; print_directives ds; block (map print_sel l)]
  end
with print_field (f : fieldnode) : string :=
  match f with
  | FieldNode alias n args ds sels =>
      pjoin " " [args_line (wrap "" (opt_str alias) ": " +s+ n) args; print_directives ds;
                 match sels with Some l => block (map print_sel l) | None => "" end]
  end.
Definition print_vardef (v : vardef) : string :=
  "$" +s+ v_name v +s+ ": " +s+ print_type (v_type v)
  +s+ wrap " = " (match v_default v with Some d => print_value d | None => "" end) ""
  +s+ wrap " " (print_directives (v_dirs v)) "".
Definition op_keyword (k : optype) : string :=
  match k with OpQuery => "query" | OpMutation => "mutation" | OpSubscription => "subscription" end.
Definition print_operation (o : operation) : string :=
  let prefix := pjoin " " [op_keyword (op_kind o);
                           pjoin "" [opt_str (op_name o); wrap "(" (pjoin ", " (map print_vardef (op_vars o))) ")"];
                           print_directives (op_dirs o)] in
  (if String.eqb prefix "query" then "" else prefix +s+ " ") +s+ block (map print_sel (op_sels o)).
Definition print_fragment (f : fragment) : string :=
  "fragment " +s+ fr_name f +s+ " on " +s+ fr_on f +s+ " " +s+ wrap "" (print_directives (fr_dirs f)) " "
  +s+ block (map print_sel (fr_sels f)).
(** utils.py:535-553 the fragment whose text auto_add_typename_field_to_fragment_str returns *)
Definition with_typename (f : fragment) : fragment :=
  Fragment (fr_name f) (fr_on f) (fr_dirs f)
    (fr_sels f ++ if existsb is_typename_field (fr_sels f) then [] else [SelField typename_node]).
End Print.
