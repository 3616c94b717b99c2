(** A schema and documents used beside the theorems about objects, selections and arguments. *)
From Verif Require Import Base PyAst Gql Config Stylers Registry Utils Documents Inline Recurse Fragments Operations Objects.

Definition out (t : gty) : fielddef := FieldDef t [] None None [].
Definition sx_types : dict typedef :=
  [("Query", TObject None [] [("node", out (GNamed "Node")); ("me", out (GNonNull (GNamed "User")));
                              ("hits", out (GNonNull (GList (GNamed "Hit")))); ("hit", out (GNamed "Hit"));
                              ("color", out (GList (GNonNull (GNamed "Color")))); ("count", out (GNonNull (GNamed "Int")))] []);
   ("Node", TInterface None [] [("id", out (GNonNull (GNamed "ID")))]);
   ("User", TObject (Some "A user") ["Node"]
      [("id", out (GNonNull (GNamed "ID"))); ("userName", FieldDef (GNamed "String") [] None (Some "old") []);
       ("friends", out (GList (GNonNull (GNamed "User"))))] []);
   ("Post", TObject None ["Node"] [("id", out (GNonNull (GNamed "ID"))); ("author", out (GNamed "Node")); ("about", out (GNamed "Hit"))] []);
   ("Hit", TUnion None ["User"; "Post"]);
   ("Color", TEnum None [("RED", EnumVal "RED" None None)]);
   ("String", TScalar None); ("ID", TScalar None); ("Int", TScalar None)].
Definition sx : schema := Schema sx_types (Some "Query") None None.
Definition sst : list styler := [default_styler].
Definition sx_reg : reg := with_enums [("Color", "Color")] (init_reg default_config).
Definition plain (n : string) : selection := SelField (FieldNode None n [] [] None).
Definition sub (n : string) (l : list selection) : fieldnode := FieldNode None n [] [] (Some l).
Definition on (n : string) (l : list selection) : selection := SelInline (Some n) [] l.
Definition sx_op (vars : list vardef) (l : list selection) : operation := Operation OpQuery (Some "Get") vars [] l.
Definition sx_pc : ocfg := OCfg [] [] [] [] true true None.
Definition sx_generate (o : operation) : res (list stmt) * reg :=
  generate_operation default_config sst sx sx_pc (fun _ => "query") (fun t => Ok t) (fun _ => None) o sx_reg.
Definition sx_tfn (f : fieldnode) (fd : fielddef) : res (list stmt * list stmt) * reg :=
  type_field_node default_config sst sx f "Get" fd sx_reg.
