(** Example schemas used beside the theorems about inputs, enums and references. *)
From Verif Require Import Base PyAst Gql Config Stylers Registry Utils Referencer Enums Inputs.

Definition ty (n : string) : gty := GNamed n.
Definition req (t : gty) : gty := GNonNull t.
Definition fld (t : gty) : inputfield := InputField t None None None.
Definition fld_default (t : gty) (v : pyval) : inputfield := InputField t (Some v) None None.
Definition element_of (u dn k : string) : directive :=
  Directive "unionElementOf" [("union", VString u false); ("discriminator", VString dn false); ("key", VString k false)].
Definition one_of : directive := Directive "oneOf" [].
Definition scalars : dict typedef := [("ID", TScalar None); ("String", TScalar None); ("Int", TScalar None)].

Definition color : string * typedef :=
  ("Color", TEnum (Some "A colour") [("RED", EnumVal "RED" None None); ("GREEN", EnumVal "GREEN" (Some "like grass") (Some "no"))]).
Definition filter_input : string * typedef :=
  ("Filter", TInput None [("name", fld (req (ty "String"))); ("maxCount", fld_default (req (ty "Int")) (PInt 10));
                          ("color", fld (ty "Color")); ("tags", fld (req (GList (req (ty "String")))));
                          ("and", fld (GList (req (ty "Filter"))))] []).
Definition by_id : string * typedef := ("ById", TInput None [("id", fld (req (ty "ID")))] []).
Definition by_name : string * typedef := ("ByName", TInput None [("name", fld (req (ty "String")))] []).
Definition selector : string * typedef :=
  ("Selector", TInput None [("byId", fld (ty "ById")); ("byName", fld (ty "ByName"))] [one_of]).
Definition mixed : string * typedef :=
  ("Mixed", TInput None [("flag", fld (ty "Int")); ("ids", fld (GList (req (ty "ID"))))] [one_of]).
Definition shape : string * typedef := ("Shape", TInput None [("kind", fld (req (ty "String")))] []).
Definition circle : string * typedef :=
  ("Circle", TInput None [("kind", fld (req (ty "String"))); ("radius", fld (req (ty "Int")))] [element_of "Shape" "kind" "circle"]).
Definition square : string * typedef :=
  ("Square", TInput None [("kind", fld (req (ty "String"))); ("width", fld (req (ty "Int")))] [element_of "Shape" "kind" "square"]).
Definition query_type : string * typedef :=
  ("Query", TObject None [] [("count", FieldDef (ty "Int") [] None None []); ("color", FieldDef (ty "Color") [] None None [])] []).

(** every schema contains the introspection types; two of them are enums *)
Definition type_kind : string * typedef :=
  ("__TypeKind", TEnum None [("SCALAR", EnumVal "SCALAR" None None); ("OBJECT", EnumVal "OBJECT" None None)]).
Definition ex_schema : schema :=
  Schema (scalars ++ [color; filter_input; by_id; by_name; selector; mixed; shape; circle; square; query_type; type_kind])
         (Some "Query") None None.
Definition ex_stylers : list styler := [default_styler].
Definition ex_plugin : inputs_config := InputsConfig ["pydantic.BaseModel"] true false.
Definition ex_enums : enums_config := EnumsConfig false true false.
(** the registry after the enum plugin *)
Definition ex_reg : reg := snd (enums_plugin default_config ex_stylers ex_enums ex_schema (Ok []) (init_reg default_config)).
Definition ex_run : res (list stmt) * reg :=
  generate_inputs default_config ex_stylers ex_plugin ex_schema (Ok []) ex_reg.

(** schemas that break properties *)
Definition run_inputs (st : list styler) (types : dict typedef) : res (list stmt) * reg :=
  generate_inputs default_config st ex_plugin (Schema (scalars ++ types) None None None) (Ok []) (init_reg default_config).
Definition bad_oneof_member : string * typedef :=
  ("Pick", TInput None [("a", fld (ty "Int")); ("b", fld (ty "Int"))] [one_of; element_of "Shape" "kind" "pick"]).
Definition bad_alias_oneof : string * typedef :=
  ("Pick", TInput None [("shape", fld (ty "Shape")); ("byId", fld (ty "ById"))] [one_of]).
Definition square_again : string * typedef :=
  ("Square", TInput None [("kind", fld (req (ty "String")))] [element_of "Shape" "kind" "circle"]).
Definition camel_discriminator : string * typedef :=
  ("Circle", TInput None [("elementKind", fld (req (ty "String"))); ("radius", fld (req (ty "Int")))]
                    [element_of "Shape" "elementKind" "circle"]).
Definition deprecated_enum : string * typedef :=
  ("Deprecated", TEnum None [("YES", EnumVal "YES" None None)]).
Definition enum_user : string * typedef := ("User", TInput None [("flag", fld (req (ty "Deprecated")))] []).
Definition none_enum : string * typedef :=
  ("Level", TEnum None [("None", EnumVal "None" None None); ("High", EnumVal "High" None None)]).

(** ** documents *)
Definition field (n : string) (sels : option (list selection)) : selection := SelField (FieldNode None n [] [] sels).
Definition ofield (t : gty) : fielddef := FieldDef t [] None None [].
Definition ref_schema : schema :=
  Schema (scalars ++
    [color; filter_input; by_id; by_name;
     ("Unused", TInput None [("id", fld (ty "ID"))] []);
     ("Node", TInterface None [] [("id", ofield (req (ty "ID")))]);
     ("Car", TObject None ["Node"] [("id", ofield (req (ty "ID"))); ("paint", ofield (ty "Color"))] []);
     ("Query", TObject None [] [("node", ofield (ty "Node")); ("car", ofield (ty "Car"))] [])])
    (Some "Query") None None.
Definition op_with (n : string) (vars : list vardef) (sels : list selection) : definition :=
  DOp (Operation OpQuery (Some n) vars [] sels).
(** query Cars($f: Filter!) { node { id ... on Car { paint } } } *)
Definition ref_doc : document :=
  [op_with "Cars" [VarDef "f" (req (ty "Filter")) None []]
     [field "node" (Some [field "id" None; SelInline (Some "Car") [] [field "paint" None]])]].
(** query Cars { node { ... on Node { ... on Car { paint } } } } *)
Definition nested_doc : document :=
  [op_with "Cars" []
     [field "node" (Some [SelInline (Some "Node") [] [SelInline (Some "Car") [] [field "paint" None]]])]].
(** query Cars { ... on Query { car { paint } } } *)
Definition root_inline_doc : document :=
  [op_with "Cars" [] [SelInline (Some "Query") [] [field "car" (Some [field "paint" None])]]].
