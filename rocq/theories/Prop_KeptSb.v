(** C85: the server scaffold keeps descriptions and deprecation reasons. *)
From Verif Require Import Base PyAst Gql Config Stylers Registry Utils Objects Strawberry Spec_Kept Spec_KeptSb P_Base P_KeptSb Ex_Inputs Prop_Scaffold.

(** Every field of an object or interface type has its description and reason.
    Full statement: types, arguments and enum values too (false, [C85_refuted],
    [C85_argument_refuted], [C85_enum_refuted]). *)
Theorem C85_types_partial : forall c st s ds ap pc r l r', strawberry_plugin c st s ds ap pc r = (Ok l, r') -> sb_types pc = true ->
  forall key t, In (key, t) (s_types s) -> is_interface_def t || is_object_def t = true -> skipped pc key = false ->
  exists bases docs ms cfg dec,
    In (SClass (if is_interface_def t then style_interface_class st key else style_objecttype_class st key) bases (docs ++ ms ++ cfg) dec) l
    /\ Forall2 (fun kf m => keeps_texts (style_with sty_node st (fst kf)) (fd_desc (snd kf)) (fd_depr (snd kf)) m) (type_fields t) ms.
Proof. exact types_kept. Qed.
Print Assumptions C85_types_partial.
(** so has every input field, *)
Theorem C85_inputs_partial : forall c st s ds ap pc r l r', strawberry_plugin c st s ds ap pc r = (Ok l, r') -> sb_inputs pc = true ->
  forall key de fs dirs, In (key, TInput de fs dirs) (s_types s) -> sb_skip_underscore pc && startswith "_" key = false ->
  exists bases docs ms cfg dec, In (SClass (style_inputtype_class st key) bases (docs ++ ms ++ cfg) dec) l
    /\ Forall2 (fun kf m => keeps_texts (style_with sty_node st (fst kf)) (if_desc (snd kf)) (if_depr (snd kf)) m) fs ms.
Proof. exact inputs_kept. Qed.
Print Assumptions C85_inputs_partial.
(** and every scalar its description. *)
Theorem C85_scalars_partial : forall c st s ds ap pc r l r', strawberry_plugin c st s ds ap pc r = (Ok l, r') -> sb_directives pc = true ->
  forall key d, In (key, TScalar d) (s_types s) -> ~ In key (sb_builtin_scalars pc) ->
  exists e, In (SAssign (EName key) e) l /\ given "description" (keywords_in ["strawberry.scalar"] e) = at_most d.
Proof. exact scalars_kept. Qed.
Print Assumptions C85_scalars_partial.

(** ** Examples *)
Definition told_schema : schema :=
  Schema (scalars ++ [("Color", TEnum None [("RED", EnumVal "RED" (Some "warm") None); ("BLUE", EnumVal "BLUE" None (Some "out of stock"))]);
    ("Money", TScalar (Some "In cents"));
    ("Page", TInput (Some "A page") [("size", InputField (ty "Int") None (Some "Rows") (Some "use first")); ("first", InputField (ty "Int") None None None)] []);
    ("User", TObject (Some "A person") [] [("firstName", FieldDef (ty "String") [] (Some "Given name") (Some "use name") []); ("name", sb_field (ty "String") []);
       ("posts", FieldDef (ty "Int") [("first", ArgDef (ty "Int") None (Some "How many"))] (Some "Texts") None [])] [])]) None None None.
Definition told_run : list stmt := match fst (sb_run default_strawberry_config told_schema []) with Ok l => l | Err _ => [] end.
Definition texts (m : stmt) : string * list string * list string := (member_name m, given "description" (keywords m), given "deprecation_reason" (keywords m)).
Example C85_ex : is_ok (fst (sb_run default_strawberry_config told_schema [])) = true
  /\ map texts (skipn 1 (classes told_run "User")) = [("first_name", ["Given name"], ["use name"]); ("name", [], []); ("posts", ["Texts"], [])]
  /\ map texts (skipn 1 (classes told_run "Page")) = [("size", ["Rows"], ["use first"]); ("first", [], [])]
  /\ flat_map (fun m => match m with SAssign (EName n) e => [(n, given "description" (keywords_in ["strawberry.scalar"] e))] | _ => [] end) told_run = [("Money", ["In cents"])].
Proof. repeat split; vm_compute; reflexivity. Qed.

(** ** Refutations *)
(** type User, described as a person: the class has the description as a docstring, the decorator, which is all strawberry looks at, has not *)
Theorem C85_refuted : exists s key t l r' bases body dec, In (key, t) (s_types s) /\ type_desc t = Some "A person"
  /\ sb_run default_strawberry_config s [] = (Ok l, r') /\ In (SClass key bases body [dec]) l
  /\ given "description" (keywords_in ["strawberry.type"] dec) = [] /\ note body = Some "A person".
Proof.
  exists told_schema, "User". do 6 eexists. split; [do 6 right; left; reflexivity|]. split; [reflexivity|]. split; [vm_compute; reflexivity|].
  split; [do 3 right; left; reflexivity|]. split; reflexivity.
Qed.
Print Assumptions C85_refuted.
(** posts(first: Int), where [first] is described: the parameter of the resolver has its type and nothing else *)
Theorem C85_argument_refuted : exists s fs f a, get_type s "User" = Some (TObject (Some "A person") [] fs []) /\ dget "posts" fs = Some f /\ dget "first" (fd_args f) = Some a
  /\ arg_desc a = Some "How many"
  /\ exists l r' b ret kws, sb_run default_strawberry_config s [] = (Ok l, r')
  /\ nth_error (classes l "User") 3 = Some (SFunc false "posts" (PyArgs [PyArg "self" None; PyArg "first" (Some (optional_of (EName "int")))] []) b ret [ECall (EName "strawberry.field") [] kws])
  /\ given "description" kws = ["Texts"].
Proof.
  exists told_schema. do 3 eexists. split; [reflexivity|]. split; [reflexivity|]. split; [reflexivity|]. split; [reflexivity|].
  do 5 eexists. split; [vm_compute; reflexivity|]. split; vm_compute; reflexivity.
Qed.
Print Assumptions C85_argument_refuted.
(** BLUE @deprecated(reason: "out of stock"): a plain value, and the reason is not even in the text below it *)
Theorem C85_enum_refuted : exists s vs v l r' bases, get_type s "Color" = Some (TEnum None vs) /\ dget "BLUE" vs = Some v /\ ev_depr v = Some "out of stock"
  /\ sb_run default_strawberry_config s [] = (Ok l, r')
  /\ In (SClass "Color" bases [SAssign (EName "RED") (estr "RED"); SExpr (estr "warm"); SAssign (EName "BLUE") (estr "BLUE"); SExpr (estr "DEPRECATED: None")]
         [EName "strawberry.enum"]) l.
Proof.
  exists told_schema. do 5 eexists. split; [reflexivity|]. split; [reflexivity|]. split; [reflexivity|]. split; [vm_compute; reflexivity|].
  right. left. reflexivity.
Qed.
Print Assumptions C85_enum_refuted.
