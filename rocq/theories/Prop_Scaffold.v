(** C47, C48, C55, C56: the server scaffold. *)
From Coq Require Import Permutation Sorted.
From Verif Require Import Base PyAst Gql Config Stylers Registry Utils Objects Strawberry PySem Spec_Annot Spec_Scaffold P_Base P_Monad P_Scaffold Ex_Inputs.

(** ** An example *)
Definition arg (t : gty) : argdef := ArgDef t None None.
Definition arg_d (t : gty) (v : pyval) : argdef := ArgDef t (Some v) None.
Definition sb_field (t : gty) (args : list (string * argdef)) : fielddef := FieldDef t args None None [].
Definition sb_user : string * typedef :=
  ("User", TObject (Some "A user") ["Node"]
    [("id", sb_field (req (ty "ID")) []); ("born", sb_field (ty "Date") []);
     ("friends", sb_field (req (GList (req (ty "User"))))
        [("first", arg_d (req (ty "Int")) (PInt 10)); ("filter", arg (ty "Filter")); ("colors", arg_d (req (GList (ty "Color"))) (PList [PStr "RED"]));
         ("after", arg (req (ty "ID")))])] []).
Definition sb_schema : schema :=
  Schema (scalars ++ [("Date", TScalar None); color; filter_input; ("Node", TInterface None [] [("id", sb_field (req (ty "ID")) [])]); sb_user;
    ("Thing", TUnion None ["User"]);
    ("Query", TObject None [] [("thing", sb_field (ty "Thing") []); ("me", sb_field (ty "User") [])] []);
    ("Subscription", TObject None [] [("ticks", sb_field (req (ty "Int")) [])] []); type_kind])
    (Some "Query") None (Some "Subscription").
Definition sb_dirs : list directivedef :=
  [DirectiveDef "skip" ["FIELD"] [("if", arg (req (ty "Int")))];
   DirectiveDef "cost" ["OBJECT"; "FIELD_DEFINITION"] [("weights", arg_d (GList (req (ty "Int"))) (PList [PInt 1])); ("unit", arg (req (ty "String")))]].
Definition no_dirs (_ : string) : list directive := [].
Definition sb_run (pc : sbcfg) (s : schema) (ds : list directivedef) : res (list stmt) * reg :=
  strawberry_plugin default_config [default_styler] s ds no_dirs pc (init_reg default_config).
Definition classes (l : list stmt) (n : string) : list stmt :=
  flat_map (fun m => match m with SClass n' _ b _ => if String.eqb n n' then b else [] | _ => [] end) l.

(** ** C47 *)
(** C47.  Missing: parameters with a default are never Optional, even if null is allowed
    ([C47_default_refuted]); an argument called self ([C47_self_refuted]). *)
Theorem C47_partial : forall c st s ds ap pc r l r', names_styled st r -> strawberry_plugin c st s ds ap pc r = (Ok l, r') -> sb_types pc = true ->
  forall key t name f, In (key, t) (s_types s) -> is_interface_def t || is_object_def t = true -> skipped pc key = false ->
  Forall (fun kv => field_wf (snd kv)) (type_fields t) -> In (name, f) (type_fields t) -> fd_args f <> [] \/ root_type_name key = true ->
  exists cls bases body dec asy args fbody ret fdec, In (SClass cls bases body dec) l
    /\ In (SFunc asy (generate_node_name st name) args fbody ret fdec) body
    /\ signature st s (r_scalars r') required (fd_args f) args.
Proof. exact resolvers_C47. Qed.
Print Assumptions C47_partial.
(** what [says] means for Optional *)
Theorem C47_optional_partial : forall st s sc t a, gty_wf t = true -> says st s sc t a -> ((exists e, a = optional_of e) <-> is_nonnull t = false).
Proof. exact says_optional. Qed.
Print Assumptions C47_optional_partial.
Example C47_ex : exists l r', sb_run default_strawberry_config sb_schema sb_dirs = (Ok l, r')
  /\ names_styled [default_styler] (init_reg default_config)
  /\ Forall (fun kv => field_wf (snd kv)) (type_fields (snd sb_user))
  /\ nth_error (classes l "User") 3 =
       Some (SFunc false "friends"
         (PyArgs [PyArg "self" None; PyArg "filter" (Some (optional_of (EName "Filter"))); PyArg "after" (Some (EName "str"));
                  PyArg "first" (Some (EName "int")); PyArg "colors" (Some (list_of (optional_of (EName "Color"))))]
                 [EConst (CInt 10); EList [estr "RED"]])
         [SReturn (Some enone)] (Some (list_of (estr "User"))) [ECall (EName "strawberry.field") [] []]).
Proof.
  do 2 eexists. split; [vm_compute; reflexivity|]. split; [apply names_styled_init|]. split; [|vm_compute; reflexivity].
  repeat constructor.
Qed.
(** [friends(first: Int = 10)] accepts null, the parameter is an int *)
Theorem C47_default_refuted : exists s l r' a, get_type s "User" = Some (TObject None [] [("friends", sb_field (ty "Int") [("first", a)])] [])
  /\ is_nonnull (arg_type a) = false /\ sb_run default_strawberry_config s [] = (Ok l, r')
  /\ exists b ret dec, classes l "User" = [SFunc false "friends" (PyArgs [PyArg "self" None; PyArg "first" (Some (EName "int"))] [EConst (CInt 10)]) b ret dec].
Proof.
  exists (Schema (scalars ++ [("User", TObject None [] [("friends", sb_field (ty "Int") [("first", arg_d (ty "Int") (PInt 10))])] [])]) None None None).
  do 3 eexists. split; [reflexivity|]. split; [reflexivity|]. split; [vm_compute; reflexivity|]. do 3 eexists. vm_compute. reflexivity.
Qed.
Print Assumptions C47_default_refuted.
(** two parameters called self: not Python *)
Theorem C47_self_refuted : exists s l r', sb_run default_strawberry_config s [] = (Ok l, r')
  /\ exists args b ret dec, classes l "User" = [SFunc false "knows" args b ret dec] /\ map pa_name (a_args args) = ["self"; "self"].
Proof.
  exists (Schema (scalars ++ [("User", TObject None [] [("knows", sb_field (ty "Int") [("self", arg (ty "Int"))])] [])]) None None None).
  do 2 eexists. split; [vm_compute; reflexivity|]. do 4 eexists. split; [vm_compute; reflexivity|]. reflexivity.
Qed.
Print Assumptions C47_self_refuted.

(** ** C48 *)
(** C48.  Missing: scalars follow the option for directives, not their own. *)
Theorem C48_partial : forall c st s ds ap pc r l r', strawberry_plugin c st s ds ap pc r = (Ok l, r') ->
  (forall p, (p = PScalar -> sb_scalars pc = sb_directives pc) -> names_in p l = if enabled pc p then wanted st s ds pc p else [])
  /\ exists ps, map part_of l = map Some ps /\ StronglySorted (fun a b => rank (fst a) <= rank (fst b)) ps.
Proof. exact parts_C48. Qed.
Print Assumptions C48_partial.
Example C48_ex : exists l r', sb_run default_strawberry_config sb_schema sb_dirs = (Ok l, r')
  /\ map part_of l = [Some (PDirective, "cost"); Some (PScalar, "Date"); Some (PEnum, "Color"); Some (PInput, "Filter");
       Some (PType, "Node"); Some (PType, "User"); Some (PType, "Query"); Some (PType, "Subscription")].
Proof. do 2 eexists. split; vm_compute; reflexivity. Qed.
(** switched off, yet generated *)
Theorem C48_off_refuted : exists pc l r', sb_scalars pc = false /\ sb_run pc sb_schema sb_dirs = (Ok l, r') /\ names_in PScalar l = ["Date"].
Proof.
  exists (SbCfg true false true true true ["skip"] ["String"; "Int"; "ID"] [] false true). do 2 eexists. split; [reflexivity|]. split; vm_compute; reflexivity.
Qed.
Print Assumptions C48_off_refuted.
(** switched on, yet missing; a field that needs the scalar makes generation fail *)
Theorem C48_on_refuted : exists pc l r', sb_scalars pc = true
  /\ sb_run pc (Schema [("Date", TScalar None)] None None None) [] = (Ok l, r') /\ l = []
  /\ exists r'', sb_run pc sb_schema [] = (Err (Exn NoScalarFoundC "Date"), r'').
Proof.
  exists (SbCfg false true true true true [] ["String"; "Int"; "ID"] [] false true). do 2 eexists. split; [reflexivity|]. split; [vm_compute; reflexivity|].
  split; [reflexivity|]. eexists. vm_compute. reflexivity.
Qed.
Print Assumptions C48_on_refuted.

(** ** C55 *)
(** C55: the scaffold says the types of the schema.  Missing: nullable arguments with a default
    ([C47_default_refuted]); ID ([C55_id_refuted]). *)
Theorem C55_types_partial : forall c st s ds ap pc r l r', names_styled st r -> strawberry_plugin c st s ds ap pc r = (Ok l, r') -> sb_types pc = true ->
  forall key t, In (key, t) (s_types s) -> is_interface_def t || is_object_def t = true -> skipped pc key = false ->
  Forall (fun kv => field_wf (snd kv)) (type_fields t) ->
  exists bases docs ms cfg dec,
    In (SClass (if is_interface_def t then style_interface_class st key else style_objecttype_class st key) bases (docs ++ ms ++ cfg) dec) l
    /\ map head_name dec = [if is_interface_def t then "strawberry.interface" else "strawberry.type"]
    /\ Forall no_field (docs ++ cfg) /\ Forall2 (member st s (r_scalars r') key) (type_fields t) ms.
Proof. exact types_C55. Qed.
Print Assumptions C55_types_partial.
Theorem C55_inputs_partial : forall c st s ds ap pc r l r', names_styled st r -> strawberry_plugin c st s ds ap pc r = (Ok l, r') -> sb_inputs pc = true ->
  forall key de fs dirs, In (key, TInput de fs dirs) (s_types s) -> sb_skip_underscore pc && startswith "_" key = false ->
  Forall (fun kv => gty_wf (if_type (snd kv)) = true) fs ->
  exists bases docs ms cfg dec, In (SClass (style_inputtype_class st key) bases (docs ++ ms ++ cfg) dec) l
    /\ Forall no_field (docs ++ cfg) /\ Forall2 (input_member st s (r_scalars r')) fs ms.
Proof. exact inputs_C55. Qed.
Print Assumptions C55_inputs_partial.
Theorem C55_directives_partial : forall c st s ds ap pc r l r', names_styled st r -> strawberry_plugin c st s ds ap pc r = (Ok l, r') -> sb_directives pc = true ->
  forall d, In d ds -> ~ In (dd_name d) (sb_builtin_directives pc) -> skipped pc (dd_name d) = false ->
  Forall (fun kv => gty_wf (arg_type (snd kv)) = true) (dd_args d) ->
  exists ms cfg dec, In (SClass (dd_name d) [] ((match ms with [] => [SPass] | _ => ms end) ++ cfg) [dec]) l
    /\ Forall no_field cfg /\ Forall2 (directive_member st s (r_scalars r)) (dd_args d) ms.
Proof. exact directives_C55. Qed.
Print Assumptions C55_directives_partial.
Example C55_ex : exists l r', sb_run default_strawberry_config sb_schema sb_dirs = (Ok l, r')
  /\ classes l "Filter" = [SAnn "name" (EName "str") None; SAnn "max_count" (EName "int") None; SAnn "color" (optional_of (EName "Color")) None;
       SAnn "tags" (list_of (EName "str")) None; SAnn "and_" (optional_of (list_of (estr "Filter"))) None]
  /\ classes l "cost" = [SAnn "weights" (optional_of (list_of (EName "int")))
       (Some (ECall (EName "strawberry.field") [] [(Some "default_factory", ELambda [] (EList [EConst (CInt 1)]))])); SAnn "unit" (EName "str") None]
  /\ map (fun m => match m with SFunc a n _ _ (Some e) _ => (a, n, unparse e) | _ => (false, "", "") end) (classes l "Query" ++ classes l "Subscription")
     = [(false, "thing", "Optional[Union[User]]"); (false, "me", "Optional[User]"); (true, "ticks", "AsyncGenerator[int, None]")].
Proof. do 2 eexists. split; [vm_compute; reflexivity|]. split; [vm_compute; reflexivity|]. split; vm_compute; reflexivity. Qed.
(** ID and String become the same annotation *)
Theorem C55_id_refuted : exists s l r', get_type s "User" = Some (TObject None [] [("id", sb_field (req (ty "ID")) []); ("name", sb_field (req (ty "String")) [])] [])
  /\ sb_run default_strawberry_config s [] = (Ok l, r') /\ classes l "User" = [SAnn "id" (EName "str") None; SAnn "name" (EName "str") None].
Proof.
  exists (Schema (scalars ++ [("User", TObject None [] [("id", sb_field (req (ty "ID")) []); ("name", sb_field (req (ty "String")) [])] [])]) None None None).
  do 2 eexists. split; [reflexivity|]. split; vm_compute; reflexivity.
Qed.
Print Assumptions C55_id_refuted.

(** ** C56: defaults.  Kept for resolvers ([C47_partial]) and for directives except null
    ([C55_directives_partial]). *)
Theorem C56_inputs_refuted : exists l r', sb_run default_strawberry_config sb_schema [] = (Ok l, r')
  /\ (exists d fs ds f, get_type sb_schema "Filter" = Some (TInput d fs ds) /\ dget "maxCount" fs = Some f /\ if_default f = Some (PInt 10))
  /\ nth_error (classes l "Filter") 1 = Some (SAnn "max_count" (EName "int") None).
Proof. do 2 eexists. split; [vm_compute; reflexivity|]. split; [do 4 eexists; repeat split; reflexivity|]. vm_compute. reflexivity. Qed.
Print Assumptions C56_inputs_refuted.
Theorem C56_null_refuted : exists d l r', dd_args d = [("unit", arg_d (ty "String") PNone)]
  /\ sb_run default_strawberry_config sb_schema [d] = (Ok l, r') /\ classes l (dd_name d) = [SAnn "unit" (optional_of (EName "str")) None].
Proof. exists (DirectiveDef "cost" [] [("unit", arg_d (ty "String") PNone)]). do 2 eexists. split; [reflexivity|]. split; vm_compute; reflexivity. Qed.
Print Assumptions C56_null_refuted.
