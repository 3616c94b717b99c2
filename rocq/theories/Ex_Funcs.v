(** Example data for generated functions. *)
From Verif Require Import Base PyAst Gql Config Stylers Registry Utils Funcs PySem Spec_Funcs.

Definition inp (t : gty) : inputfield := InputField t None None None.
Definition fx_schema : schema :=
  Schema [("Query", TObject None [] [("user", FieldDef (GNamed "User") [("filter", ArgDef (GNonNull (GNamed "Filter")) None (Some "Which user"));
                                                                     ("first", ArgDef (GNamed "Int") None None)] (Some "One user") None [])] []);
          ("Subscription", TObject None [] [("tick", FieldDef (GNamed "Int") [] None None [])] []);
          ("User", TObject None [] [("name", FieldDef (GNamed "String") [] None None [])] []);
          ("Filter", TInput None [("fullName", inp (GNonNull (GNamed "String"))); ("age", inp (GNamed "Int"))] []);
          ("String", TScalar None); ("Int", TScalar None)] (Some "Query") None (Some "Subscription").
Definition fx_field : fieldnode :=
  FieldNode (Some "found") "user" [("filter", VVar "filter"); ("first", VVar "first")] [] (Some [SelField (FieldNode None "name" [] [] None)]).
Definition fx_op : operation :=
  Operation OpQuery (Some "GetUser") [VarDef "filter" (GNonNull (GNamed "Filter")) None []; VarDef "first" (GNamed "Int") None []] []
            [SelField fx_field].
Definition fx_sub : operation :=
  Operation OpSubscription (Some "Ticks") [] [] [SelField (FieldNode None "tick" [] [] None)].
Definition fx_def (k : optype) (async : bool) (use : string) : fdef :=
  FDef k async [FArg "client" "rath.Rath" "the client"] [FKwarg "timeout" "int" "in seconds" (CInt 5)] use.
Definition fx_cfg (expand : list string) : fcfg :=
  FCfg "" "a" true [] [] [fx_def OpQuery false "funcs.execute"; fx_def OpQuery true "funcs.aexecute";
                          fx_def OpSubscription false "funcs.subscribe"] true expand [] [].
Definition fx_reg : reg := with_inputs [("Filter", "Filter")] (init_reg default_config).
Definition no_doc : operation -> option string := fun _ => None.
(** the function generated for an operation *)
Definition fx_func (pc : fcfg) (o : operation) (d : fdef) : res stmt :=
  fst (generate_operation_func default_config [default_styler] fx_schema pc no_doc o d fx_reg).
Definition f_body (f : res stmt) : list stmt := match f with Ok (SFunc _ _ _ b _ _) => b | _ => [] end.
Definition f_args (f : res stmt) : pyargs := match f with Ok (SFunc _ _ a _ _ _) => a | _ => PyArgs [] [] end.
Definition fx_glob (n : string) : option pv :=
  if mem n ["execute"; "aexecute"; "subscribe"] then Some (PVFun n)
  else if mem n ["GetUser"; "Ticks"; "Search"; "Filter"] then Some (PVClass n)
  else if String.eqb n "UNSET" then Some (PVSing "UNSET") else None.
Definition nosub (a b : string) : bool := false.
(** a proxy that returns what it was called with *)
Definition echo (f : pv) (pos : list pv) (kws : list (string * pv)) : PySem.pres pv :=
  POk (PVTuple [f; PVTuple pos; PVTuple (map (fun kv => PVTuple [PVConst (CStr (fst kv)); snd kv]) kws)]).
Definition pstr (s : string) : pv := PVConst (CStr s).
Definition pint (z : Z) : pv := PVConst (CInt z).
