(** C86: the server scaffold applies the directives of the schema. *)
From Verif Require Import Base PyAst Gql Config Stylers Registry Utils Objects Strawberry Spec_Kept Spec_KeptSb Spec_Applied P_Base P_Applied Ex_Inputs Prop_Scaffold.

(** The directives of an object or interface type and those of its fields are applied, each once
    and in order, with their arguments; texts, booleans, null and lists keep their values.
    Full statement: for all values (false, [C86_number_refuted]). *)
Theorem C86_types_partial : forall c st s ds ap pc r l r', strawberry_plugin c st s ds ap pc r = (Ok l, r') -> sb_types pc = true ->
  forall key t, In (key, t) (s_types s) -> is_interface_def t || is_object_def t = true -> skipped pc key = false ->
  exists bases docs ms cfg dec,
    In (SClass (if is_interface_def t then style_interface_class st key else style_objecttype_class st key) bases (docs ++ ms ++ cfg) [dec]) l
    /\ applies (sb_builtin_directives pc) (match t with TObject _ _ _ d => d | _ => ap key end) (keywords_in ["strawberry.type"; "strawberry.interface"] dec)
    /\ Forall2 (fun kf m => member_name m = style_with sty_node st (fst kf) /\ applies (sb_builtin_directives pc) (fd_dirs (snd kf)) (keywords m)) (type_fields t) ms.
Proof. exact types_applied. Qed.
Print Assumptions C86_types_partial.
(** The class of a directive takes the arguments that the stylers leave as they are.
    Full statement: all arguments, by the names they are given by (false, [C86_refuted]). *)
Theorem C86_accepted_partial : forall c st s ds ap pc r l r', strawberry_plugin c st s ds ap pc r = (Ok l, r') -> sb_directives pc = true ->
  forall d, In d ds -> ~ In (dd_name d) (sb_builtin_directives pc) -> skipped pc (dd_name d) = false ->
  exists body dec, In (SClass (dd_name d) [] body [dec]) l
    /\ forall n, In n (map fst (dd_args d)) -> In (style_with sty_node st n) (attributes body).
Proof. exact directives_accept. Qed.
Print Assumptions C86_accepted_partial.

(** ** Examples *)
(** type User @owner(team: "web", roles: ["a", null]) { name: String @owner(team: "hr") @deprecated } *)
Definition owner_def : directivedef := DirectiveDef "owner" ["OBJECT"; "FIELD_DEFINITION"] [("team", arg (ty "String")); ("roles", arg (GList (ty "String")))].
Definition owned : schema :=
  Schema (scalars ++ [("User", TObject None [] [("name", FieldDef (ty "String") [] None None [Directive "owner" [("team", VString "hr" false)]; Directive "deprecated" []])]
    [Directive "owner" [("team", VString "web" false); ("roles", VList [VString "a" false; VNull])]])]) None None None.
Example C86_ex : exists l r' a dec, sb_run default_strawberry_config owned [owner_def] = (Ok l, r')
  /\ In (SClass "User" [] [SAnn "name" a (Some (ECall (EName "strawberry.field") [] [(Some "directives", EList [ECall (EName "owner") [] [(Some "team", estr "hr")]])]))] [dec]) l
  /\ calls_in (keywords_in ["strawberry.type"] dec) = [ECall (EName "owner") [] [(Some "team", estr "web"); (Some "roles", EList [estr "a"; EConst CNone])]]
  /\ attributes (classes l "owner") = ["team"; "roles"].
Proof. do 4 eexists. split; [vm_compute; reflexivity|]. split; [right; left; reflexivity|]. split; reflexivity. Qed.

(** ** Refutations *)
(** directive @cost(maxWeight: Int) on OBJECT; type User @cost(maxWeight: 3): the class takes max_weight and is called with maxWeight *)
Definition costly (n : string) : schema := Schema (scalars ++ [("User", TObject None [] [("name", sb_field (ty "String") [])] [Directive "cost" [(n, VInt "3")]])]) None None None.
Theorem C86_refuted : exists s d l r' bases body dec, In d [DirectiveDef "cost" ["OBJECT"] [("maxWeight", arg (ty "Int"))]]
  /\ sb_run default_strawberry_config s [d] = (Ok l, r') /\ In (SClass "User" bases body [dec]) l
  /\ map (fun e => match e with ECall (EName f) [] kws => (f, map fst kws) | _ => ("", []) end) (calls_in (keywords_in ["strawberry.type"] dec)) = [("cost", [Some "maxWeight"])]
  /\ attributes (classes l "cost") = ["max_weight"].
Proof.
  exists (costly "maxWeight"). do 6 eexists. split; [left; reflexivity|]. split; [vm_compute; reflexivity|]. split; [right; left; reflexivity|]. split; reflexivity.
Qed.
Print Assumptions C86_refuted.
(** @cost(weight: 3), where [weight] is an Int, becomes cost(weight="3") *)
Theorem C86_number_refuted : exists s l r' bases body dec, sb_run default_strawberry_config s [DirectiveDef "cost" ["OBJECT"] [("weight", arg (ty "Int"))]] = (Ok l, r')
  /\ (exists fs, get_type s "User" = Some (TObject None [] fs [Directive "cost" [("weight", VInt "3")]])) /\ In (SClass "User" bases body [dec]) l
  /\ calls_in (keywords_in ["strawberry.type"] dec) = [ECall (EName "cost") [] [(Some "weight", EConst (CStr "3"))]]
  /\ exists a, classes l "cost" = [SAnn "weight" (optional_of (EName a)) None] /\ a = "int".
Proof.
  exists (costly "weight"). do 5 eexists. split; [vm_compute; reflexivity|]. split; [eexists; reflexivity|]. split; [right; left; reflexivity|].
  split; [reflexivity|]. eexists. split; reflexivity.
Qed.
Print Assumptions C86_number_refuted.
