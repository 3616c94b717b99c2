(** C57: names in the server scaffold. *)
From Verif Require Import Base PyAst Gql Config Stylers Registry Utils Objects Strawberry Spec_Naming Spec_Scaffold Spec_Camel P_Monad P_Camel Ex_Inputs Prop_Scaffold.

(** C57: strawberry, which publishes the attribute [first_name] as [firstName], gives the scaffold's
    attributes, resolvers and parameters the names of the schema.  Missing: names with underscores
    ([C57_under_refuted]), acronyms ([C57_acronym_refuted]) and keywords ([C57_keyword_refuted]);
    for names without underscore the conditions are necessary. *)
Theorem C57_attribute_partial : forall n, no_under n ->
  (camelize (generate_node_name [default_styler] n) = n <-> camel_name n = true /\ ~ In (camel_to_snake n) kwlist).
Proof. exact node_back. Qed.
Print Assumptions C57_attribute_partial.
Theorem C57_parameter_partial : forall n, no_under n ->
  (camelize (generate_parameter_name [default_styler] n) = n <-> camel_name n = true /\ ~ In (camel_to_snake n) kwlist).
Proof. exact parameter_back. Qed.
Print Assumptions C57_parameter_partial.
(** without styler *)
Theorem C57_unstyled_partial : forall n, no_under n -> (camelize (generate_node_name [] n) = n <-> ~ In n kwlist).
Proof. exact unstyled_back. Qed.
Print Assumptions C57_unstyled_partial.
Example C57_names_ex : no_under "maxPageSize2D" /\ camel_name "maxPageSize2D" = true /\ ~ In (camel_to_snake "maxPageSize2D") kwlist
  /\ generate_node_name [default_styler] "maxPageSize2D" = "max_page_size2_d" /\ camelize "max_page_size2_d" = "maxPageSize2D"
  /\ camel_name "userID" = false.
Proof. repeat split; try reflexivity. cbn. intuition discriminate. Qed.

(** what strawberry makes of the generated classes *)
Theorem C57_types_partial : forall c s ds ap pc r l r', names_styled [default_styler] r -> strawberry_plugin c [default_styler] s ds ap pc r = (Ok l, r') -> sb_types pc = true ->
  forall key t, In (key, t) (s_types s) -> is_interface_def t || is_object_def t = true -> skipped pc key = false ->
  Forall (fun kv => field_wf (snd kv)) (type_fields t) -> Forall (fun kv => keeps_name (fst kv)) (type_fields t) ->
  exists cls bases docs ms cfg dec, In (SClass cls bases (docs ++ ms ++ cfg) dec) l /\ Forall no_field (docs ++ cfg)
    /\ map (fun m => camelize (member_name m)) ms = map fst (type_fields t).
Proof. exact types_names. Qed.
Print Assumptions C57_types_partial.
Theorem C57_inputs_partial : forall c s ds ap pc r l r', names_styled [default_styler] r -> strawberry_plugin c [default_styler] s ds ap pc r = (Ok l, r') -> sb_inputs pc = true ->
  forall key de fs dirs, In (key, TInput de fs dirs) (s_types s) -> sb_skip_underscore pc && startswith "_" key = false ->
  Forall (fun kv => gty_wf (if_type (snd kv)) = true) fs -> Forall (fun kv => keeps_name (fst kv)) fs ->
  exists cls bases docs ms cfg dec, In (SClass cls bases (docs ++ ms ++ cfg) dec) l /\ Forall no_field (docs ++ cfg)
    /\ map (fun m => camelize (member_name m)) ms = map fst fs.
Proof. exact inputs_names. Qed.
Print Assumptions C57_inputs_partial.
Definition user_of (fs : list (string * fielddef)) : schema := Schema (scalars ++ [("User", TObject None [] fs [])]) None None None.
Example C57_types_ex : exists l r', sb_run default_strawberry_config (user_of [("firstName", sb_field (ty "String") []); ("byPage", sb_field (ty "Int") [("pageSize", arg (ty "Int"))])]) [] = (Ok l, r')
  /\ Forall keeps_name ["firstName"; "byPage"] /\ map member_name (classes l "User") = ["first_name"; "by_page"].
Proof.
  do 2 eexists. split; [vm_compute; reflexivity|]. split; [|reflexivity]. repeat constructor; cbn; intuition discriminate.
Qed.
Theorem C57_under_refuted : exists l r', sb_run default_strawberry_config (user_of [("first_name", sb_field (ty "String") [])]) [] = (Ok l, r')
  /\ map (fun m => camelize (member_name m)) (classes l "User") = ["firstName"].
Proof. do 2 eexists. split; vm_compute; reflexivity. Qed.
Print Assumptions C57_under_refuted.
Theorem C57_acronym_refuted : exists l r', sb_run default_strawberry_config (user_of [("userID", sb_field (ty "ID") [])]) [] = (Ok l, r')
  /\ map (fun m => camelize (member_name m)) (classes l "User") = ["userId"].
Proof. do 2 eexists. split; vm_compute; reflexivity. Qed.
Print Assumptions C57_acronym_refuted.
Theorem C57_keyword_refuted : exists l r', sb_run default_strawberry_config (user_of [("from", sb_field (ty "Int") [])]) [] = (Ok l, r')
  /\ map (fun m => camelize (member_name m)) (classes l "User") = ["from_"].
Proof. do 2 eexists. split; vm_compute; reflexivity. Qed.
Print Assumptions C57_keyword_refuted.
(** both fields of the schema become one *)
Theorem C57_merged_refuted : exists l r', sb_run default_strawberry_config (user_of [("userID", sb_field (ty "ID") []); ("userId", sb_field (ty "Int") [])]) [] = (Ok l, r')
  /\ map member_name (classes l "User") = ["user_id"; "user_id"].
Proof. do 2 eexists. split; vm_compute; reflexivity. Qed.
Print Assumptions C57_merged_refuted.
