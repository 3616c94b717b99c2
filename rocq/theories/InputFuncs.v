(** turms/plugins/input_funcs.py: the plugin around Funcs.generate_input_funcs.  No proofs in
    this file. *)
From Verif Require Import Base PyAst Gql Config Stylers Registry Referencer Enums Funcs.

(** input_funcs.py:206-220: global coercions, overridden by the plugin's *)
Definition merged_ifcfg (c : gconfig) (pc : ifcfg) : ifcfg :=
  IfCfg (dmerge (c_coercible_scalars c) (i_coercible_scalars pc)) (dmerge (c_coercible_inputs c) (i_coercible_inputs pc))
        (i_skip_underscore pc) (i_skip_unreferenced pc) (i_prepend pc) (i_extract_documentation pc).
(** input_funcs.py:164-170, 200-221 InputFuncsPlugin.generate_ast *)
Definition input_funcs_plugin (c : gconfig) (stylers : list styler) (pc : ifcfg) (s : schema) (documents : res document) : M (list stmt) :=
  let* rf := plugin_refs c (i_skip_unreferenced pc) s documents in
  generate_input_funcs c stylers s (merged_ifcfg c pc) (option_map rf_inputs rf).
