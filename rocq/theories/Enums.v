(** turms/plugins/enums.py.  No proofs in this file. *)
From Verif Require Import Base PyAst Gql Config Stylers Registry Utils Referencer.

(** enums.py:21-28 EnumsPluginConfig ([prepend] and [append] are never read) *)
Record enums_config : Set := EnumsConfig {
  ec_skip_underscore : bool; ec_skip_double_underscore : bool; ec_skip_unreferenced : bool }.
Definition default_enums_config : enums_config := EnumsConfig false true true.

(** the reference registry of a plugin: enums.py:44-49, inputs.py:546-551.  [documents] is
    the result of [parse_documents] for the configured glob. *)
Definition plugin_refs (c : gconfig) (skip_unreferenced : bool) (s : schema) (documents : res document)
  : M (option refs) :=
  if skip_unreferenced && truthy (c_documents c)
  then let* d := lift documents in let* r := lift (create_reference_registry s d) in ret (Some r)
  else ret None.

(** [type.description] as first statement of a class: enums.py:63-67, inputs.py:222-226 *)
Definition class_doc (desc : option string) : stmt :=
  docstring (if truthy desc then opt_str desc else "No documentation").

(** enums.py:69-94: one enum value.  With a deprecation reason and no description the
    comment reads "DEPRECATED: None". *)
Definition enum_member (kv : string * enumval) : list stmt :=
  let '(key, v) := kv in
  let comment := if truthy (ev_depr v)
                 then Some ("DEPRECATED: " +s+ match ev_desc v with Some x => x | None => "None" end)
                 else ev_desc v in
  SAssign (EName key) (estr (ev_value v))
  :: (if truthy comment then [docstring (opt_str comment)] else []).

(** enums.py:51-60: is the enum skipped? *)
Definition enum_skipped (pc : enums_config) (rf : option refs) (key : string) : bool :=
  (match rf with Some r => negb (mem key (rf_enums r)) | None => false end)
  || (ec_skip_underscore pc && startswith "_" key)
  || (ec_skip_double_underscore pc && startswith "__" key).

Definition enum_types (s : schema) : list (string * (option string * list (string * enumval))) :=
  flat_map (fun kv => match snd kv with TEnum d vs => [(fst kv, (d, vs))] | _ => [] end) (s_types s).

(** enums.py:30-109 generate_enums *)
Definition generate_enums (c : gconfig) (stylers : list styler) (pc : enums_config) (s : schema)
           (documents : res document) : M (list stmt) :=
  let* rf := plugin_refs c (ec_skip_unreferenced pc) s documents in
  mconcat (fun kv =>
             if enum_skipped pc rf (fst kv) then ret []
             else let* classname := generate_enum stylers (fst kv) in
                  ret [SClass classname [EName "str"; EName "Enum"]
                         (class_doc (fst (snd kv)) :: flat_map enum_member (snd (snd kv))) []])
          (enum_types s).

(** enums.py:122-130 EnumsPlugin.generate_ast *)
Definition enums_plugin (c : gconfig) (stylers : list styler) (pc : enums_config) (s : schema)
           (documents : res document) : M (list stmt) :=
  register_import "enum.Enum" ;; generate_enums c stylers pc s documents.
