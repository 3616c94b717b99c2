(** What the classes of the input plugin keep of a schema: [Spec_Kept.v] for a whole module. *)
From Verif Require Import Base PyAst Gql Config Stylers Utils Spec_Inputs Spec_Kept.

(** a field of an input type, with its markers, its description and what is noted below *)
Definition keeps_field (c : gconfig) (st : list styler) (body : list stmt) (k : string) (v : inputfield) : Prop :=
  has_field body (style_with sty_node st k) (marked c (default_text (if_default v)) (if_depr v))
    (input_note c (if_desc v) (if_depr v) (default_text (if_default v))) (fun x => field_text x = filled (if_desc v)).
(** the class of an input type: fields which a @unionElementOf turns into literals are not fields any more *)
Definition keeps_input (c : gconfig) (st : list styler) (t : inputdef) (body : list stmt) : Prop :=
  note body = Some (title_text (id_desc t))
  /\ forall k v, In (k, v) (id_fields t) -> (forall u x, ~ belongs (id_dirs t) u (style_with sty_node st k) x) -> keeps_field c st body k v.
(** the class for one field of a @oneOf input *)
Definition keeps_option (c : gconfig) (st : list styler) (k : string) (v : inputfield) (body : list stmt) : Prop :=
  (forall d, filled (if_desc v) = Some d -> note body = Some d)
  /\ has_field body (style_with sty_node st k) (marked c None (if_depr v)) None (fun x => field_text x = filled (if_desc v)).
