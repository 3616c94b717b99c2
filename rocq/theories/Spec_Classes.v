(** The classes and aliases that stand for the types of a schema.  Independent of the generator. *)
From Verif Require Import Base PyAst Gql Stylers Spec_Types Spec_Fields Spec_Names Spec_Inputs Spec_Paths.

(** names of the classes and aliases at the top of a module, in order *)
Definition named (l : list stmt) : list string :=
  flat_map (fun x => match x with SClass n _ _ _ | SAssign (EName n) _ => [n] | _ => [] end) l.

Fixpoint ends_under (s : string) : bool :=
  match s with
  | EmptyString => false
  | String c EmptyString => is_under c
  | String _ r => ends_under r
  end.
(** not starting in lower case (a leading underscore is fine), without a trailing underscore, not
    True, False or None *)
Definition plain_class (n : string) : Prop := starts_with (fun c => negb (is_lower c)) n = true /\ ends_under n = false /\ ~ In n kwlist.
Definition oneof_b (dirs : list directive) : bool := existsb (fun d => String.eqb (dir_name d) "oneOf") dirs.
(** what a type needs: an enum or object type its own name; an input type its own name, and a
    class per field if it is oneOf; an interface a base class and an alias *)
Definition enum_names (s : schema) : list string :=
  flat_map (fun kt => match snd kt with TEnum _ _ => [fst kt] | _ => [] end) (s_types s).
Definition input_names (s : schema) : list string :=
  flat_map (fun kt => match snd kt with
    | TInput _ fs dirs => fst kt :: (if oneof_b dirs then map (fun f => fst kt +s+ cap_first (fst f)) fs else [])
    | _ => [] end) (s_types s).
Definition object_names_of (s : schema) : list string :=
  flat_map (fun kt => match snd kt with
    | TObject _ _ _ _ => [fst kt]
    | TInterface _ _ _ => [fst kt; fst kt +s+ "Base"]
    | _ => [] end) (s_types s).
(** a field's interfaces exist *)
Definition interfaces_exist (s : schema) : Prop := forall key t i, In (key, t) (s_types s) ->
  In i (match t with TObject _ is _ _ | TInterface _ is _ => is | _ => [] end) ->
  exists d is fs, In (i, TInterface d is fs) (s_types s).
(** the shipped stylers that add nothing to the names of types *)
Inductive adds_nothing : styler -> Prop :=
| an_base : adds_nothing base_styler
| an_capitalize : adds_nothing capitalize_styler
| an_snake : adds_nothing snake_styler
| an_default : adds_nothing default_styler.
(** the styler methods for classes *)
Inductive class_method : (styler -> string -> string) -> Prop :=
| cm_enum : class_method sty_enum | cm_input : class_method sty_input | cm_object : class_method sty_object
| cm_fragment : class_method sty_fragment | cm_query : class_method sty_query
| cm_mutation : class_method sty_mutation | cm_subscription : class_method sty_subscription.
Definition operation_names (k : optype) (ops : list operation) : list (option string) :=
  map op_name (filter (fun o => match op_kind o, k with
    | OpQuery, OpQuery | OpMutation, OpMutation | OpSubscription, OpSubscription => true | _, _ => false end) ops).
