(** When do two names collide?  Independent of the generator. *)
From Verif Require Import Base PyAst Stylers Spec_Types Spec_Fields.

(** the letters and digits of a name, without case and underscores *)
Fixpoint no_under (s : string) : string :=
  match s with
  | EmptyString => EmptyString
  | String c r => if is_under c then no_under r else String c (no_under r)
  end.
Definition folded (s : string) : string := no_under (str_lower s).
(** the stylers turms ships *)
Inductive shipped : styler -> Prop :=
| sh_base : shipped base_styler
| sh_appender : forall c, shipped (appender_styler c)
| sh_capitalize : shipped capitalize_styler
| sh_snake : shipped snake_styler
| sh_default : shipped default_styler.
(** stylers that leave field and parameter names alone *)
Definition keeps_fields (x : styler) : Prop := forall n, sty_node x n = n /\ sty_parameter x n = n.
(** equal but for the underscore that keeps Python keywords apart *)
Definition escape_of (a b : string) : Prop := In a kwlist /\ b = a +s+ "_".
(** the one attribute whose name is fixed: the type name of a response object *)
Definition typename_pair (a b : string) : Prop := (a = "__typename" /\ b = "typename").

Definition attribute (fld : string * expr * option expr) : string := fst (fst fld).
(** the bodies of a class and of the classes inside it *)
Fixpoint class_bodies (x : stmt) : list (list stmt) :=
  match x with
  | SClass _ _ body _ => body :: (fix go (l : list stmt) := match l with [] => [] | y :: r => class_bodies y ++ go r end) body
  | _ => []
  end.
(** two fields of one class under the same attribute name differ only in case and underscores *)
Definition same_letters (l : list stmt) : Prop :=
  forall body f g, In body (flat_map class_bodies l) -> In f (class_fields body) -> In g (class_fields body) ->
    attribute f = attribute g -> folded (wire f) = folded (wire g).
(** ... are equal but for an escaped keyword, or are the type name and a field "typename" *)
Definition same_escaped (l : list stmt) : Prop :=
  forall body f g, In body (flat_map class_bodies l) -> In f (class_fields body) -> In g (class_fields body) ->
    attribute f = attribute g ->
    let a := wire f in let b := wire g in
    a = b \/ escape_of a b \/ escape_of b a \/ typename_pair a b \/ typename_pair b a.
