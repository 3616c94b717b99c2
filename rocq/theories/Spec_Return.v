(** What a generated function returns.  Independent of the generator. *)
From Verif Require Import Base PyAst Gql Config Spec_Types.

(** [e] is what the function with body [body] returns, or what it yields for each event *)
Definition gives (body : list stmt) (e : expr) : Prop :=
  exists pre, body = pre ++ [SReturn (Some e)] \/ exists a call, body = pre ++ [SFor a ["event"] call [SExpr (EYield e)]].
(** the return annotation for results of type [t] *)
Definition result_annotation (k : optype) (async : bool) (t : expr) : expr :=
  match k with OpSubscription => ESub (EName (if async then "AsyncIterator" else "Iterator")) t | _ => t end.
(** [f] is a function for the operation [o]: asynchronous or not, called [name]; [cs] contains the class
    [cls] of the result.  The function returns what the class holds in its only attribute, annotated like the attribute,
    if [only]; an instance of the class otherwise. *)
Definition returns_result (cs : list stmt) (cls : string) (k : optype) (only : bool) (f : stmt) : Prop :=
  match f with
  | SFunc async name args body (Some t) [] =>
      exists bases cbody, In (SClass cls bases cbody []) cs
      /\ if only then exists x a v e, class_fields cbody = [(x, a, v)] /\ t = result_annotation k async a /\ gives body (EAttr e x)
         else t = result_annotation k async (EName cls)
  | _ => False
  end.
