(** Names in the schema that strawberry derives from Python names: [to_camel_case] of
    strawberry.utils.str_converters, i.e.
    [c = s.split("_"); c[0] + "".join(x.capitalize() if x else "_" for x in c[1:])]. *)
From Verif Require Import Base PyAst Stylers Spec_Naming.

(** [start]: at the beginning of a component *)
Fixpoint camel_rest (start : bool) (s : string) : string :=
  match s with
  | EmptyString => if start then "_" else ""
  | String c r =>
      if is_under c then (if start then "_" else "") +s+ camel_rest true r
      else String (if start then to_upper c else to_lower c) (camel_rest false r)
  end.
Fixpoint camelize (s : string) : string :=
  match s with
  | EmptyString => ""
  | String c r => if is_under c then camel_rest true r else String c (camelize r)
  end.

Definition no_under (s : string) : Prop := sforall (fun c => negb (is_under c)) s = true.
(** every capital begins a word: it follows a lower-case letter or digit, or a lower-case letter
    follows it *)
Fixpoint humps (prev : ascii) (s : string) : bool :=
  match s with EmptyString => true | String c r => (negb (is_upper c) || word_break prev c r) && humps c r end.
Definition camel_name (s : string) : bool :=
  match s with EmptyString => true | String c r => negb (is_upper c) && humps c r end.

(** the name a class member has in Python *)
Definition member_name (m : stmt) : string := match m with SAnn n _ _ => n | SFunc _ n _ _ _ _ => n | _ => "" end.
(** names that survive the default styler *)
Definition keeps_name (n : string) : Prop := no_under n /\ camel_name n = true /\ ~ In (camel_to_snake n) kwlist.
