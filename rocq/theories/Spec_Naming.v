(** Specifications for naming, independent of the styler model. *)
From Verif Require Import Base.

(** Where a snake-case name gets an underscore: before an upper-case letter that follows a
    lower-case letter or digit, or that starts a new word (it is followed by a lower-case
    letter and preceded by anything but a line break). *)
Definition word_break (prev c : ascii) (rest : string) : bool :=
  is_upper c &&
  (is_lower prev || is_digit prev ||
   match rest with
   | String n _ => is_lower n && negb (Ascii.eqb prev newline)
   | EmptyString => false
   end).
Fixpoint snake_tail (prev : ascii) (s : string) : string :=
  match s with
  | EmptyString => EmptyString
  | String c r =>
      if word_break prev c r then String "_"%char (String (to_lower c) (snake_tail c r))
      else String (to_lower c) (snake_tail c r)
  end.
Definition snake_spec (s : string) : string :=
  match s with EmptyString => EmptyString | String c r => String (to_lower c) (snake_tail c r) end.

(** [us_ins a b]: [b] is [a] with underscores inserted *)
Inductive us_ins : string -> string -> Prop :=
| ui_nil : us_ins EmptyString EmptyString
| ui_keep : forall c a b, us_ins a b -> us_ins (String c a) (String c b)
| ui_ins : forall a b, us_ins a b -> us_ins a (String "_"%char b).

(** GraphQL Name and (ASCII) Python identifier: the same grammar *)
Definition name_start (c : ascii) : bool := is_alpha c || is_under c.
Definition name_char (c : ascii) : bool := name_start c || is_digit c.
Definition is_name (s : string) : bool :=
  match s with EmptyString => false | String c r => name_start c && sforall name_char r end.

Definition no_upper (s : string) : Prop := sforall (fun c => negb (is_upper c)) s = true.
