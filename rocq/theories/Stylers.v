(** turms/stylers: stylers as records of naming functions.  No proofs in this file. *)
From Verif Require Import Base.

(** stylers/base.py:12-55 Styler.  User-written stylers are arbitrary such records. *)
Record styler : Type := Styler {
  sty_query : string -> string; sty_mutation : string -> string;
  sty_subscription : string -> string; sty_enum : string -> string;
  sty_fragment : string -> string; sty_node : string -> string;
  sty_parameter : string -> string; sty_input : string -> string;
  sty_object : string -> string }.

Definition ident (s : string) : string := s.

(** stylers/base.py:58-88 BaseStyler *)
Definition base_styler : styler :=
  Styler ident ident ident ident ident ident ident ident ident.

(** stylers/appender.py:5-34 AppenderStyler *)
Record appender_config : Set := AppenderConfig {
  ap_fragment : string; ap_query : string; ap_mutation : string;
  ap_subscription : string; ap_enum : string; ap_input : string }.
Definition default_appender : appender_config :=
  AppenderConfig "Fragment" "Query" "Mutation" "Subscription" "" "".
Definition appender_styler (c : appender_config) : styler :=
  Styler (fun s => s +s+ ap_query c) (fun s => s +s+ ap_mutation c)
         (fun s => s +s+ ap_subscription c) (fun s => s +s+ ap_enum c)
         (fun s => s +s+ ap_fragment c) ident ident (fun s => s +s+ ap_input c) ident.

(** stylers/capitalize.py:15-36 CapitalizeStyler *)
Definition capitalize_styler : styler :=
  Styler cap_first cap_first cap_first cap_first cap_first ident ident cap_first ident.

(** [re.sub("(.)([A-Z][a-z]+)", r"\1_\2", s)].  [inrun] is true while copying the greedy
    [a-z]+ tail of a match; a new match may only start after it. *)
Fixpoint sub1 (inrun : bool) (s : string) {struct s} : string :=
  match s with
  | EmptyString => EmptyString
  | String c1 r1 =>
      if inrun && is_lower c1 then String c1 (sub1 true r1)
      else
        match r1 with
        | String c2 (String c3 r3) =>
            if negb (Ascii.eqb c1 newline) && is_upper c2 && is_lower c3
            then String c1 (String "_"%char (String c2 (String c3 (sub1 true r3))))
            else String c1 (sub1 false r1)
        | _ => String c1 (sub1 false r1)
        end
  end.

(** [re.sub("([a-z0-9])([A-Z])", r"\1_\2", s)] *)
Fixpoint sub2 (s : string) : string :=
  match s with
  | EmptyString => EmptyString
  | String c1 r1 =>
      match r1 with
      | String c2 r2 =>
          if (is_lower c1 || is_digit c1) && is_upper c2
          then String c1 (String "_"%char (String c2 (sub2 r2)))
          else String c1 (sub2 r1)
      | EmptyString => String c1 EmptyString
      end
  end.

(** stylers/snake_case.py:6-8, stylers/default.py:6-8 camel_to_snake
    (and plugins/inputs.py:384-386 _snake) *)
Definition camel_to_snake (s : string) : string := str_lower (sub2 (sub1 false s)).

(** stylers/snake_case.py:15-24 SnakeCaseStyler *)
Definition snake_styler : styler :=
  Styler ident ident ident ident ident camel_to_snake camel_to_snake ident ident.

(** stylers/default.py:15-46 DefaultStyler *)
Definition default_styler : styler :=
  Styler cap_first cap_first cap_first cap_first cap_first camel_to_snake camel_to_snake
         cap_first ident.

(** registry.py: [for styler in self.stylers: name = styler.style_x(name)] followed by
    [if iskeyword(name): name += "_"] *)
Definition style_with (sel : styler -> string -> string) (stylers : list styler) (name : string) : string :=
  let styled := fold_left (fun n s => sel s n) stylers name in
  if iskeyword styled then styled +s+ "_" else styled.
