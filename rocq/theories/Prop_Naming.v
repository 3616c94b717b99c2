(** C06, C07: names. *)
From Verif Require Import Base Stylers Registry Spec_Naming P_Stylers P_Registry.

(** C06.  Snake casing equals the positional specification [snake_spec]; its result has no
    upper-case letter, is a fixed point, is the lower-cased name with underscores inserted,
    and stays a legal identifier. *)
Theorem C06_snake_case_normal_form : forall s,
  camel_to_snake s = snake_spec s
  /\ no_upper (camel_to_snake s)
  /\ camel_to_snake (camel_to_snake s) = camel_to_snake s
  /\ us_ins (str_lower s) (camel_to_snake s)
  /\ (is_name s = true -> is_name (camel_to_snake s) = true).
Proof. exact snake_C06. Qed.
Print Assumptions C06_snake_case_normal_form.
Example C06_ex : camel_to_snake "getHTTPResponse2Code" = "get_http_response2_code"
  /\ is_name "getHTTPResponse2Code" = true.
Proof. split; vm_compute; reflexivity. Qed.

(** C07.  For every list of stylers (arbitrary functions), each of the ten naming functions
    returns the styled name, with an underscore appended exactly when it is reserved; the
    result is never reserved. *)
Theorem C07_names_never_reserved : forall sel f stylers n,
  In (sel, f) naming_functions ->
  let styled := fold_left (fun n0 s => sel s n0) stylers n in
  ~ In (f stylers n) kwlist
  /\ (~ In styled kwlist -> f stylers n = styled)
  /\ (In styled kwlist -> f stylers n = styled +s+ "_").
Proof. exact naming_C07. Qed.
Print Assumptions C07_names_never_reserved.
Example C07_ex : generate_node_name [default_styler] "From" = "from_"
  /\ generate_node_name [] "class" = "class_" /\ generate_node_name [snake_styler] "userId" = "user_id".
Proof. repeat split; vm_compute; reflexivity. Qed.

(** C07, legality: a styled name that is a legal identifier is handed out as a legal identifier. *)
Theorem C07_names_stay_identifiers : forall sel f stylers n,
  In (sel, f) naming_functions ->
  is_name (fold_left (fun n0 s => sel s n0) stylers n) = true ->
  is_name (f stylers n) = true.
Proof. exact naming_identifier. Qed.
Print Assumptions C07_names_stay_identifiers.
Example C07_id_ex : In (sty_node, generate_node_name) naming_functions
  /\ is_name (fold_left (fun n0 s => sty_node s n0) [snake_styler] "isGlobal") = true.
Proof. split; [cbn; tauto|vm_compute; reflexivity]. Qed.
