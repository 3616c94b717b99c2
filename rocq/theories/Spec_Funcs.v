(** What calling a generated function means, and what it should send. *)
From Verif Require Import Base PyAst Gql Stylers PySem.

(** ** Python's binding of call arguments to parameters *)
Section Call.
Variable glob : string -> option pv.
Variable subclass : string -> string -> bool.
Variable call : pv -> list pv -> list (string * pv) -> pres pv.

(** the parameters with their defaults: the defaults belong to the last parameters *)
Definition signature (a : pyargs) : list (string * option expr) :=
  let names := map pa_name (a_args a) in
  let n := length names - length (a_defaults a) in
  map (fun x => (x, None)) (firstn n names) ++ combine (skipn n names) (map Some (a_defaults a)).
(** what the caller passed, by parameter name *)
Definition passed (a : pyargs) (pos : list pv) (kws : dict pv) : dict pv :=
  combine (map pa_name (a_args a)) pos ++ kws.
(** the call with positional arguments [pos] and keyword arguments [kws] is accepted and binds
    the parameters to [env] *)
Record binds (a : pyargs) (pos : list pv) (kws : dict pv) (env : dict pv) : Prop := Binds {
  b_count : length pos <= length (a_args a);
  b_once : NoDup (map fst (passed a pos kws));
  b_known : incl (map fst (passed a pos kws)) (map pa_name (a_args a));
  b_env : Forall2 (fun p kv => fst kv = fst p
            /\ match dget (fst p) (passed a pos kws) with
               | Some v => snd kv = v
               | None => exists d, snd p = Some d /\ eval glob subclass call [] d = POk (snd kv)
               end) (signature a) env }.
End Call.

(** ** The payload *)
Section Payload.
Variable s : schema.
Variable param : string -> string.        (* parameter for a GraphQL variable *)
Variable field_param : string -> string.  (* parameter for a field of an expanded input *)
Variable expand : list string.            (* variables expanded into parameters *)
Variable unset : pv.
Variable args : dict pv.                  (* what the caller passed *)

(** one entry: the passed value; nothing for an optional entry that was not passed, or passed
    as the sentinel *)
Definition entry (required : bool) (key p : string) : list (pv * pv) :=
  match dget p args with
  | Some v => if required || negb (same_object v unset) then [(PVConst (CStr key), v)] else []
  | None => []
  end.
Definition required_var (v : vardef) : Prop :=
  (exists t, v_type v = GNonNull t) /\ v_default v = None.
Definition requiredb (v : vardef) : bool :=
  match v_type v, v_default v with GNonNull _, None => true | _, _ => false end.
Definition input_fields (t : gty) : list (string * inputfield) :=
  match get_type s (gty_name t) with Some (TInput _ fields _) => fields | _ => [] end.
Definition nonnullb (t : gty) : bool := match t with GNonNull _ => true | _ => false end.
Definition object_of (fields : list (string * inputfield)) : list (pv * pv) :=
  flat_map (fun kf => entry (nonnullb (if_type (snd kf))) (fst kf) (field_param (fst kf))) fields.
(** the same fields as keyword arguments *)
Definition provided_fields (fields : list (string * inputfield)) : list (string * pv) :=
  flat_map (fun kf => match dget (field_param (fst kf)) args with
                      | Some v => if nonnullb (if_type (snd kf)) || negb (same_object v unset) then [(fst kf, v)] else []
                      | None => []
                      end) fields.
Definition var_entry (v : vardef) : list (pv * pv) :=
  if mem (v_name v) expand then [(PVConst (CStr (v_name v)), PVDict (object_of (input_fields (v_type v))))]
  else entry (requiredb v) (v_name v) (param (v_name v)).
Definition payload (vars : list vardef) : list (pv * pv) := flat_map var_entry vars.
End Payload.

(** ** The parameters a function should have *)
Section Parameters.
Variable s : schema.
Variable param field_param : string -> string.
Variable expand : list string.
Variable extra extra_kw : list string.    (* configured extra parameters *)
(** fields of the variables expanded into parameters, required and optional ones *)
Definition expanded_names (vars : list vardef) (required : bool) : list string :=
  flat_map (fun v => if mem (v_name v) expand
                     then map (fun kf => field_param (fst kf))
                              (filter (fun kf => Bool.eqb (nonnullb (if_type (snd kf))) required) (input_fields s (v_type v)))
                     else []) vars.
Definition plain_names (vars : list vardef) (required : bool) : list string :=
  map (fun v => param (v_name v))
      (filter (fun v => negb (mem (v_name v) expand) && Bool.eqb (requiredb v) required) vars).
Definition required_parameters (vars : list vardef) : list string :=
  extra ++ expanded_names vars true ++ plain_names vars true.
Definition optional_parameters (vars : list vardef) : list string :=
  expanded_names vars false ++ plain_names vars false ++ extra_kw.
End Parameters.

(** [x.a]: instances look the attribute up, everything else is left alone *)
Definition attribute (v : pv) (a : string) : pv :=
  match v with
  | PVObj _ data => match dget a data with Some w => w | None => PVMeth v a end
  | _ => PVMeth v a
  end.
(** what a function makes of one result of the proxy *)
Definition result_of (collapsed : option string) (v : pv) : pv :=
  match collapsed with Some a => attribute v a | None => v end.

(** the value bound to a parameter *)
Definition argument (env : dict pv) (n : string) : pv :=
  match dget n env with Some v => v | None => PVConst CNone end.
(** The names a function body uses do not clash: parameters are distinct, they differ from the
    local variables, and neither hide the sentinel, the proxy or the operation class. *)
Record no_clash (params locals globals : list string) : Prop := NoClash {
  nc_params : NoDup params;
  nc_locals : forall n, In n params -> ~ In n locals;
  nc_globals : forall n, In n globals -> ~ In n params /\ ~ In n locals /\ n <> "event";
  nc_yield : ~ In yielded params }.

(** only required variables are expanded *)
Definition no_optional_expansion (expand : list string) (vars : list vardef) : Prop :=
  forall v, In v vars -> In (v_name v) expand -> required_var v.
(** the class generated for an operation *)
Definition operation_class (stylers : list styler) (k : optype) (name : string) : string :=
  style_with match k with OpQuery => sty_query | OpMutation => sty_mutation | OpSubscription => sty_subscription end stylers name.
(** the name of the sentinel for omitted arguments *)
Definition sentinel_name (override : option string) : string :=
  match override with None | Some EmptyString => "UNSET" | Some o => last_comp o end.
(** the attribute a function returns instead of the whole result: that of the only field *)
Definition collapsed_to (field_param : string -> string) (enabled : bool) (sels : list selection) : option string :=
  match sels with
  | [SelField f] => if enabled then Some (field_param match fn_alias f with Some a => a | None => fn_name f end) else None
  | _ => None
  end.
(** local variables for expanded inputs *)
Definition inner_names (param : string -> string) (expand : list string) (vars : list vardef) : list string :=
  map (fun v => "_" +s+ param (v_name v)) (filter (fun v => mem (v_name v) expand) vars).
(** all local variables of a function *)
Definition locals (param : string -> string) (expand : list string) (vars : list vardef) : list string :=
  "variables" :: inner_names param expand vars.
(** Running [body] calls [f] once and returns the result; for subscriptions it yields the results. *)
Definition calls_once glob subclass call (stream : bool) (body : list stmt) (env : dict pv)
    (f : pv) (pos : list pv) (kws : list (string * pv)) (attr : option string) : Prop :=
  if stream then
    run_generator glob subclass call body env =
    pbind (call f pos kws) (fun v => match v with
                                     | PVList l | PVTuple l => POk (map (result_of attr) l)
                                     | _ => py_error "TypeError"
                                     end)
  else run_body glob subclass call body env = pbind (call f pos kws) (fun v => POk (result_of attr v)).

(** ** The shape of the two variants of one operation function: same parameters, same body up
    to the proxy call, which differs in the proxy's name and in [await] / [async for] *)
Inductive variants (proxy aproxy : string) : stmt -> stmt -> Prop :=
| var_call : forall n an args body pos kws attr ty,
    let get e := match attr with Some a => EAttr e a | None => e end in
    variants proxy aproxy
      (SFunc false n args (body ++ [SReturn (Some (get (ECall (EName proxy) pos kws)))]) (Some ty) [])
      (SFunc true an args (body ++ [SReturn (Some (get (EAwait (ECall (EName aproxy) pos kws))))]) (Some ty) [])
| var_stream : forall n an args body pos kws attr ty,
    let get e := match attr with Some a => EAttr e a | None => e end in
    variants proxy aproxy
      (SFunc false n args (body ++ [SFor false ["event"] (ECall (EName proxy) pos kws) [SExpr (EYield (get (EName "event")))]])
             (Some (ESub (EName "Iterator") ty)) [])
      (SFunc true an args (body ++ [SFor true ["event"] (ECall (EName aproxy) pos kws) [SExpr (EYield (get (EName "event")))]])
             (Some (ESub (EName "AsyncIterator") ty)) []).

(** ** Where parameters come from: the configuration, the variables that are not expanded, and
    the fields of those that are *)
Definition parameter_sources (s : schema) (param field_param : string -> string) (expand extra extra_kw : list string)
    (vars : list vardef) : list string :=
  extra ++ extra_kw
  ++ flat_map (fun v => if mem (v_name v) expand then map (fun kf => field_param (fst kf)) (input_fields s (v_type v))
                        else [param (v_name v)]) vars.
(** [w] is provided under key [k]: what the caller passed for parameter [p]; the sentinel counts
    as not provided when the entry is optional *)
Definition provided (unset : pv) (args : dict pv) (required : bool) (p : string) (w : pv) : Prop :=
  dget p args = Some w /\ (required = true \/ same_object w unset = false).
