(** Documents whose fragments can be base classes.  Independent of the generator. *)
From Verif Require Import Base PyAst Gql Config Spec_Mro.

(** the fragments spread directly in a selection set *)
Definition spreads (l : list selection) : list string := flat_map (fun x => match x with SelSpread f _ => [f] | _ => [] end) l.
(** [part_of d f g]: [g] is [f], or spread at the top of a part of [f] *)
Inductive part_of (d : document) (f : string) : string -> Prop :=
| part_self : part_of d f f
| part_spread : forall x h, part_of d f (fr_name x) -> In (DFrag x) d -> In h (spreads (fr_sels x)) -> part_of d f h.
(** no two of the fragments have a part in common *)
Definition apart (d : document) (f g : string) : Prop := forall h, part_of d f h -> part_of d g h -> False.
Definition all_apart (d : document) (fs : list string) : Prop := ForallOrdPairs (apart d) fs.

(** [occurs s n l m k]: the selection set [k] on the type [m] is [l] on the type [n], or inside *)
Inductive occurs (s : schema) (n : string) (l : list selection) : string -> list selection -> Prop :=
| occurs_here : occurs s n l n l
| occurs_field : forall m k a f ar ds k' fd, occurs s n l m k -> In (SelField (FieldNode a f ar ds (Some k'))) k ->
    get_field_def s m f = Some fd -> occurs s n l (gty_name (fd_type fd)) k'
| occurs_inline : forall m k i ds k', occurs s n l m k -> In (SelInline (Some i) ds k') k -> occurs s n l i k'.
Definition is_union (s : schema) (n : string) : bool := match get_type s n with Some (TUnion _ _) => true | _ => false end.
Definition is_object (s : schema) (n : string) : bool := match get_type s n with Some (TObject _ _ _ _) => true | _ => false end.
Definition is_iface (s : schema) (n : string) : bool := match get_type s n with Some (TInterface _ _ _) => true | _ => false end.
(** the fragments [fs] of the document are on types with [p] *)
Definition on_types (d : document) (p : string -> bool) (fs : list string) : Prop :=
  forall x, In (DFrag x) d -> In (fr_name x) fs -> p (fr_on x) = true.

(** the spreads of a selection set [k] on the type [m] can be base classes together *)
Definition set_fits (s : schema) (d : document) (m : string) (k : list selection) : Prop :=
  (is_union s m = false -> all_apart d (spreads k))
  /\ (is_object s m = true -> on_types d (fun n => negb (is_union s n)) (spreads k))
  /\ (is_union s m = true -> forall c ds k', In (SelInline c ds k') k -> on_types d (is_object s) (spreads k') /\ all_apart d (spreads k')).
Definition fragment_fits (s : schema) (d : document) (x : fragment) : Prop :=
  (forall m k, occurs s (fr_on x) (fr_sels x) m k -> set_fits s d m k /\ ~ In (fr_name x) (spreads k))
  /\ (is_union s (fr_on x) = true ->
      all_apart d (spreads (fr_sels x)) /\ forall c ds k, In (SelInline c ds k) (fr_sels x) -> spreads k = []).
Definition operation_fits (s : schema) (d : document) (o : operation) : Prop :=
  forall root m k, root_type s (op_kind o) = Some root -> occurs s root (op_sels o) m k -> set_fits s d m k.
(** A fragment name stands for one fragment; spreads are handled as above. *)
Definition document_fits (s : schema) (d : document) : Prop :=
  NoDup (map fr_name (fragments_of d))
  /\ (forall x, In (DFrag x) d -> fragment_fits s d x) /\ (forall o, In (DOp o) d -> operation_fits s d o).

(** names bound by the statements of a module *)
Definition module_names (l : list stmt) : list string :=
  flat_map (fun m => match m with SClass n _ _ _ => [n] | SAssign (EName n) _ => [n] | _ => [] end) l.
Definition all_new (sc : scope) (l : list stmt) : Prop :=
  NoDup (module_names l) /\ forall n, In n (module_names l) -> ~ In n (dkeys sc) /\ forall k o, In (k, o) sc -> ~ In n o.
(** lists of base classes that give one order *)
Definition one_order (sc : scope) (bases : list (list string)) : Prop :=
  exists m, forall b, In b bases -> bases_order sc (base_names b) = Some m.
(** what graphql-core guarantees about type names and unions *)
Definition valid_unions (s : schema) : Prop :=
  NoDup (map fst (s_types s)) /\ forall n d ms i, get_type s n = Some (TUnion d ms) -> In i ms -> is_object s i = true.
