(** Specifications about documents, independent of the turms functions. *)
From Verif Require Import Base Gql.
From Coq Require Export Relation_Operators.

(** [sel_set_of inl root ss]: [ss] is the selection set of a field below [root]; inline
    fragments on the way are entered only if [inl]. *)
Inductive field_set (inl : Prop) : list selection -> list selection -> Prop :=
| fs_here : forall l f ss, In (SelField f) l -> fn_sels f = Some ss -> field_set inl l ss
| fs_field : forall l f m ss, In (SelField f) l -> fn_sels f = Some m ->
    field_set inl m ss -> field_set inl l ss
| fs_inline : forall l c d m ss, inl -> In (SelInline c d m) l ->
    field_set inl m ss -> field_set inl l ss.

(** a selection set asks for the type name *)
Definition asks_typename (l : list selection) : Prop :=
  exists f, In (SelField f) l /\ fn_name f = "__typename".
(** ... under the response key the generated models read *)
Definition asks_typename_key (l : list selection) : Prop :=
  exists f, In (SelField f) l /\ fn_name f = "__typename" /\ fn_alias f = None.

(** [grown l l']: [l'] has the selections of [l] in order, possibly followed by a plain
    __typename if [l] did not ask for it, and sub-selections grown in the same way;
    [grown_sel] likewise for one selection (spreads and inline fragments unchanged). *)
Inductive grown : list selection -> list selection -> Prop :=
| g_same : forall l l', Forall2 grown_sel l l' -> grown l l'
| g_add : forall l l', Forall2 grown_sel l l' -> ~ asks_typename l ->
    grown l (l' ++ [SelField (FieldNode None "__typename" [] [] None)])
with grown_sel : selection -> selection -> Prop :=
| gs_same : forall s, grown_sel s s
| gs_field : forall a n args d l l', grown l l' ->
    grown_sel (SelField (FieldNode a n args d (Some l))) (SelField (FieldNode a n args d (Some l'))).

(** [spread_in inl l n]: fragment [n] is spread in [l], at any depth; inline fragments are
    entered only if [inl]. *)
Inductive spread_in (inl : Prop) : list selection -> string -> Prop :=
| si_here : forall l n d, In (SelSpread n d) l -> spread_in inl l n
| si_field : forall l f m n, In (SelField f) l -> fn_sels f = Some m ->
    spread_in inl m n -> spread_in inl l n
| si_inline : forall l c d m n, inl -> In (SelInline c d m) l ->
    spread_in inl m n -> spread_in inl l n.

(** fragment [a] of the document spreads [b] *)
Definition depends (inl : Prop) (d : document) (a b : string) : Prop :=
  exists f, In f (fragments_of d) /\ fr_name f = a /\ spread_in inl (fr_sels f) b.
Definition depends_trans (inl : Prop) (d : document) := clos_trans string (depends inl d).

Definition unique_fragment_names (d : document) : Prop := NoDup (map fr_name (fragments_of d)).
Definition known_spreads (d : document) : Prop :=
  forall a b, depends True d a b -> In b (map fr_name (fragments_of d)).
(** NoFragmentCycles *)
Definition acyclic (d : document) : Prop := forall a, ~ depends_trans True d a a.

(** [b] occurs before [a] in [l] *)
Definition before {A} (b a : A) (l : list A) : Prop := exists l1 l2 l3, l = l1 ++ b :: l2 ++ a :: l3.

(** What loading a definition must do ([inl]: also below inline fragments). *)
Definition typename_loaded (inl : Prop) (before after : definition) : Prop :=
  match before, after with
  | DOp o, DOp o' =>
      op_kind o' = op_kind o /\ op_name o' = op_name o /\ op_vars o' = op_vars o /\ op_dirs o' = op_dirs o
      /\ Forall2 grown_sel (op_sels o) (op_sels o')
      /\ (forall ss, field_set inl (op_sels o') ss -> asks_typename ss)
  | DFrag f, DFrag f' =>
      fr_name f' = fr_name f /\ fr_on f' = fr_on f /\ fr_dirs f' = fr_dirs f
      /\ grown (fr_sels f) (fr_sels f')
      /\ asks_typename (fr_sels f')
      /\ (forall ss, field_set inl (fr_sels f') ss -> asks_typename ss)
  | _, _ => False
  end.

(** A GraphQL document text without comments: a comment runs from [#] to the end of the
    line.  (String literals containing [#] are not treated specially.) *)
Fixpoint strip_comments (incomment : bool) (s : string) : string :=
  match s with
  | EmptyString => EmptyString
  | String c r =>
      if Ascii.eqb c newline then String c (strip_comments false r)
      else if incomment then strip_comments true r
      else if Ascii.eqb c "#"%char then strip_comments true r
      else String c (strip_comments false r)
  end.
