(** What a document text mentions and what an operation needs, independent of the turms
    functions. *)
From Verif Require Import Base PyAst Gql Print Spec_Docs.

(** ** Texts *)
(** [rest] does not begin with a letter *)
Definition stops (rest : string) : Prop := match rest with EmptyString => True | String a _ => is_alpha a = false end.
(** the text has three dots followed by [f], a non-empty maximal word of letters *)
Definition mentions (text f : string) : Prop :=
  f <> "" /\ sforall is_alpha f = true /\ exists a b, text = a +s+ "..." +s+ f +s+ b /\ stops b.
(** [R] relates [f] to the text, or to the text [doc] gives for such a fragment *)
Inductive reached (R : string -> string -> Prop) (doc : string -> option string) (text : string) : string -> Prop :=
| m_here : forall f, R text f -> reached R doc text f
| m_frag : forall g t f, reached R doc text g -> doc g = Some t -> R t f -> reached R doc text f.
Definition mentioned := reached mentions.

(** the text of a fragment, completed by [add] *)
Definition text_of (add : string -> res string) (docs : dict string) (f : string) : option string :=
  match dget f docs with Some d => match add d with Ok t => Some t | Err _ => None end | None => None end.

(** [text] is the parts and then [last], separated by empty lines *)
Definition document_of (parts : list string) (last text : string) : Prop :=
  text = fold_right (fun p acc => p +s+ nl +s+ nl +s+ acc) last parts.

(** ** Documents *)
(** the fragments an operation uses, directly or through other fragments *)
Definition needs (d : document) (o : operation) (f : string) : Prop :=
  spread_in True (op_sels o) f \/ exists g, spread_in True (op_sels o) g /\ depends_trans True d g f.

(** A lexeme that cannot be confused with a spread: no three dots, no dot at the end. *)
Definition quiet (w : string) : Prop :=
  ~ (exists a b, w = a +s+ "..." +s+ b) /\ ~ (exists a, w = a +s+ ".").
(** A name the generator's pattern can read: letters only. *)
Definition word (n : string) : Prop := n <> "" /\ sforall is_alpha n = true.

(** The lexemes of a document apart from spread names, where [ps] prints string literals. *)
Section Words.
Variable ps : string -> bool -> string.
Fixpoint value_words (v : vnode) : list string :=
  match v with
  | VInt x | VFloat x | VEnum x | VVar x => [x]
  | VString x b => [ps x b]
  | VBool _ | VNull => []
  | VList l => flat_map value_words l
  | VObject l => flat_map (fun kv => fst kv :: value_words (snd kv)) l
  end.
Definition args_words (l : list (string * vnode)) : list string := flat_map (fun kv => fst kv :: value_words (snd kv)) l.
Definition dirs_words (l : list directive) : list string := flat_map (fun d => dir_name d :: args_words (dir_args d)) l.
Definition opt_words (o : option string) : list string := match o with Some x => [x] | None => [] end.
Fixpoint sel_words (x : selection) : list string :=
  match x with
  | SelField f => field_words f
  | SelSpread _ ds => dirs_words ds
  | SelInline cond ds l => opt_words cond ++ dirs_words ds ++ flat_map sel_words l
  end
with field_words (f : fieldnode) : list string :=
  match f with
  | FieldNode alias n args ds sels =>
      opt_words alias ++ [n] ++ args_words args ++ dirs_words ds
      ++ match sels with Some l => flat_map sel_words l | None => [] end
  end.
Definition fragment_words (f : fragment) : list string :=
  [fr_name f; fr_on f] ++ dirs_words (fr_dirs f) ++ flat_map sel_words (fr_sels f).
Definition vardef_words (v : vardef) : list string :=
  [v_name v; gty_name (v_type v)] ++ match v_default v with Some d => value_words d | None => [] end ++ dirs_words (v_dirs v).
Definition operation_words (o : operation) : list string :=
  opt_words (op_name o) ++ flat_map vardef_words (op_vars o) ++ dirs_words (op_dirs o) ++ flat_map sel_words (op_sels o).

(** every spread can be read off the text, and nothing else looks like one *)
Definition readable_sels (l : list selection) (words : list string) : Prop :=
  Forall quiet words /\ (forall n, spread_in True l n -> word n).
Definition readable_fragment (f : fragment) : Prop := readable_sels (fr_sels f) (fragment_words f).
Definition readable_operation (o : operation) : Prop := readable_sels (op_sels o) (operation_words o).
End Words.

(** ** Generated classes *)
(** the last class has a class Meta whose attribute document is the text *)
Definition stored_document (classes : list stmt) (text : string) : Prop :=
  exists pre name bases body meta,
    classes = pre ++ [SClass name bases body []] /\ In (SClass "Meta" [] meta []) body
    /\ In (SAssign (EName "document") (EConst (CStr text))) meta.
(** [p] is the definition of [f], possibly asking for __typename where [f] does not *)
Definition defines (ps : string -> bool -> string) (f : fragment) (p : string) : Prop :=
  exists g, p = print_fragment ps g /\ fr_name g = fr_name f /\ fr_on g = fr_on f /\ fr_dirs g = fr_dirs f
            /\ grown (fr_sels f) (fr_sels g).
(** the stored document is the definitions of exactly the fragments the operation needs, each
    once, and then the operation *)
Definition self_contained (ps : string -> bool -> string) (d : document) (o : operation) (classes : list stmt) : Prop :=
  exists fs parts t, stored_document classes t
    /\ incl fs (fragments_of d) /\ NoDup (map fr_name fs) /\ (forall n, In n (map fr_name fs) <-> needs d o n)
    /\ Forall2 (defines ps) fs parts /\ document_of parts (print_operation ps o) t.
