(** When Python can create the classes of a module: the C3 method resolution order
    (CPython's pmerge).  [object], the last class of every order, is left out.  Independent of the
    generator. *)
From Verif Require Import Base PyAst Gql Config.

(** ** Merging *)
(** [h] is in no tail *)
Definition free (h : string) (ls : list (list string)) : bool := forallb (fun l => negb (mem h (tl l))) ls.
(** the first head that is in no tail *)
Fixpoint good_head (cands all : list (list string)) : option string :=
  match cands with
  | [] => None
  | (h :: _) :: r => if free h all then Some h else good_head r all
  | [] :: r => good_head r all
  end.
Definition drop_head (h : string) (l : list string) : list string :=
  match l with x :: r => if String.eqb x h then r else l | [] => [] end.
Definition is_nil (l : list string) : bool := match l with [] => true | _ => false end.
(** fuel: the number of entries *)
Fixpoint c3 (fuel : nat) (ls : list (list string)) : option (list string) :=
  if forallb is_nil ls then Some []
  else match fuel with
       | O => None
       | S n => match good_head ls ls with
                | None => None
                | Some h => option_map (cons h) (c3 n (map (drop_head h) ls))
                end
       end.
Definition c3_merge (ls : list (list string)) : option (list string) := c3 (List.length (List.concat ls)) ls.

(** ** Modules *)
(** the classes in scope with their orders; a name bound to something else has the order [] *)
Definition scope := dict (list string).
Fixpoint orders (sc : scope) (bases : list expr) : option (list (list string)) :=
  match bases with
  | [] => Some []
  | EName n :: r => match dget n sc, orders sc r with
                    | Some (h :: m), Some ms => Some ((h :: m) :: ms)
                    | _, _ => None
                    end
  | _ :: _ => None
  end.
Definition heads (ms : list (list string)) : list string := map (hd "") ms.
(** the order of a class with these bases, without the class *)
Definition bases_order (sc : scope) (bases : list expr) : option (list string) :=
  match orders sc bases with Some ms => c3_merge (ms ++ [heads ms]) | None => None end.
(** a statement is run: None if a class cannot be created.  Distinct classes must have distinct
    names. *)
Fixpoint declare (m : stmt) (sc : scope) : option scope :=
  match m with
  | SClass n bases body _ =>
      match (fix go (l : list stmt) (sc : scope) : option scope :=
               match l with
               | [] => Some sc
               | x :: r => match declare x sc with Some sc' => go r sc' | None => None end
               end) body sc, bases_order sc bases with
      | Some _, Some k => Some (dset n (n :: k) sc)
      | _, _ => None
      end
  | SAssign (EName n) (EName x) => Some (dset n (match dget x sc with Some k => k | None => [] end) sc)
  | SAssign (EName n) _ => Some (dset n [] sc)
  | _ => Some sc
  end.
Fixpoint declare_all (l : list stmt) (sc : scope) : option scope :=
  match l with
  | [] => Some sc
  | x :: r => match declare x sc with Some sc' => declare_all r sc' | None => None end
  end.
Definition constructible (sc : scope) (l : list stmt) : Prop := declare_all l sc <> None.
Definition class_names (l : list stmt) : list string := flat_map (fun m => match m with SClass n _ _ _ => [n] | _ => [] end) l.
(** the classes of [l] are not in scope before *)
Definition new_in (sc : scope) (l : list stmt) : Prop :=
  forall n, In n (class_names l) -> ~ In n (dkeys sc) /\ forall k o, In (k, o) sc -> ~ In n o.

(** ** Interfaces *)
Definition implements (t : typedef) : list string := match t with TObject _ i _ _ | TInterface _ i _ => i | _ => [] end.
(** the GraphQL specification: a type implements what its interfaces implement *)
Definition implements_closed (s : schema) : Prop := forall k t i ti j,
  In (k, t) (s_types s) -> In i (implements t) -> get_type s i = Some ti -> In j (implements ti) -> In j (implements t).
(** the interfaces of a list that no other interface of the list implements *)
Definition direct (s : schema) (l : list string) : list string :=
  filter (fun i => negb (existsb (fun o => negb (String.eqb o i) && match get_type s o with Some t => mem i (implements t) | None => false end) l)) l.
(** interfaces form a forest *)
Definition interface_forest (s : schema) : Prop := forall i d is fs, In (i, TInterface d is fs) (s_types s) -> List.length (direct s is) <= 1.
(** what graphql-core guarantees about interfaces *)
Definition valid_interfaces (s : schema) : Prop :=
  implements_closed s /\ NoDup (map fst (s_types s))
  /\ (forall i d is fs, In (i, TInterface d is fs) (s_types s) -> ~ In i is)
  /\ (forall k d is fs ds, In (k, TObject d is fs ds) (s_types s) -> NoDup is).

(** ** Configured bases *)
Definition base_names (l : list string) : list expr := map (fun b => EName (last_comp b)) l.
(** the option additional_bases for a type *)
Definition additional (c : gconfig) (key : string) : list string := match dget key (c_additional_bases c) with Some b => b | None => [] end.
(** base classes [add] can be put before [bases], of which a class alone has the order [m], with
    classes in between that have the order [m] after themselves *)
Definition combine_with (sc : scope) (add bases : list expr) (m : list string) : Prop :=
  exists ma mb m', orders sc add = Some ma /\ orders sc bases = Some mb /\ c3_merge (ma ++ [m; heads ma ++ heads mb]) = Some m'.
(** every class can have the bases [bases], with its additional bases in front; interfaces have no
    additional bases *)
Definition bases_fit (c : gconfig) (s : schema) (sc : scope) (bases : list expr) : Prop :=
  (forall i d is fs, In (i, TInterface d is fs) (s_types s) -> additional c i = [])
  /\ exists m, bases_order sc bases = Some m
    /\ forall k d is fs ds, In (k, TObject d is fs ds) (s_types s) -> combine_with sc (base_names (additional c k)) bases m.
