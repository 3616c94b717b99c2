(** Python-level base: exceptions as values, strings, dictionaries, sets.
    No proofs in this file. *)
From Coq Require Export String Ascii List Bool Arith ZArith.
Export ListNotations.
Open Scope string_scope.
Open Scope list_scope.

Notation "a +s+ b" := (String.append a b) (at level 60, right associativity).

(** * Exceptions
    The Python exception classes that occur in /repo/turms.  The hierarchy of
    errors.py:1-36 is given by [is_registry_error] and [is_generation_error]. *)
Inductive exncls : Set :=
| AssertionErrorC | KeyErrorC | IndexErrorC | AttributeErrorC | TypeErrorC
| ValueErrorC | NotImplementedErrorC | RuntimeErrorC | ExceptionC
| OSErrorC | SyntaxErrorC | NameErrorC
| GraphQLErrorC                                (* graphql-core: parse / build errors *)
| RegistryErrorC | NoScalarFoundC | NoInputTypeFoundC | NoEnumFoundC   (* errors.py:7-30 *)
| GenerationErrorC                                                    (* errors.py:33-36 *)
| FragmentNotFoundErrorC | NoDocumentsFoundErrorC | InvalidDocumentsC (* utils.py:54-63 *)
| OutOfFuelC.  (* not a Python exception: a fuelled model function ran out of fuel *)

Record exn : Set := Exn { ecls : exncls; emsg : string }.

Definition exncls_eqb (a b : exncls) : bool :=
  match a, b with
  | AssertionErrorC, AssertionErrorC | KeyErrorC, KeyErrorC | IndexErrorC, IndexErrorC
  | AttributeErrorC, AttributeErrorC | TypeErrorC, TypeErrorC | ValueErrorC, ValueErrorC
  | NotImplementedErrorC, NotImplementedErrorC | RuntimeErrorC, RuntimeErrorC
  | ExceptionC, ExceptionC | OSErrorC, OSErrorC | SyntaxErrorC, SyntaxErrorC
  | NameErrorC, NameErrorC | GraphQLErrorC, GraphQLErrorC
  | RegistryErrorC, RegistryErrorC | NoScalarFoundC, NoScalarFoundC
  | NoInputTypeFoundC, NoInputTypeFoundC | NoEnumFoundC, NoEnumFoundC
  | GenerationErrorC, GenerationErrorC | FragmentNotFoundErrorC, FragmentNotFoundErrorC
  | NoDocumentsFoundErrorC, NoDocumentsFoundErrorC | InvalidDocumentsC, InvalidDocumentsC
  | OutOfFuelC, OutOfFuelC => true
  | _, _ => false
  end.

(** [isinstance(e, RegistryError)]: errors.py:7-30 *)
Definition is_registry_error (e : exn) : bool :=
  match ecls e with
  | RegistryErrorC | NoScalarFoundC | NoInputTypeFoundC | NoEnumFoundC => true
  | _ => false
  end.

(** [isinstance(e, GenerationError)]: errors.py:33-36, utils.py:54-67 *)
Definition is_generation_error (e : exn) : bool :=
  match ecls e with
  | GenerationErrorC | FragmentNotFoundErrorC | NoDocumentsFoundErrorC | InvalidDocumentsC => true
  | _ => false
  end.

Inductive res (A : Type) : Type :=
| Ok (a : A)
| Err (e : exn).
Arguments Ok {A} a.
Arguments Err {A} e.

Definition rbind {A B} (m : res A) (k : A -> res B) : res B :=
  match m with Ok a => k a | Err e => Err e end.

Notation "'let?' x ':=' m 'in' k" := (rbind m (fun x => k))
  (at level 200, x pattern, m at level 100, k at level 200, right associativity).

Definition rraise {A} (c : exncls) (msg : string) : res A := Err (Exn c msg).

Fixpoint rmap {A B} (f : A -> res B) (l : list A) : res (list B) :=
  match l with
  | [] => Ok []
  | x :: xs => let? y := f x in let? ys := rmap f xs in Ok (y :: ys)
  end.

Definition is_ok {A} (r : res A) : bool := match r with Ok _ => true | Err _ => false end.

(** * Characters and strings (ASCII; GraphQL names are ASCII) *)
Definition ch (s : string) : ascii := match s with String c _ => c | _ => zero end.
Definition code (c : ascii) : nat := nat_of_ascii c.
Definition is_upper (c : ascii) : bool := (65 <=? code c)%nat && (code c <=? 90)%nat.
Definition is_lower (c : ascii) : bool := (97 <=? code c)%nat && (code c <=? 122)%nat.
Definition is_digit (c : ascii) : bool := (48 <=? code c)%nat && (code c <=? 57)%nat.
Definition is_alpha (c : ascii) : bool := is_upper c || is_lower c.
Definition is_under (c : ascii) : bool := Ascii.eqb c "_"%char.
Definition is_dot (c : ascii) : bool := Ascii.eqb c "."%char.
Definition newline : ascii := ascii_of_nat 10.
Definition nl : string := String newline EmptyString.

Definition to_lower (c : ascii) : ascii :=
  if is_upper c then ascii_of_nat (code c + 32) else c.
Definition to_upper (c : ascii) : ascii :=
  if is_lower c then ascii_of_nat (code c - 32) else c.

Fixpoint smap (f : ascii -> ascii) (s : string) : string :=
  match s with EmptyString => EmptyString | String c r => String (f c) (smap f r) end.
Fixpoint sfilter (p : ascii -> bool) (s : string) : string :=
  match s with
  | EmptyString => EmptyString
  | String c r => if p c then String c (sfilter p r) else sfilter p r
  end.
Fixpoint sforall (p : ascii -> bool) (s : string) : bool :=
  match s with EmptyString => true | String c r => p c && sforall p r end.

(** Python [str.lower], [str.capitalize] and [name[0].upper() + name[1:]] *)
Definition str_lower (s : string) : string := smap to_lower s.
Definition py_capitalize (s : string) : string :=
  match s with EmptyString => EmptyString | String c r => String (to_upper c) (str_lower r) end.
(** [name[0].upper() + name[1:]].  On "" the Python code raises IndexError; GraphQL
    names are never empty, so the total version returns "" there. *)
Definition cap_first (s : string) : string :=
  match s with EmptyString => EmptyString | String c r => String (to_upper c) r end.

(** [s.rsplit(".", 1)] as a pair, [None] when there is no dot *)
Fixpoint rsplit_dot (s : string) : option (string * string) :=
  match s with
  | EmptyString => None
  | String c r =>
      match rsplit_dot r with
      | Some (a, b) => Some (String c a, b)
      | None => if is_dot c then Some (EmptyString, r) else None
      end
  end.
(** ["." in s] *)
Definition has_dot (s : string) : bool := match rsplit_dot s with Some _ => true | None => false end.
(** [s.split(".")[-1]] *)
Definition last_comp (s : string) : string := match rsplit_dot s with Some (_, b) => b | None => s end.
(** [".".join(s.split(".")[:-1])] *)
Definition module_part (s : string) : string := match rsplit_dot s with Some (a, _) => a | None => EmptyString end.

(** [s.split(c)] for a single character; never empty *)
Fixpoint split_on (c : ascii) (s : string) : list string :=
  match s with
  | EmptyString => [EmptyString]
  | String d r =>
      if Ascii.eqb c d then EmptyString :: split_on c r
      else match split_on c r with
           | [] => [String d EmptyString]       (* unreachable *)
           | h :: t => String d h :: t
           end
  end.

(** [sep.join(l)] *)
Fixpoint join (sep : string) (l : list string) : string :=
  match l with
  | [] => EmptyString
  | [x] => x
  | x :: xs => x +s+ sep +s+ join sep xs
  end.

(** [s.startswith(p)] *)
Definition startswith (p s : string) : bool := String.prefix p s.
Fixpoint srev_app (s acc : string) : string :=
  match s with EmptyString => acc | String c r => srev_app r (String c acc) end.
Definition srev (s : string) : string := srev_app s EmptyString.
(** [s.endswith(p)] *)
Definition endswith (p s : string) : bool := String.prefix (srev p) (srev s).

Fixpoint nat_to_string_aux (fuel n : nat) (acc : string) : string :=
  match fuel with
  | O => acc
  | S f => let acc' := String (ascii_of_nat (48 + n mod 10)) acc in
           match n / 10 with O => acc' | m => nat_to_string_aux f m acc' end
  end.
Definition nat_to_string (n : nat) : string := nat_to_string_aux (S n) n EmptyString.

(** * Sets and dictionaries *)
Definition mem (x : string) (l : list string) : bool := existsb (String.eqb x) l.
(** [set.add] on a duplicate-free list *)
Definition sadd (x : string) (l : list string) : list string := if mem x l then l else l ++ [x].

(** Python dict in insertion order *)
Definition dict (A : Type) := list (string * A).
Fixpoint dget {A} (k : string) (d : dict A) : option A :=
  match d with
  | [] => None
  | (k', v) :: r => if String.eqb k k' then Some v else dget k r
  end.
Definition dmem {A} (k : string) (d : dict A) : bool :=
  match dget k d with Some _ => true | None => false end.
(** [d[k] = v]: overwrite in place or append *)
Fixpoint dset {A} (k : string) (v : A) (d : dict A) : dict A :=
  match d with
  | [] => [(k, v)]
  | (k', v') :: r => if String.eqb k k' then (k', v) :: r else (k', v') :: dset k v r
  end.
Definition dkeys {A} (d : dict A) : list string := map fst d.
Definition dvals {A} (d : dict A) : list A := map snd d.
(** [{**d, **e}] *)
Definition dmerge {A} (d e : dict A) : dict A := fold_left (fun acc kv => dset (fst kv) (snd kv) acc) e d.
(** [d.setdefault(k, []).append(v)] and [.extend(vs)] *)
Definition dappend {A} (k : string) (v : A) (d : dict (list A)) : dict (list A) :=
  match dget k d with Some l => dset k (l ++ [v]) d | None => dset k [v] d end.
Definition dextend {A} (k : string) (vs : list A) (d : dict (list A)) : dict (list A) :=
  match dget k d with Some l => dset k (l ++ vs) d | None => dset k vs d end.
(** dict comprehension [{k: v for ...}] over a list of pairs *)
Definition dict_of {A} (l : list (string * A)) : dict A :=
  fold_left (fun acc kv => dset (fst kv) (snd kv) acc) l [].

(** ** sorted() on strings *)
Definition ascii_leb (a b : ascii) : bool := (code a <=? code b)%nat.
Fixpoint str_leb (a b : string) : bool :=
  match a, b with
  | EmptyString, _ => true
  | _, EmptyString => false
  | String c r, String d t =>
      if Ascii.eqb c d then str_leb r t else ascii_leb c d
  end.
Fixpoint insert_sorted (x : string) (l : list string) : list string :=
  match l with
  | [] => [x]
  | y :: r => if str_leb x y then x :: l else y :: insert_sorted x r
  end.
Definition str_sort (l : list string) : list string := fold_right insert_sorted [] l.

(** truthiness of an optional string: [if description:] *)
Definition truthy (o : option string) : bool :=
  match o with Some EmptyString | None => false | Some _ => true end.
Definition opt_str (o : option string) : string := match o with Some s => s | None => EmptyString end.

Fixpoint nodupb (l : list string) : bool :=
  match l with [] => true | x :: r => negb (mem x r) && nodupb r end.
Definition dedup (l : list string) : list string := fold_left (fun acc x => sadd x acc) l [].

(** Python reserved words: [keyword.kwlist] of Python 3.10 - 3.13 *)
Definition kwlist : list string :=
  ["False"; "None"; "True"; "and"; "as"; "assert"; "async"; "await"; "break"; "class";
   "continue"; "def"; "del"; "elif"; "else"; "except"; "finally"; "for"; "from"; "global";
   "if"; "import"; "in"; "is"; "lambda"; "nonlocal"; "not"; "or"; "pass"; "raise"; "return";
   "try"; "while"; "with"; "yield"].
Definition iskeyword (s : string) : bool := mem s kwlist.
