(** turms/processors/merge.py.  No proofs in this file.

    Concrete syntax trees of libcst as far as merging looks at them.  [header] is everything of
    a definition outside its body (leading comments, decorators, parameters or bases, return
    annotation); [trivia] is everything of a statement line outside its statements (leading
    lines, trailing comment).  Bodies are indented blocks: definitions written on one line
    ([class A: pass]) are not modelled. *)
From Verif Require Import Base.

(** a small statement: an annotated assignment to a name, to something else (an attribute or
    an item), or any other statement *)
Inductive small : Set :=
| AnnName (target text : string)
| AnnOther (text : string)
| Small (text : string).
Inductive cst : Set :=
| CClass (name header : string) (body : list cst)
| CFunc (name header : string) (body : list cst)
| CLine (stmts : list small) (trivia : string)
| CBlock (text : string)              (* if, for, while, with, try *)
| CBroken.                            (* a node with a body of the wrong kind *)
(** libcst.Module: comments and blank lines before the first and after the last statement *)
Record cmodule : Set := CModule { m_header : string; m_body : list cst; m_footer : string }.

(** merge.py:11-16 retrieve_symbol_name: the first annotated assignment counts.  If its target
    is no name, the code returns a node object, which is not a key of any of the dictionaries
    it is looked up in (generated code does not contain such targets). *)
Fixpoint retrieve_symbol_name (l : list small) : option string :=
  match l with
  | [] => None
  | AnnName n _ :: _ => Some n
  | AnnOther _ :: _ => None
  | Small _ :: r => retrieve_symbol_name r
  end.
(** [node.body] of a class or function *)
Definition block_of (n : cst) : list cst :=
  match n with CClass _ _ b | CFunc _ _ b => b | _ => [] end.
(** merge.py:19-25 merge_functions: [generated.with_changes(body=existing.body)].  The generated
    node may also be a class (merge.py:173-182) or a statement line (merge.py:73-78). *)
Definition merge_functions (generated existing : cst) : cst :=
  match generated with
  | CFunc n h _ => CFunc n h (block_of existing)
  | CClass n h _ => CClass n h (block_of existing)
  | _ => CBroken
  end.
(** merge.py:28-36 merge_statements: [existing.with_changes(body=generated.body)] *)
Definition merge_statements (generated existing : cst) : cst :=
  match generated, existing with
  | CLine st _, CLine _ trivia => CLine st trivia
  | _, _ => CBroken
  end.

(** merge.py:85-122 and 186-221: symbols that were not found in the existing code are inserted
    before the next symbol that was, the rest after the last one.
    [beforemap] is kept as the list of its pairs of position and symbol, in insertion order. *)
Fixpoint take_until (k : string) (l : list string) : list string :=
  match l with [] => [] | x :: r => if String.eqb x k then [] else x :: take_until k r end.
Definition position (positions : dict nat) (k : string) : nat :=
  match dget k positions with Some p => p | None => 0 end.     (* never missing *)
Definition place_before (keys : list string) (positions : dict nat)
           (acc : list string * list (nat * string)) (existingkey : string) : list string * list (nat * string) :=
  fold_left (fun acc key =>
               let '(missing, before) := acc in
               if mem key missing
               then (filter (fun x => negb (String.eqb x key)) missing, before ++ [(position positions existingkey, key)])
               else acc)
            (take_until existingkey keys) acc.
Fixpoint weave {A} (before : nat -> list A) (after : nat -> list A) (i : nat) (l : list A) : list A :=
  match l with
  | [] => []
  | x :: r => before i ++ x :: after i ++ weave before after (S i) r
  end.
Definition last_key (implemented : list string) : option string :=
  match rev implemented with k :: _ => Some k | [] => None end.
Definition insert_missing (symbols : dict cst) (implemented : list string) (positions : dict nat) (new_body : list cst) : list cst :=
  let symbol k := match dget k symbols with Some n => [n] | None => [] end in
  let missing := filter (fun k => negb (mem k implemented)) (dkeys symbols) in
  let '(missing, before) := fold_left (place_before (dkeys symbols) positions) implemented (missing, []) in
  match last_key implemented with
  | Some k =>
      weave (fun i => flat_map (fun p => if Nat.eqb (fst p) i then symbol (snd p) else []) before)
            (fun i => if Nat.eqb i (position positions k) then flat_map symbol missing else [])
            0 new_body
  | None => new_body ++ flat_map symbol missing
  end.

(** what the loops over the existing statements collect *)
Record merged : Type := Merged { g_body : list cst; g_implemented : list string; g_positions : dict nat }.
Definition keep (n : cst) (g : merged) : merged :=
  Merged (g_body g ++ [n]) (g_implemented g) (g_positions g).
Definition implement (k : string) (n : cst) (g : merged) : merged :=
  Merged (g_body g ++ [n]) (g_implemented g ++ [k]) (dset k (length (g_body g)) (g_positions g)).

(** merge.py:47-54: the functions and annotated names of the generated class *)
Definition member_symbols (body : list cst) : dict cst :=
  fold_left (fun d n => match n with
                        | CFunc k _ _ => dset k n d
                        | CLine st _ => match retrieve_symbol_name st with Some k => dset k n d | None => d end
                        | _ => d
                        end) body [].
(** merge.py:60-83 *)
Definition merge_member (symbols : dict cst) (g : merged) (n : cst) : merged :=
  match n with
  | CLine st _ =>
      match retrieve_symbol_name st with
      | Some k => match dget k symbols with
                  | Some x => implement k (merge_statements x n) g
                  | None => keep n g
                  end
      | None => keep n g
      end
  | CFunc k _ _ => match dget k symbols with
                   | Some x => implement k (merge_functions x n) g
                   | None => keep n g
                   end
  | _ => keep n g
  end.
(** merge.py:39-128 merge_class; the generated node may also be a function (merge.py:161-169) *)
Definition merge_class (generated existing : cst) : cst :=
  let symbols := member_symbols (block_of generated) in
  let g := fold_left (merge_member symbols) (block_of existing) (Merged [] [] []) in
  match existing with
  | CClass n h _ => CClass n h (insert_missing symbols (g_implemented g) (g_positions g) (g_body g))
  | _ => CBroken
  end.

(** merge.py:148-156 *)
Definition module_symbols (body : list cst) : dict cst :=
  fold_left (fun d n => match n with CClass k _ _ | CFunc k _ _ => dset k n d | _ => d end) body [].
(** merge.py:160-184 *)
Definition merge_node (symbols : dict cst) (g : merged) (n : cst) : merged :=
  match n with
  | CClass k _ _ => match dget k symbols with Some x => implement k (merge_class x n) g | None => keep n g end
  | CFunc k _ _ => match dget k symbols with Some x => implement k (merge_functions x n) g | None => keep n g end
  | _ => keep n g
  end.
Definition merge_bodies (existing generated : list cst) : list cst :=
  let symbols := module_symbols generated in
  let g := fold_left (merge_node symbols) existing (Merged [] [] []) in
  insert_missing symbols (g_implemented g) (g_positions g) (g_body g).
(** a broken node cannot be printed *)
Fixpoint printable (n : cst) : bool :=
  match n with
  | CClass _ _ b | CFunc _ _ b => forallb printable b
  | CBroken => false
  | _ => true
  end.
(** merge.py:135-225 merge_code on parsed modules; [cst.Module(body=...)] has no header and no
    footer *)
Definition merge_modules (existing generated : cmodule) : res cmodule :=
  let body := merge_bodies (m_body existing) (m_body generated) in
  if forallb printable body then Ok (CModule "" body "") else rraise TypeErrorC "body".

(** merge.py:135-225 on code, and 248-263 MergeProcessor.run; [parse] is [cst.parse_module],
    [code] is [Module.code], [old] the content of the output file if it exists *)
Definition merge_code (parse : string -> res cmodule) (code : cmodule -> string) (old_code new_code : string) : res string :=
  let? existing := parse old_code in
  let? generated := parse new_code in
  let? m := merge_modules existing generated in
  Ok (code m).
Definition merge_run (parse : string -> res cmodule) (code : cmodule -> string) (old : option string) (gen_file : string) : res string :=
  match old with
  | None => Ok gen_file
  | Some existing_code => merge_code parse code existing_code gen_file
  end.
