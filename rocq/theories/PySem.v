(** A small interpreter for the Python statements turms emits into function bodies.
    Independent of turms; used to state what generated functions do.

    Simplifications: [await e] evaluates [e] and [async for] is [for]; [is] is only meaningful
    on constants and module-level singletons; dictionary keys are compared as constants or
    classes; dictionaries are values (no aliasing); the values a generator yields are collected
    in the environment under [yielded]; lambdas and subscript expressions are not
    interpreted. *)
From Verif Require Import Base PyAst.

Inductive pv : Type :=
| PVConst (c : const)
| PVList (l : list pv) | PVTuple (l : list pv)
| PVDict (l : list (pv * pv))
| PVClass (n : string)                             (* a class *)
| PVTyping (n : string)                            (* a typing construct, not a class *)
| PVObj (cls : string) (data : list (string * pv)) (* an instance with its attributes *)
| PVFun (n : string)
| PVSing (n : string)                              (* a module-level singleton object *)
| PVMeth (self : pv) (n : string).                 (* bound method *)

Inductive pres (A : Type) : Type := POk (a : A) | PExn (e : pv).
Arguments POk {A} a.  Arguments PExn {A} e.
Definition pbind {A B} (m : pres A) (k : A -> pres B) : pres B :=
  match m with POk a => k a | PExn e => PExn e end.
Definition pmap {A B} (f : A -> pres B) : list A -> pres (list B) :=
  fix go (l : list A) : pres (list B) :=
    match l with
    | [] => POk []
    | x :: xs => pbind (f x) (fun y => pbind (go xs) (fun ys => POk (y :: ys)))
    end.
Definition py_error (cls : string) {A} : pres A := PExn (PVObj cls []).

Definition const_eqb (a b : const) : bool :=
  match a, b with
  | CNone, CNone | CEllipsis, CEllipsis => true
  | CBool x, CBool y => Bool.eqb x y
  | CInt x, CInt y => Z.eqb x y
  | CFloat x, CFloat y | CStr x, CStr y => String.eqb x y
  | _, _ => false
  end.
Definition key_eqb (a b : pv) : bool :=
  match a, b with
  | PVConst x, PVConst y => const_eqb x y
  | PVClass x, PVClass y | PVTyping x, PVTyping y | PVFun x, PVFun y | PVSing x, PVSing y => String.eqb x y
  | _, _ => false
  end.
Fixpoint pget (k : pv) (d : list (pv * pv)) : option pv :=
  match d with [] => None | (k', v) :: r => if key_eqb k k' then Some v else pget k r end.
Fixpoint pset (k v : pv) (d : list (pv * pv)) : list (pv * pv) :=
  match d with
  | [] => [(k, v)]
  | (k', v') :: r => if key_eqb k k' then (k', v) :: r else (k', v') :: pset k v r
  end.
Definition pdict (l : list (pv * pv)) : pv := PVDict (fold_left (fun d kv => pset (fst kv) (snd kv) d) l []).

Definition class_of (v : pv) : string :=
  match v with
  | PVConst CNone => "NoneType" | PVConst (CBool _) => "bool" | PVConst (CInt _) => "int"
  | PVConst (CFloat _) => "float" | PVConst (CStr _) => "str" | PVConst CEllipsis => "ellipsis"
  | PVList _ => "list" | PVTuple _ => "tuple" | PVDict _ => "dict"
  | PVClass _ => "type" | PVTyping _ => "object" | PVObj c _ => c
  | PVFun _ => "function" | PVMeth _ _ => "method" | PVSing _ => "object"
  end.
(** [a is b] *)
Definition same_object (a b : pv) : bool :=
  match a, b with
  | PVConst x, PVConst y => const_eqb x y
  | PVSing x, PVSing y => String.eqb x y
  | _, _ => false
  end.
(** where the values yielded so far are kept; not a Python identifier *)
Definition yielded : string := "<yield>".
Definition yield_value (v : pv) (env : dict pv) : dict pv :=
  dset yielded (PVList (match dget yielded env with Some (PVList l) => l | _ => [] end ++ [v])) env.
Definition ptruthy (v : pv) : bool :=
  match v with
  | PVConst CNone | PVConst (CBool false) => false
  | PVConst (CInt z) => negb (Z.eqb z 0)
  | PVConst (CStr EmptyString) => false
  | PVList [] | PVTuple [] | PVDict [] => false
  | _ => true
  end.

Section Interp.
Variable glob : string -> option pv.                          (* module globals and builtins *)
Variable subclass : string -> string -> bool.                 (* issubclass *)
Variable call : pv -> list pv -> list (string * pv) -> pres pv.  (* everything else *)

Definition apply (f : pv) (args : list pv) (kws : list (string * pv)) : pres pv :=
  match f, args, kws with
  | PVClass "type", [v], [] => POk (PVClass (class_of v))
  | PVFun "isinstance", [v; PVClass c], [] => POk (PVConst (CBool (subclass (class_of v) c)))
  | PVFun "isinstance", [_; _], [] => py_error "TypeError"
  | PVMeth (PVDict d) "get", [k], [] => POk match pget k d with Some v => v | None => PVConst CNone end
  | PVMeth (PVDict d) "items", [], [] => POk (PVList (map (fun kv => PVTuple [fst kv; snd kv]) d))
  | _, _, _ => call f args kws
  end.
(** [**e] in a call *)
Definition spread (v : pv) : pres (list (string * pv)) :=
  match v with
  | PVDict d => pmap (fun kv => match fst kv with
                                | PVConst (CStr k) => POk (k, snd kv)
                                | _ => py_error "TypeError"
                                end) d
  | _ => py_error "TypeError"
  end.
Fixpoint eval (env : dict pv) (e : expr) {struct e} : pres pv :=
  match e with
  | EName n => match dget n env with
               | Some v => POk v
               | None => match glob n with Some v => POk v | None => py_error "NameError" end
               end
  | EConst c => POk (PVConst c)
  | EList l => pbind (pmap (eval env) l) (fun vs => POk (PVList vs))
  | ETuple l => pbind (pmap (eval env) l) (fun vs => POk (PVTuple vs))
  | EDict l => pbind (pmap (fun kv => pbind (eval env (fst kv)) (fun k =>
                             pbind (eval env (snd kv)) (fun v => POk (k, v)))) l)
                     (fun kvs => POk (pdict kvs))
  | ECall f args kws =>
      pbind (eval env f) (fun fv =>
      pbind (pmap (eval env) args) (fun avs =>
      pbind (pmap (fun kw => pbind (eval env (snd kw)) (fun v =>
                               match fst kw with Some n => POk [(n, v)] | None => spread v end)) kws)
            (fun kvs => apply fv avs (concat kvs))))
  | EAttr x a => pbind (eval env x) (fun v =>
      match v with
      | PVObj _ data => match dget a data with Some w => POk w | None => POk (PVMeth v a) end
      | _ => POk (PVMeth v a)
      end)
  | ECompare l op r =>
      pbind (eval env l) (fun a => pbind (eval env r) (fun b =>
      let same := same_object a b in
      POk (PVConst (CBool match op with OpIs => same | OpIsNot | OpNotEq => negb same end))))
  | EAwait x => eval env x
  | ESub _ _ | ELambda _ _ | EYield _ => py_error "NotInterpreted"
  end.

Inductive flow : Type := FNext | FBreak | FReturn (v : pv).
Definition bind_targets (ts : list string) (v : pv) (env : dict pv) : pres (dict pv) :=
  match ts, v with
  | [t], _ => POk (dset t v env)
  | _, PVTuple vs =>
      if (length ts =? length vs)%nat
      then POk (fold_left (fun e tv => dset (fst tv) (snd tv) e) (combine ts vs) env)
      else py_error "ValueError"
  | _, _ => py_error "TypeError"
  end.
Fixpoint exec (st : stmt) (env : dict pv) {struct st} : pres (dict pv * flow) :=
  let block := fix block (l : list stmt) (env : dict pv) : pres (dict pv * flow) :=
    match l with
    | [] => POk (env, FNext)
    | x :: r => pbind (exec x env) (fun ef =>
                  match snd ef with FNext => block r (fst ef) | f => POk (fst ef, f) end)
    end in
  match st with
  | SAssign (EName n) e => pbind (eval env e) (fun v => POk (dset n v env, FNext))
  | SAssign (ESub (EName d) k) e =>
      pbind (eval env e) (fun v => pbind (eval env (EName d)) (fun dv => pbind (eval env k) (fun kv =>
      match dv with
      | PVDict l => POk (dset d (PVDict (pset kv v l)) env, FNext)
      | _ => py_error "TypeError"
      end)))
  | SAnn n _ (Some e) => pbind (eval env e) (fun v => POk (dset n v env, FNext))
  | SExpr (EYield e) => pbind (eval env e) (fun v => POk (yield_value v env, FNext))
  | SExpr e => pbind (eval env e) (fun _ => POk (env, FNext))
  | SReturn None => POk (env, FReturn (PVConst CNone))
  | SReturn (Some e) => pbind (eval env e) (fun v => POk (env, FReturn v))
  | SIf t body => pbind (eval env t) (fun v => if ptruthy v then block body env else POk (env, FNext))
  | SFor _ ts it body =>
      pbind (eval env it) (fun v =>
      match v with
      | PVList l | PVTuple l =>
          (fix loop (l : list pv) (env : dict pv) : pres (dict pv * flow) :=
             match l with
             | [] => POk (env, FNext)
             | x :: r => pbind (bind_targets ts x env) (fun env1 =>
                         pbind (block body env1) (fun ef =>
                         match snd ef with
                         | FNext => loop r (fst ef)
                         | FBreak => POk (fst ef, FNext)
                         | f => POk (fst ef, f)
                         end))
             end) l env
      | _ => py_error "TypeError"
      end)
  | SBreak => POk (env, FBreak)
  | SRaise e => pbind (eval env e) (fun v => PExn v)
  | SPass => POk (env, FNext)
  | _ => py_error "NotInterpreted"
  end.
Fixpoint exec_block (l : list stmt) (env : dict pv) : pres (dict pv * flow) :=
  match l with
  | [] => POk (env, FNext)
  | x :: r => pbind (exec x env) (fun ef =>
                match snd ef with FNext => exec_block r (fst ef) | f => POk (fst ef, f) end)
  end.
(** the value returned by a function body *)
Definition run_body (body : list stmt) (env : dict pv) : pres pv :=
  pbind (exec_block body env) (fun ef =>
    match snd ef with FReturn v => POk v | _ => POk (PVConst CNone) end).
(** the values yielded by a generator body *)
Definition run_generator (body : list stmt) (env : dict pv) : pres (list pv) :=
  pbind (exec_block body env) (fun ef =>
    POk match dget yielded (fst ef) with Some (PVList l) => l | _ => [] end).
End Interp.

(** ** unfolding lemmas *)
Section Unfold.
Variable glob : string -> option pv.
Variable subclass : string -> string -> bool.
Variable call : pv -> list pv -> list (string * pv) -> pres pv.
Notation ev := (eval glob subclass call).
Notation ex := (exec glob subclass call).
Notation exb := (exec_block glob subclass call).
Lemma block_eq : forall l env,
  (fix block (l : list stmt) (env : dict pv) : pres (dict pv * flow) :=
    match l with
    | [] => POk (env, FNext)
    | x :: r => pbind (ex x env) (fun ef =>
                  match snd ef with FNext => block r (fst ef) | f => POk (fst ef, f) end)
    end) l env = exb l env.
Proof.
  induction l as [|x l IH]; intros env; [reflexivity|]. cbn [exec_block].
  destruct (ex x env) as [[e f]|]; cbn [pbind fst snd]; [|reflexivity]. destruct f; auto.
Qed.
Lemma exec_SIf : forall t body env,
  ex (SIf t body) env = pbind (ev env t) (fun v => if ptruthy v then exb body env else POk (env, FNext)).
Proof.
  intros. cbn [exec]. destruct (ev env t) as [v|]; cbn [pbind]; [|reflexivity].
  destruct (ptruthy v); [apply block_eq|reflexivity].
Qed.
Fixpoint for_loop (ts : list string) (body : list stmt) (l : list pv) (env : dict pv) : pres (dict pv * flow) :=
  match l with
  | [] => POk (env, FNext)
  | x :: r => pbind (bind_targets ts x env) (fun env1 =>
              pbind (exb body env1) (fun ef =>
              match snd ef with
              | FNext => for_loop ts body r (fst ef)
              | FBreak => POk (fst ef, FNext)
              | f => POk (fst ef, f)
              end))
  end.
Lemma exec_SFor : forall a ts it body env,
  ex (SFor a ts it body) env =
  pbind (ev env it) (fun v => match v with
                              | PVList l | PVTuple l => for_loop ts body l env
                              | _ => py_error "TypeError"
                              end).
Proof.
  intros. cbn [exec]. destruct (ev env it) as [v|]; cbn [pbind]; [|reflexivity].
  destruct v; try reflexivity.
  all: revert env; induction l as [|x l IH]; intros env; [reflexivity|]; cbn [for_loop];
    destruct (bind_targets ts x env) as [env1|]; cbn [pbind]; [|reflexivity];
    rewrite block_eq; destruct (exb body env1) as [[e f]|]; cbn [pbind fst snd]; [|reflexivity];
    destruct f; auto.
Qed.
End Unfold.
