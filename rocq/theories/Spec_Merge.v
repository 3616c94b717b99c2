(** What merging should do.  Independent of the merge functions. *)
From Verif Require Import Base Merge.

(** [embeds R l m]: the elements of [l] are found in [m], in order, up to [R] *)
Inductive embeds {A B : Set} (R : A -> B -> Prop) : list A -> list B -> Prop :=
| em_nil : forall m, embeds R [] m
| em_take : forall a b l m, R a b -> embeds R l m -> embeds R (a :: l) (b :: m)
| em_skip : forall b l m, embeds R l m -> embeds R l (b :: m).

(** ** names *)
Definition defines (k : string) (n : cst) : bool :=
  match n with CClass x _ _ | CFunc x _ _ => String.eqb x k | _ => false end.
(** the name annotated by the first annotated assignment of a line *)
Fixpoint annotates (k : string) (l : list small) : bool :=
  match l with
  | [] => false
  | AnnName n _ :: _ => String.eqb n k
  | AnnOther _ :: _ => false
  | Small _ :: r => annotates k r
  end.
(** a method or a field of a class *)
Definition member (k : string) (n : cst) : bool :=
  match n with CFunc x _ _ => String.eqb x k | CLine st _ => annotates k st | _ => false end.
Definition count (p : cst -> bool) (l : list cst) : nat := length (filter p l).
(** the definition that counts when the code is run: the last one *)
Definition final (p : cst -> bool) (l : list cst) (n : cst) : Prop :=
  exists pre post, l = pre ++ n :: post /\ p n = true /\ forall m, In m post -> p m = false.

(** ** C35 *)
(** a member of an existing class: methods keep their body; a field line may be replaced if the
    generated class has the field *)
Definition member_kept (generated : list cst) (e n : cst) : Prop :=
  match e with
  | CFunc k _ body => exists h, n = CFunc k h body
  | CLine st trivia => n = e \/ exists k st', annotates k st = true /\ existsb (member k) generated = true /\ n = CLine st' trivia
  | _ => n = e
  end.
(** a top-level statement of the existing module; [generated] is the generated module *)
Definition kept (generated : list cst) (e n : cst) : Prop :=
  match e with
  | CClass k h body =>
      n = e \/ exists g body', final (defines k) generated g /\ n = CClass k h body' /\ embeds (member_kept (block_of g)) body body'
  | CFunc k _ body => exists h, n = CFunc k h body
  | _ => n = e
  end.
(** functions stay functions *)
Definition same_kinds (existing generated : list cst) : Prop :=
  forall k e g, In e existing -> final (defines k) generated g -> defines k e = true ->
    match e, g with CClass _ _ _, CClass _ _ _ | CFunc _ _ _, CFunc _ _ _ => True | _, _ => False end.

(** ** C36 *)
(** what a generated member looks like afterwards: methods with the generated header, fields
    with the generated statement *)
Definition updated_member (g n : cst) : Prop :=
  match g with
  | CFunc k h _ => exists b, n = CFunc k h b
  | CLine st _ => exists trivia, n = CLine st trivia
  | _ => False
  end.
(** [body'] is [body] with everything of the generated class body *)
Definition brought (generated body body' : list cst) : Prop :=
  (forall k, count (member k) body' = if existsb (member k) generated then Nat.max 1 (count (member k) body) else count (member k) body)
  /\ (forall k g n, final (member k) generated g -> In n body' -> member k n = true -> updated_member g n).
Definition updated (existing : list cst) (g n : cst) : Prop :=
  match g with
  | CFunc k h _ => exists b, n = CFunc k h b
  | CClass k _ gb => n = g \/ exists h body body', In (CClass k h body) existing /\ n = CClass k h body' /\ brought gb body body'
  | _ => False
  end.
(** no generated class has two members of the same name *)
Definition unique_members (l : list cst) : Prop :=
  forall c h body k, In (CClass c h body) l -> (count (member k) body <= 1)%nat.
