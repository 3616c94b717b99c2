(** The comments in the head of an operation.  Independent of the generator. *)
From Verif Require Import Base.

(** Lines of GraphQL: they end with LF, CR or CR LF *)
Definition LF : string := String (ascii_of_nat 10) "".
Definition CR : string := String (ascii_of_nat 13) "".
Definition line_break (b : string) : Prop := b = LF \/ b = CR \/ b = CR +s+ LF.
Definition one_line (s : string) : Prop := sforall (fun a => negb (existsb (Nat.eqb (nat_of_ascii a)) [10; 13])) s = true.
Inductive has_lines : string -> list string -> Prop :=
| hl_one : forall s, one_line s -> has_lines s [s]
| hl_more : forall s b r l, one_line s -> line_break b -> (b = CR -> startswith LF r = false) -> has_lines r l -> has_lines (s +s+ b +s+ r) (s :: l).
(** no VT, FF, FS, GS, RS: Python takes them for line breaks, GraphQL does not allow them *)
Definition plain (s : string) : Prop := sforall (fun a => negb (existsb (Nat.eqb (nat_of_ascii a)) [11; 12; 28; 29; 30])) s = true.
(** lines are counted from one; a position at the start of a line may count as the end of the line before *)
Definition counts_lines (line : string -> nat -> nat) : Prop :=
  forall before after l, plain before -> has_lines before l ->
    line (before +s+ after) (String.length before) = length l
    \/ (last l "" = "" /\ 1 < length l /\ line (before +s+ after) (String.length before) = length l - 1).

Definition no_hash (s : string) : Prop := sforall (fun a => negb (Ascii.eqb a "#"%char)) s = true.
(** the texts of the comments in lines that have no other # *)
Inductive comments_of : list string -> list string -> Prop :=
| co_nil : comments_of [] []
| co_line : forall l ls ts, no_hash l -> comments_of ls ts -> comments_of (l :: ls) ts
| co_comment : forall b t ls ts, no_hash b -> no_hash t -> comments_of ls ts -> comments_of ((b +s+ "#" +s+ t) :: ls) (t :: ts).
Definition documentation (ts : list string) : option string := match ts with [] => None | _ => Some (join nl ts) end.
(** the head of an operation: from its start to its first selection *)
Record head_lines (pre head rest : string) (above : list string) (p : string) (first : string) (middle : list string) (h : string) : Prop := HeadLines {
  hd_pre : has_lines pre (above ++ [p]);
  hd_head : has_lines head (first :: middle ++ [h]);
  hd_plain : plain (pre +s+ head +s+ rest);
  hd_start : startswith LF head = false;
  hd_rest : startswith LF rest = false }.
