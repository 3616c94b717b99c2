(** turms/utils.py:112-150: comments of an operation as its documentation.  No proofs in this file. *)
From Verif Require Import Base.

(** [str.splitlines] of Python, for ASCII texts: a break is LF, CR, CR LF, VT, FF, FS, GS or RS.  [pieces] are the texts between
    breaks; [splitlines] has no last empty one. *)
Definition is_break (a : ascii) : bool := existsb (Ascii.eqb a) (map ascii_of_nat [10; 13; 11; 12; 28; 29; 30]).
Definition cr : ascii := ascii_of_nat 13.
Definition lf : ascii := ascii_of_nat 10.
Fixpoint pieces (s : string) : list string :=
  match s with
  | EmptyString => [EmptyString]
  | String a r =>
      if is_break a then
        EmptyString :: pieces (match r with String b r' => if Ascii.eqb a cr && Ascii.eqb b lf then r' else r | EmptyString => r end)
      else match pieces r with p :: ps => String a p :: ps | [] => [] end
  end.
Definition splitlines (s : string) : list string :=
  if String.eqb (last (pieces s) EmptyString) EmptyString then removelast (pieces s) else pieces s.

(** utils.py:51 commentline_regex: group 1 is what follows the last # *)
Fixpoint after_hash (s : string) : option string :=
  match s with
  | EmptyString => None
  | String a r => match after_hash r with Some x => Some x | None => if Ascii.eqb a "#"%char then Some r else None end
  end.

(** [source.get_location(position).line] of graphql-core 3.2 *)
Definition published_line (body : string) (position : nat) : nat :=
  match splitlines (substring 0 position body) with [] => 1 | l => length l end.

(** utils.py:112-150.  [line] is [get_location]; [loc] the text of the documents and where the operation starts in it; [first]
    where its first selection starts.  [Python l[i:j]] is [skipn i (firstn j l)]. *)
Definition inspect_operation_for_documentation (line : string -> nat -> nat) (loc : option (string * nat)) (first : option nat) : res (option string) :=
  match loc with
  | None => rraise GenerationErrorC "Could not find loc for operation. This should not happen"
  | Some (body, start) =>
      match first with
      | None => rraise GenerationErrorC "Could not find loc for first operation. This should not happen"
      | Some position =>
          let definition := skipn (line body start - 1) (firstn (line body position - 1) (splitlines body)) in
          match flat_map (fun l => match after_hash l with Some x => [x] | None => [] end) definition with
          | [] => Ok None
          | doc => Ok (Some (join nl doc))
          end
      end
  end.
