(** C52: the comments of an operation. *)
From Verif Require Import Base Comments Spec_Comments P_Comments.

(** C52: the documentation of an operation is the comments in its head, line by line, whether or not a position at the start
    of a line counts as part of the line before.  Missing: lines with a # that does not start a comment, the line above the operation,
    a first selection at the start of a line; see below. *)
Theorem C52_comments_partial : forall line pre head rest above p first middle h, counts_lines line -> head_lines pre head rest above p first middle h -> h <> "" ->
  (p = "" -> forall up l, above = up ++ [l] -> no_hash l) ->
  forall ts, comments_of ((p +s+ first) :: middle) ts ->
  inspect_operation_for_documentation line (Some (pre +s+ head +s+ rest, String.length pre)) (Some (String.length (pre +s+ head))) = Ok (documentation ts).
Proof. exact head_documentation. Qed.
Print Assumptions C52_comments_partial.
(** with [get_location] of graphql-core 3.2, a comment on the line above an operation that starts a line is taken as well *)
Theorem C52_above_partial : forall pre head rest up b t first middle h, head_lines pre head rest (up ++ [b +s+ "#" +s+ t]) "" first middle h -> h <> "" -> no_hash b -> no_hash t ->
  forall ts, comments_of (first :: middle) ts ->
  inspect_operation_for_documentation published_line (Some (pre +s+ head +s+ rest, String.length pre)) (Some (String.length (pre +s+ head))) = Ok (documentation (t :: ts)).
Proof. exact line_above. Qed.
Print Assumptions C52_above_partial.
(** both ways of counting lines meet the condition *)
Theorem C52_counting : counts_lines published_line /\ counts_lines (fun body p => length (pieces (substring 0 p body))).
Proof. exact (conj published_counts exact_counts). Qed.
Print Assumptions C52_counting.

(** ** Examples *)
Definition text (l : list string) : string := join nl l.
Definition dc_pre : string := text ["query Other {"; "  id"; "}"; ""; ""].
Definition dc_head : string := text ["query Find($by: String) { # all"; "  # first line"; "  "; "  #second"; "  "].
Definition dc_rest : string := text ["find(by: $by) {"; "    id # which"; "  }"; "}"].
Example C52_ex : exists above p first middle h, head_lines dc_pre dc_head dc_rest above p first middle h /\ h <> ""
  /\ (p = "" -> forall up l, above = up ++ [l] -> no_hash l)
  /\ comments_of ((p +s+ first) :: middle) [" all"; " first line"; "second"]
  /\ inspect_operation_for_documentation published_line (Some (dc_pre +s+ dc_head +s+ dc_rest, String.length dc_pre)) (Some (String.length (dc_pre +s+ dc_head)))
     = Ok (Some (text [" all"; " first line"; "second"])).
Proof.
  exists ["query Other {"; "  id"; "}"; ""], "", "query Find($by: String) { # all", ["  # first line"; "  "; "  #second"], "  ".
  split; [|split; [discriminate|split; [|split]]].
  - constructor; [exact (lines_pieces dc_pre eq_refl)|exact (lines_pieces dc_head eq_refl)|reflexivity..].
  - intros _ up l E. apply (app_inj_tail ["query Other {"; "  id"; "}"]) in E as [_ <-]. reflexivity.
  - apply (co_comment "query Find($by: String) { " " all"); [reflexivity..|]. apply (co_comment "  " " first line"); [reflexivity..|]. apply co_line; [reflexivity|].
    apply (co_comment "  " "second"); [reflexivity..|constructor].
  - vm_compute. reflexivity.
Qed.
Definition da_pre : string := text ["# Ignored"; "# Finds things"; ""].
Example C52_above_ex : exists up first middle h, head_lines da_pre dc_head dc_rest (up ++ ["" +s+ "#" +s+ " Finds things"]) "" first middle h /\ h <> ""
  /\ inspect_operation_for_documentation published_line (Some (da_pre +s+ dc_head +s+ dc_rest, String.length da_pre)) (Some (String.length (da_pre +s+ dc_head)))
     = Ok (Some (text [" Finds things"; " all"; " first line"; "second"])).
Proof.
  exists ["# Ignored"], "query Find($by: String) { # all", ["  # first line"; "  "; "  #second"], "  ". split; [|split; [discriminate|vm_compute; reflexivity]].
  constructor; [exact (lines_pieces da_pre eq_refl)|exact (lines_pieces dc_head eq_refl)|reflexivity..].
Qed.

(** ** Refutations, however lines are counted *)
Definition inspected (line : string -> nat -> nat) (pre head rest : string) : res (option string) :=
  inspect_operation_for_documentation line (Some (pre +s+ head +s+ rest, String.length pre)) (Some (String.length (pre +s+ head))).
(** [inspected] looks at the lines by their numbers only *)
Lemma at_the_start : forall line head rest l, counts_lines line -> plain head -> has_lines head l -> last l "" <> "" ->
  inspected line "" head rest = inspected (fun _ p => if Nat.eqb p 0 then 1 else length l) "" head rest.
Proof.
  intros line head rest l HC HP HL HN. unfold inspected, inspect_operation_for_documentation. cbn [append String.length].
  assert (E0 : line (head +s+ rest) 0 = 1).
  { destruct (HC "" (head +s+ rest) [""] eq_refl (hl_one "" eq_refl)) as [E|(_ & K & _)]; [exact E|]. cbn in K. inversion K. inversion H0. }
  rewrite E0. destruct (HC head rest l HP HL) as [E|(K & _)]; [|contradiction]. rewrite E.
  destruct head; [exfalso; inversion HL; subst; [now apply HN|]; destruct s; [|discriminate]; destruct H1 as [-> | [-> | ->]]; discriminate|]. reflexivity.
Qed.
(** a string with a #: what follows it becomes the documentation *)
Theorem C52_literal_refuted : forall line, counts_lines line ->
  inspected line "" (text ["query Paint($color: String = ""#f00"") {"; "  "]) "paint(color: $color) }" = Ok (Some "f00"") {").
Proof.
  intros line H. rewrite (at_the_start line (text ["query Paint($color: String = ""#f00"") {"; "  "]) _ _ H eq_refl (lines_pieces (text ["query Paint($color: String = ""#f00"") {"; "  "]) eq_refl)); [vm_compute; reflexivity|discriminate].
Qed.
Print Assumptions C52_literal_refuted.
(** a comment with another #: only what follows the last one is kept *)
Theorem C52_second_hash_refuted : forall line, counts_lines line ->
  inspected line "" (text ["query Find {"; "  # Fixes #12"; "  "]) "find }" = Ok (Some "12").
Proof.
  intros line H. rewrite (at_the_start line (text ["query Find {"; "  # Fixes #12"; "  "]) _ _ H eq_refl (lines_pieces (text ["query Find {"; "  # Fixes #12"; "  "]) eq_refl)); [vm_compute; reflexivity|discriminate].
Qed.
Print Assumptions C52_second_hash_refuted.
(** an operation on one line with its first selection: its comments are not found *)
Theorem C52_one_line_refuted : forall line, counts_lines line ->
  inspected line "" "query Find { " (text ["find # All"; "}"]) = Ok None.
Proof.
  intros line H. rewrite (at_the_start line "query Find { " _ _ H eq_refl (lines_pieces "query Find { " eq_refl)); [vm_compute; reflexivity|discriminate].
Qed.
Print Assumptions C52_one_line_refuted.
(** with graphql-core 3.2: of two lines of comment above an operation only the second is taken; if the first selection starts a line, the
    last comment of the head is lost *)
Theorem C52_lines_above_refuted : inspected published_line (text ["# Finds"; "# things"; ""]) (text ["query Find {"; "  "]) "find }" = Ok (Some " things").
Proof. vm_compute. reflexivity. Qed.
Print Assumptions C52_lines_above_refuted.
Theorem C52_unindented_refuted : inspected published_line "" (text ["query Find {"; "# First"; "# Second"; ""]) "find }" = Ok (Some " First").
Proof. vm_compute. reflexivity. Qed.
Print Assumptions C52_unindented_refuted.
