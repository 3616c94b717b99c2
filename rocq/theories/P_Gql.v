(** Induction principle for selections. *)
From Verif Require Import Base Gql.

Section SelInd.
Variable P : selection -> Prop.
Hypothesis HLeaf : forall a n ar d, P (SelField (FieldNode a n ar d None)).
Hypothesis HField : forall a n ar d l, Forall P l -> P (SelField (FieldNode a n ar d (Some l))).
Hypothesis HSpread : forall n d, P (SelSpread n d).
Hypothesis HInline : forall c d l, Forall P l -> P (SelInline c d l).
Fixpoint sel_ind (s : selection) : P s :=
  let all := fix all (l : list selection) : Forall P l :=
    match l with
    | [] => Forall_nil P
    | x :: r => Forall_cons x (sel_ind x) (all r)
    end in
  match s with
  | SelField (FieldNode a n ar d None) => HLeaf a n ar d
  | SelField (FieldNode a n ar d (Some l)) => HField a n ar d l (all l)
  | SelSpread n d => HSpread n d
  | SelInline c d l => HInline c d l (all l)
  end.
End SelInd.
Lemma sels_ind : forall P : selection -> Prop,
  (forall a n ar d, P (SelField (FieldNode a n ar d None))) ->
  (forall a n ar d l, Forall P l -> P (SelField (FieldNode a n ar d (Some l)))) ->
  (forall n d, P (SelSpread n d)) ->
  (forall c d l, Forall P l -> P (SelInline c d l)) ->
  forall l, Forall P l.
Proof. intros; apply Forall_forall; intros; now apply sel_ind. Qed.
