(** What the class of an input type takes as keywords.  Independent of the generator. *)
From Verif Require Import Base PyAst Spec_Types.

(** Pydantic: a field is given under its wire name; one without default must be given.  Nothing
    else is given. *)
Definition takes_keywords {V} (fields : list (string * expr * option expr)) (sent : list (string * V)) : Prop :=
  (forall key w, In (key, w) sent -> exists fld, In fld fields /\ wire_name (fst (fst fld)) (snd fld) = key)
  /\ (forall fld, In fld fields -> may_omit (snd fld) = false -> exists w, In (wire_name (fst (fst fld)) (snd fld), w) sent).
