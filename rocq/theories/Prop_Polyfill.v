(** C37: the polyfill for Python 3.7. *)
From Verif Require Import Base PyAst Gql Config Stylers Registry Inputs Run Ex_Inputs.
From Verif Require Import Polyfill Spec_Polyfill Spec_Imports P_Polyfill.

(** C37 for plain imports from typing ([absolute]; [emitted_absolute]: the plugins emit no
    others) that import more than Literal, in any order of iteration of sets: every name means
    the same as before, except that Literal comes from typing_extensions; all other statements
    are the same, in the same order; the module stays valid. *)
Theorem C37_polyfill_partial : forall iter l, set_order iter -> Forall absolute l ->
  (forall x, meaning (polyfill_parse "3.7" iter l) x = option_map moved (meaning l x))
  /\ filter untouched (polyfill_parse "3.7" iter l) = filter untouched l
  /\ (Forall more_than_literal l -> Forall valid_node l -> Forall valid_node (polyfill_parse "3.7" iter l)).
Proof.
  intros iter l HO HA. split; [intros x; exact (C37_meaning_lemma iter l x HO HA)|]. split; [apply C37_untouched_lemma|]. intros. now apply C37_valid_lemma.
Qed.
Print Assumptions C37_polyfill_partial.
Theorem C37_emitted_partial : forall l, Forall absolute (map node_of_stmt l).
Proof. exact emitted_absolute. Qed.
Print Assumptions C37_emitted_partial.
Theorem C37_version : forall v iter l, v <> "3.7" -> polyfill_parse v iter l = l.
Proof. intros v iter l N. unfold polyfill_parse. destruct (String.eqb_spec v "3.7"); [contradiction|reflexivity]. Qed.
Print Assumptions C37_version.
Definition ex_nodes : list node :=
  map node_of_stmt [SImportFrom "pydantic" ["BaseModel"]; SImportFrom "typing" ["Optional"; "Literal"; "List"]; SClass "A" [EName "BaseModel"] [SPass] []].
Example C37_ex : polyfill_parse "3.7" (@rev string) ex_nodes =
  [From (Some "pydantic") [("BaseModel", None)] 0; From (Some "typing_extensions") [("Literal", None)] 0;
   From (Some "typing") [("List", None); ("Optional", None)] 0; Node (SClass "A" [EName "BaseModel"] [SPass] [])]
  /\ Forall more_than_literal ex_nodes /\ Forall valid_node ex_nodes
  /\ meaning ex_nodes "Literal" = Some (Imported 0 (Some "typing") "Literal").
Proof.
  split; [reflexivity|]. split; [repeat constructor; cbn; exists "Optional"; split; [now left|discriminate]|]. split; [repeat constructor|reflexivity].
Qed.

(** input Circle @unionElementOf(union: "Shape", discriminator: "kind", key: "circle") { radius: Int! }
    without an input Shape: the only import from typing is Literal *)
Definition lone_schema : schema :=
  Schema (scalars ++ [("Circle", TInput None [("radius", fld (req (ty "Int")))] [element_of "Shape" "kind" "circle"])]) None None None.
Definition lone_module : res (list stmt) :=
  generate_ast default_config (fun l => l) [Plugin "InputsPlugin" (inputs_plugin default_config ex_stylers ex_plugin lone_schema (Ok []))] false.
Theorem C37_lone_literal_refuted : exists t, lone_module = Ok t
  /\ Forall absolute (map node_of_stmt t) /\ Forall valid_node (map node_of_stmt t)
  /\ ~ Forall valid_node (polyfill_parse "3.7" (fun l => l) (map node_of_stmt t)).
Proof.
  eexists. split; [vm_compute; reflexivity|]. split; [apply emitted_absolute|]. split; [cbn; repeat constructor|].
  intros H. rewrite Forall_forall in H. apply (H (From (Some "typing") [] 0)). vm_compute. repeat (first [left; reflexivity|right]).
Qed.
Print Assumptions C37_lone_literal_refuted.
(** [from typing import List as L] *)
Theorem C37_asname_refuted : exists l, meaning l "L" = Some (Imported 0 (Some "typing") "List")
  /\ meaning (polyfill_parse "3.7" (fun l => l) l) "L" = None.
Proof. exists [From (Some "typing") [("List", Some "L")] 0]. now split. Qed.
Print Assumptions C37_asname_refuted.
(** [from .typing import Scalar] *)
Theorem C37_relative_refuted : exists l, meaning l "Scalar" = Some (Imported 1 (Some "typing") "Scalar")
  /\ meaning (polyfill_parse "3.7" (fun l => l) l) "Scalar" = Some (Imported 0 (Some "typing") "Scalar").
Proof. exists [From (Some "typing") [("Scalar", None)] 1]. now split. Qed.
Print Assumptions C37_relative_refuted.
