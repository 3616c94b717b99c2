(** Names looked up by calls: modules. *)
From Verif Require Import Base PyAst Gql Config Stylers Registry Utils Documents Inline Referencer Enums Inputs Recurse Fragments Operations Objects Funcs InputFuncs Run
  Spec_Types Spec_Inputs Spec_Imports Spec_Scope Spec_Refs Spec_Funcs Spec_Classes Spec_Calls
  P_Base P_Monad P_Stylers P_Inputs P_Annot P_Recurse P_Fields P_Post P_Imports P_InlineProps P_Return P_Funcs P_Funcs2 P_Scope P_Scope8 P_Classes P_Calls P_Calls2 P_Calls3.
Arguments register_import : simpl never.
Arguments register_builtin : simpl never.
Notation goods := (Forall good).

Section Mod.
Variables (bi : list string) (Hbi : incl simple_types bi) (Hused : incl used_builtins bi).
Variables (c : gconfig) (st : list styler) (s : schema) (d : document).
(** the class of an operation *)
Definition opcls (n : string) : Prop := exists o m, In (DOp o) d /\ op_name o = Some m /\ n = Spec_Funcs.operation_class st (op_kind o) m.
Definition incls (r : reg) (n : string) : Prop := exists k, dget k (r_inputs r) = Some n.
Definition bound (r : reg) (n : string) : Prop := given bi r n \/ incls r n.
Lemma bound_rle : forall r r' n, rle r r' -> bound r n -> bound r' n.
Proof. intros r r' n H [Y|(k & Y)]; [left; eapply given_rle; eassumption|right; exists k]. now apply (rle_inputs _ _ H). Qed.
Definition calls (G : string -> Prop) (l : list stmt) : Prop := forall f, In f (flat_map functions_of l) -> callable G f.
Lemma calls_mono : forall (G G' : string -> Prop) l, (forall n, G n -> G' n) -> calls G l -> calls G' l.
Proof. intros G G' l I H f Hf. eapply callable_mono; [exact I|auto]. Qed.
Lemma calls_app : forall G a b, calls G a -> calls G b -> calls G (a ++ b).
Proof. intros G a b Ha Hb f Hf. rewrite flat_map_app in Hf. apply in_app_iff in Hf as [Hf|Hf]; auto. Qed.
Lemma calls_goods : forall G l, goods l -> calls G l.
Proof. intros G l H f Hf. eapply good_functions; eassumption. Qed.
Lemma calls_func : forall G a n args body rt decs, callable G (SFunc a n args body rt decs) -> calls G [SFunc a n args body rt decs].
Proof. intros G a n args body rt decs H f Hf. cbn in Hf. destruct Hf as [<-|[]]. exact H. Qed.
(** each step of a loop *)
Lemma mconcat_calls : forall {A} K (f : A -> M (list stmt)) (X : string -> Prop) (I : reg -> Prop) l r ys r', (forall x, In x l -> ev st K (f x)) ->
  I r -> (forall r r', evolve st K r r' -> I r -> I r') ->
  (forall x r y r', In x l -> I r -> f x r = (Ok y, r') -> calls (fun n => bound r' n \/ X n) y) ->
  mconcat f l r = (Ok ys, r') -> calls (fun n => bound r' n \/ X n) ys.
Proof.
  intros A K f X I l r ys r' E HI HS HF H.
  enough (Z : I r' /\ calls (fun n => bound r' n \/ X n) ys) by apply Z.
  eapply (mconcat_steps f (fun pre ys r => I r /\ calls (fun n => bound r n \/ X n) ys)); [exact H|split; [exact HI|intros y []]|].
  intros pre x post zs r1 y r2 -> (I1 & C1) Hy. assert (Hx : In x (pre ++ x :: post)) by (apply in_app_iff; right; now left).
  pose proof (ev_ok _ _ _ _ _ _ (E x Hx) Hy) as V. split; [eapply HS; eassumption|]. apply calls_app; [|eauto].
  eapply calls_mono; [|exact C1]. intros n [Y|Y]; [left; eapply bound_rle; [eapply evolve_rle; exact V|exact Y]|now right].
Qed.

Lemma mmap_single : forall {A B} (f : A -> M B) l r y r', mmap f l r = (Ok y, r') -> mconcat (fun x => let* z := f x in ret [z]) l r = (Ok y, r').
Proof.
  intros A B f. unfold mconcat, bind. induction l as [|x l IH]; intros r1 y r2 H; cbn [mmap] in *; [apply ret_ok in H as (-> & ->); reflexivity|].
  mb H a q1 H1. mb H b q2 H2. apply ret_ok in H as (-> & ->). apply IH in H2. unfold bind in *. rewrite H1. cbn [ret]. destruct (mmap _ l q1) as [[z|e] q]; [|discriminate].
  cbn [ret] in *. injection H2 as <- <-. reflexivity.
Qed.
(** *** functions for operations *)
Lemma op_in : forall o, In o (operations_of d) -> In (DOp o) d.
Proof. intros o H. unfold operations_of in H. apply in_flat_map in H as ([x|x] & Hx & H); try (now destruct H). destruct H as [<-|[]]. exact Hx. Qed.
Lemma funcs_calls : forall pc doc_of r l r', funcs_apart c st d pc -> funcs_plugin c st s pc doc_of d r = (Ok l, r') -> calls (fun n => bound r' n \/ opcls n) l.
Proof.
  intros pc doc_of r l r' [A1 A2] H. unfold funcs_plugin, generate_functions in H.
  eapply (mconcat_calls Kf _ opcls (fun _ => True)); [| | | |exact H]; auto.
  - intros o _. apply ev_mmap. intros def _. apply ev_func.
  - intros o r1 y r2 Ho _ Hy. apply op_in in Ho.
    assert (H' : mconcat (fun def => let* f := generate_operation_func c st s (merged_config c pc) doc_of o def in ret [f]) (definitions_for (merged_config c pc) o) r1 = (Ok y, r2)).
    { now apply mmap_single. }
    eapply (mconcat_calls Kf _ opcls (fun _ => True)); [| | | |exact H']; auto.
    + intros def _. apply ev_bind; [apply ev_func|intros; apply ev_ret].
    + intros def ra z rb Hd _ Hz. mb Hz f q Hf. apply ret_ok in Hz as (-> & ->).
      assert (Hd' : In def (f_definitions pc) /\ d_kind def = op_kind o).
      { unfold definitions_for in Hd. apply filter_In in Hd as (Hd & E). split; [exact Hd|]. destruct (d_kind def), (op_kind o); try discriminate; reflexivity. }
      pose proof (func_callable bi Hbi c st s (merged_config c pc) doc_of o def _ _ _ Hd (A1 o Ho) (fun n g Hn => A2 o n def g Ho Hn (proj1 Hd') (proj2 Hd')) Hf) as C.
      apply func_ok in Hf as (name & doc & args & rt & q1 & q2 & _ & _ & ->). apply calls_func.
      eapply callable_mono; [|exact C]. intros n [Y|(m & Y1 & Y2)]; [left; now left|right]. exists o, m. auto.
Qed.

(** *** factories of inputs *)
Lemma input_funcs_calls : forall pc docs r l r' X, input_funcs_plugin c st pc s docs r = (Ok l, r') -> calls (fun n => bound r' n \/ X n) l.
Proof.
  intros pc docs r l r' X H. unfold input_funcs_plugin in H. mb H rf r1 Hr. unfold generate_input_funcs in H.
  eapply (mconcat_calls Kf _ X (fun _ => True)); [| | | |exact H]; auto.
  - intros [k t] _. destruct t; try apply ev_ret. apply ev_if; [apply ev_ret|]. apply ev_bind; [apply ev_gets|]. intros m. apply ev_if; [|apply ev_ret]. apply ev_bind; [apply ev_input_func|intros; apply ev_ret].
  - intros [k t] ra y rb _ _ Hy. cbn [fst snd] in Hy. destruct t; try (apply ret_ok in Hy as (-> & _); intros f []).
    destruct (_ || _); [apply ret_ok in Hy as (-> & _); intros f []|]. mb Hy m q1 Hm. destruct (dmem _ _); [|apply ret_ok in Hy as (-> & _); intros f []].
    apply gets_ok in Hm as (_ & ->). mb Hy f q2 Hf. apply ret_ok in Hy as (-> & ->).
    pose proof (input_func_ok c st s _ _ _ _ _ _ Hf) as (cls & doc & p & HC & (P1 & P2 & _) & HD & ->). apply calls_func.
    assert (HU : forall kf, In kf fields -> nonnullb (if_type (snd kf)) = false -> given bi q2 (unset_name c)).
    { intros kf Hk Q. clear P1 P2. unfold generate_input_func in Hf. mb Hf a1 w1 H1. mb Hf a2 w2 H2. mb Hf a3 w3 H3. mb Hf a4 w4 H4. mb Hf a5 w5 H5. apply ret_ok in Hf as (_ & ->).
      eapply (mmap_given bi st Kf _ (fun kf => nonnullb (if_type (snd kf)) = false)); [| |exact H5|exact Hk|exact Q].
      - intros x. apply ev_guard.
      - intros x wa z wb Hz Qx. eapply (guard_given bi Hbi); [exact Hz|exact Qx]. }
    assert (V := ev_ok _ _ _ _ _ _ (ev_input_func c st s (merged_ifcfg c pc) k fields) Hf).
    apply (rle_inputs _ _ (evolve_rle _ _ _ _ V)) in HC. clear Hf. apply checked_callable.
    cbn [a_args]. rewrite map_app, P1, P2. set (params := map _ (filter _ fields) ++ map _ (filter _ fields)).
    assert (HN : forall kf, In kf fields -> In (generate_node_name st (fst kf)) params).
    { intros kf Hk. subst params. apply in_or_app. destruct (nonnullb (if_type (snd kf))) eqn:E; [left|right]; apply in_map_iff; exists kf; (split; [reflexivity|]); apply filter_In; rewrite E; auto. }
    set (G := fun n => bound q2 n \/ X n). set (L := params ++ _).
    assert (HL : incl L ("data" :: params)).
    { subst L. apply incl_app; [apply incl_tl, incl_refl|]. intros n Hn. rewrite flat_map_app in Hn. apply in_app_iff in Hn as [Hn|Hn].
      - destruct HD as [->|(t & ->)]; destruct Hn.
      - cbn [flat_map assigns NewDict app] in Hn. destruct Hn as [<-|Hn]; [now left|]. rewrite flat_map_app in Hn. apply in_app_iff in Hn as [Hn|Hn]; [|destruct Hn].
        apply in_flat_map in Hn as (x & Hx & Hn). apply in_map_iff in Hx as (kf & <- & _). now rewrite (proj2 (sets_Assign _ _ _ _ _)) in Hn. }
    assert (GL : forall g, G g -> okn L G ("data" :: params) g).
    { intros g Hg. destruct (in_dec string_dec g ("data" :: params)) as [Y|Y]; [now left|]. right. split; [|exact Hg]. intros Z. now apply HL in Z. }
    apply checked_app.
    + destruct HD as [->|(t & ->)]; [exact I|]. split; [intros n []|exact I].
    + split; [intros n []|]. cbn [sets NewDict]. change (["data"] ++ params) with ("data" :: params). apply checked_app.
      * assert (X0 : forall fl, incl fl fields -> checked L G ("data" :: params) (map (fun kf => Assign (unset_name c) (nonnullb (if_type (snd kf))) "data" (fst kf) (generate_node_name st (fst kf))) fl)).
        { induction fl as [|kf fl IH]; intros IF; [exact I|]. cbn [map checked]. rewrite (proj1 (sets_Assign _ _ _ _ _)). split; [|apply IH; intros z Hz; apply IF; now right].
          intros n Hn. apply uses_Assign in Hn. destruct Hn as [->|[->|(E & ->)]]; [left; right; apply HN, IF; now left|left; now left|]. apply GL. left; left. eapply HU; [apply IF; now left|exact E]. }
        apply X0, incl_refl.
      * split; [|exact I]. intros n Hn. cbn in Hn. destruct Hn as [<-|[<-|[]]]; [|left; now left]. apply GL. left; right. exists k. exact HC.
Qed.

(** *** inputs *)
Lemma direct_calls : forall key ms r l r' X, names_styled st r -> members_input s (key, ms) -> inputs_apart st s ->
  generate_oneof_direct_union st key ms r = (Ok l, r') -> calls (fun n => bound r' n \/ X n) l.
Proof.
  intros key ms r l r' X HS HM HA H. unfold generate_oneof_direct_union in H. mb H alias r1 H1. mb H cs r2 H2. mb H u3 r3 H3. mb H u4 r4 H4. mb H u5 r5 H5. cbn zeta in H. apply ret_ok in H as (-> & ->).
  intros f Hf. cbn [flat_map functions_of app] in Hf. destruct Hf as [<-|[]].
  assert (S1 : names_styled st r1) by (eapply names_styled_evolve; [eapply ev_ok; [apply ev_generate_inputtype|exact H1]|exact HS]).
  assert (E25 : r_inputs r5 = r_inputs r2).
  { assert (V3 : r_inputs r3 = r_inputs r2). { destruct (1 <? length cs)%nat; [|now apply ret_ok in H3 as (_ & ->)]. eapply (frame_inputs st [KImp]); [cbn; intuition discriminate|eapply ev_ok; [|exact H3]; ev_leaf]. }
    rewrite <- V3. transitivity (r_inputs r4); (eapply (frame_inputs st [KImp]); [cbn; intuition discriminate|eapply ev_ok; [|eassumption]; ev_leaf]). }
  assert (C : forall ct, In ct cs -> exists k, Spec_Refs.is_input s k /\ dget k (r_inputs r5) = Some (fst ct) /\ fst ct = style_inputtype_class st k).
  { eapply (mmap_inv _ (fun q => r_inputs q = r_inputs r1) (fun m ct => exists k, k = snd m /\ dget k (r_inputs r1) = Some (fst ct))) in H2; [|reflexivity|].
    - destruct H2 as (E2 & F). intros ct Hct. rewrite E25, E2. clear - F Hct HM S1. assert (HM' : forall m, In m ms -> Spec_Refs.is_input s (snd m)) by exact HM. clear HM.
      induction F as [|m x ms cs (k & -> & D) F IH]; [destruct Hct|]. destruct Hct as [->|Hct]; [|apply IH; try exact Hct; intros m' Hm'; apply HM'; now right].
      exists (snd m). split; [apply HM'; now left|]. split; [exact D|]. now apply (proj1 S1).
    - intros m q x q' _ E Hx. mb Hx cls q1 Hc. apply ret_ok in Hx as (-> & ->). unfold get_inputtype_class in Hc. mb Hc mm q2 Hg. apply gets_ok in Hg as (-> & ->). apply from_opt_ok in Hc as (Hc & ->).
      split; [exact E|]. exists (snd m). split; [reflexivity|]. now rewrite <- E. }
  clear H1 H2 H3 H4 H5. apply checked_callable. set (G := fun n => _).
  assert (B : forall n, In n used_builtins -> G n) by (intros n Hn; left; left; left; now apply Hused).
  assert (D : forall L h, incl L (h ++ ["tags"; "tag"; "member_class"; "member_tag"]) -> forall n, In n (flat_map (fun kv => loads (fst kv) ++ loads (snd kv)) (map (fun ct => (EName (fst ct), estr (snd ct))) cs)) -> okn L G h n).
  { intros L h HL n Hn. apply in_flat_map in Hn as (kv & Hkv & Hn). apply in_map_iff in Hkv as (ct & <- & Hct). cbn in Hn. destruct Hn as [<-|[]]. destruct (C ct Hct) as (k & K1 & K2 & K3).
    destruct (in_dec string_dec (fst ct) h) as [Y|Y]; [now left|]. right. split; [|left; right; now exists k]. intros Z. apply HL in Z. apply in_app_iff in Z as [Z|Z]; [contradiction|].
    rewrite K3 in Z. exact (HA k K1 Z). }
  cbn [a_args map pa_name serializer_body checked sets docstring app flat_map assigns uses loads opt_loads fst snd filter negb mem existsb String.eqb Ascii.eqb Bool.eqb orb enone estr] .
  repeat split.
  all: intros n Hn; try (now destruct Hn).
  all: try (apply D; [intros m Hm; cbn in *; intuition|exact Hn]).
  all: repeat (destruct Hn as [<-|Hn]); try destruct Hn.
  all: first [left; cbn; tauto | right; split; [cbn; intuition discriminate|apply B; cbn; tauto]].
Qed.
End Mod.
