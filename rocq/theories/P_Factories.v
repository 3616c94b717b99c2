(** Factory functions for input types. *)
From Verif Require Import Base PyAst Gql Config Stylers Registry Utils Documents Inline Referencer Enums Inputs Recurse Fragments Operations Objects Funcs InputFuncs Run
  Spec_Types Spec_Inputs Spec_Imports Spec_Scope Spec_Refs Spec_Funcs Spec_Classes Spec_Calls Spec_Factories
  P_Base P_Monad P_Stylers P_Inputs P_Inputs2 P_InputProps P_Annot P_Recurse P_Funcs P_Funcs2 P_Classes P_Attr P_Calls2 P_Calls4 P_Calls5.

Section Run.
Variables (c : gconfig) (st : list styler) (s : schema).
Lemma beside_ev : forall p, beside_plugin c st s p -> ev st Kall (pl_generate p).
Proof.
  intros p H. destruct H; cbn [pl_generate].
  - eapply ev_weak; [|apply ev_enums_plugin]. intros k; cbn; tauto.
  - apply ev_objects.
  - apply ev_fragments.
  - apply ev_operations.
  - eapply ev_weak; [|apply ev_functions]. intros k; cbn; tauto.
Qed.
Lemma beside_run : forall ps r tree t r', Forall (beside_plugin c st s) ps -> run_plugins ps r tree = Ok (t, r') -> evolve st Kall r r'.
Proof.
  induction ps as [|p ps IH]; intros r tree t r' F H; cbn [run_plugins] in H; [injection H as _ <-; apply ev_refl|].
  inversion F as [|? ? HP F']; subst. destruct (pl_generate p r) as [[l|e] r1] eqn:E; [|discriminate].
  eapply evolve_trans; [eapply ev_ok; [apply beside_ev; exact HP|exact E]|eapply IH; eassumption].
Qed.
Lemma keys_names : forall k, In k (input_keys s) -> In k (input_names s).
Proof.
  intros k H. unfold input_keys, schema_inputs in H. apply in_map_iff in H as ([k' t] & E & H). cbn in E; subst k'. apply in_flat_map in H as ([n x] & Hn & H). cbn [fst snd] in H.
  destruct x; try destruct H as [H|[]]; try contradiction. injection H as -> _. apply in_flat_map. exists (k, TInput desc fields dirs). split; [exact Hn|now left].
Qed.
Lemma factory_shape : forall pc n fields r f r', names_styled st r -> generate_input_func c st s pc n fields r = (Ok f, r') -> factory_of st (i_prepend pc) n f.
Proof.
  intros pc n fields r f r' HN H. apply input_func_ok in H as (cls & doc & p & HC & _ & _ & ->).
  apply (proj1 HN) in HC. unfold style_inputtype_class in HC. subst cls. unfold factory_of, factory_name, input_class, generate_parameter_name.
  eexists _, (doc ++ NewDict "data" :: _). f_equal.
  - cbn zeta. destruct (String.eqb _ _); [reflexivity|]. now rewrite app_nil_s.
  - rewrite <- app_assoc. reflexivity.
Qed.
(** the loop over the types *)
Lemma funcs_loop : forall pc refd ts r l r', names_styled st r ->
  mmap (fun kt => match snd kt with
    | TInput _ fields _ =>
        let skip := match refd with Some refs => negb (mem (fst kt) refs) | None => false end in
        if skip || (i_skip_underscore pc && startswith "_" (fst kt)) then ret []
        else let* m := gets r_inputs in
          if dmem (fst kt) m then let* f := generate_input_func c st s pc (fst kt) fields in ret [f] else ret []
    | _ => ret [] end) ts r = (Ok l, r') ->
  Forall2 (factory_of st (i_prepend pc))
    (filter (fun k => negb (match refd with Some refs => negb (mem k refs) | None => false end || (i_skip_underscore pc && startswith "_" k)) && dmem k (r_inputs r))
      (map fst (flat_map (fun kv => match snd kv with TInput d f dirs => [(fst kv, InputDef d f dirs)] | _ => [] end) ts))) (concat l).
Proof.
  intros pc refd. induction ts as [|[k t] ts IH]; intros r l r' HN H; cbn [mmap flat_map map filter fst snd] in *.
  - apply ret_ok in H as (-> & _). constructor.
  - apply bind_ok in H as (a & r1 & H1 & H). apply bind_ok in H as (b & r2 & H2 & H). apply ret_ok in H as (-> & _). cbn [concat].
    assert (V : evolve st Kall r r1 /\ Forall2 (factory_of st (i_prepend pc))
      (filter (fun k => negb (match refd with Some refs => negb (mem k refs) | None => false end || (i_skip_underscore pc && startswith "_" k)) && dmem k (r_inputs r))
        (map fst (match t with TInput d f dirs => [(k, InputDef d f dirs)] | _ => [] end))) a).
    { destruct t; try (apply ret_ok in H1 as (-> & ->); split; [apply ev_refl|constructor]).
      cbn [map filter fst] in *. cbn zeta in H1. destruct (_ || _) eqn:SK in H1; rewrite ?SK; cbn [negb andb].
      - apply ret_ok in H1 as (-> & ->). split; [apply ev_refl|constructor].
      - apply bind_ok in H1 as (m & r3 & H3 & H1). unfold gets in H3. injection H3 as <- <-.
        destruct (dmem k (r_inputs r)) eqn:D.
        + apply bind_ok in H1 as (f & r4 & H4 & H1). apply ret_ok in H1 as (-> & ->). split.
          * eapply ev_ok; [|exact H4]. eapply ev_weak; [|apply ev_input_func]. intros x; cbn; tauto.
          * constructor; [eapply factory_shape; eassumption|constructor].
        + apply ret_ok in H1 as (-> & ->). split; [apply ev_refl|constructor]. }
    destruct V as (V & F1). assert (E : r_inputs r1 = r_inputs r) by (eapply (frame_inputs st Kall); [cbn; intuition discriminate|exact V]).
    apply IH in H2; [|eapply names_styled_evolve; eassumption]. rewrite E in H2. rewrite map_app, filter_app. now apply Forall2_app.
Qed.
Lemma map_inj_NoDup : forall (f : string -> string) l x y, NoDup (map f l) -> In x l -> In y l -> f x = f y -> x = y.
Proof.
  intros f l x y N Hx Hy E. induction l as [|a l IH]; [destruct Hx|]. cbn in N. inversion N as [|? ? NI N']; subst. destruct Hx as [->|Hx]; destruct Hy as [->|Hy].
  - reflexivity.
  - exfalso. apply NI. rewrite E. now apply in_map.
  - exfalso. apply NI. rewrite <- E. now apply in_map.
  - now apply IH.
Qed.

Section Two.
Variables (ps1 ps2 : list plugin) (t0 : list stmt) (r r1 r2 r3 : reg) (ic : inputs_config) (fc : ifcfg) (docs docs' : res document) (li lf tree t : list stmt).
Hypothesis HA : input_classes_apart st s.
Hypothesis F1 : Forall (beside_plugin c st s) ps1.
Hypothesis F2 : Forall (beside_plugin c st s) ps2.
Hypothesis R1 : run_plugins ps1 (init_reg c) [] = Ok (t0, r).
Hypothesis HI : inputs_plugin c st ic s docs r = (Ok li, r1).
Hypothesis R2 : run_plugins ps2 r1 tree = Ok (t, r2).
Hypothesis HF : input_funcs_plugin c st fc s docs' r2 = (Ok lf, r3).

Lemma two_inputs : r_inputs r = [].
Proof. transitivity (r_inputs (init_reg c)); [|reflexivity]. eapply (frame_inputs st Kall); [cbn; intuition discriminate|eapply beside_run; [exact F1|exact R1]]. Qed.
Lemma two_styled : names_styled st r.
Proof. eapply names_styled_evolve; [eapply beside_run; [exact F1|exact R1]|apply names_styled_init]. Qed.
Lemma two_styled2 : names_styled st r2.
Proof.
  eapply names_styled_evolve; [eapply beside_run; [exact F2|exact R2]|]. eapply names_styled_evolve; [|apply two_styled].
  eapply ev_ok; [|exact HI]. apply ev_inputs_plugin.
Qed.
Lemma two_has : forall k, In k (input_keys s) -> (dmem k (r_inputs r2) = true <-> In (input_class st k) (named li)).
Proof.
  intros k Hk. assert (E : r_inputs r2 = r_inputs r1) by (eapply (frame_inputs st Kall); [cbn; intuition discriminate|eapply beside_run; [exact F2|exact R2]]). rewrite E.
  apply inputs_named in HI as (ks & EK & _ & (N & FK)). rewrite two_inputs in EK. change (dkeys (r_inputs r1) = ks) in EK. rewrite N. subst ks. split.
  - intros H. apply in_map_iff. exists k. split; [reflexivity|]. now apply dmem_In.
  - intros H. apply in_map_iff in H as (k' & E' & Hk'). apply dmem_In. replace k with k'; [exact Hk'|]. rewrite Forall_forall in FK.
    eapply (map_inj_NoDup (input_class st)); [exact HA|now apply FK|now apply keys_names|exact E'].
Qed.
Theorem two_factories : exists refd, referenced_inputs (skipping c (i_skip_unreferenced fc)) s docs' refd
  /\ factories st s (i_prepend fc) (fun k => ~ input_skipped (i_skip_underscore fc) refd k /\ In (input_class st k) (named li)) lf.
Proof.
  pose proof two_styled2 as S2. pose proof two_has as TH. unfold input_funcs_plugin in HF. apply bind_ok in HF as (rf & r4 & H1 & H2).
  assert (r4 = r2).
  { unfold plugin_refs in H1. destruct (_ && _); [|apply ret_ok in H1 as (_ & ->); reflexivity].
    apply bind_ok in H1 as (d & r5 & H5 & H1). apply lift_ok in H5 as (_ & ->). apply bind_ok in H1 as (x & r6 & H6 & H1). apply lift_ok in H6 as (_ & ->). apply ret_ok in H1 as (_ & ->). reflexivity. }
  subst r4. apply plugin_refs_inputs in H1. exists (refd rf). split; [exact H1|].
  unfold generate_input_funcs in H2. apply mconcat_ok in H2 as (ll & H2 & ->). apply funcs_loop in H2; [|exact S2]. cbn [merged_ifcfg i_prepend i_skip_underscore] in H2.
  eexists. split; [|exact H2]. intros k Hk. cbn beta. rewrite Bool.andb_true_iff, TH by exact Hk. apply and_iff_compat_r. unfold input_skipped, wanted.
  pose proof (wanted_dec rf k) as W. unfold wanted in W. change (option_map rf_inputs rf) with (refd rf).
  assert (B : match refd rf with Some refs => negb (mem k refs) | None => false end = match rf with Some x => negb (mem k (rf_inputs x)) | None => false end) by (destruct rf; reflexivity).
  rewrite B. destruct (match rf with Some x => negb (mem k (rf_inputs x)) | None => false end); cbn [orb negb].
  - split; [discriminate|]. intros H. exfalso. apply H. left. intros H'. apply W in H'. discriminate.
  - destruct (i_skip_underscore fc && startswith "_" k) eqn:U; cbn [negb].
    + apply Bool.andb_true_iff in U. split; [discriminate|]. intros H. exfalso. apply H. now right.
    + split; [|reflexivity]. intros _ [H|[H H']]; [apply H, W; reflexivity|]. rewrite H, H' in U. discriminate.
Qed.
End Two.
End Run.
Lemma factories_in : forall st s prepend chosen l k, factories st s prepend chosen l -> In k (input_keys s) -> chosen k -> exists f, In f l /\ factory_of st prepend k f.
Proof.
  intros st s prepend chosen l k (f & Hf & F) Hk HC. apply Hf in HC; [|exact Hk]. assert (H : In k (filter f (input_keys s))) by (apply filter_In; auto).
  destruct (Forall2_in_l _ _ _ _ F H) as (x & Hx & HO). eauto.
Qed.
(** every plain input type gets its class and its factory *)
Theorem plain_factories : forall c st s ps1 ps2 t0 r r1 r2 r3 ic fc docs docs' li lf tree t,
  input_classes_apart st s -> Forall (beside_plugin c st s) ps1 -> Forall (beside_plugin c st s) ps2 ->
  run_plugins ps1 (init_reg c) [] = Ok (t0, r) -> inputs_plugin c st ic s docs r = (Ok li, r1) ->
  run_plugins ps2 r1 tree = Ok (t, r2) -> input_funcs_plugin c st fc s docs' r2 = (Ok lf, r3) ->
  no_helper_enum s -> NoDup (dkeys (s_types s)) ->
  exists refd refd', referenced_inputs (skipping c (ic_skip_unreferenced ic)) s docs refd
  /\ referenced_inputs (skipping c (i_skip_unreferenced fc)) s docs' refd'
  /\ forall key x, In (key, x) (schema_inputs s) -> ~ union_member refd x -> ~ is_oneof x -> ~ union_target refd s key ->
       ~ input_skipped (ic_skip_underscore ic) refd key -> ~ input_skipped (i_skip_underscore fc) refd' key ->
       (exists bases body decs, In (SClass (input_class st key) bases body decs) li)
       /\ exists f, In f lf /\ factory_of st (i_prepend fc) key f.
Proof.
  intros c st s ps1 ps2 t0 r r1 r2 r3 ic fc docs docs' li lf tree t HA F1 F2 R1 HI R2 HF HB ND.
  destruct (two_factories c st s _ _ _ _ _ _ _ _ _ _ _ _ _ _ _ HA F1 F2 R1 HI R2 HF) as (refd' & HR' & HFa).
  pose proof (two_styled c st s _ _ _ F1 R1) as NS. unfold inputs_plugin in HI. apply bind_ok in HI as (u & r4 & H4 & HI).
  assert (NS4 : names_styled st r4) by (eapply names_styled_evolve; [eapply (ev_ok _ inputs_kinds); [|exact H4]; unfold inputs_kinds, input_kinds; ev_tac|exact NS]).
  destruct (plain_inputs c st ic s docs r4 r1 li HB ND NS4 HI) as (refd & HR & HP).
  exists refd, refd'. split; [exact HR|]. split; [exact HR'|]. intros key x Hk M O U S S'. destruct (HP key x Hk M S O U) as (stm & Hs & (bases & body & decs & _ & _ & -> & _)).
  split; [eauto|]. eapply factories_in; [exact HFa| |].
  - apply in_map_iff. now exists (key, x).
  - split; [exact S'|]. apply in_flat_map. eexists. split; [exact Hs|]. now left.
Qed.
Lemma subset_NoDup : forall (f : string -> bool) (g : string -> string) l, NoDup (map g l) -> NoDup (map g (filter f l)).
Proof.
  intros f g. induction l as [|a l IH]; intros H; [constructor|]. cbn in *. inversion H as [|? ? NI N]; subst. destruct (f a); [|now apply IH].
  cbn. constructor; [|now apply IH]. intros H'. apply NI. apply in_map_iff in H' as (x & E & Hx). apply filter_In in Hx as (Hx & _). rewrite <- E. now apply in_map.
Qed.
Lemma factories_names : forall st prepend ks l, Forall2 (factory_of st prepend) ks l -> func_names l = map (factory_name st prepend) ks.
Proof. intros st prepend ks l F. induction F as [|k x ks l (args & body & ->) F IH]; [reflexivity|]. cbn [map]. rewrite <- IH. reflexivity. Qed.
Lemma Forall2_in_r : forall {A B} (Q : A -> B -> Prop) l m y, Forall2 Q l m -> In y m -> exists x, In x l /\ Q x y.
Proof. intros A B Q l m y F H. induction F as [|a b l m Q1 F IH]; [destruct H|]. destruct H as [<-|H]; [exists a; split; [now left|exact Q1]|]. destruct (IH H) as (x & Hx & HQ). exists x. split; [now right|exact HQ]. Qed.
Theorem apart_factories : forall c st s ps1 ps2 t0 r r1 r2 r3 ic fc docs docs' li lf tree t,
  input_classes_apart st s -> factories_apart st s (i_prepend fc) -> Forall (beside_plugin c st s) ps1 -> Forall (beside_plugin c st s) ps2 ->
  run_plugins ps1 (init_reg c) [] = Ok (t0, r) -> inputs_plugin c st ic s docs r = (Ok li, r1) ->
  run_plugins ps2 r1 tree = Ok (t, r2) -> input_funcs_plugin c st fc s docs' r2 = (Ok lf, r3) ->
  NoDup (func_names lf) /\ (forall n, In n (func_names lf) -> ~ In n (named li))
  /\ forall f, In f lf -> exists k, factory_of st (i_prepend fc) k f /\ In (input_class st k) (named li).
Proof.
  intros c st s ps1 ps2 t0 r r1 r2 r3 ic fc docs docs' li lf tree t HA (N1 & N2) F1 F2 R1 HI R2 HF.
  destruct (two_factories c st s _ _ _ _ _ _ _ _ _ _ _ _ _ _ _ HA F1 F2 R1 HI R2 HF) as (refd' & HR' & (f & Hf & F)).
  rewrite (factories_names _ _ _ _ F). split; [now apply subset_NoDup|]. split.
  - intros n Hn H'. apply in_map_iff in Hn as (k & <- & Hk). apply filter_In in Hk as (Hk & _).
    apply inputs_named in HI as (ks & _ & _ & (N & FK)). rewrite N in H'. apply in_map_iff in H' as (k' & E & Hk'). rewrite Forall_forall in FK.
    apply (N2 k k' Hk (FK _ Hk')). symmetry. exact E.
  - intros x Hx. destruct (Forall2_in_r _ _ _ _ F Hx) as (k & Hk & HO). apply filter_In in Hk as (Hk & Hk'). apply Hf in Hk'; [|exact Hk]. exists k. split; [exact HO|apply Hk'].
Qed.
(** to recognise a factory *)
Lemma factory_intro : forall st prepend key args b, last b (SReturn None) = SReturn (Some (ECall (EName (input_class st key)) [] [(None, EName "data")])) -> b <> [] ->
  factory_of st prepend key (SFunc false (factory_name st prepend key) args b (Some (EName (input_class st key))) []).
Proof. intros st prepend key args b E N. exists args, (removelast b). rewrite <- E, <- app_removelast_last by exact N. reflexivity. Qed.
