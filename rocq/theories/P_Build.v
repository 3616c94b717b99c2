(** Factories pass their classes what the classes take. *)
From Verif Require Import Base PyAst Gql Config Stylers Registry Utils Documents Inline Referencer Enums Inputs Recurse Fragments Operations Objects Funcs InputFuncs Run PySem
  Spec_Types Spec_Inputs Spec_Imports Spec_Refs Spec_Funcs Spec_Classes Spec_Factories Spec_Build
  P_Base P_Monad P_Stylers P_Inputs P_Inputs2 P_InputProps P_Annot P_Recurse P_Funcs P_Funcs2 P_Funcs3 P_Classes P_Calls2 P_Calls4 P_Calls5 P_Factories.

Section Made.
Variables (c : gconfig) (st : list styler) (s : schema).
(** where a factory comes from *)
Definition made (pc : ifcfg) (kt : string * inputdef) (f : stmt) : Prop :=
  exists r r', names_styled st r /\ generate_input_func c st s pc (fst kt) (id_fields (snd kt)) r = (Ok f, r').
Definition picked (pc : ifcfg) (refd : option (list string)) (m : dict string) (k : string) : bool :=
  negb (match refd with Some refs => negb (mem k refs) | None => false end || (i_skip_underscore pc && startswith "_" k)) && dmem k m.
Lemma made_loop : forall pc refd ts r l r', names_styled st r ->
  mmap (fun kt => match snd kt with
    | TInput _ fields _ =>
        let skip := match refd with Some refs => negb (mem (fst kt) refs) | None => false end in
        if skip || (i_skip_underscore pc && startswith "_" (fst kt)) then ret []
        else let* m := gets r_inputs in
          if dmem (fst kt) m then let* f := generate_input_func c st s pc (fst kt) fields in ret [f] else ret []
    | _ => ret [] end) ts r = (Ok l, r') ->
  forall key d fields dirs, In (key, TInput d fields dirs) ts -> picked pc refd (r_inputs r) key = true -> exists f, In f (concat l) /\ made pc (key, InputDef d fields dirs) f.
Proof.
  intros pc refd. induction ts as [|[k t] ts IH]; intros r l r' HN H key d fields dirs HI HP; [destruct HI|]. cbn [mmap fst snd] in *.
  apply bind_ok in H as (a & r1 & H1 & H). apply bind_ok in H as (b & r2 & H2 & H). apply ret_ok in H as (-> & _). cbn [concat].
  assert (V : evolve st Kall r r1).
  { destruct t; try (apply ret_ok in H1 as (-> & ->); apply ev_refl). cbn zeta in H1. destruct (_ || _); [apply ret_ok in H1 as (-> & ->); apply ev_refl|].
    apply bind_ok in H1 as (m & r3 & H3 & H1). unfold gets in H3. injection H3 as <- <-. destruct (dmem k (r_inputs r)); [|apply ret_ok in H1 as (-> & ->); apply ev_refl].
    apply bind_ok in H1 as (f & r4 & H4 & H1). apply ret_ok in H1 as (-> & ->). eapply ev_ok; [|exact H4]. eapply ev_weak; [|apply ev_input_func]. intros x; cbn; tauto. }
  destruct HI as [[= -> ->]|HI].
  - unfold picked in HP. cbn zeta in H1. destruct (_ || _) in HP, H1; [discriminate|]. cbn [negb andb] in HP.
    apply bind_ok in H1 as (m & r3 & H3 & H1). unfold gets in H3. injection H3 as <- <-. rewrite HP in H1.
    apply bind_ok in H1 as (f & r4 & H4 & H1). apply ret_ok in H1 as (-> & ->). exists f. split; [now left|]. eexists r, _. split; [exact HN|exact H4].
  - assert (E : r_inputs r1 = r_inputs r) by (eapply (frame_inputs st Kall); [cbn; intuition discriminate|exact V]).
    rewrite <- E in HP. destruct (IH _ _ _ (names_styled_evolve _ _ _ _ V HN) H2 key d fields dirs HI HP) as (f & Hf & HM). exists f. split; [|exact HM]. apply in_app_iff. now right.
Qed.
Lemma picked_spec : forall pc rf m k, picked pc (option_map rf_inputs rf) m k = true <-> ~ input_skipped (i_skip_underscore pc) (refd rf) k /\ dmem k m = true.
Proof.
  intros pc rf m k. unfold picked. rewrite Bool.andb_true_iff. apply and_iff_compat_r. unfold input_skipped.
  pose proof (wanted_dec rf k) as W. change (option_map rf_inputs rf) with (refd rf).
  assert (B : match refd rf with Some refs => negb (mem k refs) | None => false end = match rf with Some x => negb (mem k (rf_inputs x)) | None => false end) by (destruct rf; reflexivity).
  rewrite B. destruct (match rf with Some x => negb (mem k (rf_inputs x)) | None => false end); cbn [orb negb].
  - split; [discriminate|]. intros H. exfalso. apply H. left. intros H'. apply W in H'. discriminate.
  - destruct (i_skip_underscore pc && startswith "_" k) eqn:U; cbn [negb].
    + apply Bool.andb_true_iff in U. split; [discriminate|]. intros H. exfalso. apply H. now right.
    + split; [|reflexivity]. intros _ [H|[H H']]; [apply H, W; reflexivity|]. rewrite H, H' in U. discriminate.
Qed.
Lemma nonnull_inhab : forall tup leaf t, nonnullb t = false -> inhab tup leaf t JNull.
Proof. intros tup leaf [n|t|t] H; cbn in *; [now left|now left|discriminate]. Qed.
End Made.

Theorem built : forall c st s ps1 ps2 t0 r r1 r2 r3 ic fc docs docs' li lf tree t,
  input_classes_apart st s -> Forall (beside_plugin c st s) ps1 -> Forall (beside_plugin c st s) ps2 ->
  run_plugins ps1 (init_reg c) [] = Ok (t0, r) -> inputs_plugin c st ic s docs r = (Ok li, r1) ->
  run_plugins ps2 r1 tree = Ok (t, r2) -> input_funcs_plugin c st fc s docs' r2 = (Ok lf, r3) ->
  no_helper_enum s -> NoDup (dkeys (s_types s)) ->
  exists refd refd', referenced_inputs (skipping c (ic_skip_unreferenced ic)) s docs refd
  /\ referenced_inputs (skipping c (i_skip_unreferenced fc)) s docs' refd'
  /\ forall key x, In (key, x) (schema_inputs s) -> ~ union_member refd x -> ~ is_oneof x -> ~ union_target refd s key ->
       ~ input_skipped (ic_skip_underscore ic) refd key -> ~ input_skipped (i_skip_underscore fc) refd' key -> NoDup (map fst (id_fields x)) ->
       exists bases body decs args fbody rt fdecs, In (SClass (input_class st key) bases body decs) li
       /\ In (SFunc false (factory_name st (i_prepend fc) key) args fbody rt fdecs) lf
       /\ forall glob subclass call us k pos kws env,
            no_clash (map pa_name (a_args args)) ["data"] [sentinel_name (c_unset_instance c); input_class st key] ->
            glob (sentinel_name (c_unset_instance c)) = Some (PVSing us) -> glob (input_class st key) = Some (PVClass k) ->
            Spec_Funcs.binds glob subclass call args pos kws env ->
            exists sent, run_body glob subclass call fbody env = call (PVClass k) [] sent
            /\ NoDup (map fst sent) /\ takes_keywords (class_fields body) sent
            /\ forall n y w, In (n, y) (id_fields x) ->
                 (In (n, w) sent <-> Spec_Funcs.provided (PVSing us) (passed args pos kws) (nonnullb (if_type y)) (style_with sty_node st n) w).
Proof.
  intros c st s ps1 ps2 t0 r r1 r2 r3 ic fc docs docs' li lf tree t HA F1 F2 R1 HI R2 HF HB ND.
  pose proof (two_styled2 c st s _ _ _ _ _ _ _ _ _ _ _ F1 F2 R1 HI R2) as S2. pose proof (two_has c st s _ _ _ _ _ _ _ _ _ _ _ HA F1 F2 R1 HI R2) as TH.
  pose proof (two_styled c st s _ _ _ F1 R1) as NS. unfold inputs_plugin in HI. apply bind_ok in HI as (u & r4 & H4 & HI).
  assert (NS4 : names_styled st r4) by (eapply names_styled_evolve; [eapply (ev_ok _ inputs_kinds); [|exact H4]; unfold inputs_kinds, input_kinds; ev_tac|exact NS]).
  destruct (plain_inputs c st ic s docs r4 r1 li HB ND NS4 HI) as (rd & HR & HP).
  unfold input_funcs_plugin in HF. apply bind_ok in HF as (rf & r5 & H1 & H2).
  assert (r5 = r2).
  { unfold plugin_refs in H1. destruct (_ && _); [|apply ret_ok in H1 as (_ & ->); reflexivity].
    apply bind_ok in H1 as (d & r6 & H5 & H1). apply lift_ok in H5 as (_ & ->). apply bind_ok in H1 as (x & r7 & H6 & H1). apply lift_ok in H6 as (_ & ->). apply ret_ok in H1 as (_ & ->). reflexivity. }
  subst r5. apply plugin_refs_inputs in H1. exists rd, (refd rf). split; [exact HR|]. split; [exact H1|].
  intros key x Hk M O U S S' NF. destruct (HP key x Hk M S O U) as (stm & Hs & (bases & body & decs & dflds & flds & -> & EF & D0 & FF)).
  inversion D0; subst dflds. cbn [app] in EF. clear D0.
  assert (HK : In key (input_keys s)) by (apply in_map_iff; now exists (key, x)).
  assert (HM : dmem key (r_inputs r2) = true) by (apply TH; [exact HK|]; apply in_flat_map; eexists; split; [exact Hs|now left]).
  unfold generate_input_funcs in H2. apply mconcat_ok in H2 as (ll & H2 & ->).
  assert (HT : In (key, TInput (id_desc x) (id_fields x) (id_dirs x)) (s_types s)).
  { unfold schema_inputs in Hk. apply in_flat_map in Hk as ([k' t'] & Hk' & Hk). cbn [fst snd] in Hk. destruct t'; try contradiction. destruct Hk as [[= -> <-]|[]]. exact Hk'. }
  destruct (made_loop c st s _ _ _ _ _ _ S2 H2 key _ _ _ HT) as (f & Hf & (ra & rb & NSa & HG)).
  { apply picked_spec. split; [exact S'|exact HM]. }
  cbn [fst snd id_fields] in HG. pose proof HG as HG'. apply input_func_ok in HG' as (cls & doc & p & HC & _ & _ & Ef).
  pose proof (proj1 NSa _ _ HC) as EC. unfold style_inputtype_class in EC.
  pose proof (factory_shape c st s _ _ _ _ _ _ NSa HG) as (args & fbody & Es). cbn [merged_ifcfg i_prepend] in Es.
  exists bases, body, decs, args, (fbody ++ [SReturn (Some (ECall (EName (input_class st key)) [] [(None, EName "data")]))]), (Some (EName (input_class st key))), [].
  split; [exact Hs|]. split; [rewrite <- Es; exact Hf|].
  intros glob subclass call us k pos kws env NC Gu Gc Bd.
  destruct (factory_C30 _ _ _ _ glob subclass call _ _ _ _ _ _ _ _ _ _ _ us k _ pos kws env HG Es HC NF) as (sent & E1 & E2 & E3 & E4 & E5); [rewrite EC; exact NC|exact Gu|rewrite EC; exact Gc|exact Bd|].
  exists sent. split; [exact E1|]. split; [exact E2|]. split; [|exact E4].
  assert (EA : filter (fun kv : string * inputfield => negb (mem (style_with sty_node st (fst kv)) (map fst (@nil (string * string))))) (id_fields x) = id_fields x).
  { clear. induction (id_fields x) as [|a l IH]; [reflexivity|]. cbn in *. now rewrite IH. }
  rewrite EA in FF. split.
  - intros n w Hn. destruct (E3 n w Hn) as (y & Hy). destruct (Forall2_in_l _ _ _ _ FF Hy) as (fld & Hfld & OK). exists fld. rewrite EF. split; [exact Hfld|]. apply (ifo_wire _ _ _ _ _ _ OK).
  - intros fld Hfld Hm. rewrite EF in Hfld. destruct (Forall2_in_r _ _ _ _ FF Hfld) as ([n y] & Hy & OK). cbn [fst snd] in OK. rewrite (ifo_wire _ _ _ _ _ _ OK).
    apply (E5 n y Hy). destruct (nonnullb (if_type y)) eqn:NN; [reflexivity|]. exfalso.
    assert (T : may_omit (snd fld) = true) by (apply (ifo_omit _ _ _ _ _ _ OK); right; now apply nonnull_inhab). congruence.
Qed.
