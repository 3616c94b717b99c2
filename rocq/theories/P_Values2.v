(** The classes of the input plugin serialise to the valid input values. *)
From Verif Require Import Base PyAst Gql Config Stylers Registry Utils Documents Referencer Enums Inputs Run
  PySem Spec_Config Spec_Types Spec_Inputs Spec_Refs Spec_Scope Spec_Dispatch Spec_Names Spec_Pydantic Spec_Response Spec_Values
  P_Base P_Monad P_Inputs P_Inputs3 P_InputProps P_Enums P_Refs P_Freeze P_Response2 P_Scope5 P_Total7 P_Values.

Lemma run_plugins_prefix : forall ps r tree tr, run_plugins ps r tree = Ok tr -> exists post, fst tr = tree ++ post.
Proof.
  induction ps as [|p ps IH]; intros r tree tr H; cbn in H.
  - injection H as <-. exists []. now rewrite app_nil_r.
  - destruct (pl_generate p r) as [[l|e] r']; [|discriminate]. destruct (IH _ _ _ H) as (post & E). exists (l ++ post). rewrite E. now rewrite app_assoc.
Qed.
Lemma members_of_body : forall desc vs v, Spec_Response.enum_member (class_doc desc :: flat_map Enums.enum_member vs) v <-> exists k ev, In (k, ev) vs /\ ev_value ev = v.
Proof.
  intros desc vs v. unfold Spec_Response.enum_member. split.
  - intros (m & [H|H]); [unfold class_doc in H; discriminate|]. apply in_flat_map in H as ([k ev] & Hin & H). exists k, ev. split; [exact Hin|].
    unfold Enums.enum_member in H. destruct H as [H|H]; [unfold estr in H; now injection H|]. exfalso.
    destruct (truthy _) in H; [|exact H]. destruct H as [H|H]; [discriminate H|exact H].
  - intros (k & ev & Hin & <-). exists k. right. apply in_flat_map. exists (k, ev). split; [exact Hin|]. now left.
Qed.
Section W.
Variables (c : gconfig) (st : list styler) (ec : enums_config) (ic : inputs_config) (s : schema) (d : document) (py sc : string -> data -> Prop).
Notation scalars := (r_scalars (init_reg c)).
(** the types that are used for more than input types *)
Variable G0 : string -> Prop.
Definition keeps (n : string) : Prop :=
  (skipping c (ic_skip_unreferenced ic) = true \/ skipping c (ec_skip_unreferenced ec) = true -> needs s (variable_type d) n) /\ (is_input s n \/ G0 n).
Theorem kept_values : forall iter a b rest skip t,
  NoDup (dkeys (s_types s)) -> no_helper_enum s -> enum_values_named s -> unique_names d ->
  modelled_inputs s st (ic_skip_underscore ic) (ec_skip_underscore ec) (ec_skip_double_underscore ec) (fun n => exists p, dget n scalars = Some p) ->
  generate_ast c iter (Plugin a (enums_plugin c st ec s (Ok d)) :: Plugin b (inputs_plugin c st ic s (Ok d)) :: rest) skip = Ok t ->
  NoDup (owned t) ->
  (forall b, configured_base c (ic_bases ic) b -> ~ In (last_comp b) (owned t) /\ last_comp b <> "Enum") ->
  (forall n p, dget n scalars = Some p -> ~ In (last_comp p) (owned t) /\ (forall v, py (last_comp p) v <-> sc n v) /\ ~ sc n RNull) ->
  (forall n, field_type s n -> G0 n) ->
  (forall n, is_enum s n -> G0 n -> introspection_enum n = false /\ (ec_skip_underscore ec = true -> startswith "_" n = false) /\ (ec_skip_double_underscore ec = true -> startswith "__" n = false)) ->
  (forall n, is_scalar s n -> G0 n -> exists p, dget n scalars = Some p) ->
  forall ty, keeps (gty_name ty) ->
  (forall v, valid_input s sc ty v -> exists x, inhab (tuple_for_inputs c) (input_leaf s scalars st) ty x /\ dumps t py x v)
  /\ (defaults_nullable s -> (forall m, is_input s m -> ~ extra_allowed c m) -> forall x v, inhab (tuple_for_inputs c) (input_leaf s scalars st) ty x -> dumps t py x v ->
        valid_input s sc ty v /\ (x <> JNull -> v <> RNull)).
Proof.
  intros iter a b rest skip t NDS HB HEV UN MI H NDT Hbases KS' FF0 FE0 FS0 ty Hkeep.
  unfold generate_ast in H. cbn [run_plugins pl_generate pl_name] in H.
  destruct (enums_plugin c st ec s (Ok d) (init_reg c)) as [[t0|] r0] eqn:H0; [|discriminate].
  destruct (inputs_plugin c st ic s (Ok d) r0) as [[t1|] r1] eqn:H1; [|discriminate].
  destruct (run_plugins rest r1 (([] ++ t0) ++ t1)) as [[tree rr]|] eqn:HR; [|discriminate]. cbn [rbind] in H.
  destruct (generate_builtins iter rr) as [bs|] eqn:HBS; [|discriminate]. cbn [rbind] in H. injection H as Et.
  destruct (run_plugins_prefix _ _ _ _ HR) as (post0 & EP). cbn [fst app] in EP. subst tree.
  assert (I0 : incl t0 t) by (rewrite <- Et; intros x Hx; rewrite !in_app_iff; tauto).
  assert (I1 : within t1 t).
  { rewrite <- Et. exists (generate_imports iter rr ++ bs ++ t0), (post0 ++ (if skip then [] else generate_forward_refs c rr)). now rewrite <- !app_assoc. }
  clear Et HBS HR bs.
  assert (VE : evolve st [KEnu; KImp] (init_reg c) r0) by (eapply ev_ok; [apply ev_enums_plugin|exact H0]).
  assert (NS0 : names_styled st r0) by (eapply names_styled_evolve; [exact VE|apply names_styled_init]).
  unfold inputs_plugin in H1. mb H1 u r2 H2.
  assert (VI : evolve st [KImp] r0 r2) by (eapply ev_ok; [|exact H2]; ev_tac).
  assert (NS : names_styled st r2) by (eapply names_styled_evolve; [exact VI|exact NS0]).
  assert (SC : r_scalars r2 = scalars).
  { destruct (evolve_frame st [KEnu; KImp] _ _ (ltac:(cbn; intuition discriminate)) (ltac:(cbn; intuition discriminate)) (ltac:(cbn; intuition discriminate)) (ltac:(cbn; intuition discriminate)) (ltac:(cbn; intuition discriminate)) VE) as (G1 & _).
    destruct (evolve_frame st [KImp] _ _ (ltac:(cbn; intuition discriminate)) (ltac:(cbn; intuition discriminate)) (ltac:(cbn; intuition discriminate)) (ltac:(cbn; intuition discriminate)) (ltac:(cbn; intuition discriminate)) VI) as (F1 & _). congruence. }
  pose proof (inputs_based _ _ _ _ _ _ _ _ H1) as HBA.
  destruct (plain_inputs c st ic s (Ok d) r2 r1 t1 HB NDS NS H1) as (rf & HRF & HP).
  destruct (oneof_inputs c st ic s (Ok d) r2 r1 t1 HB NDS NS H1) as (rf' & HRF' & HO).
  rewrite SC in HP, HO.
  assert (In1 : forall x, In x t1 -> In x t) by (destruct I1 as (p & q & ->); intros x Hx; rewrite !in_app_iff; tauto).
  assert (OUT : forall k bases body decs, In (SClass k bases body decs) t1 -> outers t bases).
  { intros k bases body decs Hin x Hx. destruct (HBA _ _ _ _ Hin _ Hx) as (p & -> & Hp). exists (last_comp p). split; [reflexivity|].
    apply Hbases. unfold configured_base. destruct Hp as [Hp|(m & l & E & Hl)]; [tauto|]. right. right. left. eauto. }
  set (strict := forall m, is_input s m -> ~ extra_allowed c m).
  assert (STR : forall k bases body decs, In (SClass k bases body decs) t1 -> strict -> ~ In ("extra", CStr "allow") (config_entries body)).
  { intros k bases body decs Hin HS He. destruct (inputs_configured _ _ _ _ _ _ _ _ H1 _ _ _ _ Hin) as (key & i & Hi & _ & HCf).
    apply HCf in He. apply (HS key).
    - unfold schema_inputs in Hi. apply in_flat_map in Hi as ([m' td] & Hi & Hx). cbn [fst snd] in Hx. destruct td; try contradiction. destruct Hx as [[= <- <-]|[]].
      do 3 eexists. unfold get_type. apply dget_In_NoDup; [exact NDS|exact Hi].
    - destruct He as [(_ & [=] & _)|[(HA & HS')|HE]]; [|right; exact HE]. left. split; [exact HA|].
      destruct HS' as [[[=] _]|[(_ & x & Ex & [= <-])|[[[=] _]|[[X _]|[[[=] _]|[[=] _]]]]]]; [exact Ex|]. unfold by_name_key in X. destruct (String.eqb _ _); discriminate X. }
  assert (WANT : forall refd, referenced_inputs (skipping c (ic_skip_unreferenced ic)) s (Ok d) refd -> forall m, keeps m -> is_input s m -> ~ input_skipped (ic_skip_underscore ic) refd m).
  { intros refd Hr m [Hm _] Hi [Hs|[Hs1 Hs2]].
    - apply Hs. intros l ->. unfold referenced_inputs in Hr. destruct (skipping c (ic_skip_unreferenced ic)); [|discriminate].
      destruct Hr as (d' & l' & [= <-] & [= <-] & Hl). apply (Hl UN). split; [apply Hm; now left|exact Hi].
    - rewrite (mi_inputs _ _ _ _ _ _ MI m Hi Hs1) in Hs2. discriminate. }
  assert (SI : forall m dd fs dirs, get_type s m = Some (TInput dd fs dirs) -> In (m, InputDef dd fs dirs) (schema_inputs s)).
  { intros m dd fs dirs G. unfold schema_inputs. apply in_flat_map. exists (m, TInput dd fs dirs). split; [apply dget_Some_In; exact G|now left]. }
  assert (SI' : forall m i, In (m, i) (schema_inputs s) -> get_type s m = Some (TInput (id_desc i) (id_fields i) (id_dirs i))).
  { intros m i Hin. unfold schema_inputs in Hin. apply in_flat_map in Hin as ([m' td] & Hin & Hx). cbn [fst snd] in Hx. destruct td; try contradiction.
    destruct Hx as [[= <- <-]|[]]. cbn. unfold get_type. now apply dget_In_NoDup. }
  assert (NU : forall refd m dd fs dirs, get_type s m = Some (TInput dd fs dirs) -> ~ union_member refd (InputDef dd fs dirs)).
  { intros refd m dd fs dirs G (u0 & dn & k & Hb & _). cbn in Hb. eapply (mi_unions _ _ _ _ _ _ MI); eassumption. }
  assert (NT : forall refd m, ~ union_target refd s m).
  { intros refd m (key & i & dn & k & Hin & Hb & _). eapply (mi_unions _ _ _ _ _ _ MI); [apply (SI' _ _ Hin)|exact Hb]. }
  assert (K0 : forall m dd fs dirs k f, keeps m -> get_type s m = Some (TInput dd fs dirs) -> In (k, f) fs -> keeps (gty_name (if_type f))).
  { intros m dd fs dirs k f [Hm _] G Hf. split.
    - intros Hsk. apply (needs_field s _ m dd fs dirs (k, f) (Hm Hsk) G Hf).
    - right. apply FF0. exists m, dd, fs, dirs, k, f. auto. }
  assert (KS : forall m dd, keeps m -> get_type s m = Some (TScalar dd) -> exists p, dget m scalars = Some p).
  { intros m dd [_ Hm] G. apply FS0; [exists dd; exact G|]. destruct Hm as [(x & y & z & E)|Hm]; [congruence|exact Hm]. }
  assert (KE : forall m dd vs, keeps m -> get_type s m = Some (TEnum dd vs) -> exists bases body,
    Spec_Response.class_of t (enum_type_class st m) bases body /\ In (EName "Enum") bases /\ forall v, Spec_Response.enum_member body v <-> In v (dkeys vs)).
  { intros m dd vs [Hsk Hm] G. assert (FT : G0 m) by (destruct Hm as [(x & y & z & E)|Hm]; [congruence|exact Hm]).
    destruct (FE0 m (ex_intro _ dd (ex_intro _ vs G)) FT) as (E1 & E2 & E3).
    destruct (enums_emitted _ _ _ _ _ _ _ _ H0) as (rfe & ry & HRE & EM). specialize (EM _ _ _ G). unfold enum_type_class. rewrite E1.
    exists [EName "str"; EName "Enum"], (class_doc dd :: flat_map Enums.enum_member vs). split; [exists []; apply I0; apply EM|split; [right; now left|]].
    - unfold enum_skipped. rewrite !orb_false_iff. split; [split|].
      + unfold plugin_refs, skipping in *. destruct (ec_skip_unreferenced ec && truthy (c_documents c)); [|apply ret_ok in HRE; destruct HRE as [-> _]; reflexivity].
        mb HRE d' r4 H4. apply lift_ok in H4. destruct H4 as [[= <-] ->]. mb HRE x r4 H4. apply lift_ok in H4. destruct H4 as [H4 ->]. apply ret_ok in HRE. destruct HRE as [-> _].
        apply negb_false_iff, mem_In. apply (proj1 (proj2 (registry_C18 _ _ _ UN H4))); [apply Hsk; now right|exists dd, vs; exact G].
      + destruct (ec_skip_underscore ec); [cbn; auto|reflexivity].
      + destruct (ec_skip_double_underscore ec); [cbn; auto|reflexivity].
    - intros v. rewrite members_of_body. unfold dkeys. split.
      + intros (k & ev & Hin & <-). rewrite (HEV _ _ _ _ _ G Hin). apply in_map_iff. exists (k, ev). auto.
      + intros Hv. apply in_map_iff in Hv as ([k ev] & <- & Hin). exists k, ev. split; [exact Hin|exact (HEV _ _ _ _ _ G Hin)]. }
  assert (KP : forall m dd fs dirs, keeps m -> get_type s m = Some (TInput dd fs dirs) -> ~ is_oneof (InputDef dd fs dirs) ->
    exists flds, model_class t strict (style_with sty_input st m) flds /\ Forall2 (fun kv fld => input_field_ok (tuple_for_inputs c) (input_leaf s scalars st) st (fst kv) (snd kv) fld) fs flds).
  { intros m dd fs dirs Hm G HNO. destruct (HP m (InputDef dd fs dirs)) as (stm & Hin & bases & body & decs & dflds & flds & -> & EF & FD & FF); auto.
    - eapply NU; exact G.
    - apply (WANT _ HRF _ Hm). exists dd, fs, dirs. exact G.
    - inversion FD; subst. cbn [app] in EF. cbn [id_fields] in FF.
      assert (EFil : filter (fun kv : string * inputfield => negb (mem (style_with sty_node st (fst kv)) (map fst (@nil (string * string))))) fs = fs).
      { cbn. clear. induction fs as [|x l IH]; [reflexivity|]. cbn. now rewrite IH. }
      rewrite EFil in FF. exists flds. split; [|exact FF]. exists bases, body. split; [exists decs; apply In1; exact Hin|]. split; [eapply OUT; exact Hin|]. split; [exact EF|].
      assert (EP : forall g, In g flds -> model_field (fst (fst g))).
      { intros g Hg. destruct (Forall2_r _ _ _ _ FF Hg) as ([k0 f0] & Hk & FO). rewrite (ifo_name _ _ _ _ _ _ FO). eapply (mi_fields _ _ _ _ _ _ MI); eassumption. }
      assert (EN : map (fun g : string * expr * option expr => fst (fst g)) flds = map (fun kv => style_with sty_node st (fst kv)) fs).
      { clear - FF. induction FF as [|x y l m FO F IH]; [reflexivity|]. cbn. rewrite IH. f_equal. apply (ifo_name _ _ _ _ _ _ FO). }
      rewrite EN. split; [eapply (mi_attributes _ _ _ _ _ _ MI); exact G|]. split; [exact EP|]. eapply STR; exact Hin. }
  assert (KO : forall m dd fs dirs, keeps m -> get_type s m = Some (TInput dd fs dirs) -> is_oneof (InputDef dd fs dirs) ->
     wrapped s t st scalars (tuple_for_inputs c) strict m fs \/ direct s t st m fs).
  { intros m dd fs dirs Hm G HIO. destruct (HO m (InputDef dd fs dirs)) as (OV & out & HW & HC); auto.
    - eapply NU; exact G.
    - apply (WANT _ HRF' _ Hm). exists dd, fs, dirs. exact G.
    - destruct HC as [[(_ & _ & HD & HND) (f & body & e & -> & HA & HS)]|[_ (classes & e & -> & ES & F & HA)]]; cbn [id_fields] in *.
      + right. destruct HW as (w1 & w2 & EW). destruct I1 as (p1 & p2 & EI).
        exists (ESub (EName "Annotated") (ETuple [e; ECall (EName "WrapSerializer") [EName f] []])), f, (p1 ++ w1), body, (w2 ++ p2).
        split; [reflexivity|]. split; [rewrite EI, EW; rewrite <- !app_assoc; reflexivity|]. split; [exact HA|]. split; [exact HS|].
        assert (HIN : forall kv, In kv fs -> is_input s (gty_name (if_type (snd kv)))).
        { intros kv Hkv. destruct (HD _ Hkv) as (x & y & z & w & E & E' & _). rewrite E. exists y, z, w. exact E'. }
        split; [|split].
        * intros kv Hkv. destruct (HD _ Hkv) as (x & y & z & w & E & E' & _). exists x, y, z, w. auto.
        * rewrite <- (map_map (fun kv => gty_name (if_type (snd kv))) (fun x => style_with sty_input st x)). 
          assert (INP : forall x, In x (map (fun kv : string * inputfield => gty_name (if_type (snd kv))) fs) -> is_input s x) by (intros x Hx; apply in_map_iff in Hx as (kv & <- & Hkv); auto).
          clear - HND INP MI. induction (map (fun kv : string * inputfield => gty_name (if_type (snd kv))) fs) as [|x l IH]; [constructor|]. cbn. inversion HND; subst. constructor.
          -- intros Hx. apply in_map_iff in Hx as (y & E & Hy). apply (mi_classes _ _ _ _ _ _ MI) in E; [subst y; contradiction|apply INP; now right|apply INP; now left].
          -- apply IH; [assumption|]. intros y Hy. apply INP. now right.
        * intros [k0 f0] Hkv. split; [apply (mi_reserved _ _ _ _ _ _ MI); auto|].
          pose proof (K0 _ _ _ _ _ _ Hm G Hkv) as Hk. destruct (HD _ Hkv) as (x & y & z & w & E & E' & HNO & _). cbn [snd] in E |- *. rewrite E in Hk |- *. cbn [gty_name] in *.
          destruct (KP _ _ _ _ Hk E' HNO) as (flds & HM & _). eapply model_owned; exact HM.
      + left. exists e. destruct HW as (w1 & w2 & EW). split; [apply In1; rewrite EW; rewrite !in_app_iff; cbn; tauto|]. split; [exact ES|]. split; [exact HA|].
        intros kv Hkv. destruct (Forall2_l _ _ _ _ F Hkv) as (stm & Hstm & bases & body & decs & fld & -> & EF & En & Ew & Eo & Ea). exists fld.
        assert (Hin1 : In (SClass (style_with sty_input st (m +s+ cap_first (fst kv))) bases body decs) t1) by (rewrite EW; rewrite !in_app_iff; tauto).
        split; [|auto]. exists bases, body. split; [exists decs; apply In1; exact Hin1|]. split; [eapply OUT; exact Hin1|]. split; [exact EF|]. split; [repeat constructor; intros []|].
        split; [intros g [<-|[]]; rewrite En; destruct kv as [k0 f0]; eapply (mi_fields _ _ _ _ _ _ MI); eassumption|]. eapply STR; exact Hin1. }
  split.
  - intros v Hv. apply (complete s t py sc st scalars (tuple_for_inputs c) keeps strict NDT K0 KS KS' KE KP KO ty v Hv Hkeep).
  - intros HD HST x v Hx Hdm. assert (INJ : forall m d' fs' dirs', get_type s m = Some (TInput d' fs' dirs') -> NoDup (dkeys fs')).
    { intros m d' fs' dirs' G'. pose proof (mi_attributes _ _ _ _ _ _ MI _ _ _ _ G') as ND. unfold dkeys. rewrite <- (map_map fst (fun x => style_with sty_node st x)) in ND. now apply NoDup_map_inv in ND. }
    destruct (proj1 (sound_all s t py sc st scalars (tuple_for_inputs c) keeps strict NDT K0 KS' KE KP KO HD HST INJ) _ _ Hdm) as [Hs _].
    exact (Hs ty Hkeep Hx).
Qed.
End W.
Theorem input_values : forall c st ec ic s d py sc iter a b rest skip t,
  NoDup (dkeys (s_types s)) -> no_helper_enum s -> enum_values_named s -> unique_names d ->
  modelled_inputs s st (ic_skip_underscore ic) (ec_skip_underscore ec) (ec_skip_double_underscore ec) (fun n => exists p, dget n (r_scalars (init_reg c)) = Some p) ->
  generate_ast c iter (Plugin a (enums_plugin c st ec s (Ok d)) :: Plugin b (inputs_plugin c st ic s (Ok d)) :: rest) skip = Ok t ->
  NoDup (owned t) ->
  (forall b, configured_base c (ic_bases ic) b -> ~ In (last_comp b) (owned t) /\ last_comp b <> "Enum") ->
  (forall n p, dget n (r_scalars (init_reg c)) = Some p -> ~ In (last_comp p) (owned t) /\ (forall v, py (last_comp p) v <-> sc n v) /\ ~ sc n RNull) ->
  forall n, is_input s n -> (skipping c (ic_skip_unreferenced ic) = true \/ skipping c (ec_skip_unreferenced ec) = true -> needs s (variable_type d) n) ->
  (forall v, valid_input s sc (GNamed n) v -> v <> RNull -> dumps t py (JLeaf (style_with sty_input st n)) v)
  /\ (defaults_nullable s -> (forall m, is_input s m -> ~ extra_allowed c m) -> forall v, dumps t py (JLeaf (style_with sty_input st n)) v -> valid_input s sc (GNamed n) v /\ v <> RNull).
Proof.
  intros c st ec ic s d py sc iter a b rest skip t NDS HB HEV UN MI H NDT Hbases KS' n Hn Hneed.
  assert (Kn : keeps c ec ic s d (field_type s) (gty_name (GNamed n))) by (split; [exact Hneed|now left]).
  destruct (kept_values c st ec ic s d py sc (field_type s) iter a b rest skip t NDS HB HEV UN MI H NDT Hbases KS' (fun n H => H) (mi_enums _ _ _ _ _ _ MI) (mi_scalars _ _ _ _ _ _ MI) (GNamed n) Kn) as [HC HS].
  destruct Hn as (dd & fs & dirs & G).
  assert (LF : inhab (tuple_for_inputs c) (input_leaf s (r_scalars (init_reg c)) st) (GNamed n) (JLeaf (style_with sty_input st n))).
  { right. eexists. split; [|reflexivity]. unfold input_leaf. rewrite G. reflexivity. }
  split.
  - intros v Hv Hnn. destruct (HC v Hv) as (x & Hx & Hdm).
    cbn in Hx. destruct Hx as [->|(c0 & Hl & ->)]; [inversion Hdm; congruence|]. unfold input_leaf in Hl. rewrite G in Hl. subst c0. exact Hdm.
  - intros HD HST v Hdm. destruct (HS HD HST _ v LF Hdm) as [H5 H6]. split; [exact H5|apply H6; discriminate].
Qed.
