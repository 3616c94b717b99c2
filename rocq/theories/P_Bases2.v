(** Which base classes the classes of each plugin have. *)
From Verif Require Import Base PyAst Gql Config Stylers Registry Utils Documents Inline Enums Inputs Recurse Fragments Operations Objects Loaders Settings Components
  Spec_Docs Spec_Types Spec_Imports Spec_Inputs Spec_Fields Spec_Naming Spec_Names Spec_Traits Spec_Settings Spec_Components Spec_Funcs Spec_Bases
  P_Topo P_Base P_Monad P_Stylers P_Inputs P_Annot P_Recurse P_Fields P_Post P_Freeze P_Imports P_InlineProps P_Classes P_Settings P_Components P_Bases.
From Coq Require Import Permutation.

Definition known (r : reg) (l : list string) : Prop := forall b, In b l -> In b simple_types \/ In b (r_imports r).
Lemma bases_known : forall l r es r', import_bases l r = (Ok es, r') -> es = as_bases l /\ known r' l.
Proof.
  intros l r es r' H. split; [now apply import_bases_spec in H|]. unfold import_bases in H. apply bind_ok in H as ([] & r1 & H1 & H). apply ret_ok in H as [_ ->].
  intros b Hb. assert (X := requests_spec l r b). cbn zeta in X. rewrite H1 in X. cbn [snd] in X. destruct (in_dec String.string_dec b simple_types) as [S|S]; [now left|]. right. apply X. auto.
Qed.
Lemma known_incl : forall r r' l, incl (r_imports r) (r_imports r') -> known r l -> known r' l.
Proof. intros r r' l H K b Hb. destruct (K b Hb) as [S|S]; [now left|]. right. now apply H. Qed.
Lemma mmap_in : forall {A B} (f : A -> M B) st K, (forall x, ev st K (f x)) -> forall l r ys r', mmap f l r = (Ok ys, r') ->
  forall x, In x l -> exists y ra rb, In y ys /\ f x ra = (Ok y, rb) /\ incl (r_imports rb) (r_imports r').
Proof.
  intros A B f st K HE. induction l as [|x l IH]; intros r ys r' H z Hz; [destruct Hz|]. cbn [mmap] in H. apply bind_ok in H as (y & r1 & H1 & H). apply bind_ok in H as (ys' & r2 & H2 & H).
  apply ret_ok in H as [-> ->]. destruct Hz as [<-|Hz].
  - exists y, r, r1. split; [now left|]. split; [exact H1|]. assert (E : evolve st K r1 r2) by (eapply ev_ok; [apply ev_mmap; intros; apply HE|exact H2]). apply evolve_rle in E. apply E.
  - destruct (IH _ _ _ H2 z Hz) as (y' & ra & rb & I & E & L). exists y', ra, rb. split; [now right|]. auto.
Qed.
Lemma or_default : forall c l, bases_or_default c l = import_bases (or_general (c_object_bases c) l).
Proof. intros c []; reflexivity. Qed.
Section Operations.
Variables (c : gconfig) (st : list styler) (s : schema) (pc : ocfg) (po : operation -> string) (add : string -> res string) (doc_of : operation -> option string).
Local Hint Resolve ev_arguments_class ev_replace : evdb.
Definition own_bases (k : optype) : list string := match k with OpQuery => o_query_bases pc | OpMutation => o_mutation_bases pc | OpSubscription => o_subscription_bases pc end.
Notation chosen l := (or_general (c_object_bases c) l).
Lemma operation_bases : forall o name r l r', op_name o = Some name -> generate_operation c st s pc po add doc_of o r = (Ok l, r') ->
  exists body, In (SClass (Spec_Funcs.operation_class st (op_kind o) name) (as_bases (chosen (own_bases (op_kind o)))) body []) l /\ known r' (chosen (own_bases (op_kind o)))
  /\ (o_create_arguments pc = true -> (exists fields, In (SClass "Arguments" (as_bases (chosen (o_arguments_bases pc))) fields []) body) /\ known r' (chosen (o_arguments_bases pc))).
Proof.
  intros o name r l r' EN H. unfold generate_operation in H. apply bind_ok in H as (name' & r1 & H1 & H). apply from_opt_ok in H1 as [EN' ->]. assert (name' = name) by congruence. subst name'.
  apply bind_ok in H as ([cls bases] & r2 & H2 & H).
  assert (X : cls = Spec_Funcs.operation_class st (op_kind o) name /\ bases = as_bases (chosen (own_bases (op_kind o))) /\ known r2 (chosen (own_bases (op_kind o)))).
  { unfold Operations.operation_class, Spec_Funcs.operation_class, own_bases in *. destruct (op_kind o); apply bind_ok in H2 as (n & r3 & H2 & H3); apply bind_ok in H3 as (b & r4 & H3 & H4);
      apply ret_ok in H4 as [[= -> ->] ->]; apply generate_in_spec in H2 as (HN & -> & ->); rewrite or_default in H3; apply bases_known in H3 as [-> K]; auto. }
  destruct X as (-> & -> & K).
  assert (L : incl (r_imports r2) (r_imports r')).
  { assert (E : evolve st quiet_ops r2 r'); [|apply evolve_rle in E; apply E]. eapply ev_ok; [|exact H]. unfold quiet_ops, root_item, bases_or_default, Ksel. ev_go. }
  apply bind_ok in H as (root & r3 & _ & H). cbn zeta in H. apply bind_ok in H as (acc & r4 & _ & H). apply bind_ok in H as (u & r5 & _ & H).
  apply bind_ok in H as (d & r6 & _ & H). apply bind_ok in H as (a & r7 & Ha & H). 
  assert (L7 : incl (r_imports r7) (r_imports r')).
  { assert (E : evolve st quiet_ops r7 r'); [|apply evolve_rle in E; apply E]. eapply ev_ok; [|exact H]. unfold quiet_ops, Ksel. ev_go. }
  apply bind_ok in H as (cfg & r8 & _ & H). apply ret_ok in H as [-> _].
  eexists. split; [apply in_or_app; right; now left|]. split; [exact (known_incl _ _ _ L K)|]. intros CA. unfold arguments_class in Ha. rewrite CA in Ha.
  apply bind_ok in Ha as (fs & r9 & _ & Ha). apply bind_ok in Ha as (cf & r10 & _ & Ha). apply bind_ok in Ha as (bs & r11 & Hb & Ha). apply ret_ok in Ha as [-> ->].
  rewrite or_default in Hb. apply bases_known in Hb as [-> KA]. split; [|exact (known_incl _ _ _ L7 KA)]. eexists. apply in_or_app. right. apply in_or_app. right. left. reflexivity.
Qed.
Lemma operations_bases : forall d r l r', operations_plugin c st s pc po add doc_of d r = (Ok l, r') -> forall o name, In (DOp o) d -> op_name o = Some name ->
  exists body, In (SClass (Spec_Funcs.operation_class st (op_kind o) name) (as_bases (chosen (own_bases (op_kind o)))) body []) l /\ known r' (chosen (own_bases (op_kind o)))
  /\ (o_create_arguments pc = true -> (exists fields, In (SClass "Arguments" (as_bases (chosen (o_arguments_bases pc))) fields []) body) /\ known r' (chosen (o_arguments_bases pc))).
Proof.
  intros d r l r' H o name Ho EN. unfold operations_plugin in H. apply mconcat_ok in H as (ls & H & ->).
  apply (mmap_in _ st Kop (ev_generate_operation c st s add pc po doc_of)) with (x := o) in H; [|unfold operations_of; apply in_flat_map; exists (DOp o); split; [exact Ho|now left]].
  destruct H as (y & ra & rb & Hy & H & L). apply (operation_bases o name _ _ _ EN) in H as (body & I & K & A). exists body. split; [apply in_concat; eauto|]. split; [eapply known_incl; eassumption|].
  intros CA. destruct (A CA) as [A1 A2]. split; [exact A1|eapply known_incl; eassumption].
Qed.
End Operations.

(** ** fragments *)
Section Fragments.
Variables (c : gconfig) (st : list styler) (s : schema) (pc : frcfg) (pf : fragment -> string) (add : string -> res string).
Lemma fragment_bases_are : forall o r es r', get_fragment_bases c pc o r = (Ok es, r') -> es = as_bases (fr_bases pc ++ (if o : bool then fr_object_bases pc else []) ++ c_object_bases c) /\ known r' (fr_bases pc).
Proof.
  intros o r es r' H. unfold get_fragment_bases in H. apply bind_ok in H as (a & r1 & H1 & H). apply bind_ok in H as (b & r2 & H2 & H). apply bind_ok in H as (g & r3 & H3 & H). apply ret_ok in H as [-> ->].
  assert (E2 : b = as_bases (if o then fr_object_bases pc else []) /\ incl (r_imports r1) (r_imports r2)).
  { destruct o; [|apply ret_ok in H2 as [-> ->]; split; [reflexivity|apply incl_refl]]. split; [now apply bases_known in H2|].
    assert (E : evolve st [KImp] r1 r2) by (eapply ev_ok; [apply ev_import_bases|exact H2]). apply evolve_rle in E. apply E. }
  destruct E2 as [-> L2]. assert (L3 : incl (r_imports r2) (r_imports r3)) by (assert (E : evolve st [KImp] r2 r3) by (eapply ev_ok; [apply ev_import_bases|exact H3]); apply evolve_rle in E; apply E).
  apply bases_known in H1 as [-> K]. apply bases_known in H3 as [-> _]. split; [unfold as_bases; now rewrite !map_app|]. eapply known_incl; [exact L3|]. eapply known_incl; eassumption.
Qed.
Lemma object_fragment_bases : forall f cls d r l r', object_fragment c st s pc pf add f cls d r = (Ok l, r') ->
  exists m, In m l /\ class_named cls m /\ ends_in (fr_bases pc ++ fr_object_bases pc ++ c_object_bases c) m.
Proof.
  intros f cls d r l r' H. unfold object_fragment in H.
  apply bind_ok in H as (ad & r1 & H1 & H). apply bind_ok in H as (t & r2 & H2 & H). apply bind_ok in H as ([[classes bases] body] & r3 & H3 & H).
  apply bind_ok in H as (meta & r4 & H4 & H). apply bind_ok in H as (fb & r5 & H5 & H). apply bind_ok in H as (cfg & r6 & H6 & H). apply ret_ok in H as [-> _].
  apply fragment_bases_are in H5 as [-> _]. eexists. split; [apply in_or_app; right; left; reflexivity|]. split; [do 3 eexists; reflexivity|]. eexists. reflexivity.
Qed.
Lemma union_fragment_bases : forall f d ms r l r', union_fragment c st s pc f d ms r = (Ok l, r') -> forall i, In i ms ->
  exists m, In m l /\ class_named (style_with sty_fragment st (fr_name f) +s+ i) m /\ ends_in (fr_bases pc ++ c_object_bases c) m.
Proof.
  intros f d ms r l r' H i Hi. unfold union_fragment in H. cbn zeta in H. apply bind_ok in H as (u & r1 & _ & H). apply bind_ok in H as (p & r2 & _ & H). apply bind_ok in H as (classes & r3 & Hc & H).
  apply bind_ok in H as (u1 & r4 & _ & H). apply bind_ok in H as (u2 & r5 & _ & H). apply ret_ok in H as [-> _].
  eapply (mmap_inv _ (fun _ => True) (fun i m => class_named (style_with sty_fragment st (fr_name f) +s+ i) m /\ ends_in (fr_bases pc ++ c_object_bases c) m)) in Hc; [|exact I|].
  - destruct Hc as [_ F]. assert (X : exists m, In m classes /\ class_named (style_with sty_fragment st (fr_name f) +s+ i) m /\ ends_in (fr_bases pc ++ c_object_bases c) m).
    { clear - F Hi. induction F as [|x y xs ys Hxy F IH]; [destruct Hi|]. destruct Hi as [->|Hi]; [exists y; split; [now left|exact Hxy]|]. destruct (IH Hi) as (m & A & B). exists m. split; [now right|exact B]. }
    destruct X as (m & A & B). exists m. split; [apply in_or_app; right; apply in_or_app; now left|exact B].
  - intros x ra y rb _ _ Hy. split; [exact I|]. apply bind_ok in Hy as (fb & rc & Hf & Hy). apply bind_ok in Hy as (t & rd & _ & Hy). apply ret_ok in Hy as [-> _].
    apply fragment_bases_are in Hf as [-> _]. split; [do 3 eexists; reflexivity|]. eexists. reflexivity.
Qed.
Lemma fragments_bases : forall d r l r', unique_fragment_names d -> fragments_plugin c st s pc pf add d r = (Ok l, r') -> forall f, In (DFrag f) d ->
  match get_type s (fr_on f) with
  | Some (TObject _ _ _ _) => exists m, In m l /\ class_named (style_with sty_fragment st (fr_name f)) m /\ ends_in (fr_bases pc ++ fr_object_bases pc ++ c_object_bases c) m
  | Some (TUnion _ ms) => forall i, In i ms -> exists m, In m l /\ class_named (style_with sty_fragment st (fr_name f) +s+ i) m /\ ends_in (fr_bases pc ++ c_object_bases c) m
  | _ => True
  end.
Proof.
  intros d r l r' U H f Hf. unfold fragments_plugin in H. apply bind_ok in H as (fs & r1 & H1 & H). apply lift_ok in H1 as [H1 ->].
  assert (If : In f fs).
  { destruct (ordering_C01 d U) as (fs' & E & P). assert (fs' = fs) by congruence. subst fs'. apply (Permutation_in _ (Permutation_sym P)). apply in_flat_map. exists (DFrag f). split; [exact Hf|now left]. }
  apply mconcat_ok in H as (ls & H & ->). assert (X : exists y ra rb, In y ls /\ generate_fragment c st s pc pf add f ra = (Ok y, rb)).
  { clear - H If. match type of H with _ ?a = _ => generalize dependent a end. revert ls r'. induction fs as [|x fs IH]; intros ls r' r1 H; [destruct If|]. cbn [mmap] in H. apply bind_ok in H as (y & r2 & H1 & H). apply bind_ok in H as (ys & r3 & H2 & H). apply ret_ok in H as [-> _].
    destruct If as [->|If]; [exists y, r1, r2; split; [now left|exact H1]|]. destruct (IH If _ _ _ H2) as (y' & ra & rb & A & B). exists y', ra, rb. split; [now right|exact B]. }
  destruct X as (y & ra & rb & Iy & Hy). assert (IL : incl y (List.concat ls)) by (intros z Hz; apply in_concat; eauto). clear H.
  unfold generate_fragment in Hy. apply bind_ok in Hy as (t & r2 & H2 & Hy). apply from_opt_ok in H2 as [E ->]. rewrite E. apply bind_ok in Hy as (name & r3 & H3 & Hy). apply generate_in_spec in H3 as (_ & -> & _).
  apply bind_ok in Hy as (u1 & r4 & _ & Hy). apply bind_ok in Hy as (u2 & r5 & _ & Hy). destruct t as [| |dd is fds ds|dd is fds|dd ms|]; try exact I.
  - apply object_fragment_bases in Hy as (m & A & B). exists m. auto.
  - intros i Hi. destruct (union_fragment_bases _ _ _ _ _ _ Hy i Hi) as (m & A & B). exists m. auto.
Qed.
End Fragments.

(** ** inputs and objects *)
Lemma imports_known : forall l r u r', miter register_import l r = (Ok u, r') -> known r' l.
Proof. intros l r u r' H. apply (bases_known l r (as_bases l) r'). unfold import_bases. unfold bind. rewrite H. reflexivity. Qed.
Lemma post_input_bases : forall c st pc s name key d fields ab ds, post (ends_in (ic_bases pc)) (input_class c st pc s name key d fields ab ds).
Proof.
  intros c st pc s name key d fields ab ds. unfold input_class. apply post_skip. intros dfs. apply post_skip. intros fs. cbn zeta. apply post_skip. intros cfg. apply post_ret. eexists. reflexivity.
Qed.
Lemma inputs_bases : forall c st pc s documents r l r', generate_inputs c st pc s documents r = (Ok l, r') -> Forall (ends_in (ic_bases pc)) l /\ known r' (ic_bases pc).
Proof.
  intros c st pc s documents r l r' H. split.
  - revert r l r' H. change (post (Forall (ends_in (ic_bases pc))) (generate_inputs c st pc s documents)). unfold generate_inputs. apply post_skip. intros rf. apply post_skip. intros _.
    assert (W : forall key fs, post (Forall (ends_in (ic_bases pc))) (generate_oneof_wrapper_input c st pc s key fs)).
    { intros key fs. unfold generate_oneof_wrapper_input. apply post_skip. intros ab. apply (post_bind (Forall (fun x => ends_in (ic_bases pc) (snd x)))).
      - apply (post_mmap (fun x => ends_in (ic_bases pc) (snd x))). intros [vk v] _. unfold oneof_wrapper_class. do 4 (apply post_skip; intros ?). apply post_skip. intros cfg. apply post_ret. eexists. reflexivity.
      - intros ws Hw. apply post_skip. intros al. eapply (post_bind (ends_in (ic_bases pc))).
        + unfold generate_union_alias. destruct (map fst ws) as [|m [|m' ms]]; [apply post_skip; intros _; apply post_ret; exact I|apply post_ret; exact I|apply post_skip; intros _; apply post_ret; exact I].
        + intros a Ha. apply post_ret. apply Forall_app. split; [|constructor; [exact Ha|constructor]]. clear - Hw. induction Hw; constructor; assumption. }
    apply (post_bind (fun x => Forall (ends_in (ic_bases pc)) (snd x))).
    { apply post_mfold; [|constructor]. intros [p tree] [key t] _ Hx. cbn [snd] in Hx. unfold prepass_type. apply post_skip. intros [ms discr]. destruct ms as [|m ms]; [apply post_ret; exact Hx|].
      apply post_skip. intros ds. apply post_skip. intros n. unfold generate_input_type. eapply post_bind; [apply post_skip; intros ab; apply post_input_bases|]. intros cl Hc. apply post_ret. cbn [snd].
      apply Forall_app. split; [exact Hx|]. constructor; [exact Hc|constructor]. }
    intros x Hx. apply (post_bind (fun y => Forall (ends_in (ic_bases pc)) (fst y))).
    { apply post_mfold; [|exact Hx]. intros [tree df] [key t] _ Ha. cbn [fst] in Ha. unfold main_type. apply post_if; [apply post_ret; exact Ha|]. apply post_if; [apply post_ret; exact Ha|].
      apply post_if; [apply post_ret; exact Ha|]. apply post_if.
      - apply post_skip. intros _. cbn zeta.
        assert (V : post (fun y => Forall (ends_in (ic_bases pc)) (fst y)) (let* l := generate_oneof_wrapper_input c st pc s key (id_fields t) in ret (tree ++ l, df))).
        { eapply post_bind; [apply W|]. intros l Hl. apply post_ret. cbn [fst]. apply Forall_app. split; assumption. }
        destruct (if String.eqb _ _ then _ else _) as [ms|]; [|exact V]. apply post_if; [exact V|apply post_ret; exact Ha].
      - destruct (dget key _) as [members|].
        + do 4 (apply post_skip; intros ?). apply post_ret. cbn [fst]. apply Forall_app. split; [exact Ha|]. repeat constructor.
        + apply post_skip. intros ab. apply post_skip. intros n. eapply post_bind; [apply post_input_bases|]. intros cl Hc. apply post_ret. cbn [fst]. apply Forall_app. split; [exact Ha|].
          constructor; [exact Hc|constructor]. }
    intros y Hy. apply (post_bind (Forall (ends_in (ic_bases pc)))).
    { apply post_mconcat. intros km _. unfold generate_oneof_direct_union. apply post_skip. intros al. cbn zeta. do 4 (apply post_skip; intros ?). apply post_ret. repeat constructor. }
    intros l Hl. apply post_ret. apply Forall_app. split; assumption.
  - unfold generate_inputs in H. apply bind_ok in H as (rf & r1 & _ & H). apply bind_ok in H as (u & r2 & H2 & H). apply imports_known in H2. eapply known_incl; [|exact H2].
    assert (E : evolve st inputs_kinds r2 r').
    { eapply ev_ok; [|exact H]. apply ev_bind; [apply ev_mfold; intros; apply ev_prepass_type|]. intros x. apply ev_bind; [apply ev_mfold; intros; apply ev_main_type|]. intros y.
      apply ev_bind; [apply ev_mconcat; intros; apply ev_oneof_direct_union|]. intros l0. apply ev_ret. }
    apply evolve_rle in E. apply E.
Qed.
Lemma objects_bases : forall c st s pc r l r', Objects.generate_types c st s pc r = (Ok l, r') -> Forall (ends_in (ob_bases pc)) l.
Proof.
  intros c st s pc. change (post (Forall (ends_in (ob_bases pc))) (Objects.generate_types c st s pc)). unfold Objects.generate_types. apply post_skip. intros _.
  eapply (post_bind (fun x => Forall (ends_in (ob_bases pc)) (os_tree x))).
  { apply post_mfold; [|constructor]. intros x [key t] _ Hx. unfold object_step. apply post_skip. intros add. apply post_if; [now apply post_ret|].
    apply post_skip. intros cn. apply post_skip. intros ib. apply post_skip. intros fs. apply post_skip. intros cfg. cbn zeta. apply post_ret. cbn [os_tree].
    apply Forall_app. split; [exact Hx|]. constructor; [|constructor]. exists (add ++ ib). now rewrite app_assoc. }
  intros x Hx. eapply post_bind.
  { apply (post_mmap (ends_in (ob_bases pc))). intros kv _. apply post_skip. intros _. apply post_ret. exact I. }
  intros us Hu. cbn zeta. apply post_skip. intros _. apply post_ret. apply Forall_app. split; [exact Hx|]. apply Forall_app. split; [exact Hu|].
  apply Forall_forall. intros y Hy. apply in_map_iff in Hy as (z & <- & _). exact I.
Qed.

Lemma objects_known : forall c st s pc r l r', Objects.generate_types c st s pc r = (Ok l, r') -> known r' (ob_bases pc).
Proof.
  intros c st s pc r l r' H. unfold Objects.generate_types in H. apply bind_ok in H as (u & r1 & H1 & H). apply imports_known in H1. eapply known_incl; [|exact H1].
  apply bind_ok in H as (x & r2 & H2 & H). apply bind_ok in H as (us & r3 & H3 & H). cbn zeta in H. apply bind_ok in H as (v & r4 & H4 & H). apply ret_ok in H as [_ ->].
  assert (r4 = r3) by (destruct (filter _ _) as [|? ?]; [now apply ret_ok in H4|destruct (c_always_resolve_interfaces c); [discriminate H4|now apply ret_ok in H4]]). subst r4.
  assert (R1 : rle r1 r2) by (eapply evolve_rle, ev_ok; [|exact H2]; apply ev_mfold; intros; apply ev_object_step).
  assert (R2 : rle r2 r3) by (eapply (evolve_rle st [KImp]), ev_ok; [|exact H3]; ev_tac).
  intros y Hy. apply R2. apply R1. exact Hy.
Qed.

(** ** entries *)
Section Entries.
Variable builtins : list string.
Variable importable : string -> bool.
Variable number_str : string -> string.
Variable decode : string -> option json.
Variable environ : list (string * string).
Lemma listed_loaded : forall t prefix options o dl entry c l, In (t, prefix, options) component_options -> In (o, OList OStr, JArray (map JString dl)) options -> uniq (JObject entry) ->
  load_component builtins importable number_str decode (env_vars environ) entry = Some (t, c) -> listed environ entry prefix o dl l -> strings c o = l.
Proof.
  intros t prefix options o dl entry c l It Io U H L. destruct (component_loaded builtins importable number_str decode environ t prefix options entry c It U H) as [_ F].
  rewrite Forall_forall in F. specialize (F _ Io). destruct F as (v & G & V). unfold strings, at_key. rewrite G.
  assert (S : forall l', as_list as_str (JArray (map JString l')) = l') by (intros l'; cbn [as_list]; rewrite map_map; apply map_id).
  destruct V as [(raw & Hr & Hm)|[[N1 N2] ->]].
  - assert (raw = JArray (map JString l)).
    { destruct L as [L|(L1 & L2 & _)].
      - destruct Hr as [raw E _|raw E _|x y raw E _ Ov]; try congruence. assert (y = JArray (map JString l)) by congruence. subst y. inversion Ov; reflexivity.
      - destruct Hr as [raw E _|raw _ (x & E & _)|x y raw E _ _]; congruence. }
    subst raw. destruct Hm as (a & b & Ea & -> & F). injection Ea as <-.
    assert (b = map JString l); [|subst b; apply S]. clear - F. revert b F. induction l as [|x l IH]; intros b F; inversion F; subst; [reflexivity|]. cbn [map]. f_equal; [|now apply IH].
    match goal with H : means _ _ OStr _ _ |- _ => cbn in H end. firstorder congruence.
  - destruct L as [L|(_ & _ & ->)]; [congruence|apply S].
Qed.
Notation load entry := (load_component builtins importable number_str decode (env_vars environ) entry).
Ltac pick := match goal with |- In _ component_options => unfold component_options; apply in_or_app; left; unfold plugin_options; repeat (try (left; reflexivity); right) end.
Lemma entry_operations : forall entry options domain c st s po add doc_of d r l r' o name own,
  uniq (JObject entry) -> load entry = Some ("turms.plugins.operations.OperationsPlugin", options) ->
  listed environ entry "TURMS_PLUGINS_OPERATIONS_" (bases_option (op_kind o)) [] own ->
  operations_plugin c st s (to_operations domain options) po add doc_of d r = (Ok l, r') -> In (DOp o) d -> op_name o = Some name ->
  (exists body, In (SClass (Spec_Funcs.operation_class st (op_kind o) name) (as_bases (or_general (c_object_bases c) own)) body []) l)
  /\ provided (r_imports r') (or_general (c_object_bases c) own).
Proof.
  intros entry options domain c st s po add doc_of d r l r' o name own U HL Hl H Ho EN. destruct (operations_bases c st s _ po add doc_of d r l r' H o name Ho EN) as (body & I & K & _).
  assert (E : own_bases (to_operations domain options) (op_kind o) = own).
  { transitivity (strings options (bases_option (op_kind o))); [destruct (op_kind o); reflexivity|].
    eapply (listed_loaded "turms.plugins.operations.OperationsPlugin"); [pick| |exact U|exact HL|exact Hl]. destruct (op_kind o); cbn; tauto. }
  rewrite E in *. split; [eauto|exact K].
Qed.
Lemma entry_inputs : forall entry options c st s documents r l r' own,
  uniq (JObject entry) -> load entry = Some ("turms.plugins.inputs.InputsPlugin", options) ->
  listed environ entry "TURMS_PLUGINS_INPUTS_" "inputtype_bases" ["pydantic.BaseModel"] own ->
  Inputs.generate_inputs c st (to_inputs options) s documents r = (Ok l, r') -> Forall (ends_in own) l /\ provided (r_imports r') own.
Proof.
  intros entry options c st s documents r l r' own U HL Hl H. apply inputs_bases in H. cbn [to_inputs ic_bases] in H.
  rewrite (listed_loaded "turms.plugins.inputs.InputsPlugin" _ _ "inputtype_bases" ["pydantic.BaseModel"] entry options own ltac:(pick) ltac:(left; reflexivity) U HL Hl) in H. exact H.
Qed.
Lemma entry_objects : forall entry options c st s r l r' own,
  uniq (JObject entry) -> load entry = Some ("turms.plugins.objects.ObjectsPlugin", options) ->
  listed environ entry "TURMS_PLUGINS_OBJECTS_" "types_bases" ["pydantic.BaseModel"] own ->
  Objects.generate_types c st s (to_objects options) r = (Ok l, r') -> Forall (ends_in own) l /\ provided (r_imports r') own.
Proof.
  intros entry options c st s r l r' own U HL Hl H. pose proof (objects_known _ _ _ _ _ _ _ H) as K. apply objects_bases in H. cbn [to_objects ob_bases] in H, K.
  rewrite (listed_loaded "turms.plugins.objects.ObjectsPlugin" _ _ "types_bases" ["pydantic.BaseModel"] entry options own ltac:(pick) ltac:(left; reflexivity) U HL Hl) in H, K. exact (conj H K).
Qed.
Lemma ends_based : forall l n own mid general, (exists m, In m l /\ class_named n m /\ ends_in (own ++ mid ++ general) m) -> based_on l n own general.
Proof.
  intros l n own mid general (m & I & (b & body & decs & ->) & (pre & ->)). exists pre, (as_bases mid), body, decs. unfold as_bases in I |- *. rewrite !map_app in I. exact I.
Qed.
Lemma entry_fragments : forall entry options c st s pf add d r l r' own,
  uniq (JObject entry) -> load entry = Some ("turms.plugins.fragments.FragmentsPlugin", options) ->
  listed environ entry "TURMS_PLUGINS_FRAGMENTS_" "fragment_bases" [] own ->
  unique_fragment_names d -> fragments_plugin c st s (to_fragments options) pf add d r = (Ok l, r') -> forall f, In (DFrag f) d ->
  match get_type s (fr_on f) with
  | Some (TObject _ _ _ _) => based_on l (style_with sty_fragment st (fr_name f)) own (c_object_bases c)
  | Some (TUnion _ ms) => forall i, In i ms -> based_on l (style_with sty_fragment st (fr_name f) +s+ i) own (c_object_bases c)
  | _ => True
  end.
Proof.
  intros entry options c st s pf add d r l r' own U HL Hl UF H f Hf. pose proof (fragments_bases c st s _ pf add d r l r' UF H f Hf) as X. cbn [to_fragments fr_bases fr_object_bases] in X.
  rewrite (listed_loaded "turms.plugins.fragments.FragmentsPlugin" _ _ "fragment_bases" [] entry options own ltac:(pick) ltac:(left; reflexivity) U HL Hl) in X.
  destruct (get_type s (fr_on f)) as [[]|]; try exact I; [apply ends_based in X; exact X|]. intros i Hi. specialize (X i Hi). apply (ends_based l _ own []). exact X.
Qed.
End Entries.
