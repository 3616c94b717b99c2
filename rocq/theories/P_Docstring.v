(** Proofs about docstrings. *)
From Coq Require Import Permutation.
From Verif Require Import Base PyAst Gql Config Stylers Registry Utils Documents Recurse Funcs Spec_Names Spec_Funcs Spec_Docstring
  P_Base P_Gql P_Monad P_Attr P_Documents P_Funcs P_Funcs2 P_Total9.

Lemma join_app_s : forall a b, join "" (a ++ b) = join "" a +s+ join "" b.
Proof. induction a as [|x a IH]; intros b; [reflexivity|]. cbn [app]. rewrite !join_cons, IH. now rewrite app_assoc_s. Qed.
Lemma join_snoc : forall sep l x, l <> [] -> join sep (l ++ [x]) = join sep l +s+ sep +s+ x.
Proof.
  intros sep. induction l as [|a l IH]; intros x H; [now destruct H|]. destruct l as [|b l]; [reflexivity|].
  change (join sep ((a :: b :: l) ++ [x])) with (a +s+ sep +s+ join sep ((b :: l) ++ [x])). rewrite IH by discriminate.
  change (join sep (a :: b :: l)) with (a +s+ sep +s+ join sep (b :: l)). now rewrite !app_assoc_s.
Qed.

(** ** Shipped stylers style parameters like nodes *)
Lemma shipped_param : forall st, Forall shipped st -> forall n, style_with sty_parameter st n = style_with sty_node st n.
Proof.
  intros st F n. unfold style_with.
  assert (E : forall n, fold_left (fun n s => sty_parameter s n) st n = fold_left (fun n s => sty_node s n) st n).
  { induction F as [|x st S F IH]; intros m; [reflexivity|]. cbn [fold_left]. destruct S; apply IH. }
  now rewrite E.
Qed.

(** ** Descriptions of variables *)
Section Describe.
Variable s : schema.
Definition texts (l : list string) : option string := match l with [] => None | _ => Some (join " AND " l) end.
Lemma none_args : forall n args m m', rfoldl (describe_arg s None n) args m = Ok m' -> m' = m.
Proof.
  intros n. induction args as [|[k v] args IH]; intros m m' H; cbn in H; [congruence|].
  destruct (describe_arg s None n m (k, v)) as [m1|] eqn:E; [|discriminate]. cbn in H. apply IH in H. subst. unfold describe_arg in E. cbn in E. destruct v; try discriminate; congruence.
Qed.
Lemma level2_keeps : forall f l m m', (forall a n ar ds l' g m m', In (SelField (FieldNode a n ar ds (Some l'))) l -> In (SelField g) l' -> f m g = Ok m' -> m' = m) -> level2 f l m = Ok m' -> m' = m.
Proof.
  intros f. induction l as [|x l IH]; intros m m' K H; [cbn in H; congruence|].
  assert (Rest : forall k, level2 f l k = Ok m' -> m' = k) by (intros k; apply IH; intros a n ar ds l' g m0 m1 Hi; eapply K; right; exact Hi).
  destruct x as [[a n ar ds sels]|k ds|k ds l1]; [|now apply Rest|now apply Rest]. cbn [level2] in H.
  match type of H with rbind ?b _ = _ => destruct b as [m1|] eqn:E; [|discriminate] end. cbn [rbind] in H. apply Rest in H. subst m'.
  destruct (String.eqb n "__typename"); [congruence|]. destruct sels as [l'|]; [|congruence].
  assert (Hg : forall g m m', In (SelField g) l' -> f m g = Ok m' -> m' = m) by (intros g m0 m2 Hi; eapply K; [now left|exact Hi]). clear - Hg E.
  revert m E. induction l' as [|y l' IH]; intros m E; [congruence|]. destruct y as [g| |].
  - destruct (f m g) as [m2|] eqn:F; [|discriminate]. cbn [rbind] in E. apply Hg in F; [|now left]. subst m2. apply IH; [|exact E]. intros; eapply Hg; [right|]; eassumption.
  - apply IH; [|exact E]. intros; eapply Hg; [right|]; eassumption.
  - apply IH; [|exact E]. intros; eapply Hg; [right|]; eassumption.
Qed.
Lemma nested_keeps : forall x f, x = SelField f -> (forall m m', estimate_field s None f m = Ok m' -> m' = m)
  /\ (forall a n ar ds l' g m m', f = FieldNode a n ar ds (Some l') -> In (SelField g) l' -> estimate_field s None g m = Ok m' -> m' = m).
Proof.
  intros x. induction x as [a n ar ds|a n ar ds l IH|n ds|k ds l IH] using sel_ind; intros f E; try discriminate; injection E as <-.
  - split; [|discriminate]. intros m m' H. rewrite estimate_eq in H. destruct (rfoldl _ ar m) as [m1|] eqn:R; [|discriminate]. cbn in H. apply none_args in R. congruence.
  - rewrite Forall_forall in IH. split.
    + intros m m' H. rewrite estimate_eq in H. destruct (rfoldl _ ar m) as [m1|] eqn:R; [|discriminate]. cbn [rbind] in H. apply none_args in R. subst m1.
      eapply level2_keeps; [|exact H]. intros a' n' ar' ds' l' g m0 m1 Hi Hg. destruct (IH _ Hi _ eq_refl) as (_ & X). now apply (X _ _ _ _ _ _ _ _ eq_refl Hg).
    + intros a' n' ar' ds' l' g m m' E Hg. injection E as -> -> -> -> ->. apply (IH _ Hg _ eq_refl).
Qed.
Lemma root_args : forall root n args m m' l, (forall a v, In (a, VVar v) args -> a = v) -> (forall v, dget v m = texts (l v)) ->
  rfoldl (describe_arg s (Some root) n) args m = Ok m' ->
  forall v, dget v m' = texts (l v ++ flat_map (fun a => match snd a with VVar w => if String.eqb w v then arg_text s root n (fst a) else [] | _ => [] end) args).
Proof.
  intros root n. induction args as [|[k x] args IH]; intros m m' l SN HM H v; cbn [rfoldl] in H.
  - cbn. rewrite app_nil_r. injection H as <-. apply HM.
  - destruct (describe_arg s (Some root) n m (k, x)) as [m1|] eqn:E; [|discriminate]. cbn [rbind] in H. cbn [flat_map fst snd]. rewrite app_assoc.
    apply (IH m1 m' (fun v => l v ++ match x with VVar w => if String.eqb w v then arg_text s root n k else [] | _ => [] end)); [intros a w Hi; apply SN; now right| |exact H].
    clear v. intros v. unfold describe_arg in E. cbn [snd] in E. destruct x; try (injection E as <-; rewrite app_nil_r; apply HM).
    match type of SN with context [In _ ((k, VVar ?z) :: _)] => rename z into w end.
    assert (k = w) by (apply SN; now left). subst k. unfold arg_text. destruct (get_field_def s root n) as [fd|]; [|discriminate].
    destruct (dget w (fd_args fd)) as [a|]; [|injection E as <-; destruct (String.eqb w v); rewrite app_nil_r; apply HM].
    destruct (arg_desc a) as [[|c d]|]; cbn [truthy] in E; try (injection E as <-; destruct (String.eqb w v); rewrite app_nil_r; apply HM).
    injection E as <-. rewrite dget_dset, (String.eqb_sym v w). destruct (String.eqb w v) eqn:EV; [|rewrite app_nil_r; apply HM].
    apply String.eqb_eq in EV. subst w. rewrite HM. destruct (l v) as [|y l'] eqn:EL; [reflexivity|]. cbn [texts opt_str].
    unfold texts. destruct ((y :: l') ++ [String c d]) eqn:EA; [destruct l'; discriminate|]. rewrite <- EA, join_snoc by discriminate. reflexivity.
Qed.
Lemma estimated : forall o root m, same_names o -> estimate_variable_name s o root = Ok m ->
  forall v, (match dget v m with Some x => x | None => "No description" end) = variable_text s root o v.
Proof.
  intros o root m SN H v.
  assert (G : forall sels m m' l, (forall f a v, In (f, (a, VVar v)) (flat_map (fun x => match x with SelField f => map (fun a => (fn_name f, a)) (fn_args f) | _ => [] end) sels) -> a = v) ->
    (forall v, dget v m = texts (l v)) ->
    rfoldl (fun m sel => match sel with SelField f => estimate_field s (Some root) f m | _ => Ok m end) sels m = Ok m' ->
    forall v, dget v m' = texts (l v ++ flat_map (fun fa => match snd (snd fa) with VVar w => if String.eqb w v then arg_text s root (fst fa) (fst (snd fa)) else [] | _ => [] end)
        (flat_map (fun x => match x with SelField f => map (fun a => (fn_name f, a)) (fn_args f) | _ => [] end) sels))).
  { clear. induction sels as [|x sels IH]; intros m m' l SN HM H v; cbn [rfoldl flat_map] in *; [injection H as <-; rewrite app_nil_r; apply HM|].
    destruct (match x with SelField f => estimate_field s (Some root) f m | _ => Ok m end) as [m1|] eqn:E; [|discriminate]. cbn [rbind] in H.
    assert (SN2 : forall f a v, In (f, (a, VVar v)) (flat_map (fun x => match x with SelField f => map (fun a => (fn_name f, a)) (fn_args f) | _ => [] end) sels) -> a = v).
    { intros f a w Hi. eapply SN. apply in_app_iff. right. exact Hi. }
    destruct x as [[al n ar ds sl]|k ds|k ds l1]; try (injection E as <-; cbn [app]; now apply (IH m m' l)).
    rewrite flat_map_app, app_assoc.
    eapply (IH m1 m' (fun v => l v ++ flat_map (fun fa => match snd (snd fa) with VVar w => if String.eqb w v then arg_text s root (fst fa) (fst (snd fa)) else [] | _ => [] end) (map (fun a => (n, a)) ar))); [exact SN2| |exact H].
    clear v. intros v. rewrite estimate_eq in E. destruct (rfoldl _ ar m) as [m2|] eqn:R; [|discriminate]. cbn [rbind] in E.
    assert (m1 = m2) as ->.
    { destruct sl as [l2|]; [|congruence]. eapply level2_keeps; [|exact E]. intros a' n' ar' ds' l' g m0 m3 Hi Hg.
      destruct (nested_keeps _ _ (eq_refl (SelField (FieldNode a' n' ar' ds' (Some l'))))) as (_ & X). now apply (X _ _ _ _ _ _ _ _ eq_refl Hg). }
    erewrite (root_args root n ar m m2 l); [|intros a w Hi; apply (SN n); apply in_app_iff; left; cbn; apply in_map_iff; now exists (a, VVar w)|exact HM|exact R].
    f_equal. f_equal. clear. induction ar as [|a ar IH]; [reflexivity|]. cbn. now rewrite IH. }
  unfold estimate_variable_name in H. rewrite (G _ [] _ (fun _ => []) SN (fun _ => eq_refl) H v). cbn [app]. unfold variable_text, given_to, top_args.
  unfold texts. destruct (flat_map _ _); reflexivity.
Qed.
End Describe.

(** ** Entries *)
Section Entries.
Variables (c : gconfig) (st : list styler) (s : schema) (pc : fcfg).
Notation param := (style_with sty_parameter st).
Notation expand := (f_expand_input_types pc).
Notation cat es := (join "" (map entry_text es)).
Lemma cat_app : forall a b, cat (a ++ b) = cat a +s+ cat b.
Proof. intros. rewrite map_app. apply join_app_s. Qed.
Lemma descriptions_ok : forall fields r t r', generate_input_type_descriptions st s fields r = (Ok t, r') ->
  exists es, t = cat es /\ Forall2 (fun kf e => describes_field st (fst kf) (snd kf) e) fields es.
Proof.
  intros fields r t r' H. unfold generate_input_type_descriptions in H. apply bind_ok in H as (ls & r1 & H & H2). apply ret_ok in H2 as (-> & _).
  revert r ls r1 H. induction fields as [|[k y] fields IH]; intros r ls r1 H; cbn [mmap fst snd] in H.
  - apply ret_ok in H as (-> & _). exists []. split; [reflexivity|constructor].
  - apply bind_ok in H as (x & r2 & H1 & H). apply bind_ok in H as (xs & r3 & H2 & H). apply ret_ok in H as (-> & _).
    destruct (IH _ _ _ H2) as (es & E & F). apply bind_ok in H1 as (d & r4 & H1 & H3). apply ret_ok in H3 as (-> & _).
    exists ((param k, ": " +s+ d) :: es). split; [rewrite join_cons, E; cbn [map]; rewrite join_cons; unfold entry_text; cbn [fst snd]; unfold generate_parameter_name; now rewrite !app_assoc_s|].
    constructor; [|exact F]. cbn [fst snd]. split; [reflexivity|]. intros z d' Ed. rewrite Ed in H1. cbn [truthy] in H1. apply ret_ok in H1 as (-> & _). reflexivity.
Qed.
Definition var_names (v : vardef) : list string :=
  if mem (v_name v) expand then map (fun kf => param (fst kf)) (input_fields s (v_type v)) else if requiredb v then [param (v_name v)] else [].
Definition var_docs (text : string -> string) (v : vardef) (es : list (string * string)) : Prop :=
  map fst es = var_names v
  /\ (In (v_name v) expand -> Forall2 (fun kf e => describes_field st (fst kf) (snd kf) e) (input_fields s (v_type v)) es)
  /\ (~ In (v_name v) expand -> requiredb v = true -> exists e, es = [e] /\ describes st text v e).
Lemma args_docs : forall text vars r ls r',
  mmap (fun v =>
      if mem (v_name v) expand then
        let* t := expanded_type s v in
        let* fields := fields_of t in
        generate_input_type_descriptions st s fields
      else if var_required v then
        let* l := recurse_type_label st None (v_type v) true in
        ret ("    " +s+ generate_parameter_name st (v_name v) +s+ " (" +s+ l +s+ "): "
             +s+ text (v_name v) +s+ nl)
      else ret "") vars r = (Ok ls, r') ->
  exists ess, join "" ls = cat (concat ess) /\ Forall2 (var_docs text) vars ess.
Proof.
  intros text. induction vars as [|v vars IH]; intros r ls r' H; cbn [mmap] in H.
  - apply ret_ok in H as (-> & _). exists []. split; [reflexivity|constructor].
  - apply bind_ok in H as (x & r2 & H1 & H). apply bind_ok in H as (xs & r3 & H2 & H). apply ret_ok in H as (-> & _). destruct (IH _ _ _ H2) as (ess & E & F).
    assert (X : exists es, x = cat es /\ var_docs text v es).
    { unfold var_docs, var_names. destruct (mem_spec (v_name v) expand) as [I|I].
      - apply bind_ok in H1 as (t & r4 & H3 & H1). apply bind_ok in H1 as (fs & r5 & H4 & H1). pose proof (expanded_fields _ _ _ _ _ H3 _ _ _ H4) as ->.
        apply descriptions_ok in H1 as (es & -> & FE). exists es. split; [reflexivity|]. split; [|split; [auto|intros N; now destruct (N I)]].
        clear - FE. induction FE as [|kf e l m (Q & _) FE IH]; [reflexivity|]. cbn. now rewrite Q, IH.
      - rewrite required_eq in H1. destruct (requiredb v) eqn:RQ.
        + apply bind_ok in H1 as (l & r4 & _ & H1). apply ret_ok in H1 as (-> & _). exists [(param (v_name v), " (" +s+ l +s+ "): " +s+ text (v_name v))].
          split; [cbn [map join]; unfold entry_text; cbn [fst snd]; unfold generate_parameter_name; now rewrite !app_assoc_s|]. split; [reflexivity|]. split; [intros N; now destruct (I N)|].
          intros _ _. eexists. split; [reflexivity|]. split; [reflexivity|]. exists l, "". now rewrite RQ.
        + apply ret_ok in H1 as (-> & _). exists []. split; [reflexivity|]. split; [reflexivity|]. split; [intros N; now destruct (I N)|discriminate]. }
    destruct X as (es & -> & VD). exists (es :: ess). split; [cbn [concat]; rewrite join_cons, E, cat_app; reflexivity|now constructor].
Qed.
Lemma opts_docs : forall text vars r ls r', (forall v, In v vars -> requiredb v = false) ->
  mmap (fun v =>
      let* l := recurse_type_label st None (v_type v) true in
      let* dflt := match v_default v with
                   | None => ret ""
                   | Some x => let* t := default_text x in ret ("Defaults to " +s+ t)
                   end in
      ret ("    " +s+ generate_parameter_name st (v_name v) +s+ " (" +s+ l +s+ ", optional): "
           +s+ text (v_name v)
           +s+ ". " +s+ dflt +s+ nl)) vars r = (Ok ls, r') ->
  exists es, join "" ls = cat es /\ Forall2 (describes st text) vars es.
Proof.
  intros text. induction vars as [|v vars IH]; intros r ls r' HR H; cbn [mmap] in H.
  - apply ret_ok in H as (-> & _). exists []. split; [reflexivity|constructor].
  - apply bind_ok in H as (x & r2 & H1 & H). apply bind_ok in H as (xs & r3 & H2 & H). apply ret_ok in H as (-> & _). destruct (IH _ _ _ (fun w Hw => HR w (or_intror Hw)) H2) as (es & E & F).
    apply bind_ok in H1 as (l & r4 & _ & H1). apply bind_ok in H1 as (d & r5 & _ & H1). apply ret_ok in H1 as (-> & _).
    exists ((param (v_name v), " (" +s+ l +s+ ", optional): " +s+ text (v_name v) +s+ ". " +s+ d) :: es).
    split; [rewrite join_cons, E; cbn [map]; rewrite join_cons; unfold entry_text; cbn [fst snd]; unfold generate_parameter_name; now rewrite !app_assoc_s|].
    constructor; [|exact F]. split; [reflexivity|]. exists l, d. cbn [snd]. now rewrite (HR v (or_introl eq_refl)).
Qed.
Lemma partition_names : forall (f : string -> string) (p : inputfield -> bool) fields,
  Permutation (map (fun kf => f (fst kf)) fields)
    (map (fun kf => f (fst kf)) (filter (fun kf : string * inputfield => Bool.eqb (p (snd kf)) true) fields) ++ map (fun kf => f (fst kf)) (filter (fun kf => Bool.eqb (p (snd kf)) false) fields)).
Proof.
  intros f p. induction fields as [|[k y] l IH]; [constructor|]. cbn [map filter fst snd]. destruct (p y); cbn [Bool.eqb map app fst].
  - now constructor.
  - eapply perm_trans; [apply perm_skip; exact IH|]. apply Permutation_middle.
Qed.
Lemma vars_partition : Forall shipped st -> forall vars,
  Permutation (flat_map var_names vars)
    (expanded_names s (generate_node_name st) expand vars true ++ plain_names param expand vars true ++ expanded_names s (generate_node_name st) expand vars false).
Proof.
  intros HS. induction vars as [|v vars IH]; [constructor|]. unfold expanded_names, plain_names, var_names in *. cbn [flat_map filter].
  destruct (mem (v_name v) expand); cbn [negb andb].
  - assert (E : map (fun kf : string * inputfield => param (fst kf)) (input_fields s (v_type v)) = map (fun kf => generate_node_name st (fst kf)) (input_fields s (v_type v))).
    { apply map_ext. intros kf. now apply shipped_param. }
    rewrite E. eapply perm_trans; [apply Permutation_app; [apply (partition_names _ (fun y => nonnullb (if_type y)))|exact IH]|].
    rewrite <- !app_assoc. apply Permutation_app_head. eapply perm_trans; [apply Permutation_app_swap_app|]. apply Permutation_app_head.
    apply Permutation_app_swap_app.
  - destruct (requiredb v); cbn [Bool.eqb map app].
    + eapply perm_trans; [apply perm_skip; exact IH|]. apply Permutation_middle.
    + exact IH.
Qed.
End Entries.

(** ** Docstrings *)
Lemma join_head : forall sep x l, exists more, join sep (x :: l) = x +s+ more.
Proof. intros sep x [|y l]; [exists ""; cbn; now rewrite app_nil_r_s|eexists; reflexivity]. Qed.
Lemma concat_names : forall st s pc text vars ess, Forall2 (var_docs st s pc text) vars ess -> map fst (concat ess) = flat_map (var_names st s pc) vars.
Proof. intros st s pc text vars ess F. induction F as [|v es vars ess (Q & _) F IH]; [reflexivity|]. cbn. now rewrite map_app, Q, IH. Qed.
Lemma describes_ext : forall st t1 t2 v e, t1 (v_name v) = t2 (v_name v) -> describes st t1 v e -> describes st t2 v e.
Proof. intros st t1 t2 v e E (H1 & l & d & H2). split; [exact H1|]. exists l, d. now rewrite <- E. Qed.
Theorem function_docs : forall c st s pc doc_of o d r a n args body rt decs r', Forall shipped st -> no_optional_expansion (f_expand_input_types pc) (op_vars o) ->
  generate_operation_func c st s pc doc_of o d r = (Ok (SFunc a n args body rt decs), r') ->
  exists name root text rest entries returns, op_name o = Some name /\ root_type s (op_kind o) = Some root
  /\ body = docstring text :: rest /\ docs (name +s+ " " +s+ nl) "Args:" entries (nl +s+ "Returns:" +s+ nl +s+ "    " +s+ returns +s+ nl) text
  /\ Permutation (map fst entries) (map pa_name (a_args args))
  /\ (forall v, In v (op_vars o) -> ~ In (v_name v) (f_expand_input_types pc) -> same_names o -> exists e, In e entries /\ describes st (variable_text s root o) v e)
  /\ (forall v, In v (op_vars o) -> In (v_name v) (f_expand_input_types pc) ->
        forall k y, In (k, y) (input_fields s (v_type v)) -> exists e, In e entries /\ describes_field st k y e).
Proof.
  intros c st s pc doc_of o d r a n args body rt decs r' HS HE H. apply func_parts in H as (name & doc & args' & rt' & EN & HD & HP & _ & E). injection E as -> -> -> -> _ _.
  destruct (generate_parameters c st s pc d o r) as [x r1] eqn:G. cbn [fst] in HP. subst x. apply parameters_spec in G as (G & _ & _); [|exact HE].
  destruct (generate_query_doc st s pc doc_of d o _ r) as [x r2] eqn:Q in HD. cbn [fst] in HD. subst x. unfold generate_query_doc in Q. cbn zeta in Q.
  apply bind_ok in Q as (root & q1 & Q1 & Q). apply bind_ok in Q as (u1 & q2 & _ & Q). apply bind_ok in Q as (returns & q3 & _ & Q). apply bind_ok in Q as (dmap & q4 & Q4 & Q). apply lift_ok in Q4 as (Q4 & ->).
  apply bind_ok in Q as (description & q5 & Q5 & Q). apply bind_ok in Q as (ls & q6 & Q6 & Q). apply bind_ok in Q as (os & q7 & Q7 & Q). apply ret_ok in Q as (-> & _).
  assert (DH : exists more, description = (name +s+ " " +s+ nl) +s+ more).
  { rewrite EN in Q5. cbn [opt_str] in Q5. destruct (truthy _) in Q5; [apply ret_ok in Q5 as (-> & _); eexists; reflexivity|].
    apply bind_ok in Q5 as (descs & q8 & _ & Q5). apply ret_ok in Q5 as (-> & _). apply join_head. }
  destruct DH as (more & ->).
  set (text := fun v : string => match dget v dmap with Some x => x | None => "No description" end) in *.
  apply (args_docs st s pc text) in Q6 as (ess & E6 & F6). apply (opts_docs st text) in Q7 as (es & E7 & F7).
  2:{ intros v Hv. apply filter_In in Hv as (_ & Hv). rewrite required_eq in Hv. now destruct (requiredb v). }
  set (xs := map (fun a => (fa_key a, " (" +s+ fa_type a +s+ "): " +s+ fa_desc a)) (extra_args pc d)).
  set (ks := map (fun k => (fk_key k, " (" +s+ fk_type k +s+ ", optional): " +s+ fk_desc k)) (extra_kwargs pc d)).
  eexists name, root, _, _, (xs ++ concat ess ++ es ++ ks), returns. split; [exact EN|]. split.
  { unfold root_of in Q1. destruct (root_type s (op_kind o)); [apply ret_ok in Q1 as (-> & _); reflexivity|discriminate]. }
  split; [reflexivity|]. split.
  { exists more. rewrite E6, E7, !cat_app.
    assert (EX : join "" (map (fun a => "    " +s+ fa_key a +s+ " (" +s+ fa_type a +s+ "): " +s+ fa_desc a +s+ nl) (extra_args pc d)) = join "" (map entry_text xs)).
    { unfold xs. rewrite map_map. f_equal. apply map_ext. intros z. unfold entry_text. cbn [fst snd]. now rewrite !app_assoc_s. }
    assert (EK : join "" (map (fun k => "    " +s+ fk_key k +s+ " (" +s+ fk_type k +s+ ", optional): " +s+ fk_desc k +s+ nl) (extra_kwargs pc d)) = join "" (map entry_text ks)).
    { unfold ks. rewrite map_map. f_equal. apply map_ext. intros z. unfold entry_text. cbn [fst snd]. now rewrite !app_assoc_s. }
    rewrite EX, EK. now rewrite !app_assoc_s. }
  split.
  { rewrite G. unfold required_parameters, optional_parameters. rewrite !map_app, (concat_names _ _ _ _ _ _ F6).
    assert (EX : map fst xs = map fa_key (extra_args pc d)) by (unfold xs; rewrite map_map; reflexivity).
    assert (EK : map fst ks = map fk_key (extra_kwargs pc d)) by (unfold ks; rewrite map_map; reflexivity).
    assert (EO : map fst es = plain_names (style_with sty_parameter st) (f_expand_input_types pc) (op_vars o) false).
    { rewrite <- (plain_filter st pc) by exact HE. clear - F7. induction F7 as [|v e l m (Q & _) F IH]; [reflexivity|]. cbn. now rewrite Q, IH. }
    rewrite EX, EK, EO. rewrite <- !app_assoc. apply Permutation_app_head.
    eapply perm_trans; [apply Permutation_app_tail; apply (vars_partition st s pc HS)|]. rewrite <- !app_assoc. apply Permutation_refl. }
  split.
  - intros v Hv Hx SN.
    assert (ET : text (v_name v) = variable_text s root o (v_name v)) by (unfold text; now apply estimated).
    destruct (requiredb v) eqn:RQ.
    + destruct (Forall2_In_l _ _ _ _ F6 Hv) as (el & Hel & _ & _ & V). destruct (V Hx RQ) as (e & -> & De). exists e. split; [|now apply (describes_ext _ text)].
      rewrite !in_app_iff. right. left. apply in_concat. eexists. split; [exact Hel|now left].
    + destruct (Forall2_In_l _ _ _ v F7) as (e & He & De); [apply filter_In; split; [exact Hv|]; now rewrite required_eq, RQ|]. exists e. split; [|now apply (describes_ext _ text)].
      rewrite !in_app_iff. tauto.
  - intros v Hv Hx k y Hk. destruct (Forall2_In_l _ _ _ _ F6 Hv) as (el & Hel & _ & V & _). destruct (Forall2_In_l _ _ _ _ (V Hx) Hk) as (e & He & De).
    exists e. split; [|exact De]. rewrite !in_app_iff. right. left. apply in_concat. eauto.
Qed.
Theorem factory_docs : forall c st s pc key fields r a n args body rt decs r', Forall shipped st -> i_extract_documentation pc = true ->
  generate_input_func c st s pc key fields r = (Ok (SFunc a n args body rt decs), r') ->
  exists cls text rest entries, dget key (r_inputs r) = Some cls /\ body = docstring text :: rest
  /\ docs ("Creates a " +s+ cls) "Arguments:" entries "" text
  /\ Permutation (map fst entries) (map pa_name (a_args args))
  /\ Forall2 (fun kf e => describes_field st (fst kf) (snd kf) e) fields entries.
Proof.
  intros c st s pc key fields r a n args body rt decs r' HS HX H. unfold generate_input_func in H. rewrite HX in H.
  apply bind_ok in H as (cls & r1 & H1 & H). apply bind_ok in H as (p & r2 & H2 & H). apply bind_ok in H as (doc & r3 & H3 & H). apply bind_ok in H as (h & r4 & _ & H). apply bind_ok in H as (b & r5 & _ & H). apply ret_ok in H as (E & _). injection E as -> -> -> -> -> ->.
  apply bind_ok in H3 as (t & r6 & H3 & H4). apply ret_ok in H4 as (-> & _). apply descriptions_ok in H3 as (es & -> & F).
  pose proof (input_type_params_ok _ _ _ _ _ _ _ _ H2) as (P1 & P2 & _).
  eexists cls, _, _, es. split; [unfold get_inputtype_class in H1; minv; assumption|]. split; [reflexivity|]. split.
  { exists "". rewrite app_assoc_s, app_nil_r_s. reflexivity. }
  split; [|exact F]. cbn [a_args]. rewrite map_app, P1, P2.
  eapply perm_trans; [|apply (partition_names (generate_node_name st) (fun y => nonnullb (if_type y)))].
  assert (E : map fst es = map (fun kf => generate_node_name st (fst kf)) fields).
  { clear - F HS. induction F as [|kf e l m (Q & _) F IH]; [reflexivity|]. cbn. rewrite Q, IH. f_equal. now apply shipped_param. }
  rewrite E. apply Permutation_refl.
Qed.
