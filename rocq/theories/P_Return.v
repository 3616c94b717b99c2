(** The return annotations of functions are those of the operation classes. *)
From Verif Require Import Base PyAst Gql Config Stylers Registry Utils Recurse Inline Operations Funcs Spec_Types Spec_Funcs Spec_Return P_Base P_Gql P_Monad P_Config P_Recurse P_Fields P_Inline P_InlineProps P_Indep P_Funcs P_Funcs2.
Arguments register_import : simpl never.
Arguments add_forward : simpl never.
Arguments register_builtin : simpl never.

Lemma frame_single : forall st K r r', ~ In KSin K -> evolve st K r r' -> r_single r' = r_single r.
Proof. frame. Qed.
Definition op_class (st : list styler) (k : optype) (n : string) : string :=
  match k with OpQuery => style_query_class st n | OpMutation => style_mutation_class st n | OpSubscription => style_subscription_class st n end.
Lemma op_class_eq : forall st k n, op_class st k n = Spec_Funcs.operation_class st k n.
Proof. now intros st []. Qed.


Section Operations.
Variable c : gconfig. Variable st : list styler. Variable s : schema. Variable pc : ocfg. Variable po : operation -> string. Variable add : string -> res string. Variable doc_of : operation -> option string.
Lemma class_name_of : forall o n r cb r', Operations.operation_class c st pc o n r = (Ok cb, r') -> fst cb = op_class st (op_kind o) n /\ r_single r' = r_single r.
Proof.
  intros o n r cb r' H. split.
  - unfold Operations.operation_class in H. unfold op_class. destruct (op_kind o); apply bind_ok in H as (m & r1 & H1 & H); apply bind_ok in H as (b & r2 & H2 & H); apply ret_ok in H as [-> ->]; cbn;
      apply generate_in_spec in H1; tauto.
  - eapply (frame_single st [KImp; KBui; KFwd; KQry; KMut; KSub]); [cbn; intuition discriminate|eapply ev_ok; [|exact H]]. unfold Operations.operation_class, bases_or_default. ev_go.
Qed.
Lemma config_single : forall k tn r l r', generate_pydantic_config k c tn r = (Ok l, r') -> r_single r' = r_single r.
Proof. intros k tn r l r' H. eapply (frame_single st Ksel); [cbn; intuition discriminate|eapply ev_ok; [|exact H]]. ev_go. Qed.
Lemma operation_single : forall o n r cs r', generate_operation c st s pc po add doc_of o r = (Ok cs, r') -> op_name o = Some n ->
  (forall m, m <> n -> dget m (r_single r') = dget m (r_single r))
  /\ exists bases body, In (SClass (op_class st (op_kind o) n) bases body []) cs
     /\ forall x, op_sels o = [x] -> exists f a v, x = SelField f /\ class_fields body = [(generate_node_name st (target_from_node f), a, v)] /\ dget n (r_single r') = Some a.
Proof.
  intros o n r cs r' H N. unfold generate_operation in H. rewrite N in H.
  apply bind_ok in H as (n' & r0 & H0 & H). injection H0 as <- <-.
  apply bind_ok in H as (cb & r1 & H1 & H). destruct (class_name_of _ _ _ _ _ H1) as (Ec & S1).
  apply bind_ok in H as (root & r2 & H2 & H). assert (r2 = r1) as -> by (destruct (root_type s (op_kind o)); [injection H2; auto|discriminate]). cbn zeta in H.
  apply bind_ok in H as (rr & r3 & H3 & H).
  assert (r_single r3 = r_single r1) as S3. { eapply (frame_single st Ksel); [cbn; intuition discriminate|eapply ev_ok; [|exact H3]]. unfold root_item. ev_go. }
  apply bind_ok in H as (u & r4 & H4 & H). apply bind_ok in H as (doc & r5 & H5 & H).
  assert (r_single r5 = r_single r4) as S5. { eapply (frame_single st []); [cbn; intuition discriminate|eapply ev_ok; [apply ev_replace|exact H5]]. }
  apply bind_ok in H as (args & r6 & H6 & H).
  assert (r_single r6 = r_single r5) as S6. { eapply (frame_single st Ksel); [cbn; intuition discriminate|eapply ev_ok; [apply (ev_arguments_class c st (fun _ => Ok ""))|exact H6]]. }
  apply bind_ok in H as (cfg & r7 & H7 & H). apply ret_ok in H as [-> ->]. pose proof (config_single _ _ _ _ _ H7) as S7. pose proof (config_fields c _ _ _ _ _ H7) as Fc.
  split.
  - intros m Hm. rewrite S7, S6, S5. rewrite <- S1, <- S3. destruct (snd rr) as [|[|[] ?] []]; try (injection H4 as _ <-; reflexivity). unfold register_operation_single, modify in H4. injection H4 as _ <-. cbn. rewrite dget_dset. destruct (String.eqb_spec m n); [contradiction|reflexivity].
  - eexists; eexists. split; [apply in_app_iff; right; left; rewrite Ec; reflexivity|]. intros x Es. rewrite Es in H3. destruct x as [f| |]; [|discriminate H3|discriminate H3]. exists f. cbn [mfold root_item] in H3.
    apply bind_ok in H3 as (acc & ra & H3 & Hx). apply ret_ok in Hx as [-> ->]. apply bind_ok in H3 as (fd & rb & Hb & H3). apply bind_ok in H3 as (res & rc & Hc & H3). apply ret_ok in H3 as [-> _]. cbn [snd fst app] in H4.
    destruct f as [alias name fargs ds sels]. rewrite tfn_eq in Hc. cbn zeta in Hc. apply bind_ok in Hc as (w & rd & _ & Hc). apply bind_ok in Hc as (bd & re & Hf & Hc). apply ret_ok in Hc as [-> _]. cbn [snd] in H4.
    unfold field_statements in Hf. cbn zeta in Hf. apply bind_ok in Hf as (a & rg & _ & Hf). apply bind_ok in Hf as (z & rh & _ & Hf). apply ret_ok in Hf as [-> _].
    exists a. eexists. split; [reflexivity|split].
    + rewrite !class_fields_app, Fc. assert (class_fields args = []) as ->.
      { unfold arguments_class in H6. destruct (o_create_arguments pc); [|apply ret_ok in H6 as [-> _]; reflexivity]. apply bind_ok in H6 as (x1 & q1 & _ & H6). apply bind_ok in H6 as (x2 & q2 & _ & H6). apply bind_ok in H6 as (x3 & q3 & _ & H6). apply ret_ok in H6 as [-> _]. reflexivity. }
      cbn [fst snd List.concat app]. rewrite !app_nil_r. unfold class_fields. cbn [flat_map app]. destruct (compose_field_documentation _ _ _ _); reflexivity.
    + rewrite S7, S6, S5. unfold register_operation_single, modify in H4. injection H4 as _ <-. cbn. rewrite dget_dset, String.eqb_refl. reflexivity.
Qed.
(** after the plugin: what is recorded for each operation *)
Definition recorded_result (cs : list stmt) (r : reg) (o : operation) : Prop :=
  exists n, op_name o = Some n /\ exists bases body, In (SClass (op_class st (op_kind o) n) bases body []) cs
     /\ forall x, op_sels o = [x] -> exists f a v, x = SelField f /\ class_fields body = [(generate_node_name st (target_from_node f), a, v)] /\ dget n (r_single r) = Some a.
Lemma recorded_mono : forall cs cs' r r' o, recorded_result cs r o -> incl cs cs' -> (forall n, op_name o = Some n -> dget n (r_single r') = dget n (r_single r)) -> recorded_result cs' r' o.
Proof. intros cs cs' r r' o (n & N & b & body & H & F) I E. exists n. split; [exact N|]. exists b, body. split; [now apply I|]. intros f Hf. rewrite (E _ N). auto. Qed.
Lemma named_ok : forall o r cs r', generate_operation c st s pc po add doc_of o r = (Ok cs, r') -> exists n, op_name o = Some n.
Proof. intros o r cs r' H. unfold generate_operation in H. destruct (op_name o); [eauto|discriminate]. Qed.
Lemma operations_recorded : forall l r yss r', NoDup (map op_name l) -> mmap (generate_operation c st s pc po add doc_of) l r = (Ok yss, r') ->
  (forall o, In o l -> recorded_result (concat yss) r' o) /\ forall m, ~ In (Some m) (map op_name l) -> dget m (r_single r') = dget m (r_single r).
Proof.
  induction l as [|o l IH]; intros r yss r' ND H.
  - apply ret_ok in H as [-> ->]. split; [intros o []|auto].
  - cbn in H. apply bind_ok in H as (y & r1 & H1 & H). apply bind_ok in H as (ys & r2 & H2 & H). apply ret_ok in H as [-> ->]. inversion ND as [|? ? Hn ND']; subst.
    destruct (IH _ _ _ ND' H2) as (I1 & I2). destruct (named_ok _ _ _ _ H1) as (n & N). destruct (operation_single _ _ _ _ _ H1 N) as (O1 & O2). cbn [concat]. split.
    + intros o' [<-|Ho].
      * apply (recorded_mono y _ r1); [exists n; auto|intros x Hx; apply in_app_iff; now left|]. intros m Hm. apply I2. now rewrite <- Hm.
      * apply (recorded_mono (concat ys) _ r2); [auto|intros x Hx; apply in_app_iff; now right|auto].
    + intros m Hm. cbn in Hm. rewrite I2 by tauto. apply O1. intros ->. rewrite N in Hm. tauto.
Qed.
End Operations.

Section Functions.
Variable c : gconfig. Variable st : list styler. Variable s : schema. Variable pc : fcfg. Variable doc_of : operation -> option string.
Lemma returns_recorded : forall cs o d r f r', recorded_result st cs r o -> d_kind d = op_kind o -> generate_operation_func c st s pc doc_of o d r = (Ok f, r') ->
  exists n, op_name o = Some n /\ returns_result cs (op_class st (op_kind o) n) (op_kind o) (f_collapse_lonely pc && (length (op_sels o) =? 1)%nat) f.
Proof.
  intros cs o d r f r' (n & N & b & body & Hin & Hs) K H. exists n. split; [exact N|].
  apply func_parts in H as (n' & doc & args & rt & N' & _ & _ & R & ->). rewrite N in N'. injection N' as <-. cbn [returns_result]. exists b, body. split; [exact Hin|].
  unfold get_return_type_annotation, is_collapsable in R. unfold bind at 1, get_operation_class_name, bind at 1 in R. rewrite N in R. cbn in R. unfold root_of, bind at 1 in R.
  destruct (root_type s (op_kind o)); cbn in R; [|discriminate]. fold (op_class st (op_kind o) n) in R.
  destruct (f_collapse_lonely pc && (length (op_sels o) =? 1)%nat) eqn:B.
  - apply andb_true_iff in B as (B1 & B2). unfold bind at 1, get_operation_single_or_none, gets in R.
    destruct (op_sels o) as [|x []] eqn:Es; try discriminate. destruct (Hs x eq_refl) as (f & a & v & -> & Cf & Sg). cbn [opt_str] in R. rewrite Sg in R. injection R as <-.
    set (pre := doc :: NewDict "variables" :: flat_map (var_assign c st s pc) (op_vars o)). unfold the_call, result_annotation. rewrite K, B1. cbn [collapsed_to get_attr]. unfold target_from_node in *.
    destruct (op_kind o); (do 4 eexists; split; [exact Cf|]; split; [reflexivity|]; exists pre); [left; reflexivity|left; reflexivity|right; do 2 eexists; reflexivity].
  - injection R as <-. unfold result_annotation. rewrite K. reflexivity.
Qed.
End Functions.

Theorem functions_return : forall c st s oc pc po add doc_of doc_of' d r cs r1 fs r2, NoDup (map op_name (operations_of d)) ->
  operations_plugin c st s oc po add doc_of d r = (Ok cs, r1) -> funcs_plugin c st s pc doc_of' d r1 = (Ok fs, r2) ->
  exists F, fs = flat_map (fun o => map (F o) (filter (fun def => optype_eqb (d_kind def) (op_kind o)) (f_definitions pc))) (operations_of d)
  /\ forall o def, In o (operations_of d) -> In def (f_definitions pc) -> d_kind def = op_kind o ->
     exists n, op_name o = Some n /\ returns_result cs (Spec_Funcs.operation_class st (op_kind o) n) (op_kind o) (f_collapse_lonely pc && (length (op_sels o) =? 1)%nat) (F o def).
Proof.
  intros c st s oc pc po add doc_of doc_of' d r cs r1 fs r2 ND H1 H2. unfold operations_plugin in H1. apply mconcat_ok in H1 as (yss & H1 & ->).
  destruct (operations_recorded _ _ _ _ _ _ _ _ _ _ _ ND H1) as (Rc & _). unfold funcs_plugin in H2. apply plugin_functions in H2 as (F & -> & HF). exists F. split; [reflexivity|].
  intros o def Ho Hd K. setoid_rewrite <- op_class_eq. destruct (HF o def Ho) as (ra & rb & Ec & HG).
  { unfold definitions_for. apply filter_In. split; [exact Hd|]. rewrite K. now destruct (op_kind o). }
  change (f_collapse_lonely pc) with (f_collapse_lonely (merged_config c pc)). eapply returns_recorded; [|exact K|exact HG].
  apply (recorded_mono st (concat yss) (concat yss) r1); [auto|apply incl_refl|]. intros n _. assert (r_single ra = r_single r1) as ->; [|reflexivity].
  change (r_single ra) with (r_single (core ra)). rewrite Ec. reflexivity.
Qed.
