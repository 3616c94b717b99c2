(** Proofs for C84, whole input plugin *)
From Verif Require Import Base PyAst Gql Config Stylers Registry Utils Documents Referencer Enums Inputs Recurse
  Spec_Inputs Spec_Kept Spec_Kept2 P_Base P_Monad P_Inputs P_Inputs2 P_Inputs3 P_Kept P_Freeze.

Section K.
Variables (c : gconfig) (st : list styler) (pc : inputs_config) (s : schema).
Definition kept (stm : stmt) : Prop :=
  match stm with
  | SClass cls _ body _ => exists key t, In (key, t) (schema_inputs s)
      /\ ((cls = style_with sty_input st key /\ keeps_input c st t body)
          \/ (is_oneof t /\ exists k v, In (k, v) (id_fields t) /\ cls = style_with sty_input st (key +s+ cap_first k) /\ keeps_option c st k v body))
  | _ => True
  end.
Lemma class_kept : forall key t ab ds r x r', In (key, t) (schema_inputs s) ->
  (forall d, In d ds -> exists u y, belongs (id_dirs t) u (di_name d) y) ->
  input_class c st pc s (style_with sty_input st key) key (id_desc t) (id_fields t) ab ds r = (Ok x, r') -> kept x.
Proof.
  intros key t ab ds r x r' Hin D H.
  assert (S : exists bases body, x = SClass (style_with sty_input st key) bases body []).
  { unfold input_class in H. apply bind_ok in H as (? & ? & _ & H). apply bind_ok in H as (? & ? & _ & H). cbn zeta in H.
    apply bind_ok in H as (? & ? & _ & H). apply ret_ok in H as [-> _]. eauto. }
  destruct S as (bases & body & ->). apply input_class_kept in H as (H1 & H2).
  exists key, t. split; [exact Hin|]. left. split; [reflexivity|]. split; [exact H1|].
  intros k v Hk N. apply H2; [exact Hk|]. intros E. apply in_map_iff in E as (d & E & Hd). destruct (D d Hd) as (u & y & B).
  rewrite E in B. exact (N _ _ B).
Qed.
Lemma wrappers_kept : forall key t r l r', In (key, t) (schema_inputs s) -> is_oneof t ->
  generate_oneof_wrapper_input c st pc s key (id_fields t) r = (Ok l, r') -> Forall kept l.
Proof.
  intros key t r l r' Hin HO H. unfold generate_oneof_wrapper_input in H.
  apply bind_ok in H as (ab & r1 & H1 & H). apply bind_ok in H as (ws & r2 & H2 & H). apply bind_ok in H as (al & r3 & H3 & H).
  apply bind_ok in H as (a & r4 & H4 & H). apply ret_ok in H as [-> ->]. apply Forall_app. split.
  - assert (F : Forall2 (fun _ y => kept (snd y)) (id_fields t) ws).
    { eapply (mmap_inv _ (fun _ => True)); [exact H2|exact I|]. intros [k v] ra [n stm] rb Hk _ Hx. split; [exact I|]. cbn beta in Hx. cbn [snd].
      assert (S : exists bases body, stm = SClass (style_with sty_input st (key +s+ cap_first k)) bases body []).
      { unfold oneof_wrapper_class in Hx. apply bind_ok in Hx as (cn & r5 & H5 & Hx). apply bind_ok in Hx as (a0 & r6 & _ & Hx).
        apply bind_ok in Hx as (a1 & r7 & _ & Hx). cbn zeta in Hx. apply bind_ok in Hx as (vv & r8 & _ & Hx).
        apply bind_ok in Hx as (cfg & r9 & _ & Hx). apply ret_ok in Hx as [Hx ->]. injection Hx as -> ->.
        unfold try_except in H5. destruct (generate_inputtype st _ ra) as [[y|e] rr] eqn:G; [|destruct (is_cls _ e); discriminate].
        injection H5 as <- <-. apply generated_name in G as ->. eauto. }
      destruct S as (bases & body & ->). apply wrapper_kept in Hx.
      exists key, t. split; [exact Hin|]. right. split; [exact HO|]. exists k, v. auto. }
    clear - F. induction F; cbn; constructor; auto.
  - constructor; [|constructor]. unfold generate_union_alias in H4. destruct (map fst ws) as [|m [|m' ms]]; minv; exact I.
Qed.
Lemma inputs_kept : forall documents r body r', generate_inputs c st pc s documents r = (Ok body, r') -> Forall kept body.
Proof.
  intros documents r body r' H. unfold generate_inputs in H. apply bind_ok in H as (rf & r1 & H1 & H).
  apply bind_ok in H as (u & r2 & H2 & H). apply bind_ok in H as (x & r3 & H3 & H). apply bind_ok in H as (y & r4 & H4 & H).
  apply bind_ok in H as (l & r5 & H5 & H). apply ret_ok in H as [-> ->].
  assert (X : Forall kept (snd x)).
  { eapply (mfold_ok _ (fun _ a _ => Forall kept (snd a))) in H3; [exact H3|constructor|].
    intros pre [key t] post [p tree] ra acc' rb E HP Hs. cbn [snd] in HP. unfold prepass_type in Hs.
    apply bind_ok in Hs as ([ms discr] & r6 & Hm & Hs). apply lift_ok in Hm as [Hm ->]. apply read_spec in Hm as (R & _).
    destruct ms as [|m ms]; [apply ret_ok in Hs as [-> ->]; exact HP|].
    apply bind_ok in Hs as (ds & r7 & Hd & Hs). apply lift_ok in Hd as [Hd ->]. apply collect_spec in Hd as (_ & C).
    apply bind_ok in Hs as (n & r8 & Hn & Hs). apply bind_ok in Hs as (cl & r9 & Hc & Hs).
    apply ret_ok in Hs as [-> ->]. cbn [snd]. apply Forall_app. split; [exact HP|]. constructor; [|constructor].
    apply generated_name in Hn as ->. unfold generate_input_type in Hc. apply bind_ok in Hc as (ab & r10 & Hab & Hc).
    eapply class_kept; [| |exact Hc]; [change (schema_inputs s) with (input_types s); rewrite E; apply in_elt|].
    intros d Hd. apply in_map_iff in Hd as ([dn k] & <- & Hd). apply C in Hd as (un & Hd). apply R in Hd as (B & _). cbn. eauto. }
  assert (Y : Forall kept (fst y)).
  { eapply (mfold_ok _ (fun _ a _ => Forall kept (fst a))) in H4; [exact H4|exact X|].
    intros pre [key t] post [tree df] ra acc' rb E HP Hs. cbn [fst] in HP.
    assert (Hin : In (key, t) (schema_inputs s)) by (change (schema_inputs s) with (input_types s); rewrite E; apply in_elt).
    unfold main_type in Hs. destruct (mem key _); [apply ret_ok in Hs as [-> ->]; exact HP|].
    destruct (match rf with Some r => _ | None => _ end); [apply ret_ok in Hs as [-> ->]; exact HP|].
    destruct (_ && _); [apply ret_ok in Hs as [-> ->]; exact HP|].
    destruct (is_oneof_input_type _) eqn:O.
    - apply bind_ok in Hs as (v & r6 & _ & Hs). cbn zeta in Hs. apply is_oneof_dec in O.
      assert (HO : is_oneof t) by (destruct t; exact O).
      assert (W : forall acc', bind (generate_oneof_wrapper_input c st pc s key (id_fields t)) (fun l0 => ret (tree ++ l0, df)) r6 = (Ok acc', rb) -> Forall kept (fst acc')).
      { intros acc2 Hw. apply bind_ok in Hw as (l0 & r7 & Hw & Hr). apply ret_ok in Hr as [-> ->]. cbn [fst]. apply Forall_app. split; [exact HP|].
        eapply wrappers_kept; eauto. }
      destruct (if String.eqb _ _ then _ else _) as [ms|]; [|exact (W _ Hs)]. destruct (existsb _ ms); [exact (W _ Hs)|].
      apply ret_ok in Hs as [-> ->]. exact HP.
    - destruct (dget key _) as [members|].
      + apply bind_ok in Hs as (? & ? & _ & Hs). apply bind_ok in Hs as (? & ? & _ & Hs). apply bind_ok in Hs as (? & ? & _ & Hs).
        apply bind_ok in Hs as (al & ? & _ & Hs). apply ret_ok in Hs as [-> ->]. cbn [fst]. apply Forall_app. split; [exact HP|]. repeat constructor.
      + apply bind_ok in Hs as (ab & ? & Hab & Hs). apply bind_ok in Hs as (n & ? & Hn & Hs). apply bind_ok in Hs as (cl & ? & Hc & Hs).
        apply ret_ok in Hs as [-> ->]. cbn [fst]. apply Forall_app. split; [exact HP|]. constructor; [|constructor].
        apply generated_name in Hn as ->. eapply class_kept; [exact Hin| |exact Hc]; intros d []. }
  apply Forall_app. split; [exact Y|]. apply mconcat_ok in H5 as (yss & H5 & ->).
  assert (F : Forall2 (fun _ z => Forall kept z) (snd y) yss).
  { eapply (mmap_inv _ (fun _ => True)); [exact H5|exact I|]. intros km ra z rb _ _ Hz. split; [exact I|]. cbn beta in Hz.
    unfold generate_oneof_direct_union in Hz. apply bind_ok in Hz as (al & ? & _ & Hz). cbn zeta in Hz.
    apply bind_ok in Hz as (cs & ? & _ & Hz). apply bind_ok in Hz as (? & ? & _ & Hz). apply bind_ok in Hz as (? & ? & _ & Hz). apply bind_ok in Hz as (? & ? & _ & Hz).
    apply ret_ok in Hz as [-> _]. repeat constructor. }
  clear - F. induction F; cbn; [constructor|]. apply Forall_app; auto.
Qed.
End K.
Theorem inputs_module_kept : forall c st pc s documents r body r' cls bases b ks,
  generate_inputs c st pc s documents r = (Ok body, r') -> In (SClass cls bases b ks) body ->
  exists key t, In (key, t) (schema_inputs s)
    /\ ((cls = style_with sty_input st key /\ keeps_input c st t b)
        \/ (is_oneof t /\ exists k v, In (k, v) (id_fields t) /\ cls = style_with sty_input st (key +s+ cap_first k) /\ keeps_option c st k v b)).
Proof.
  intros c st pc s documents r body r' cls bases b ks H Hin. apply inputs_kept in H. rewrite Forall_forall in H. exact (H _ Hin).
Qed.
