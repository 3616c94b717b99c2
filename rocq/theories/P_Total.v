(** When generation from a schema does not fail. *)
From Verif Require Import Base PyAst Gql Config Stylers Registry Utils Recurse Objects Strawberry Spec_Mro Spec_Mro2 Spec_Valid P_Base P_Gql P_Monad P_Config P_Mro.

(** ** Total computations *)
(** the tables of fragments and operations *)
Definition fside (r : reg) := (r_frags r, r_fragdocs r, r_fragtypes r, r_iffrag r, r_ufrag r, r_ifrags r, (r_queries r, r_muts r, r_subs r)).
Definition tsame (r r' : reg) : Prop :=
  r_scalars r' = r_scalars r /\ r_enums r' = r_enums r /\ r_inputs r' = r_inputs r /\ r_objects r' = r_objects r /\ r_iface_base r' = r_iface_base r
  /\ (incl (r_builtins r) built_in_keys -> incl (r_builtins r') built_in_keys) /\ fside r' = fside r.
Lemma tsame_refl : forall r, tsame r r. Proof. repeat split; auto. Qed.
Lemma tsame_trans : forall a b c, tsame a b -> tsame b c -> tsame a c. Proof. unfold tsame. intuition congruence. Qed.
Lemma mmap_total : forall {A B} (f : A -> M B) (P : list A -> reg -> Prop) l r, P [] r ->
  (forall pre x post r, l = pre ++ x :: post -> P pre r -> exists y r', f x r = (Ok y, r') /\ P (pre ++ [x]) r') -> exists ys r', mmap f l r = (Ok ys, r') /\ P l r'.
Proof.
  intros A B f P l r H0 HS. assert (G : forall k pre r, l = pre ++ k -> P pre r -> exists ys r', mmap f k r = (Ok ys, r') /\ P l r').
  { induction k as [|x k IH]; intros pre ra E HP.
    - rewrite app_nil_r in E. subst. exists [], ra. auto.
    - destruct (HS _ _ _ _ E HP) as (y & rb & Hy & HP'). destruct (IH (pre ++ [x]) rb) as (ys & rc & Hys & HP''); [now rewrite <- app_assoc|exact HP'|].
      exists (y :: ys), rc. cbn. unfold bind. rewrite Hy, Hys. auto. }
  exact (G l [] r eq_refl H0).
Qed.
Lemma mconcat_total : forall {A B} (f : A -> M (list B)) (P : list A -> reg -> Prop) l r, P [] r ->
  (forall pre x post r, l = pre ++ x :: post -> P pre r -> exists y r', f x r = (Ok y, r') /\ P (pre ++ [x]) r') -> exists ys r', mconcat f l r = (Ok ys, r') /\ P l r'.
Proof. intros A B f P l r H0 HS. destruct (mmap_total f P l r H0 HS) as (ys & r' & H & HP). exists (List.concat ys), r'. unfold mconcat, bind. rewrite H. auto. Qed.
Lemma mfold_total : forall {A S} (f : S -> A -> M S) (P : list A -> S -> reg -> Prop) l a r, P [] a r ->
  (forall pre x post a r, l = pre ++ x :: post -> P pre a r -> exists y r', f a x r = (Ok y, r') /\ P (pre ++ [x]) y r') -> exists y r', mfold f l a r = (Ok y, r') /\ P l y r'.
Proof.
  intros A S f P l a r H0 HS. assert (G : forall k pre a r, l = pre ++ k -> P pre a r -> exists y r', mfold f k a r = (Ok y, r') /\ P l y r').
  { induction k as [|x k IH]; intros pre a0 ra E HP.
    - rewrite app_nil_r in E. subst. exists a0, ra. auto.
    - destruct (HS _ _ _ _ _ E HP) as (y & rb & Hy & HP'). destruct (IH (pre ++ [x]) y rb) as (ys & rc & Hys & HP''); [now rewrite <- app_assoc|exact HP'|].
      exists ys, rc. cbn. unfold bind. rewrite Hy, Hys. auto. }
  exact (G l [] a r eq_refl H0).
Qed.
Section Tot.
Variable r0 : reg.
Definition tot {A} (m : M A) : Prop := forall r, tsame r0 r -> exists a r', m r = (Ok a, r') /\ tsame r0 r'.
Lemma tot_ret : forall {A} (a : A), tot (ret a).
Proof. intros A a r S. exists a, r. auto. Qed.
Lemma tot_bind : forall {A B} (m : M A) (k : A -> M B), tot m -> (forall a, tot (k a)) -> tot (bind m k).
Proof. intros A B m k Hm Hk r S. destruct (Hm r S) as (a & r1 & E & S1). destruct (Hk a r1 S1) as (b & r2 & E2 & S2). exists b, r2. unfold bind. rewrite E. auto. Qed.
Lemma tot_gets : forall {A B} (f : reg -> A) (k : A -> M B), (forall r, tsame r0 r -> tot (k (f r))) -> tot (bind (gets f) k).
Proof. intros A B f k Hk r S. unfold bind, gets. apply Hk; exact S. Qed.
Lemma tot_modify : forall f, (forall r, tsame r (f r)) -> tot (modify f).
Proof. intros f H r S. exists tt, (f r). split; [reflexivity|]. eapply tsame_trans; [exact S|apply H]. Qed.
Lemma tot_mmap : forall {A B} (f : A -> M B) l, (forall x, In x l -> tot (f x)) -> tot (mmap f l).
Proof.
  intros A B f l H r S. apply (mmap_total f (fun _ r => tsame r0 r) l r S). intros pre x post r1 -> S1. apply H; [apply in_elt|exact S1].
Qed.
Lemma tot_mconcat : forall {A B} (f : A -> M (list B)) l, (forall x, In x l -> tot (f x)) -> tot (mconcat f l).
Proof. intros A B f l H. unfold mconcat. apply tot_bind; [now apply tot_mmap|]. intros. apply tot_ret. Qed.
Lemma tot_miter : forall {A} (f : A -> M unit) l, (forall x, In x l -> tot (f x)) -> tot (miter f l).
Proof. intros A f l. induction l as [|x l IH]; intros H; [apply tot_ret|]. cbn. apply tot_bind; [apply H; now left|]. intros _. apply IH. intros y Hy. apply H. now right. Qed.
Lemma tot_import : forall n, tot (register_import n).
Proof. intros n. unfold register_import. destruct (mem n py_noimport); [apply tot_ret|]. apply tot_modify. repeat split; auto. Qed.
Lemma tot_forward : forall n, tot (add_forward n). Proof. intros n. apply tot_modify. repeat split; auto. Qed.
Lemma tot_builtin : forall n, In n built_in_keys -> tot (register_builtin n).
Proof.
  intros n Hn. apply tot_modify. intros r. repeat split; auto. intros H x Hx. cbn in Hx. unfold sadd in Hx.
  destruct (mem n (r_builtins r)); [now apply H|]. apply in_app_iff in Hx as [Hx|[<-|[]]]; auto.
Qed.
Lemma tot_if : forall {A} (b : bool) (m1 m2 : M A), tot m1 -> tot m2 -> tot (if b then m1 else m2).
Proof. intros A [] m1 m2; auto. Qed.
Lemma tot_bases : forall b, tot (import_bases b).
Proof. intros b. unfold import_bases. apply tot_bind; [|intros; apply tot_ret]. apply tot_miter. intros; apply tot_import. Qed.
Lemma tot_additional : forall c n, tot (get_additional_bases_for_type c n).
Proof. intros c n. unfold get_additional_bases_for_type. destruct (dget _ _); [apply tot_bases|apply tot_ret]. Qed.

Lemma tot_config : forall k c n, tot (generate_pydantic_config k c n).
Proof.
  intros k c n. unfold generate_pydantic_config. apply tot_if; [|apply tot_ret]. unfold generate_config_dict. cbn zeta.
  destruct (_ ++ _ ++ _); [apply tot_ret|]. apply tot_bind; [apply tot_import|]. intros; apply tot_ret.
Qed.
Lemma tot_override : forall o b n, In b built_in_keys -> tot (reference_override o b n).
Proof.
  intros [o|] b n Hb; cbn; [apply tot_if|]; (apply tot_bind; [now (apply tot_import || apply tot_builtin)|]); intros; apply tot_ret.
Qed.
Lemma tot_metadata : forall c a d e, tot (annotate_field_metadata c a d e).
Proof.
  intros c a d e. unfold annotate_field_metadata. apply tot_bind.
  { destruct d; [|apply tot_ret]. apply tot_bind; [apply tot_override; cbn; tauto|]. intros; apply tot_ret. }
  intros m1. apply tot_bind.
  { destruct e; [|apply tot_ret]. apply tot_bind; [apply tot_override; cbn; tauto|]. intros; apply tot_ret. }
  intros m2. destruct (m1 ++ m2); [apply tot_ret|]. apply tot_bind; [apply tot_import|]. intros; apply tot_ret.
Qed.
Lemma tot_optimport : forall (b : bool) n, tot (if b then register_import n else ret tt).
Proof. intros. apply tot_if; [apply tot_import|apply tot_ret]. Qed.

(** ** References *)
Variable c : gconfig. Variable st : list styler. Variable s : schema.
Arguments register_import : simpl never.
Arguments add_forward : simpl never.
Arguments register_builtin : simpl never.
Definition leaf_ok (parent n : string) : Prop :=
  (is_scalar s n = true -> dmem n (r_scalars r0) = true)
  /\ (is_enum s n = true -> c_force_plugin_order c = false \/ (dmem n (r_enums r0) = true /\ style_enum_class st n <> parent)).
Lemma tot_scalar : forall n, dmem n (r_scalars r0) = true -> tot (reference_scalar n).
Proof.
  intros n H. unfold reference_scalar. apply tot_gets. intros r (S & _). rewrite S. unfold dmem in H. destruct (dget n (r_scalars r0)); [|discriminate].
  apply tot_bind; [apply tot_optimport|]. intros; apply tot_ret.
Qed.
Lemma tot_input : forall n p, tot (reference_inputtype st n p true).
Proof.
  intros n p. unfold reference_inputtype. apply tot_gets. intros r _. destruct (dget n (r_inputs r)); [apply tot_if; [|apply tot_ret]|];
  (apply tot_bind; [apply tot_forward|]; intros; apply tot_ret).
Qed.
Lemma tot_generic : forall style get n p, tot (reference_generic style get n p true).
Proof.
  intros style get n p. unfold reference_generic. apply tot_gets. intros r _. apply tot_if; [|apply tot_ret].
  apply tot_bind; [apply tot_forward|]; intros; apply tot_ret.
Qed.
Lemma tot_enum : forall n p, c_force_plugin_order c = false \/ (dmem n (r_enums r0) = true /\ style_enum_class st n <> p) ->
  tot (reference_enum st n p (negb (c_force_plugin_order c))).
Proof.
  intros n p H. unfold reference_enum. destruct (mem n built_in_keys) eqn:B.
  { apply tot_bind; [apply tot_builtin; now apply mem_In|]. intros _. apply tot_bind; [apply tot_forward|]; intros; apply tot_ret. }
  apply tot_gets. intros r (_ & S & _). rewrite S. destruct H as [->|(-> & H)]; cbn.
  - apply tot_if; [|apply tot_ret]. apply tot_bind; [apply tot_forward|]; intros; apply tot_ret.
  - destruct (String.eqb_spec p (style_enum_class st n)); [congruence|]. apply tot_ret.
Qed.
Lemma tot_leaf : forall n p, leaf_ok p n -> is_scalar s n || is_enum s n || is_object s n || is_iface s n = true -> tot (leaf_reference c st s n p).
Proof.
  intros n p (H1 & H2) H. unfold leaf_reference. unfold is_scalar, is_enum, is_object, is_iface in *. destruct (get_type s n) as [[]|]; try discriminate.
  - now apply tot_scalar, H1.
  - now apply tot_enum, H2.
  - apply tot_generic.
  - apply tot_bind; [apply tot_forward|]; intros; apply tot_ret.
Qed.
Lemma tot_named : forall n p o, (forall m, m = n \/ is_object s m = true -> leaf_ok p m) -> valid_schema s -> output_type s n = true -> tot (named_object_annotation c st s n p o).
Proof.
  intros n p o L V H. unfold named_object_annotation. apply tot_bind; [apply tot_optimport|]. intros _. apply tot_bind; [|intros; apply tot_ret].
  unfold output_type in H. destruct (is_union s n) eqn:U.
  - unfold is_union in U. destruct (get_type s n) as [[]|] eqn:G; try discriminate. apply tot_bind; [apply tot_import|]. intros _.
    apply tot_bind; [|intros; apply tot_ret]. apply tot_mmap. intros m Hm.
    assert (is_object s m = true) as O. { unfold get_type in G. apply dget_Some_In in G. eapply vs_unions; eassumption. }
    apply tot_leaf; [now apply L; right|]. rewrite O, !orb_true_r. reflexivity.
  - rewrite orb_false_r in H. assert (tot (leaf_reference c st s n p)) as T by (apply tot_leaf; [apply L; now left|exact H]).
    unfold is_union in U. destruct (get_type s n) as [[]|]; try discriminate; exact T.
Qed.
Lemma objects_leaf : forall p n, is_object s n = true -> leaf_ok p n.
Proof. intros p n H. unfold leaf_ok, is_scalar, is_enum. unfold is_object in H. destruct (get_type s n) as [[]|]; split; congruence. Qed.
Lemma tot_object_annotation : forall t p o, leaf_ok p (gty_name t) -> valid_schema s -> output_type s (gty_name t) = true -> tot (generate_object_field_annotation c st s t p o).
Proof.
  induction t as [n|t IH|t IH]; intros p o L V H; cbn.
  - apply tot_named; auto. intros m [->|Hm]; [exact L|now apply objects_leaf].
  - apply tot_bind; [apply tot_import|]. intros _. apply tot_bind; [apply tot_import|]. intros _. apply tot_bind; [now apply IH|]. intros; apply tot_ret.
  - now apply IH.
Qed.
Lemma tot_field_annotation : forall t p o, leaf_ok p (gty_name t) -> valid_schema s -> output_type s (gty_name t) = true -> tot (field_annotation c st s t p o).
Proof.
  induction t as [n|t IH|t IH]; intros p o L V H; cbn.
  - apply tot_named; auto. intros m [->|Hm]; [exact L|now apply objects_leaf].
  - apply tot_bind; [apply tot_import|]. intros _. apply tot_bind; [apply tot_optimport|]. intros _. apply tot_bind; [now apply IH|]. intros; apply tot_ret.
  - now apply IH.
Qed.
Lemma tot_argument : forall t p o, leaf_ok p (gty_name t) -> input_type s (gty_name t) = true -> tot (argument_annotation c st s t p o).
Proof.
  induction t as [n|t IH|t IH]; intros p o L H; cbn.
  - apply tot_bind; [apply tot_optimport|]. intros _. apply tot_bind; [|intros; apply tot_ret].
    destruct L as (L1 & L2). unfold input_type, is_scalar, is_enum, is_input in *. cbn in *. destruct (get_type s n) as [[]|]; try discriminate.
    + now apply tot_scalar, L1. + now apply tot_enum, L2. + apply tot_input.
  - apply tot_bind; [apply tot_import|]. intros _. apply tot_bind; [apply tot_optimport|]. intros _. apply tot_bind; [now apply IH|]. intros; apply tot_ret.
  - now apply IH.
Qed.
Lemma tot_object_field : forall cls kv, leaf_ok cls (gty_name (fd_type (snd kv))) -> valid_schema s -> output_type s (gty_name (fd_type (snd kv))) = true -> tot (object_field c st s cls kv).
Proof.
  intros cls kv L V H. unfold object_field. apply tot_bind; [now apply tot_object_annotation|]. intros a. unfold field_statements. cbn zeta.
  apply tot_bind; [apply tot_metadata|]. intros b. apply tot_bind; [|intros; apply tot_ret].
  match goal with |- tot (match ?l with _ => _ end) => destruct l; [apply tot_ret|apply tot_import] end.
Qed.
(** ** Applied directives *)
Variable pc : sbcfg.
Lemma flat_converts : forall v, flat_literal v = true -> exists e, convert_valuenode_to_ast v = Ok e.
Proof.
  fix F 1. intros v H. destruct v as [x|x|x b|b| |x|l|l|x]; try discriminate; try (eexists; reflexivity).
  cbn in H |- *. assert (exists es, (fix go l := match l with [] => Ok [] | x :: r => let? e := convert_valuenode_to_ast x in let? es := go r in Ok (e :: es) end) l = Ok es) as (es & ->); [|eexists; reflexivity].
  induction l as [|x l IH]; [eexists; reflexivity|]. cbn in H. apply andb_true_iff in H as (H1 & H2).
  destruct (F x H1) as (e & ->). destruct (IH H2) as (es & E). cbn. rewrite E. eexists; reflexivity.
Qed.
Lemma tot_directives : forall ds, flat_directives (sb_builtin_directives pc) ds -> tot (generate_directive_keywords pc ds).
Proof.
  intros ds H. unfold generate_directive_keywords. destruct (filter _ ds) as [|d l] eqn:E; [apply tot_ret|].
  apply tot_bind; [|intros; apply tot_ret]. apply tot_mmap. intros x Hx. rewrite <- E in Hx. apply filter_In in Hx as (Hx & N). apply negb_true_iff, mem_false in N.
  apply tot_bind; [|intros; apply tot_ret]. apply tot_mmap. intros [a v] Ha. destruct (flat_converts v (H _ _ _ Hx N Ha)) as (e & He). cbn. rewrite He. cbn.
  intros r S. exists (kw a e), r. auto.
Qed.
End Tot.
