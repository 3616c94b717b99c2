(** Names and paths, and what every step of the generator keeps. *)
From Verif Require Import Base PyAst Gql Config Stylers Registry Utils Spec_Naming Spec_Syntax P_Base P_Stylers P_Monad P_Registry.
From Coq Require Import Lia.

Global Arguments py_path : simpl never.
Global Arguments name_text : simpl never.
(** ** Names *)
Lemma pyname_split : forall n, pyname n = true <-> is_name n = true /\ ~ In n kwlist.
Proof. intros n. unfold pyname. rewrite andb_true_iff, negb_true_iff, mem_false. tauto. Qed.
Lemma is_name_split : forall n, is_name n = true -> n <> "" /\ sforall name_char n = true.
Proof.
  intros [|c n] H; [discriminate|]. split; [discriminate|]. cbn in *. apply andb_true_iff in H as [A B]. unfold name_char at 1. now rewrite A.
Qed.
Lemma sforall_app : forall p a b, sforall p (a +s+ b) = sforall p a && sforall p b.
Proof. intros p a b. induction a as [|c a IH]; [reflexivity|]. cbn. now rewrite IH, andb_assoc. Qed.
Lemma is_name_app : forall a b, is_name a = true -> sforall name_char b = true -> is_name (a +s+ b) = true.
Proof.
  intros [|c a] b H B; [discriminate|]. cbn in *. apply andb_true_iff in H as [A H]. now rewrite A, sforall_app, H, B.
Qed.
(** keywords are lower case but for the first letter *)
Lemma keyword_tail : forall a b, a <> "" -> sforall is_lower b = false -> ~ In (a +s+ b) kwlist.
Proof.
  assert (K : forallb (fun s => match s with String _ r => sforall is_lower r | EmptyString => false end) kwlist = true)
    by (vm_compute; reflexivity).
  rewrite forallb_forall in K. intros [|c a] b HA HB H; [congruence|]. specialize (K _ H). cbn in K.
  rewrite sforall_app, HB, andb_false_r in K. discriminate.
Qed.
Lemma pyname_app : forall a b, is_name a = true -> sforall name_char b = true -> sforall is_lower b = false -> pyname (a +s+ b) = true.
Proof.
  intros a b A B L. apply pyname_split. split; [now apply is_name_app|]. apply keyword_tail; [now apply is_name_split|exact L].
Qed.
Lemma pyname_under : forall n, is_name n = true -> pyname ("_" +s+ n) = true.
Proof.
  intros n H. apply pyname_split. destruct (is_name_split _ H) as [_ C]. split; [cbn; exact C|].
  assert (K : forallb (fun s => match s with String c _ => negb (is_under c) | EmptyString => false end) kwlist = true)
    by (vm_compute; reflexivity).
  rewrite forallb_forall in K. intros I. specialize (K _ I). discriminate.
Qed.
Lemma pyname_name : forall n, pyname n = true -> is_name n = true.
Proof. intros n H. now apply pyname_split. Qed.

Lemma lower_lower : forall c, is_lower (to_lower c) = is_alpha c.
Proof. intros c. apply Bool.eq_iff_eq_true. destruct c as [[] [] [] [] [] [] [] []]; vm_compute; tauto. Qed.
Lemma name_char_lower : forall c, name_char c = true -> name_char (to_lower c) = true.
Proof. intros c. destruct c as [[] [] [] [] [] [] [] []]; vm_compute; auto. Qed.
Lemma name_char_upper : forall c, name_char c = true -> name_char (to_upper c) = true.
Proof. intros c. destruct c as [[] [] [] [] [] [] [] []]; vm_compute; auto. Qed.
Lemma name_start_upper : forall c, name_start c = true -> name_start (to_upper c) = true.
Proof. intros c. destruct c as [[] [] [] [] [] [] [] []]; vm_compute; auto. Qed.
Lemma upper_not_lower : forall c, name_start c = true -> is_lower (to_upper c) = false.
Proof. intros c. destruct c as [[] [] [] [] [] [] [] []]; vm_compute; auto. Qed.
Lemma lower_chars : forall s, sforall name_char s = true -> sforall name_char (str_lower s) = true.
Proof.
  induction s as [|c s IH]; intros H; [reflexivity|]. cbn in *. apply andb_true_iff in H as [A B].
  rewrite name_char_lower by exact A. now apply IH.
Qed.
(** a nested class *)
Lemma pyname_capitalized : forall a t, is_name a = true -> is_name t = true -> pyname (a +s+ py_capitalize t) = true.
Proof.
  intros a [|c t] A T; [discriminate|]. cbn in T. apply andb_true_iff in T as [C T]. apply pyname_app; [exact A| |].
  - cbn. rewrite lower_chars by exact T. rewrite name_char_upper; [reflexivity|]. unfold name_char. now rewrite C.
  - cbn. now rewrite upper_not_lower.
Qed.
Lemma capfirst_name : forall n, is_name n = true -> is_name (cap_first n) = true.
Proof. intros [|c n] H; [discriminate|]. cbn in *. apply andb_true_iff in H as [A B]. now rewrite name_start_upper, B. Qed.

(** ** Styled names *)
Definition hooks := [sty_query; sty_mutation; sty_subscription; sty_enum; sty_fragment; sty_node; sty_parameter; sty_input; sty_object].
Lemma fold_named : forall hook st n, In hook hooks -> (forall x, In x st -> styler_named x) -> is_name n = true ->
  is_name (fold_left (fun n0 s => hook s n0) st n) = true.
Proof.
  intros hook st. induction st as [|x st IH]; intros n H HS N; [exact N|]. cbn. apply IH; [exact H|intros; apply HS; now right|].
  apply HS; [now left|exact H|exact N].
Qed.
Lemma styled : forall hook st n, In hook hooks -> (forall x, In x st -> styler_named x) -> is_name n = true ->
  pyname (style_with hook st n) = true.
Proof.
  intros hook st n H HS N. apply pyname_split. split; [|apply style_with_not_keyword].
  unfold style_with. destruct (iskeyword _); [apply is_name_app_under|]; now apply fold_named.
Qed.

(** ** Paths *)
Lemma split_nodot : forall p, rsplit_dot p = None -> split_on "."%char p = [p].
Proof.
  induction p as [|c p IH]; intros H; [reflexivity|]. cbn [rsplit_dot] in H.
  destruct (rsplit_dot p) as [[a b]|]; [discriminate|].
  destruct (is_dot c) eqn:D; [discriminate|]. cbn [split_on]. rewrite IH by reflexivity.
  unfold is_dot in D. destruct (Ascii.eqb_spec "."%char c) as [<-|]; [discriminate D|reflexivity].
Qed.
Lemma split_cons : forall p, exists h t, split_on "."%char p = h :: t.
Proof.
  induction p as [|c p (h & t & IH)]; [eexists _, _; reflexivity|]. cbn [split_on].
  destruct (Ascii.eqb "."%char c); [eexists _, _; reflexivity|]. rewrite IH. eexists _, _; reflexivity.
Qed.
Lemma split_dot : forall p a b, rsplit_dot p = Some (a, b) -> split_on "."%char p = split_on "."%char a ++ [b].
Proof.
  induction p as [|c p IH]; intros a b H; [discriminate|]. cbn [rsplit_dot] in H.
  destruct (rsplit_dot p) as [[a' b']|] eqn:E.
  - injection H as <- <-. cbn [split_on]. rewrite (IH a' b' eq_refl). destruct (Ascii.eqb "."%char c); [reflexivity|].
    destruct (split_cons a') as (h & t & ->). reflexivity.
  - destruct (is_dot c) eqn:D; [|discriminate]. injection H as <- <-. cbn [split_on]. rewrite (split_nodot _ E).
    destruct (Ascii.eqb_spec "."%char c) as [<-|N]; [reflexivity|]. exfalso. apply N. unfold is_dot in D.
    symmetry. revert D. destruct c as [[] [] [] [] [] [] [] []]; vm_compute; congruence.
Qed.
Lemma path_last : forall p, py_path p = true -> pyname (last_comp p) = true.
Proof.
  intros p H. unfold py_path in H. unfold last_comp. destruct (rsplit_dot p) as [[a b]|] eqn:E.
  - rewrite (split_dot _ _ _ E), forallb_app in H. apply andb_true_iff in H as [_ H]. cbn in H. now rewrite andb_true_r in H.
  - rewrite (split_nodot _ E) in H. cbn in H. now rewrite andb_true_r in H.
Qed.
Lemma path_module : forall p, py_path p = true -> has_dot p = true -> py_path (module_part p) = true.
Proof.
  intros p H D. unfold py_path in *. unfold has_dot in D. unfold module_part. destruct (rsplit_dot p) as [[a b]|] eqn:E; [|discriminate].
  rewrite (split_dot _ _ _ E), forallb_app in H. now apply andb_true_iff in H as [H _].
Qed.
Lemma path_lone : forall p, py_path p = true -> has_dot p = false -> pyname p = true.
Proof.
  intros p H D. apply path_last in H. unfold last_comp in H. unfold has_dot in D. destruct (rsplit_dot p) as [[a b]|]; [discriminate|exact H].
Qed.

Lemma name_no_dot : forall n, sforall name_char n = true -> rsplit_dot n = None.
Proof.
  induction n as [|c n IH]; intros H; [reflexivity|]. cbn [sforall] in H. apply andb_true_iff in H as [A B]. cbn [rsplit_dot]. rewrite IH by exact B.
  destruct (is_dot c) eqn:D; [|reflexivity]. revert A D. destruct c as [[] [] [] [] [] [] [] []]; vm_compute; congruence.
Qed.
Lemma path_of_name : forall n, pyname n = true -> py_path n = true.
Proof.
  intros n H. unfold py_path. rewrite split_nodot; [cbn; now rewrite H|]. apply name_no_dot. apply is_name_split. now apply pyname_name.
Qed.
Lemma text_of_path : forall n, py_path n = true -> name_text n = true.
Proof. intros n H. unfold name_text. now rewrite H. Qed.
Lemma text_of_name : forall n, pyname n = true -> name_text n = true.
Proof. intros n H. now apply text_of_path, path_of_name. Qed.

(** ** Dictionaries *)
Lemma dset_In : forall {A} k (v : A) d x w, In (x, w) (dset k v d) -> In (x, w) d \/ (x = k /\ w = v).
Proof.
  intros A k v d x w. induction d as [|[k' v'] d IH]; cbn.
  - intros [[= <- <-]|[]]. now right.
  - destruct (String.eqb_spec k k') as [<-|N]; cbn.
    + intros [[= <- <-]|H]; [now right|left; now right].
    + intros [H|H]; [left; now left|]. destruct (IH H) as [I|I]; [left; now right|now right].
Qed.
Lemma dmerge_In : forall {A} (e d : dict A) x w, In (x, w) (dmerge d e) -> In (x, w) d \/ In (x, w) e.
Proof.
  intros A e. induction e as [|[k v] e IH]; intros d x w H; [now left|]. cbn in H. apply IH in H as [H|H]; [|right; now right].
  apply dset_In in H as [H|[-> ->]]; [now left|right; now left].
Qed.
Lemma dextend_In : forall {A} k (vs : list A) d x l y, In (x, l) (dextend k vs d) -> In y l -> (exists l', In (x, l') d /\ In y l') \/ (x = k /\ In y vs).
Proof.
  intros A k vs d x l y H Hy. unfold dextend in H. destruct (dget k d) as [l0|] eqn:G.
  - apply dset_In in H as [H|[-> ->]]; [left; eauto|]. apply in_app_iff in Hy as [Hy|Hy]; [|now right].
    left. exists l0. split; [now apply dget_Some_In|exact Hy].
  - apply dset_In in H as [H|[-> ->]]; [left; eauto|now right].
Qed.

(** ** What is kept *)
Definition ev (e : expr) : Prop := forall p, expr_valid p e = true.
Record rnamed (r : reg) : Prop := RNamed {
  rn_imports : forall n, In n (r_imports r) -> py_path n = true;
  rn_fwd : forall n, In n (r_fwd r) -> pyname n = true;
  rn_scalars : forall k t, In (k, t) (r_scalars r) -> py_path t = true;
  rn_enums : forall k t, In (k, t) (r_enums r) -> is_name k = true;
  rn_inputs : forall k t, In (k, t) (r_inputs r) -> pyname t = true;
  rn_frags : forall k t, In (k, t) (r_frags r) -> pyname t = true;
  rn_ifaces : forall k t, In (k, t) (r_iface_base r) -> pyname t = true;
  rn_iffrag : forall k m i t, In (k, m) (r_iffrag r) -> In (i, t) m -> pyname t = true;
  rn_ufrag : forall k m i t, In (k, m) (r_ufrag r) -> In (i, t) m -> pyname t = true;
  rn_single : forall k e, In (k, e) (r_single r) -> ev e }.
Definition ok {A} (m : M A) (Q : A -> Prop) : Prop :=
  forall r, rnamed r -> rnamed (snd (m r)) /\ match fst (m r) with Ok a => Q a | Err _ => True end.

Lemma ok_ret : forall {A} (a : A) (Q : A -> Prop), Q a -> ok (ret a) Q.
Proof. intros A a Q H r R. split; [exact R|exact H]. Qed.
Lemma ok_raise : forall {A} c msg (Q : A -> Prop), ok (raise c msg) Q.
Proof. intros A c msg Q r R. split; [exact R|exact I]. Qed.
Lemma ok_bind : forall {A B} (m : M A) (k : A -> M B) P Q, ok m P -> (forall a, P a -> ok (k a) Q) -> ok (bind m k) Q.
Proof.
  intros A B m k P Q Hm Hk r R. unfold bind. destruct (Hm r R) as [R1 P1]. destruct (m r) as [[a|e] r1]; cbn in *.
  - now apply Hk.
  - now split.
Qed.
Lemma ok_weaken : forall {A} (m : M A) (P Q : A -> Prop), ok m P -> (forall a, P a -> Q a) -> ok m Q.
Proof.
  intros A m P Q H W r R. destruct (H r R) as [R1 P1]. split; [exact R1|]. destruct (fst (m r)); auto.
Qed.
Lemma ok_lift : forall {A} (x : res A) (Q : A -> Prop), (forall a, x = Ok a -> Q a) -> ok (lift x) Q.
Proof. intros A x Q H r R. split; [exact R|]. cbn. destruct x; auto. Qed.
Lemma ok_gets : forall {A} (f : reg -> A) (Q : A -> Prop), (forall r, rnamed r -> Q (f r)) -> ok (gets f) Q.
Proof. intros A f Q H r R. split; [exact R|]. now apply H. Qed.
Lemma ok_modify : forall f, (forall r, rnamed r -> rnamed (f r)) -> ok (modify f) (fun _ => True).
Proof. intros f H r R. split; [now apply H|exact I]. Qed.
Lemma ok_massert : forall b msg, ok (massert b msg) (fun _ => b = true).
Proof. intros [] msg r R; now split. Qed.
Lemma ok_from_opt : forall {A} (o : option A) c msg, ok (from_opt o c msg) (fun a => o = Some a).
Proof. intros A [a|] c msg r R; now split. Qed.
Lemma ok_try : forall {A} (m : M A) p h Q, ok m Q -> (forall e, ok (h e) Q) -> ok (try_except m p h) Q.
Proof.
  intros A m p h Q Hm Hh r R. unfold try_except. destruct (Hm r R) as [R1 P1]. destruct (m r) as [[a|e] r1]; cbn in *; [now split|].
  destruct (p e); [now apply Hh|now split].
Qed.
Lemma ok_mmap : forall {A B} (f : A -> M B) l Q, (forall x, In x l -> ok (f x) Q) -> ok (mmap f l) (Forall Q).
Proof.
  intros A B f l Q. induction l as [|x l IH]; intros H; [apply ok_ret; constructor|]. cbn.
  eapply ok_bind; [apply H; now left|]. intros y Hy. eapply ok_bind; [apply IH; intros; apply H; now right|].
  intros ys Hys. apply ok_ret. now constructor.
Qed.
Lemma ok_miter : forall {A} (f : A -> M unit) l, (forall x, In x l -> ok (f x) (fun _ => True)) -> ok (miter f l) (fun _ => True).
Proof.
  intros A f l. induction l as [|x l IH]; intros H; [now apply ok_ret|]. cbn.
  eapply ok_bind; [apply H; now left|]. intros _ _. apply IH; intros; apply H; now right.
Qed.
Lemma ok_mfold : forall {A S} (f : S -> A -> M S) l (J : S -> Prop), (forall s x, In x l -> J s -> ok (f s x) J) ->
  forall s, J s -> ok (mfold f l s) J.
Proof.
  intros A S f l J. induction l as [|x l IH]; intros H s Hs; [now apply ok_ret|]. cbn.
  eapply ok_bind; [apply H; [now left|exact Hs]|]. intros s' Hs'. apply IH; [intros; apply H; [now right|assumption]|exact Hs'].
Qed.
Lemma ok_mconcat : forall {A B} (f : A -> M (list B)) l (Q : B -> Prop), (forall x, In x l -> ok (f x) (Forall Q)) -> ok (mconcat f l) (Forall Q).
Proof.
  intros A B f l Q H. eapply ok_bind; [apply ok_mmap with (Q := Forall Q); exact H|]. intros ll HL. apply ok_ret.
  induction HL as [|x ll Hx _ IH]; [constructor|]. cbn. apply Forall_app. now split.
Qed.

(** ** The registry *)
Lemma import_kept : forall n, py_path n = true -> ok (register_import n) (fun _ => True).
Proof.
  intros n H. unfold register_import. destruct (mem n py_noimport); [now apply ok_ret|]. apply ok_modify. intros r [].
  constructor; cbn; auto. intros x Hx. apply sadd_In in Hx as [->|Hx]; auto.
Qed.
Lemma builtin_kept : forall n, ok (register_builtin n) (fun _ => True).
Proof. intros n. apply ok_modify. intros r []. constructor; cbn; auto. Qed.
Lemma forward_kept : forall n, pyname n = true -> ok (add_forward n) (fun _ => True).
Proof.
  intros n H. apply ok_modify. intros r []. constructor; cbn; auto. intros x Hx. apply sadd_In in Hx as [->|Hx]; auto.
Qed.
Lemma single_kept : forall n e, ev e -> ok (register_operation_single n e) (fun _ => True).
Proof.
  intros n e H. apply ok_modify. intros r []. constructor; cbn; auto. intros k x Hx. apply dset_In in Hx as [Hx|[-> ->]]; eauto.
Qed.
Lemma fragtype_kept : forall f t, ok (register_fragment_type f t) (fun _ => True).
Proof. intros f t. apply ok_modify. intros r []. constructor; cbn; auto. Qed.
Lemma fragdoc_kept : forall f t, ok (register_fragment_document f t) (fun _ => True).
Proof.
  intros f t. unfold register_fragment_document. eapply ok_bind; [apply ok_gets with (Q := fun _ => True); trivial|]. intros m _.
  eapply ok_bind; [apply ok_massert|]. intros _ _. apply ok_modify. intros r []. constructor; cbn; auto.
Qed.
Lemma iffrag_kept : forall f m, (forall i t, In (i, t) m -> pyname t = true) -> ok (register_interface_fragment_implementations f m) (fun _ => True).
Proof.
  intros f m H. apply ok_modify. intros r []. constructor; cbn; auto. intros k m' i t Hm Hi.
  apply dset_In in Hm as [Hm|[-> ->]]; eauto.
Qed.
Lemma ufrag_kept : forall f m, (forall i t, In (i, t) m -> pyname t = true) -> ok (register_union_fragment_members f m) (fun _ => True).
Proof.
  intros f m H. apply ok_modify. intros r []. constructor; cbn; auto. intros k m' i t Hm Hi.
  apply dset_In in Hm as [Hm|[-> ->]]; eauto.
Qed.
Lemma ev_name : forall n, pyname n = true -> ev (EName n).
Proof. intros n H p. exact (text_of_name _ H). Qed.
Lemma ev_path : forall n, py_path n = true -> ev (EName n).
Proof. intros n H p. exact (text_of_path _ H). Qed.
Lemma ev_text : forall n, name_text n = true -> ev (EName n).
Proof. intros n H p. exact H. Qed.
Lemma ev_str : forall s, ev (estr s).
Proof. intros s p. reflexivity. Qed.
Lemma inherited_fragment : forall f, ok (inherit_fragment f) (fun n => pyname n = true).
Proof.
  intros f r R. unfold inherit_fragment, bind, gets, from_opt. destruct (dget f (r_frags r)) eqn:E; cbn; split; trivial.
  apply dget_Some_In in E. exact (rn_frags _ R _ _ E).
Qed.
Lemma inherited_interface : forall f, ok (inherit_interface f) (fun n => pyname n = true).
Proof.
  intros f r R. unfold inherit_interface, bind, gets, from_opt. destruct (dget f (r_iface_base r)) eqn:E; cbn; split; trivial.
  apply dget_Some_In in E. exact (rn_ifaces _ R _ _ E).
Qed.
Lemma union_members_ok : forall f, ok (get_union_fragment_members f) (fun m => forall i t, In (i, t) m -> pyname t = true).
Proof.
  intros f r R. unfold get_union_fragment_members, bind, gets, from_opt. destruct (dget f (r_ufrag r)) eqn:E; cbn; split; trivial.
  apply dget_Some_In in E. intros i t Hi. exact (rn_ufrag _ R _ _ _ _ E Hi).
Qed.
Lemma input_class_ok : forall n, ok (get_inputtype_class n) (fun n => pyname n = true).
Proof.
  intros f r R. unfold get_inputtype_class, bind, gets, from_opt. destruct (dget f (r_inputs r)) eqn:E; cbn; split; trivial.
  apply dget_Some_In in E. exact (rn_inputs _ R _ _ E).
Qed.
Lemma implementation_ok : forall f n, ok (get_interface_fragment_implementation_or_none f n)
  (fun o => forall x, o = Some x -> pyname x = true).
Proof.
  intros f n r R. unfold get_interface_fragment_implementation_or_none, bind, gets.
  destruct (dget f (r_iffrag r)) as [m|] eqn:E; [|cbn; split; [exact R|discriminate]].
  destruct (dget n m) as [c|] eqn:G.
  - cbn. split; [exact R|]. intros x [= <-]. apply dget_Some_In in E, G. exact (rn_iffrag _ R _ _ _ _ E G).
  - destruct (dget f (r_fragtypes r)) as [t|]; [destruct (String.eqb t n)|]; cbn; split; trivial. discriminate.
Qed.
Lemma scalar_ok : forall n, ok (reference_scalar n) ev.
Proof.
  intros n. unfold reference_scalar. eapply ok_bind; [apply ok_gets with (Q := fun m => forall k t, In (k, t) m -> py_path t = true)|].
  { intros r R. apply (rn_scalars _ R). }
  intros m Hm. destruct (dget n m) as [t|] eqn:E; [|apply ok_raise]. apply dget_Some_In in E. apply Hm in E.
  eapply ok_bind with (P := fun _ => True); [destruct (has_dot t); [now apply import_kept|now apply ok_ret]|].
  intros _ _. apply ok_ret, ev_name, path_last, E.
Qed.
Lemma override_ok : forall o b n, pyname n = true -> (forall p, o = Some p -> p <> "" -> py_path p = true) -> ok (reference_override o b n) ev.
Proof.
  intros o b n Hn Ho. assert (D : ok (register_builtin b ;; ret (EName n)) ev).
  { eapply ok_bind; [apply builtin_kept|]. intros _ _. apply ok_ret, ev_name, Hn. }
  unfold reference_override. destruct o as [o|]; [|exact D]. destruct (truthy (Some o)) eqn:T; [|exact D].
  assert (P : py_path o = true) by (apply Ho; [reflexivity|intros ->; discriminate]).
  eapply ok_bind; [now apply import_kept|]. intros _ _. apply ok_ret, ev_name, path_last, P.
Qed.
Lemma generated : forall get set style n (P : string -> Prop),
  P (style n) -> (forall r v, rnamed r -> P v -> rnamed (set (dset n v (get r)) r)) -> ok (generate_in get set style n) P.
Proof.
  intros get set style n P HP HS. unfold generate_in. eapply ok_bind; [apply ok_gets with (Q := fun _ => True); trivial|]. intros m _.
  eapply ok_bind; [apply ok_massert|]. intros _ _. eapply ok_bind with (P := fun _ => True); [apply ok_modify; intros r R; now apply HS|].
  intros _ _. now apply ok_ret.
Qed.
