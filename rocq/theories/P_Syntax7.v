(** Whole modules. *)
From Coq Require Import Permutation.
From Verif Require Import Base PyAst Gql Config Stylers Registry Run
  Spec_Naming Spec_Imports Spec_Syntax Spec_Syntax2 P_Base P_Stylers P_Monad P_Registry P_Imports P_Syntax P_Syntax2 P_Syntax3 P_Syntax4 P_Syntax5 P_Syntax6.

Section Module.
Variable iter : list string -> list string.
Hypothesis IT : set_order iter.
Lemma iter_In : forall l x, In x (iter l) <-> In x l.
Proof. intros l x. split; apply Permutation_in; [|apply Permutation_sym]; apply IT. Qed.
Lemma iter_some : forall l, l <> [] -> iter l <> [].
Proof. intros l H E. apply H. apply Permutation_nil. rewrite <- E. apply IT. Qed.

Definition group_ok (g : string * list string) : Prop := py_path (fst g) = true /\ snd g <> [] /\ forall n, In n (snd g) -> pyname n = true.
Lemma groups_ok : forall names, (forall n, In n names -> py_path n = true /\ has_dot n = true) -> Forall group_ok (module_groups names).
Proof.
  intros names. unfold module_groups.
  enough (G : forall names acc, (forall n, In n names -> py_path n = true /\ has_dot n = true) -> Forall group_ok acc ->
    Forall group_ok (fold_left (fun acc n => let m := module_part n in
               match dget m acc with
               | Some l => dset m (sadd (last_comp n) l) acc
               | None => dset m [last_comp n] acc
               end) names acc)) by (intros H; apply G; [exact H|constructor]).
  clear names. induction names as [|n names IH]; intros acc H A; [exact A|]. cbn [fold_left]. apply IH; [intros; apply H; now right|]. cbv zeta.
  destruct (H n (or_introl eq_refl)) as [HP HD]. apply Forall_forall. intros [k l] Hk. rewrite Forall_forall in A.
  destruct (dget (module_part n) acc) as [l0|] eqn:G.
  - apply dset_In in Hk as [Hk|[-> ->]]; [now apply A|]. apply dget_Some_In in G. destruct (A _ G) as (A1 & A2 & A3). cbn [fst snd] in A1, A2, A3.
    repeat split; cbn; [exact A1| |].
    + intros E. unfold sadd in E. destruct (mem _ l0); [now apply A2|now apply app_eq_nil in E as [_ E]].
    + intros x Hx. apply sadd_In in Hx as [->|Hx]; [now apply path_last|now apply A3].
  - apply dset_In in Hk as [Hk|[-> ->]]; [now apply A|]. repeat split; cbn; [now apply path_module|discriminate|]. intros x [<-|[]]. now apply path_last.
Qed.
Lemma imports_ok : forall r, rnamed r -> Forall sv (generate_imports iter r).
Proof.
  intros r R. unfold generate_imports, generate_imports_iter. apply Forall_app. split.
  - apply Forall_forall. intros x Hx. apply in_map_iff in Hx as (n & <- & Hn). rewrite iter_In in Hn. rewrite dedup_In in Hn. apply filter_In in Hn as [Hn HD].
    rewrite iter_In in Hn. unfold sv. cbn. rewrite (path_lone n); [reflexivity|now apply (rn_imports _ R)|]. now apply negb_true_iff.
  - apply Forall_forall. intros x Hx. apply in_map_iff in Hx as ([m l] & <- & Hm).
    assert (G : Forall group_ok (module_groups (filter has_dot (iter (r_imports r))))).
    { apply groups_ok. intros n Hn. apply filter_In in Hn as [Hn HD]. rewrite iter_In in Hn. split; [now apply (rn_imports _ R)|exact HD]. }
    rewrite Forall_forall in G. destruct (G _ Hm) as (A1 & A2 & A3). cbn [fst snd] in A1, A2, A3. unfold sv. cbn [stmt_valid fst snd]. rewrite A1.
    assert (NE : nonempty (iter l) = true) by (pose proof (iter_some _ A2); now destruct (iter l)). rewrite NE. cbn.
    apply forallb_forall. intros n Hn. apply A3. now rewrite <- iter_In.
Qed.
Lemma builtin_valid : forall k l, built_in k = Some l -> Forall sv l.
Proof.
  intros k l H. apply svs. unfold built_in in H. repeat (destruct (String.eqb k _); [injection H as <-; reflexivity|]). discriminate.
Qed.
Lemma builtins_valid : forall r l, generate_builtins iter r = Ok l -> Forall sv l.
Proof.
  intros r l H. unfold generate_builtins in H. destruct (rmap _ _) as [ll|] eqn:E; [|discriminate]. injection H as <-. revert ll E.
  generalize (iter (r_builtins r)). induction l as [|k l IH]; intros ll E; cbn in E; [injection E as <-; constructor|].
  destruct (built_in k) as [x|] eqn:B; [|discriminate]. cbn in E. destruct (rmap _ l) as [ys|]; [|discriminate]. cbn in E. injection E as <-. cbn.
  apply Forall_app. split; [exact (builtin_valid _ _ B)|now apply IH].
Qed.
Lemma forwards_ok : forall c r, rnamed r -> Forall sv (generate_forward_refs c r).
Proof.
  intros c r R. apply Forall_forall. intros x Hx. apply in_map_iff in Hx as (n & <- & Hn). apply (Permutation_in _ (str_sort_perm _)) in Hn.
  unfold sv. cbn. rewrite (text_of_name _ (rn_fwd _ R _ Hn)). now destruct (String.eqb _ _).
Qed.

Variable c : gconfig.
Variable st : list styler.
Variable s : schema.
Variable d : document.
Hypothesis C : config_named c.
Hypothesis S : forall x, In x st -> styler_named x.
Hypothesis N : schema_named s.
Hypothesis D : document_named d.

Lemma plugin_valid : forall p, client_plugin st s d c p -> ok (pl_generate p) (Forall sv).
Proof.
  intros p []; cbn [pl_generate].
  - now apply enums_valid.
  - now apply inputs_valid.
  - destruct H0 as [O1 O2 O3 O4]. apply objects_valid; try assumption.
    + intros n0 t i Ht Hi. destruct t; cbn in Hi; try destruct Hi; eauto.
    + intros n0 t Ht [K|K]; specialize (O4 _ _ Ht); destruct t; try discriminate; exact O4.
  - now apply fragments_valid.
  - now apply operations_valid.
  - now apply funcs_valid.
  - now apply input_funcs_valid.
Qed.
Lemma init_named : rnamed (init_reg c).
Proof.
  constructor; cbn [init_reg r_imports r_fwd r_scalars r_enums r_inputs r_frags r_iface_base r_iffrag r_ufrag r_single]; try (intros; contradiction).
  intros k t H. apply dmerge_In in H as [H|H]; [|exact (cn_scalars _ C _ _ H)]. cbn in H. repeat (destruct H as [[= <- <-]|H]; [reflexivity|]). destruct H.
Qed.
Lemma run_valid : forall ps r tree t r', Forall (fun p => ok (pl_generate p) (Forall sv)) ps -> rnamed r -> Forall sv tree ->
  run_plugins ps r tree = Ok (t, r') -> rnamed r' /\ Forall sv t.
Proof.
  induction ps as [|p ps IH]; intros r tree t r' HP R T E; cbn in E; [injection E as <- <-; now split|]. inversion HP as [|? ? H1 H2]; subst.
  destruct (H1 _ R) as [R1 Q1]. destruct (pl_generate p r) as [[l|e] r1]; [|discriminate]. cbn in R1, Q1.
  apply (IH r1 (tree ++ l)); try assumption. apply Forall_app. now split.
Qed.
Lemma module_valid : forall ps skip t, Forall (fun p => ok (pl_generate p) (Forall sv)) ps -> generate_ast c iter ps skip = Ok t -> valid_module t = true.
Proof.
  intros ps skip t HP E. unfold generate_ast in E. destruct (run_plugins ps (init_reg c) []) as [[tree r]|] eqn:ER; [|discriminate]. cbn in E.
  destruct (run_valid _ _ _ _ _ HP init_named (Forall_nil _) ER) as [R T]. destruct (generate_builtins iter r) as [bs|] eqn:EB; [|discriminate]. injection E as <-.
  apply svs. apply Forall_app. split; [now apply imports_ok|]. apply Forall_app. split; [exact (builtins_valid _ _ EB)|]. apply Forall_app. split; [exact T|]. destruct skip; [constructor|now apply forwards_ok].
Qed.
End Module.
(** The stylers of turms *)
Lemma to_upper_name_start : forall c, name_start c = true -> name_start (to_upper c) = true.
Proof.
  intros c. apply implb_true_iff. revert c. apply (ascii_forall (fun c => implb (name_start c) (name_start (to_upper c)))). vm_compute; reflexivity.
Qed.
Lemma cap_is_name : forall n, is_name n = true -> is_name (cap_first n) = true.
Proof.
  intros [|c n] H; [discriminate|]. cbn in *. apply andb_true_iff in H as [A B]. rewrite B, andb_true_r. now apply to_upper_name_start.
Qed.
Lemma shipped_stylers : styler_named base_styler /\ styler_named capitalize_styler /\ styler_named snake_styler /\ styler_named default_styler
  /\ forall a, (forall x, In x [ap_fragment a; ap_query a; ap_mutation a; ap_subscription a; ap_enum a; ap_input a] -> sforall name_char x = true) ->
       styler_named (appender_styler a).
Proof.
  repeat split.
  1-4: intros hook n H N; cbn in H; repeat (destruct H as [<-|H]; [cbn; first [exact N|now apply cap_is_name|now apply snake_is_name]|]); destruct H.
  intros a A hook n H N; cbn in H; repeat (destruct H as [<-|H]; [cbn; first [exact N|apply is_name_app; [exact N|apply A; cbn; tauto]]|]); destruct H.
Qed.
