(** Proofs for C41 and C42: how a file that is found is read *)
From Coq Require Import Sorting.Sorted Sorting.Permutation.
From Verif Require Import Base PyAst Gql Config Stylers Registry Run Spec_Imports Spec_Run P_Base P_Imports P_Attr P_Run.

Lemma str_app_assoc : forall a b d, (a +s+ b) +s+ d = a +s+ (b +s+ d).
Proof. induction a as [|x a IH]; intros; [reflexivity|]. cbn. now rewrite IH. Qed.
Lemma loader_of : forall stem ending e, In e ["yaml"; "yml"; "toml"; "json"] -> ci_eq ending e -> get_file_loader (stem +s+ "." +s+ ending) = Ok e.
Proof.
  intros stem ending e He C. unfold get_file_loader. rewrite !lower_app. unfold ci_eq in C. rewrite C. change (str_lower ".") with ".".
  assert (L : str_lower e = e /\ has_dot e = false /\ mem e file_loaders = true) by (repeat (destruct He as [<-|He]; [repeat split|]); destruct He).
  destruct L as (-> & D & M). pose proof (last_comp_dotted (str_lower stem) e D) as E. unfold dotted in E. rewrite E, M. reflexivity.
Qed.
Lemma found_loaded : forall folder listing path, scan_folder_for_single_config folder listing = Ok path ->
  exists n base e, path = path_join folder n /\ In n listing /\ In e ["yaml"; "yml"; "toml"; "json"] /\ ci_eq n (base +s+ "." +s+ e)
  /\ forall A V (load : string -> string -> res V) (validate : V -> option (dict A)) v projects,
       load e path = Ok v -> validate v = Some projects -> load_projects_from_configpath load validate path None = Ok projects.
Proof.
  intros folder listing path H. unfold scan_folder_for_single_config, scan_folder_for_configs in H.
  destruct (filter _ listing) as [|n [|m l]] eqn:F; cbn [map] in H; try discriminate. injection H as <-.
  assert (Hn : In n listing /\ recognised n) by (apply filter_recognised; rewrite F; now left).
  destruct Hn as (Hl & base & e & _ & He & C). exists n, base, e. repeat split; auto.
  intros A V load validate v ps L W. unfold load_projects_from_configpath.
  assert (G : get_file_loader (path_join folder n) = Ok e).
  { unfold ci_eq in C. unfold get_file_loader, path_join. rewrite !lower_app, C, !lower_app, <- (str_app_assoc (str_lower "/")), <- (str_app_assoc (str_lower folder)).
    assert (X : str_lower e = e /\ has_dot e = false /\ mem e file_loaders = true) by (repeat (destruct He as [<-|He]; [repeat split|]); destruct He).
    destruct X as (-> & D & M). change (str_lower ".") with ".". rewrite (last_comp_dotted (str_lower folder +s+ str_lower "/" +s+ str_lower base) e D : last_comp (_ +s+ "." +s+ e) = e), M. reflexivity. }
  rewrite G. cbn. rewrite L. cbn. rewrite W. reflexivity.
Qed.

Lemma rmap_reads : forall (read : string -> res string) l ts, rmap read l = Ok ts <-> Forall2 (fun f t => read f = Ok t) l ts.
Proof.
  intros read. induction l as [|f l IH]; intros ts; split; intros H.
  - cbn in H. injection H as <-. constructor.
  - inversion H. reflexivity.
  - cbn in H. destruct (read f) as [t|] eqn:E; cbn in H; [|discriminate]. destruct (rmap read l) as [us|] eqn:E2; cbn in H; [|discriminate].
    injection H as <-. constructor; [exact E|]. now apply IH.
  - inversion H as [|a b l1 l2 H1 H2]; subst. apply IH in H2. cbn. rewrite H1. cbn. rewrite H2. reflexivity.
Qed.
Lemma glob_reads : forall glob read g text, load_dsl_from_glob glob read g = Ok text <->
  exists files texts, files <> [] /\ Permutation files (glob g) /\ StronglySorted (fun a b => str_leb a b = true) files
    /\ Forall2 (fun f t => read f = Ok t) files texts /\ text = join "" texts.
Proof.
  intros glob read g text. unfold load_dsl_from_glob. split.
  - intros H. exists (str_sort (glob g)). destruct (str_sort (glob g)) as [|f l] eqn:E; [discriminate|]. rewrite <- E in *.
    destruct (rmap read (str_sort (glob g))) as [ts|] eqn:R; cbn in H; [|discriminate]. injection H as <-. exists ts.
    split; [rewrite E; discriminate|]. split; [apply str_sort_perm|]. split; [apply str_sort_sorted|]. split; [now apply rmap_reads|reflexivity].
  - intros (files & texts & N & P & S & F & ->).
    assert (E : str_sort (glob g) = files).
    { rewrite <- (str_sort_Permutation _ _ P). apply sorted_perm_eq; [apply str_sort_sorted|exact S|apply str_sort_perm]. }
    rewrite E. destruct files as [|f l]; [congruence|]. apply rmap_reads in F. rewrite F. reflexivity.
Qed.
Lemma glob_order : forall glob glob' read g, Permutation (glob g) (glob' g) -> load_dsl_from_glob glob read g = load_dsl_from_glob glob' read g.
Proof. intros glob glob' read g P. unfold load_dsl_from_glob. now rewrite (str_sort_Permutation _ _ P). Qed.
