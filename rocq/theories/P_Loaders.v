(** Proofs about loaders, commands and processors that run programs. *)
From Coq Require Import Lia.
From Verif Require Import Base PyAst Config Registry Run Merge Spec_Run Spec_Merge Loaders Spec_Loaders P_Base P_Run P_Merge.

(** ** Headers *)
Lemma dget_dmerge : forall (e d : dict string) k, NoDup (dkeys e) -> dget k (dmerge d e) = match dget k e with Some v => Some v | None => dget k d end.
Proof.
  induction e as [|[x v] e IH]; intros d k N; [reflexivity|]. inversion N as [|? ? Hx Ne]; subst. unfold dmerge. cbn [fold_left fst snd]. change (fold_left _ e ?d') with (dmerge d' e).
  rewrite (IH _ _ Ne), dget_dset. cbn [dget]. destruct (String.eqb k x) eqn:E.
  - apply String.eqb_eq in E. subst x. assert (dget k e = None) as -> by (now apply dget_None). now rewrite ?String.eqb_refl.
  - reflexivity.
Qed.
Lemma introspection_sent : forall configured, NoDup (dkeys configured) -> headers_sent json_headers configured (introspection_headers configured).
Proof. intros c N k. unfold introspection_headers. rewrite (dget_dmerge _ _ _ N). destruct (dget k c); [reflexivity|]. cbn. unfold json_headers. reflexivity. Qed.
Lemma plain_sent : forall configured, NoDup (dkeys configured) -> headers_sent no_headers configured (dmerge [] configured).
Proof. intros c N k. rewrite (dget_dmerge _ _ _ N). now destruct (dget k c). Qed.

(** ** URLs *)
Section Http.
Variable installed : bool.
Variable post : string -> string -> dict string -> res response.
Variable get : string -> dict string -> res response.
Variable to_json : response -> res json.
Variable decode : string -> res string.
Variable shown : json -> string.
Variable query : string.
Lemma dmem_get : forall {A} k (d : dict A), dmem k d = match dget k d with Some _ => true | None => false end.
Proof. reflexivity. Qed.
Lemma introspection_ok : forall url configured, NoDup (dkeys configured) -> exists sent, headers_sent json_headers configured sent
  /\ (forall d, load_introspection_from_url installed post to_json shown query url configured = Ok d <->
        installed = true /\ exists r x, post url query sent = Ok r /\ to_json r = Ok x /\ answers_with x d)
  /\ (forall e, load_introspection_from_url installed post to_json shown query url configured = Err e ->
        (forall r x, post url query sent = Ok r -> to_json r = Ok x -> json_object x) -> ecls e = GenerationErrorC).
Proof.
  intros url c N. exists (introspection_headers c). split; [now apply introspection_sent|]. unfold load_introspection_from_url, require_requests.
  destruct installed; [|split; [intros d; split; [discriminate|intros [? _]; discriminate]|intros e [= <-]; reflexivity]].
  destruct (post url query (introspection_headers c)) as [r|e0] eqn:P; cbn [rbind or_fail].
  2: { split; [intros d; split; [discriminate|intros (_ & r & x & K & _); discriminate]|intros e [= <-]; reflexivity]. }
  destruct (to_json r) as [x|e0] eqn:J; cbn [rbind or_fail].
  2: { split; [intros d; split; [discriminate|intros (_ & r' & x & [= <-] & K & _); congruence]|intros e [= <-]; reflexivity]. }
  split.
  - intros d. split.
    + intros H. split; [reflexivity|]. exists r, x. split; [reflexivity|]. split; [exact J|].
      destruct x; cbn in H; try discriminate H.
      * destruct (substring_of "errors" s); cbn in H; [discriminate|]. destruct (substring_of "data" s); discriminate H.
      * destruct (existsb _ l); cbn in H; [discriminate|]. destruct (existsb _ l) in H; discriminate H.
      * rewrite !dmem_get in H. destruct (dget "errors" d0) eqn:E; cbn in H; [discriminate|]. destruct (dget "data" d0) eqn:D; cbn in H; [|discriminate].
        injection H as <-. exists d0. repeat split; assumption.
    + intros (_ & r' & x' & [= <-] & J' & o & -> & E & D). rewrite J in J'. injection J' as ->. cbn. rewrite !dmem_get, E. cbn. rewrite D. reflexivity.
  - intros e H K. destruct (K r x eq_refl J) as (o & ->). cbn in H. rewrite !dmem_get in H.
    destruct (dget "errors" o) eqn:E; cbn in H; [injection H as <-; reflexivity|]. destruct (dget "data" o) eqn:D; cbn in H; [discriminate|injection H as <-; reflexivity].
Qed.
Lemma dsl_ok : forall url configured, NoDup (dkeys configured) -> exists sent, headers_sent no_headers configured sent
  /\ (forall t, load_dsl_from_url installed get decode url configured = Ok t <->
        installed = true /\ exists content, content <> "" /\ get url sent = Ok (Response 200 content) /\ decode content = Ok t)
  /\ (forall e, load_dsl_from_url installed get decode url configured = Err e -> ecls e = GenerationErrorC).
Proof.
  intros url c N. exists (dmerge [] c). split; [now apply plain_sent|]. unfold load_dsl_from_url, require_requests.
  destruct installed; [|split; [intros d; split; [discriminate|intros [? _]; discriminate]|intros e [= <-]; reflexivity]].
  split.
  - intros t. destruct (get url (dmerge [] c)) as [[st co]|e0] eqn:G; cbn [rbind re_status re_content].
    2: { split; [discriminate|]. intros (_ & x & _ & K & _). discriminate. }
    destruct (Nat.eqb_spec st 200) as [->|NE].
    2: { split; [discriminate|]. intros (_ & x & _ & K & _). congruence. }
    destruct (String.eqb_spec co "") as [->|NE].
    1: { split; [discriminate|]. intros (_ & x & K & L & _). injection L as <-. congruence. }
    split.
    + intros H. split; [reflexivity|]. exists co. split; [exact NE|]. split; [reflexivity|]. destruct (decode co); [exact H|discriminate].
    + intros (_ & x & _ & [= <-] & D). now rewrite D.
  - intros e. destruct (let? _ := _ in _); [discriminate|]. intros [= <-]. reflexivity.
Qed.
End Http.
Lemma sort_one : forall l, length (str_sort l) = length l.
Proof.
  assert (I : forall x l, length (insert_sorted x l) = S (length l)) by (intros x l; induction l as [|y l IH]; [reflexivity|]; cbn; destruct (str_leb x y); cbn; lia).
  induction l as [|x l IH]; [reflexivity|]. change (str_sort (x :: l)) with (insert_sorted x (str_sort l)). rewrite I. cbn. now rewrite IH.
Qed.
Lemma glob_ok : forall glob load g x, load_introspection_from_glob glob load g = Ok x <-> exists file, glob g = [file] /\ load file = Ok x.
Proof.
  intros glob load g x. unfold load_introspection_from_glob. pose proof (sort_one (glob g)) as L. split.
  - destruct (glob g) as [|a [|b l]]; cbn [str_sort fold_right] in *; [discriminate|intros H; now exists a|]. destruct (insert_sorted a _) as [|y [|z l']]; cbn in L; [lia|lia|discriminate].
  - intros (f & -> & E). exact E.
Qed.
Lemma glob_many : forall glob load g, length (glob g) <> 1%nat -> exists msg, load_introspection_from_glob glob load g = rraise GenerationErrorC msg.
Proof.
  intros glob load g H. unfold load_introspection_from_glob. pose proof (sort_one (glob g)) as L. destruct (str_sort (glob g)) as [|a [|b l]]; [eexists; reflexivity|cbn in L; congruence|eexists; reflexivity].
Qed.

(** ** Commands *)
Section Commands.
Variable writable : string -> bool.
Lemma app_inj : forall a b c : string, a +s+ b = a +s+ c -> b = c.
Proof. induction a as [|x a IH]; intros b c H; [exact H|]. injection H as H. now apply IH. Qed.
Lemma schema_path_inj : forall dir out k k', dir +s+ "/" +s+ k +s+ out = dir +s+ "/" +s+ k' +s+ out -> k = k'.
Proof. intros dir out k k' H. apply app_inj in H. injection H as H. now apply string_eq_dec_app in H. Qed.
Lemma schema_keys : forall dir out ps k, In (dir +s+ "/" +s+ k +s+ out) (map fst (schema_files dir out ps)) -> In k (map fst ps).
Proof.
  intros dir out ps k H. unfold schema_files in H. rewrite map_map in H. apply in_map_iff in H as (kv & E & I). cbn in E. apply schema_path_inj in E. subst k. now apply in_map.
Qed.
Lemma fset_same : forall p c f, fset p c f p = Some c.
Proof. intros. unfold fset. now rewrite String.eqb_refl. Qed.
Lemma fset_other : forall p c f q, q <> p -> fset p c f q = f q.
Proof. intros p c f q H. unfold fset. now apply String.eqb_neq in H as ->. Qed.
Lemma download_good : forall dir out ps rest f, NoDup (map fst ps) -> (forall p, In p (map fst (schema_files dir out ps)) -> writable p = true) ->
  exists g, download_loop writable dir out (good ps ++ rest) f = download_loop writable dir out rest g /\ written (schema_files dir out ps) f g.
Proof.
  intros dir out. induction ps as [|[k sdl] ps IH]; intros rest f N W.
  - exists f. split; [reflexivity|]. split; [intros p c []|reflexivity].
  - inversion N as [|? ? Hk Np]; subst. cbn [good map app download_loop fst snd]. fold (good ps). unfold write_to_file, path_join. rewrite (W (dir +s+ "/" +s+ k +s+ out)) by (now left). cbn [fbind].
    destruct (IH rest (fset (dir +s+ "/" +s+ k +s+ out) sdl f) Np) as (g & E & A & B); [intros p H; apply W; now right|].
    exists g. split; [exact E|]. split.
    + intros p c [[= <- <-]|H]; [|now apply A]. rewrite B; [apply fset_same|]. intros I. apply schema_keys in I. contradiction.
    + intros p H. rewrite B by (intros I; apply H; now right). apply fset_other. intros ->. apply H. now left.
Qed.
Lemma download_dir_eq : forall dir cwd, (if truthy dir then opt_str dir else cwd) = download_dir dir cwd.
Proof. intros [[|c d]|] cwd; reflexivity. Qed.
Lemma download_all : forall dir cwd out ps f, NoDup (map fst ps) -> (forall p, In p (map fst (schema_files (download_dir dir cwd) out ps)) -> writable p = true) ->
  fst (download writable dir cwd out (good ps) f) = Ok tt
  /\ written (schema_files (download_dir dir cwd) out ps) f (snd (download writable dir cwd out (good ps) f)).
Proof.
  intros dir cwd out ps f N W. unfold download. rewrite download_dir_eq. destruct (download_good _ out ps [] f N W) as (g & E & K). rewrite app_nil_r in E. rewrite E. cbn. now split.
Qed.
Lemma download_stops : forall dir cwd out ps k e rest f, NoDup (map fst ps) -> (forall p, In p (map fst (schema_files (download_dir dir cwd) out ps)) -> writable p = true) ->
  fst (download writable dir cwd out (good ps ++ (k, Err e) :: rest) f) = rraise ExceptionC (emsg e)
  /\ written (schema_files (download_dir dir cwd) out ps) f (snd (download writable dir cwd out (good ps ++ (k, Err e) :: rest) f)).
Proof.
  intros dir cwd out ps k e rest f N W. unfold download. rewrite download_dir_eq. destruct (download_good _ out ps ((k, Err e) :: rest) f N W) as (g & E & K). rewrite E. cbn. now split.
Qed.
Lemma init_ok : forall cwd config confirmed settings f, let q := cwd +s+ "/" +s+ config in writable q = true ->
  (f q <> None -> confirmed = false -> snd (init writable cwd config confirmed settings f) = f)
  /\ (f q = None \/ confirmed = true -> written [(q, settings)] f (snd (init writable cwd config confirmed settings f)))
  /\ fst (init writable cwd config confirmed settings f) = Ok tt.
Proof.
  intros cwd config confirmed settings f q W. unfold init, path_join. fold q. assert (Z : write_to_file writable (Ok settings) cwd config f = (Ok tt, fset q settings f)) by (unfold write_to_file, path_join; fold q; now rewrite W).
  assert (Y : written [(q, settings)] f (fset q settings f)).
  { split; [intros p c [[= <- <-]|[]]; apply fset_same|]. intros p H. apply fset_other. intros ->. apply H. now left. }
  rewrite Z. destruct (f q); destruct confirmed; cbn; (split; [congruence|]); (split; [|reflexivity]); intros [H|H]; first [discriminate H|exact Y].
Qed.

(** ** Watching *)
Variable p : fs -> project.
Variable q : string.
Hypothesis HQ : forall f, p_out (p f) = q.
Lemma watch_step_eq : forall f c, watch_step writable p f c =
  match p_generate (p (c f)) with Ok (code, _) => if writable q then fset q code (c f) else c f | Err _ => c f end.
Proof.
  intros f c. unfold watch_step. destruct (p_generate (p (c f))) as [[code s]|e]; [|reflexivity]. unfold write_to_file. change (path_join _ _) with (p_out (p (c f))). rewrite HQ. now destruct (writable q).
Qed.
(** one round of watching is one run of gen *)
Lemma watch_gen : forall k f c, (forall f, p_dump_schema (p f) = false) -> (forall f, p_dump_configuration (p f) = false) ->
  watch_step writable p f c = snd (generate_projects writable [(k, p (c f))] (c f)).
Proof.
  intros k f c D1 D2. rewrite watch_step_eq, generate_projects_fs. cbn [generate_loop]. unfold generate_one. rewrite D1, D2.
  destruct (p_generate (p (c f))) as [[code s]|e]; [|reflexivity]. unfold write_to_file. change (path_join _ _) with (p_out (p (c f))). rewrite HQ. now destruct (writable q).
Qed.
Lemma watch_gens : forall k events f, (forall f, p_dump_schema (p f) = false) -> (forall f, p_dump_configuration (p f) = false) ->
  watch_projects writable [(k, p)] events f = Ok (fold_left (fun f c => snd (generate_projects writable [(k, p (c f))] (c f))) events f).
Proof. intros k events f D1 D2. cbn. f_equal. revert f. induction events as [|c l IH]; intros f; [reflexivity|]. cbn [fold_left]. rewrite IH. now rewrite (watch_gen k). Qed.
Hypothesis HW : writable q = true.
Hypothesis HI : independent q p.
Lemma same_but_fset : forall f g c, same_but q f g -> same_but q (fset q c f) g.
Proof. intros f g c H x N. rewrite fset_other by assumption. now apply H. Qed.
Lemma edited_snoc : forall l c f, edited (l ++ [c]) f = c (edited l f).
Proof. intros. unfold edited. now rewrite fold_left_app. Qed.
Lemma watch_inv : forall events f, (forall c, In c events -> foreign q c) ->
  let g := fold_left (watch_step writable p) events f in
  same_but q g (edited events f) /\ (never_good p events f -> g q = f q) /\ (forall code, last_good p events f code -> g q = Some code).
Proof.
  intros events f. induction events as [|c events IH] using rev_ind; intros F.
  - split; [intros x _; reflexivity|]. split; [reflexivity|]. intros code (pre & post & sdl & E & N & _). destruct pre; [now elim N|discriminate E].
  - destruct IH as (S & NG & LG); [intros c' H; apply F; apply in_or_app; now left|]. rewrite fold_left_app. cbn [fold_left]. set (g := fold_left (watch_step writable p) events f) in *.
    destruct (F c) as (C1 & C2); [apply in_or_app; right; now left|]. pose proof (C2 _ _ S) as S'. rewrite edited_snoc.
    assert (G : p_generate (p (c g)) = p_generate (p (edited (events ++ [c]) f))) by (rewrite edited_snoc; now apply HI).
    cbn zeta. rewrite watch_step_eq, HW, G. destruct (p_generate (p (edited (events ++ [c]) f))) as [[code sdl]|e] eqn:E.
    + split; [now apply same_but_fset|]. split.
      * intros H. specialize (H (events ++ [c]) [] (eq_sym (app_nil_r _))). rewrite E in H. discriminate H. intros K. now apply app_eq_nil in K.
      * intros code' (pre & post & sdl' & Ee & N & Eg & R). rewrite fset_same. destruct post as [|c' post].
        -- rewrite app_nil_r in Ee. subst pre. congruence.
        -- specialize (R (c' :: post) [] (eq_sym (app_nil_r _))). rewrite <- Ee, E in R. discriminate R. discriminate.
    + split; [exact S'|]. split.
      * intros H. rewrite C1. apply NG. intros pre post Ee N. apply (H pre (post ++ [c])); [|exact N]. rewrite Ee. now rewrite app_assoc.
      * intros code' (pre & post & sdl' & Ee & N & Eg & R). rewrite C1. apply LG. destruct post as [|c' post] using rev_ind.
        -- rewrite app_nil_r in Ee. subst pre. congruence.
        -- clear IHpost. rewrite app_assoc in Ee. apply app_inj_tail in Ee as (Ee & ->). exists pre, post, sdl'. split; [exact Ee|]. split; [exact N|]. split; [exact Eg|].
           intros more rest Em Nm. apply (R more (rest ++ [c'])); [|exact Nm]. rewrite Em. now rewrite app_assoc.
Qed.
End Commands.

(** ** Processors *)
Section Programs.
Variable execute : list string -> string -> res outcome.
Variable split : string -> res (list string).
Variable python : string.
Variable show_code : Z -> string.
Lemma run_program_ok : forall name command input output, run_program execute show_code name command input = Ok output <-> succeeds execute command input output.
Proof.
  intros name command input output. unfold run_program, succeeds. destruct (execute command input) as [[code out err]|e]; cbn [rbind o_code o_stdout o_stderr].
  - destruct (Z.eqb_spec code 0) as [->|N].
    + split; [intros [= <-]; now exists err|intros (x & [= <- <-]); reflexivity].
    + split; [discriminate|intros (x & [= K _ _]); congruence].
  - split; [discriminate|intros (x & K); discriminate].
Qed.
Lemma command_ok : forall command input output, command_run execute split show_code command input = Ok output <->
  exists args, match command with inl s => split s = Ok args | inr l => l = args end /\ succeeds execute args input output.
Proof.
  intros [s|l] input output; unfold command_run.
  - destruct (split s) as [args|e]; cbn [rbind].
    + rewrite run_program_ok. split; [intros H; now exists args|intros (a & [= <-] & H); exact H].
    + split; [discriminate|intros (a & K & _); discriminate].
  - cbn [rbind]. rewrite run_program_ok. split; [intros H; now exists l|intros (a & <- & H); exact H].
Qed.
Lemma ruff_ok : forall format fix_ input output, ruff_run execute python show_code format fix_ input = Ok output <->
  exists mid, optionally fix_ (succeeds execute [python; "-m"; "ruff"; "check"; "--fix"; "--quiet"; "--stdin-filename"; "generated.py"; "-"]) input mid
  /\ optionally format (succeeds execute [python; "-m"; "ruff"; "format"; "--quiet"; "--stdin-filename"; "generated.py"; "-"]) mid output.
Proof.
  intros format fix_ input output. unfold ruff_run, optionally, run_ruff. cbn [app]. split.
  - intros H. destruct fix_.
    + destruct (run_program _ _ _ _ input) as [mid|e] eqn:E; [|discriminate]. cbn [rbind] in H. apply run_program_ok in E. exists mid. split; [exact E|]. destruct format; [now apply run_program_ok in H|now injection H].
    + exists input. split; [reflexivity|]. cbn [rbind] in H. destruct format; [now apply run_program_ok in H|now injection H].
  - intros (mid & A & B). destruct fix_; [apply (run_program_ok ("ruff " +s+ join " " ["check"; "--fix"; "--quiet"; "--stdin-filename"; "generated.py"])) in A; rewrite A|subst mid]; cbn [rbind];
    (destruct format; [now apply run_program_ok|now subst output]).
Qed.
End Programs.

(** ** Disclaimer and merge *)
Lemma final_line : forall k t tr l g, final (defines k) (CLine t tr :: l) g <-> final (defines k) l g.
Proof.
  intros k t tr l g. split.
  - intros (pre & post & E & D & N). destruct pre as [|x pre]; [injection E as <- _; discriminate D|]. injection E as <- E. now exists pre, post.
  - intros (pre & post & E & D & N). exists (CLine t tr :: pre), post. rewrite E. now repeat split.
Qed.
Lemma disclaim_kinds : forall d old gen, same_kinds (m_body old) (m_body gen) -> same_kinds (m_body old) (m_body (disclaim d gen)).
Proof. intros d old gen H k e g He Hg. apply (proj1 (final_line k [Small d] (m_header gen) (m_body gen) g)) in Hg. intros D. exact (H k e g He Hg D). Qed.
Lemma disclaim_unique : forall d gen, unique_members (m_body gen) -> unique_members (m_body (disclaim d gen)).
Proof. intros d gen H c h body k [K|K]; [discriminate K|]. exact (H c h body k K). Qed.
Lemma disclaim_merge_stable : forall d gen old n out, same_kinds (m_body old) (m_body gen) -> unique_members (m_body gen) ->
  disclaim_then_merge d gen (Some old) = Ok out -> runs (disclaim_then_merge d gen) (S n) (Some old) = Ok (Some out).
Proof.
  intros d gen old n out K U E. cbn [runs]. rewrite E. cbn [rbind]. assert (A : disclaim_then_merge d gen (Some out) = Ok out).
  { cbn [disclaim_then_merge run_merge] in *. eapply C36_again_lemma; [exact E|now apply disclaim_kinds|now apply disclaim_unique]. }
  induction n as [|n IH]; [reflexivity|]. cbn [runs]. rewrite A. exact IH.
Qed.
Lemma embeds_count : forall (R : cst -> cst -> Prop) (p : cst -> bool) l m, (forall a b, R a b -> p a = true -> p b = true) -> embeds R l m -> (count p l <= count p m)%nat.
Proof.
  intros R p l m H E. induction E as [m|a b l m Hab E IH|b l m E IH]; unfold count in *; cbn [filter].
  - cbn. lia.
  - destruct (p a) eqn:Pa; [rewrite (H a b Hab Pa); cbn; lia|destruct (p b); cbn; lia].
  - destruct (p b); cbn; lia.
Qed.
Lemma disclaimers_grow : forall d gen old out, same_kinds (m_body old) (m_body gen) -> merge_then_disclaim d gen (Some old) = Ok out ->
  (count (is_text d) (m_body old) < count (is_text d) (m_body out))%nat.
Proof.
  intros d gen old out K E. unfold merge_then_disclaim, run_merge in E. destruct (merge_modules old gen) as [m|e] eqn:M; [|discriminate]. cbn [rbind] in E. injection E as <-. destruct (C35_kept_lemma _ _ _ M K) as (Em & _).
  apply (embeds_count _ (is_text d)) in Em.
  - unfold count in *. cbn. rewrite String.eqb_refl. cbn. lia.
  - intros a b Hab Pa. destruct a; try discriminate Pa. cbn in Hab. now subst b.
Qed.
Lemma split_lines : forall c a b, split_on c (a +s+ String c b) = split_on c a ++ split_on c b.
Proof.
  intros c a b. induction a as [|d a IH]; cbn [split_on String.append app].
  - now rewrite Ascii.eqb_refl.
  - rewrite IH. destruct (Ascii.eqb c d); [reflexivity|]. destruct (split_on c a) eqn:E; [|reflexivity].
    exfalso. destruct a as [|x a]; cbn in E; [discriminate|]. destruct (Ascii.eqb c x); [discriminate|]. destruct (split_on c a); discriminate.
Qed.
Lemma disclaimer_lines : forall d gen, split_on newline (disclaimer_run d gen) = split_on newline d ++ split_on newline gen.
Proof. intros d gen. exact (split_lines newline d gen). Qed.
