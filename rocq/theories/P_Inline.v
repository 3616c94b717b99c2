(** Proofs for fragment inlining. *)
From Verif Require Import Base PyAst Gql Config Stylers Registry Utils Documents Inline Print Spec_Docs Spec_Inline
  P_Base P_Gql P_Documents P_Topo P_Monad.
From Coq Require Import Lia.

(** ** The search on texts *)
Lemma findall_skip : forall a r, is_dot a = false -> findall (String a r) = findall r.
Proof. intros a [|b [|d t]] H; cbn; try reflexivity. now rewrite H. Qed.
Lemma letters_prefix : forall s, exists b, s = letters s +s+ b /\ stops b.
Proof.
  induction s as [|a s (b & IH & Hb)]; [now exists ""|]. cbn. destruct (is_alpha a) eqn:E; [|now exists (String a s)].
  exists b. cbn. now rewrite <- IH.
Qed.
Lemma letters_alpha : forall s, sforall is_alpha (letters s) = true.
Proof. induction s as [|a s IH]; [reflexivity|]. cbn. destruct (is_alpha a) eqn:E; [|reflexivity]. cbn. now rewrite E, IH. Qed.
Lemma dot_eq : forall a, is_dot a = true -> a = "."%char.
Proof. intros a H. now apply Ascii.eqb_eq. Qed.

Lemma str_len_ind : forall P : string -> Prop,
  (forall s, (forall t, String.length t < String.length s -> P t) -> P s) -> forall s, P s.
Proof.
  intros P H s. assert (G : forall n t, String.length t < n -> P t).
  { induction n; intros t Ht; [lia|]. apply H. intros u Hu. apply IHn. lia. }
  apply (G (S (String.length s))). lia.
Qed.
Lemma findall_mentions : forall s f, In f (findall s) -> f <> "" -> mentions s f.
Proof.
  intros s f Hin Hne. split; [assumption|].
  enough (sforall is_alpha f = true /\ exists a b, s = a +s+ "..." +s+ f +s+ b /\ stops b) by tauto.
  revert Hin. pattern s. apply str_len_ind. clear s. intros s IH Hin.
  destruct s as [|a r]; [contradiction|].
  assert (Hr : forall t, String.length t < String.length (String a r) -> (exists p, String a r = p +s+ t) -> In f (findall t) ->
               sforall is_alpha f = true /\ exists p q, String a r = p +s+ "..." +s+ f +s+ q /\ stops q).
  { intros t Ht [p ->] Hi. destruct (IH t Ht Hi) as (Hl & a' & b' & E & Hb). split; [assumption|].
    exists (p +s+ a'), b'. split; [|assumption]. rewrite E at 1. now rewrite app_assoc_s. }
  destruct r as [|b [|d t]]; cbn in Hin; [contradiction|contradiction|].
  destruct (is_dot a && is_dot b && is_dot d) eqn:E.
  - apply andb_true_iff in E as [E Ed]. apply andb_true_iff in E as [Ea Eb].
    destruct Hin as [<-|Hin].
    + split; [apply letters_alpha|]. destruct (letters_prefix t) as (q & Hq & Hs). exists "", q. split; [|assumption]. cbn.
      rewrite (dot_eq _ Ea), (dot_eq _ Eb), (dot_eq _ Ed). now rewrite <- Hq.
    + apply (Hr t); [cbn; lia|now exists (String a (String b (String d "")))|assumption].
  - apply (Hr (String b (String d t))); [cbn; lia|now exists (String a "")|assumption].
Qed.

Lemma join_app : forall sep a b, b <> [] -> join sep (a ++ [join sep b]) = join sep (a ++ b).
Proof.
  intros sep a b Hb. induction a as [|x a IH]; [reflexivity|].
  destruct a as [|y a]; [destruct b; [contradiction|reflexivity]|].
  change (x +s+ sep +s+ join sep ((y :: a) ++ [join sep b]) = x +s+ sep +s+ join sep ((y :: a) ++ b)). now rewrite IH.
Qed.
Lemma join_document : forall parts last, document_of parts last (join (nl +s+ nl) (parts ++ [last])).
Proof.
  unfold document_of. induction parts as [|p parts IH]; intros last; [reflexivity|].
  cbn [app join fold_right]. destruct (parts ++ [last]) as [|q r] eqn:E; [now destruct parts|].
  rewrite <- E, (IH last). rewrite app_assoc_s. reflexivity.
Qed.
Lemma letters_nl : forall p q, letters (p +s+ String newline q) = letters p.
Proof. induction p as [|a p IH]; intros q; [reflexivity|]. cbn. destruct (is_alpha a); [now rewrite IH|reflexivity]. Qed.
Lemma findall_step1 : forall a b r, is_dot b = false -> findall (String a (String b r)) = findall (String b r).
Proof.
  intros a b [|d t] H; [reflexivity|].
  change ((if is_dot a && is_dot b && is_dot d then letters t :: findall t else findall (String b (String d t))) = findall (String b (String d t))).
  now rewrite H, andb_false_r.
Qed.
Lemma findall_step2 : forall a b d t, is_dot d = false -> findall (String a (String b (String d t))) = findall (String b (String d t)).
Proof.
  intros a b d t H.
  change ((if is_dot a && is_dot b && is_dot d then letters t :: findall t else findall (String b (String d t))) = findall (String b (String d t))).
  now rewrite H, andb_false_r.
Qed.
Lemma findall_nl : forall p q, findall (p +s+ String newline q) = findall p ++ findall q.
Proof.
  intros p q. pattern p. apply str_len_ind. clear p. intros p IH.
  destruct p as [|a [|b [|d t]]].
  - apply findall_skip. reflexivity.
  - change (findall (String a (String newline q)) = findall q).
    rewrite findall_step1 by reflexivity. apply findall_skip. reflexivity.
  - change (findall (String a (String b (String newline q))) = findall q).
    rewrite findall_step2, findall_step1 by reflexivity. apply findall_skip. reflexivity.
  - change (findall (String a (String b (String d (t +s+ String newline q)))) = findall (String a (String b (String d t))) ++ findall q).
    assert (E : forall u, findall (String a (String b (String d u))) =
                if is_dot a && is_dot b && is_dot d then letters u :: findall u else findall (String b (String d u))) by reflexivity.
    rewrite !E. destruct (is_dot a && is_dot b && is_dot d).
    + rewrite letters_nl, (IH t); [reflexivity|cbn; lia].
    + apply (IH (String b (String d t))). cbn; lia.
Qed.
Lemma findall_document : forall parts last,
  findall (join (nl +s+ nl) (parts ++ [last])) = flat_map findall parts ++ findall last.
Proof.
  intros. rewrite (join_document parts last). induction parts as [|p parts IH]; [reflexivity|].
  cbn [fold_right flat_map]. rewrite <- app_assoc, <- IH. unfold nl at 1 2. cbn [String.append].
  rewrite findall_nl. f_equal. apply findall_skip. reflexivity.
Qed.

(** ** Collecting *)
Definition found (t f : string) : Prop := In f (findall t) /\ f <> "".
Lemma reached_mono : forall (R S : string -> string -> Prop) doc text f, (forall t g, R t g -> S t g) ->
  reached R doc text f -> reached S doc text f.
Proof. intros R S doc text f H Hr. induction Hr; [apply m_here|eapply m_frag]; eauto. Qed.
Lemma found_mentioned : forall doc text f, reached found doc text f -> mentioned doc text f.
Proof. intros doc text f. apply reached_mono. intros t g []. now apply findall_mentions. Qed.
Section Collect.
Variable add : string -> res string.
Variable docs : dict string.
Definition doc (f : string) : option string :=
  match dget f docs with Some d => match add d with Ok t => Some t | Err _ => None end | None => None end.
Lemma new_In : forall text taken f, In f (new_fragments text taken) <-> In f (findall text) /\ f <> "" /\ ~ In f taken.
Proof.
  intros. unfold new_fragments. rewrite str_sort_In, filter_In, nodup_In, andb_true_iff, !negb_true_iff, mem_false.
  split; [intros (A & B & C)|intros (A & B & C)]; repeat split; auto; try now apply String.eqb_neq.
Qed.
Lemma new_NoDup : forall text taken, NoDup (new_fragments text taken).
Proof.
  intros. unfold new_fragments. eapply Permutation.Permutation_NoDup; [symmetry; apply str_sort_perm|].
  apply NoDup_filter, NoDup_nodup.
Qed.
Lemma rmap_doc : forall l parts,
  rmap (fun k => match dget k docs with Some d => add d | None => rraise FragmentNotFoundErrorC "Could not find in Fragment Map" end) l = Ok parts ->
  Forall2 (fun f p => doc f = Some p) l parts.
Proof.
  induction l as [|k l IH]; intros parts H; cbn in H; [injection H as <-; constructor|].
  destruct (dget k docs) as [d|] eqn:E; cbn in H; [|discriminate].
  destruct (add d) as [t|] eqn:Ea; cbn in H; [|discriminate].
  destruct (rmap _ l) as [ps|] eqn:Er; cbn in H; [|discriminate]. injection H as <-.
  constructor; [unfold doc; now rewrite E, Ea|now apply IH].
Qed.

(** the state of the loop: [parts] are the texts of [fs], put before [text] *)
Definition loop_inv (text : string) (fs parts : list string) : Prop :=
  NoDup fs /\ Forall2 (fun f p => doc f = Some p) fs parts /\ (forall f, In f fs -> reached found doc text f).


Lemma rmap_doc_err : forall l e,
  rmap (fun k => match dget k docs with Some d => add d | None => rraise FragmentNotFoundErrorC "Could not find in Fragment Map" end) l = Err e ->
  exists f, In f l /\ ((dget f docs = None /\ ecls e = FragmentNotFoundErrorC) \/ exists d, dget f docs = Some d /\ add d = Err e).
Proof.
  induction l as [|k l IH]; intros e H; cbn in H; [discriminate|].
  destruct (dget k docs) as [d|] eqn:E; cbn in H.
  - destruct (add d) as [t|e'] eqn:Ea; cbn in H.
    + destruct (rmap _ l) as [ps|e'] eqn:Er; cbn in H; [discriminate|]. injection H as ->.
      destruct (IH e eq_refl) as (f & Hf & Hc). exists f. split; [now right|assumption].
    + injection H as ->. exists k. split; [now left|]. right. eauto.
  - injection H as <-. exists k. split; [now left|]. left; auto.
Qed.
Lemma inv_mentioned : forall text fs parts f, loop_inv text fs parts -> f <> "" ->
  In f (findall (join (nl +s+ nl) (parts ++ [text]))) -> reached found doc text f.
Proof.
  intros text fs parts f (_ & HF & Hm) Hne Hin. rewrite findall_document, in_app_iff in Hin.
  destruct Hin as [Hin|Hin]; [|now apply m_here].
  apply in_flat_map in Hin as (p & Hp & Hin).
  assert (G : exists g, In g fs /\ doc g = Some p).
  { clear -HF Hp. induction HF; [contradiction|]. destruct Hp as [->|Hp]; [eauto using in_eq|].
    destruct (IHHF Hp) as (g & ? & ?). eauto using in_cons. }
  destruct G as (g & Hg & Hd). eapply m_frag; [apply Hm; eassumption|eassumption|now split].
Qed.
Lemma step_inv : forall text fs parts ps, loop_inv text fs parts ->
  let new := new_fragments (join (nl +s+ nl) (parts ++ [text])) fs in
  Forall2 (fun f p => doc f = Some p) new ps -> loop_inv text (new ++ fs) (ps ++ parts).
Proof.
  intros text fs parts ps Hinv new HF. pose proof Hinv as (Hn & HF' & Hm). split; [|split].
  - apply NoDup_app_intro; [apply new_NoDup|assumption|]. intros f H1 H2. apply new_In in H1. tauto.
  - now apply Forall2_app.
  - intros f Hin. apply in_app_iff in Hin as [Hin|Hin]; [|auto]. apply new_In in Hin as (H1 & H2 & _).
    eapply inv_mentioned; eassumption.
Qed.
Lemma inv_length : forall text fs parts, loop_inv text fs parts -> List.length fs <= List.length docs.
Proof.
  intros text fs parts (Hn & HF & _).
  replace (List.length docs) with (List.length (dkeys docs)) by apply map_length.
  apply NoDup_incl_length; [assumption|]. intros f Hf.
  assert (G : exists p, doc f = Some p).
  { clear -HF Hf. induction HF; [contradiction|]. destruct Hf as [->|Hf]; eauto. }
  destruct G as [p G]. unfold doc in G. destruct (dget f docs) eqn:E; [|discriminate].
  destruct (in_dec string_dec f (dkeys docs)) as [|Hc]; [assumption|]. apply dget_None in Hc. congruence.
Qed.
Lemma replace_post : forall text fuel fs parts, loop_inv text fs parts -> List.length docs < fuel + List.length fs ->
  match replace_fuel add fuel docs (join (nl +s+ nl) (parts ++ [text])) fs with
  | Ok t => exists fs' parts', loop_inv text fs' parts' /\ t = join (nl +s+ nl) (parts' ++ [text])
            /\ (forall f, f <> "" -> In f (findall t) -> In f fs')
  | Err e => exists f, reached found doc text f
       /\ ((dget f docs = None /\ ecls e = FragmentNotFoundErrorC) \/ exists d, dget f docs = Some d /\ add d = Err e)
  end.
Proof.
  intros text fuel. induction fuel as [|fuel IH]; intros fs parts Hinv Hlen.
  - pose proof (inv_length _ _ _ Hinv). cbn in Hlen. lia.
  - cbn [replace_fuel]. destruct (new_fragments _ fs) as [|n ns] eqn:En.
    + exists fs, parts. split; [assumption|]. split; [reflexivity|]. intros f Hne Hin.
      destruct (in_dec string_dec f fs) as [|Hc]; [assumption|].
      assert (In f (new_fragments (join (nl +s+ nl) (parts ++ [text])) fs)) by (apply new_In; auto).
      rewrite En in *; contradiction.
    + rewrite <- En. destruct (rmap _ (new_fragments _ fs)) as [ps|e] eqn:Er; cbn [rbind].
      * apply rmap_doc in Er. rewrite join_app by (now destruct parts). rewrite app_assoc.
        apply (IH (new_fragments (join (nl +s+ nl) (parts ++ [text])) fs ++ fs) (ps ++ parts)).
        -- now apply step_inv.
        -- rewrite app_length, En. cbn. lia.
      * apply rmap_doc_err in Er as (f & Hf & Hc). exists f. split; [|assumption].
        apply new_In in Hf as (H1 & H2 & _). eapply inv_mentioned; eassumption.
Qed.
Lemma replace_result : forall text,
  match replace_fuel add (S (List.length docs)) docs text [] with
  | Ok t => exists fs parts, NoDup fs /\ Forall2 (fun f p => doc f = Some p) fs parts
            /\ (forall f, In f fs -> reached found doc text f)
            /\ document_of parts text t /\ (forall f, f <> "" -> In f (flat_map findall parts ++ findall text) -> In f fs)
  | Err e => exists f, reached found doc text f
       /\ ((dget f docs = None /\ ecls e = FragmentNotFoundErrorC) \/ exists d, dget f docs = Some d /\ add d = Err e)
  end.
Proof.
  intros text. pose proof (replace_post text (S (List.length docs)) [] []) as H. cbn [app join] in H.
  destruct (replace_fuel _ _ _ _ _) as [t|e].
  - destruct H as (fs & parts & (H1 & H2 & H3) & -> & H4); [split; [constructor|split; [constructor|contradiction]]|cbn; lia|].
    exists fs, parts. repeat split; auto; [apply join_document|]. intros f Hne Hin. apply H4; [assumption|].
    now rewrite findall_document.
  - apply H; [split; [constructor|split; [constructor|contradiction]]|cbn; lia].
Qed.
End Collect.
