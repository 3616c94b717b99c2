(** What the search finds in a printed document. *)
From Verif Require Import Base PyAst Gql Config Stylers Registry Utils Documents Inline Print Spec_Docs Spec_Inline
  P_Base P_Gql P_Documents P_Topo P_Monad P_Inline.
From Coq Require Import Lia.

Definition N (s : string) : list string := nonempty (findall s).
Definition emits (p : string) (l : list string) : Prop := forall rest, stops rest -> N (p +s+ rest) = l ++ N rest.
Definition silent (p : string) : Prop := forall rest, N (p +s+ rest) = N rest.

Lemma nonempty_app : forall a b, nonempty (a ++ b) = nonempty a ++ nonempty b.
Proof. intros. apply filter_app. Qed.
Lemma silent_emits : forall p, silent p -> emits p [].
Proof. intros p H rest _. apply H. Qed.
Lemma silent_nil : silent "".  Proof. intros rest; reflexivity. Qed.
Lemma silent_app : forall p q, silent p -> silent q -> silent (p +s+ q).
Proof. intros p q Hp Hq rest. now rewrite app_assoc_s, Hp, Hq. Qed.
Lemma quiet_tail : forall a s, quiet (String a s) -> quiet s.
Proof.
  intros a s [H1 H2]. split; intros H.
  - destruct H as (p & q & ->). apply H1. now exists (String a p), q.
  - destruct H as (p & ->). apply H2. now exists (String a p).
Qed.
Lemma quiet_silent : forall p, quiet p -> silent p.
Proof.
  intros p Hq rest. unfold N. f_equal. induction p as [|a p IH]; [reflexivity|].
  rewrite <- IH by (eapply quiet_tail; eassumption). destruct Hq as [H1 H2].
  destruct (is_dot a) eqn:Ea; [|now apply findall_skip]. apply dot_eq in Ea. subst a.
  destruct p as [|b p]; [exfalso; apply H2; now exists ""|].
  destruct (is_dot b) eqn:Eb; [|now apply (findall_step1 _ b (p +s+ rest))]. apply dot_eq in Eb. subst b.
  destruct p as [|d p]; [exfalso; apply H2; now exists "."|].
  destruct (is_dot d) eqn:Ed; [|now apply (findall_step2 _ _ d (p +s+ rest))]. apply dot_eq in Ed. subst d.
  exfalso. apply H1. now exists "", p.
Qed.
(** a decidable version *)
Fixpoint quietb (s : string) : bool :=
  match s with
  | EmptyString => true
  | String a r => (match r with
                   | EmptyString => negb (is_dot a)
                   | String b (String d _) => negb (is_dot a && is_dot b && is_dot d)
                   | _ => true
                   end) && quietb r
  end.
Lemma quietb_quiet : forall s, quietb s = true -> quiet s.
Proof.
  induction s as [|a s IH]; intros H.
  - split; [intros ([] & b & E)|intros ([] & E)]; discriminate.
  - cbn in H. apply andb_true_iff in H as [H1 H2]. destruct (IH H2) as [I1 I2]. split.
    + intros ([|x p] & q & E).
      * injection E as -> ->. cbn in H1. discriminate.
      * injection E as -> ->. apply I1. now exists p, q.
    + intros ([|x p] & E).
      * injection E as -> ->. discriminate.
      * injection E as -> ->. apply I2. now exists p.
Qed.
Ltac quiet_lit := apply quiet_silent, quietb_quiet; reflexivity.

Lemma emits_nil : emits "" [].  Proof. intros rest _; reflexivity. Qed.
Lemma emits_app : forall p q l m, emits p l -> emits q m -> (forall rest, stops rest -> stops (q +s+ rest)) -> emits (p +s+ q) (l ++ m).
Proof. intros p q l m Hp Hq Hs rest Hr. rewrite app_assoc_s, Hp, Hq, app_assoc; auto. Qed.
Lemma emits_silent_app : forall p q m, silent p -> emits q m -> emits (p +s+ q) m.
Proof. intros p q m Hp Hq rest Hr. rewrite app_assoc_s, Hp. now apply Hq. Qed.
Lemma stops_app : forall a q rest, is_alpha a = false -> stops (String a q +s+ rest).
Proof. intros a q rest H. exact H. Qed.

Lemma letters_stop : forall w rest, sforall is_alpha w = true -> stops rest -> letters (w +s+ rest) = w.
Proof.
  induction w as [|a w IH]; intros rest Hw Hr.
  - destruct rest as [|a rest]; [reflexivity|]. cbn in *. now rewrite Hr.
  - cbn in *. apply andb_true_iff in Hw as [Ha Hw]. rewrite Ha. now rewrite IH.
Qed.
Lemma alpha_nodot : forall a, is_alpha a = true -> is_dot a = false.
Proof. intros a H. destruct (is_dot a) eqn:E; [|reflexivity]. apply dot_eq in E. subst a. discriminate. Qed.
Lemma alpha_silent : forall w, sforall is_alpha w = true -> silent w.
Proof.
  induction w as [|a w IH]; intros H rest; [reflexivity|]. cbn in H. apply andb_true_iff in H as [Ha H].
  unfold N. cbn [String.append]. rewrite findall_skip by now apply alpha_nodot. now apply IH.
Qed.
Lemma findall_dots : forall t, findall ("..." +s+ t) = letters t :: findall t.
Proof. reflexivity. Qed.
Lemma emits_spread : forall n, word n -> emits ("..." +s+ n) [n].
Proof.
  intros n [Hne Hn] rest Hr. rewrite app_assoc_s. unfold N. rewrite findall_dots, letters_stop by assumption.
  cbn [nonempty filter]. destruct (String.eqb_spec n ""); [contradiction|]. cbn. f_equal. now apply alpha_silent.
Qed.
Lemma emits_dots : emits "..." [].
Proof.
  intros rest Hr. unfold N. rewrite findall_dots.
  assert (letters rest = "") as -> by (apply (letters_stop "" rest); auto). reflexivity.
Qed.

(** [shift] does not change what is found *)
Lemma letters_shift : forall p rest, letters (shift p +s+ rest) = letters (p +s+ rest).
Proof.
  induction p as [|a p IH]; intros rest; [reflexivity|]. cbn [shift].
  destruct (Ascii.eqb_spec a newline) as [->|]; [reflexivity|]. cbn. destruct (is_alpha a); [now rewrite IH|reflexivity].
Qed.
Lemma shift_cons : forall a r, shift (String a r) = if Ascii.eqb a newline then String a (String " " (String " " (shift r))) else String a (shift r).
Proof. reflexivity. Qed.
Lemma findall_shift : forall p rest, findall (shift p +s+ rest) = findall (p +s+ rest).
Proof.
  intros p rest. pattern p. apply str_len_ind. clear p. intros p IH.
  destruct p as [|a p]; [reflexivity|]. rewrite shift_cons.
  assert (IHp : findall (shift p +s+ rest) = findall (p +s+ rest)) by (apply IH; cbn; lia).
  destruct (Ascii.eqb_spec a newline) as [->|Ha].
  { change (findall (String newline (String " " (String " " (shift p +s+ rest)))) = findall (String newline (p +s+ rest))).
    now rewrite !findall_skip by reflexivity. }
  destruct (is_dot a) eqn:Ea.
  2:{ change (findall (String a (shift p +s+ rest)) = findall (String a (p +s+ rest))). now rewrite !findall_skip by assumption. }
  destruct p as [|b p]; [reflexivity|]. rewrite shift_cons in *.
  destruct (Ascii.eqb_spec b newline) as [->|Hb].
  { change (findall (String a (String newline (String " " (String " " (shift p +s+ rest))))) = findall (String a (String newline (p +s+ rest)))).
    etransitivity; [apply findall_step1; reflexivity|]. etransitivity; [exact IHp|]. symmetry. apply findall_step1; reflexivity. }
  destruct (is_dot b) eqn:Eb.
  2:{ change (findall (String a (String b (shift p +s+ rest))) = findall (String a (String b (p +s+ rest)))).
      etransitivity; [apply findall_step1; assumption|]. etransitivity; [exact IHp|]. symmetry. apply findall_step1; assumption. }
  destruct p as [|d p]; [reflexivity|]. rewrite shift_cons in *.
  destruct (Ascii.eqb_spec d newline) as [->|Hd].
  { change (findall (String a (String b (String newline (String " " (String " " (shift p +s+ rest)))))) = findall (String a (String b (String newline (p +s+ rest))))).
    etransitivity; [apply findall_step2; reflexivity|]. etransitivity; [exact IHp|]. symmetry. apply findall_step2; reflexivity. }
  destruct (is_dot d) eqn:Ed.
  2:{ change (findall (String a (String b (String d (shift p +s+ rest)))) = findall (String a (String b (String d (p +s+ rest))))).
      etransitivity; [apply findall_step2; assumption|]. etransitivity; [exact IHp|]. symmetry. apply findall_step2; assumption. }
  apply dot_eq in Ea, Eb, Ed. subst.
  change (letters (shift p +s+ rest) :: findall (shift p +s+ rest) = letters (p +s+ rest) :: findall (p +s+ rest)).
  rewrite letters_shift. f_equal. apply IH. cbn; lia.
Qed.
Lemma emits_shift : forall p l, emits p l -> emits (shift p) l.
Proof. intros p l H rest Hr. unfold N. rewrite findall_shift. now apply H. Qed.
Lemma wrap_emits : forall a m b l, silent a -> emits m l -> silent b -> (forall rest, stops rest -> stops (b +s+ rest)) -> emits (wrap a m b) l.
Proof.
  intros a m b l Ha Hm Hb Hs. unfold wrap. destruct (String.eqb_spec m "") as [->|_].
  - pose proof (Hm "" I) as E. cbn in E. rewrite app_nil_r in E. subst l. apply emits_nil.
  - apply emits_silent_app; [assumption|]. rewrite <- (app_nil_r l). apply emits_app; auto using silent_emits.
Qed.
Lemma wrap_silent : forall a m b, silent a -> silent m -> silent b -> silent (wrap a m b).
Proof. intros a m b Ha Hm Hb. unfold wrap. destruct (String.eqb m ""); [apply silent_nil|]. auto using silent_app. Qed.
Lemma emits_indent : forall p l, emits p l -> emits (indent p) l.
Proof. intros p l H. apply wrap_emits; [quiet_lit|now apply emits_shift|apply silent_nil|auto]. Qed.

Lemma emits_join : forall sep ps ls, silent sep -> (forall rest, stops rest -> stops (sep +s+ rest)) -> (forall q, stops (sep +s+ q)) ->
  Forall2 emits ps ls -> emits (join sep ps) (List.concat ls).
Proof.
  intros sep ps ls Hs _ Hst H. induction H as [|p l ps ls Hp H IH]; [apply emits_nil|].
  destruct H as [|p' l' ps' ls' Hp' H].
  - cbn. rewrite app_nil_r. exact Hp.
  - change (emits (p +s+ sep +s+ join sep (p' :: ps')) (l ++ List.concat (l' :: ls'))). apply emits_app; [assumption| |].
    + now apply emits_silent_app.
    + intros rest Hr. rewrite app_assoc_s. apply Hst.
Qed.
Lemma emits_pjoin : forall sep ps ls, silent sep -> (forall q, stops (sep +s+ q)) ->
  Forall2 emits ps ls -> emits (pjoin sep ps) (List.concat ls).
Proof.
  intros sep ps ls Hs Hst H. unfold pjoin.
  assert (exists ls', Forall2 emits (nonempty ps) ls' /\ List.concat ls' = List.concat ls) as (ls' & H' & <-).
  { induction H as [|p l ps ls Hp H (ls' & IH & E)]; [exists []; split; [constructor|reflexivity]|].
    cbn [nonempty filter]. destruct (String.eqb_spec p "") as [->|_]; cbn.
    - pose proof (Hp "" I) as E'. cbn in E'. rewrite app_nil_r in E'. subst l. exists ls'. auto.
    - exists (l :: ls'). split; [now constructor|]. cbn. now rewrite E. }
  apply emits_join; auto.
Qed.
Lemma silent_pjoin : forall sep ps, silent sep -> Forall silent ps -> silent (pjoin sep ps).
Proof.
  intros sep ps Hs H. unfold pjoin.
  assert (H' : Forall silent (nonempty ps)).
  { apply Forall_forall. intros x Hx. apply filter_In in Hx as [Hx _]. rewrite Forall_forall in H. auto. }
  induction H' as [|p l Hp _ IH]; [apply silent_nil|]. destruct l; cbn [join]; [assumption|].
  apply silent_app; [assumption|]. now apply silent_app.
Qed.
Lemma emits_block : forall ps ls, Forall2 emits ps ls -> emits (block ps) (List.concat ls).
Proof.
  intros ps ls H. unfold block. destruct ps as [|p ps]; [inversion H; apply emits_nil|].
  apply emits_silent_app; [quiet_lit|]. apply emits_silent_app; [quiet_lit|].
  rewrite <- (app_nil_r (List.concat ls)). apply emits_app.
  - apply emits_indent, emits_pjoin; [quiet_lit|reflexivity|assumption].
  - apply silent_emits. quiet_lit.
  - reflexivity.
Qed.

(** ** The printer *)
Section Printer.
Variable ps : string -> bool -> string.
Notation silents := (Forall silent).
Lemma quiets : forall ws, Forall quiet ws -> silents ws.
Proof. intros ws H. eapply Forall_impl; [|exact H]. apply quiet_silent. Qed.

Fixpoint value_silent (v : vnode) : silents (value_words ps v) -> silent (print_value ps v).
Proof.
  destruct v; cbn [value_words print_value]; intros H; try (now inversion H); try quiet_lit.
  - destruct b; quiet_lit.
  - apply silent_app; [quiet_lit|]. apply silent_app; [|quiet_lit]. apply silent_pjoin; [quiet_lit|].
    induction l as [|v l IH]; [constructor|]. cbn [flat_map map] in *. apply Forall_app in H as [H1 H2].
    constructor; [now apply value_silent|now apply IH].
  - apply silent_app; [quiet_lit|]. apply silent_app; [|quiet_lit]. apply silent_pjoin; [quiet_lit|].
    induction l as [|[k v] l IH]; [constructor|]. cbn [flat_map map fst snd app] in *. inversion H as [|? ? Hk Hv]; subst.
    apply Forall_app in Hv as [H1 H2].
    constructor; [|now apply IH]. apply silent_app; [assumption|]. apply silent_app; [quiet_lit|]. now apply value_silent.
  - apply silent_app; [quiet_lit|]. now inversion H.
Qed.
Lemma arg_silent : forall k v, silent k -> silents (value_words ps v) -> silent (print_arg ps (k, v)).
Proof. intros k v Hk Hv. unfold print_arg. apply silent_app; [assumption|]. apply silent_app; [quiet_lit|]. now apply value_silent. Qed.
Lemma args_silent : forall l, silents (args_words ps l) -> silents (map (print_arg ps) l).
Proof.
  induction l as [|[k v] l IH]; [constructor|]. unfold args_words. cbn [flat_map map fst snd app]. intros H.
  inversion H as [|? ? Hk Hv]; subst. apply Forall_app in Hv as [H1 H2]. constructor; [now apply arg_silent|now apply IH].
Qed.
Lemma directives_silent : forall l, silents (dirs_words ps l) -> silent (print_directives ps l).
Proof.
  intros l H. unfold print_directives. apply silent_pjoin; [quiet_lit|].
  induction l as [|d l IH]; [constructor|]. unfold dirs_words in H. cbn [flat_map map app] in *.
  inversion H as [|? ? Hk Hv]; subst. apply Forall_app in Hv as [H1 H2]. constructor; [|now apply IH].
  unfold print_directive. apply silent_app; [quiet_lit|]. apply silent_app; [assumption|].
  apply wrap_silent; [quiet_lit| |quiet_lit]. apply silent_pjoin; [quiet_lit|now apply args_silent].
Qed.
Lemma shift_silent : forall p, silent p -> silent (shift p).
Proof. intros p H rest. unfold N. rewrite findall_shift. apply H. Qed.
Lemma args_line_silent : forall prefix l, silent prefix -> silents (args_words ps l) -> silent (args_line ps prefix l).
Proof.
  intros prefix l Hp Hl. apply args_silent in Hl. unfold args_line. destruct (_ <? _)%nat.
  - apply silent_app; [assumption|]. apply wrap_silent; [quiet_lit| |quiet_lit].
    apply wrap_silent; [quiet_lit| |apply silent_nil]. apply shift_silent. apply silent_pjoin; [quiet_lit|assumption].
  - apply silent_app; [assumption|]. apply wrap_silent; [quiet_lit| |quiet_lit]. apply silent_pjoin; [quiet_lit|assumption].
Qed.
Lemma opt_silent : forall o, silents (opt_words o) -> silent (opt_str o).
Proof. intros [x|] H; [now inversion H|apply silent_nil]. Qed.

(** the spreads of a selection in the order of their occurrence *)
Fixpoint spreads (x : selection) : list string :=
  match x with
  | SelField (FieldNode _ _ _ _ (Some l)) => flat_map spreads l
  | SelField _ => []
  | SelSpread n _ => [n]
  | SelInline _ _ l => flat_map spreads l
  end.
Lemma spreads_In : forall x n, In n (spreads x) <-> spread_in True [x] n.
Proof.
  assert (G : forall l, (forall x, In x l -> forall n, In n (spreads x) <-> spread_in True [x] n) ->
              forall n, In n (flat_map spreads l) <-> spread_in True l n).
  { induction l as [|y l IHl]; intros H n; cbn.
    - split; [contradiction|]. intros H'. exfalso. eapply spread_in_nil; eassumption.
    - rewrite in_app_iff, spread_in_cons, IHl by (intros; apply H; now right). rewrite (H y) by now left. reflexivity. }
  intros x. induction x using sel_ind; intros m; cbn [spreads].
  - split; [contradiction|]. intros H'. exfalso. eapply si_leaf; eassumption.
  - rewrite Forall_forall in H. rewrite (G l H). symmetry. apply si_sub.
  - rewrite si_spread. cbn. intuition.
  - rewrite Forall_forall in H. rewrite (G l H). rewrite si_inl. tauto.
Qed.
Lemma spreads_list : forall l n, In n (flat_map spreads l) <-> spread_in True l n.
Proof.
  induction l as [|y l IH]; intros n; cbn.
  - split; [contradiction|]. intros H'. exfalso. eapply spread_in_nil; eassumption.
  - rewrite in_app_iff, spread_in_cons, IH, spreads_In. reflexivity.
Qed.
Lemma emits_list : forall l, Forall (fun x => silents (sel_words ps x) -> Forall word (spreads x) -> emits (print_sel ps x) (spreads x)) l ->
  silents (flat_map (sel_words ps) l) -> Forall word (flat_map spreads l) ->
  emits (block (map (print_sel ps) l)) (flat_map spreads l).
Proof.
  intros l H Hw Hs. rewrite flat_map_concat_map. apply emits_block.
  induction l as [|x l IH]; [constructor|]. cbn [flat_map map] in *. inversion H; subst.
  apply Forall_app in Hw as [Hw1 Hw2]. apply Forall_app in Hs as [Hs1 Hs2]. constructor; auto.
Qed.
Lemma emits3 : forall p q b lb, silent p -> silent q -> emits b lb -> emits (pjoin " " [p; q; b]) lb.
Proof.
  intros p q b lb Hp Hq Hb. rewrite <- (app_nil_r lb). change (lb ++ []) with (List.concat [[]; []; lb]).
  apply emits_pjoin; [quiet_lit|reflexivity|]. repeat constructor; auto using silent_emits.
Qed.
Lemma print_sel_emits : forall x, silents (sel_words ps x) -> Forall word (spreads x) -> emits (print_sel ps x) (spreads x).
Proof.
  intros x. induction x using sel_ind; cbn [spreads sel_words field_words print_sel print_field]; intros Hw Hs.
  - repeat match goal with H : Forall _ (_ ++ _) |- _ => apply Forall_app in H as [? H] end.
    apply emits3; [|now apply directives_silent|apply emits_nil].
    apply args_line_silent; [|assumption]. apply silent_app; [|now inversion H0].
    apply wrap_silent; [apply silent_nil|now apply opt_silent|quiet_lit].
  - repeat match goal with H : Forall _ (_ ++ _) |- _ => apply Forall_app in H as [? H] end.
    apply emits3; [|now apply directives_silent|now apply emits_list].
    apply args_line_silent; [|assumption]. apply silent_app; [|now inversion H1].
    apply wrap_silent; [apply silent_nil|now apply opt_silent|quiet_lit].
  - rewrite <- app_assoc_s. change [n] with ([n] ++ []). apply emits_app.
    + apply emits_spread. now inversion Hs.
    + apply silent_emits, wrap_silent; [quiet_lit|now apply directives_silent|apply silent_nil].
    + intros rest Hr. unfold wrap. destruct (String.eqb _ ""); [assumption|reflexivity].
  - repeat match goal with H : Forall _ (_ ++ _) |- _ => apply Forall_app in H as [? H] end.
    rewrite <- (app_nil_r (flat_map _ _)). change (flat_map spreads l ++ []) with (List.concat [[]; []; []; flat_map spreads l]).
    apply emits_pjoin; [quiet_lit|reflexivity|]. repeat constructor.
    + apply emits_dots.
    + apply silent_emits, wrap_silent; [quiet_lit|now apply opt_silent|apply silent_nil].
    + now apply silent_emits, directives_silent.
    + now apply emits_list.
Qed.
Lemma block_emits : forall l, silents (flat_map (sel_words ps) l) -> Forall word (flat_map spreads l) ->
  emits (block (map (print_sel ps) l)) (flat_map spreads l).
Proof. intros l. apply emits_list. apply Forall_forall. intros; now apply print_sel_emits. Qed.
Lemma words_spreads : forall l, (forall n, spread_in True l n -> word n) -> Forall word (flat_map spreads l).
Proof. intros l H. apply Forall_forall. intros n Hn. apply H, spreads_list, Hn. Qed.
Lemma emits_N : forall p l, emits p l -> N p = l.
Proof. intros p l H. specialize (H "" I). cbn in H. now rewrite app_nil_r_s, app_nil_r in H. Qed.

Lemma fragment_N : forall f, readable_fragment ps f -> N (print_fragment ps f) = flat_map spreads (fr_sels f).
Proof.
  intros f [Hw Hs]. apply quiets in Hw. unfold fragment_words in Hw. cbn [app] in Hw.
  inversion Hw as [|? ? H1 Hw1]; subst. inversion Hw1 as [|? ? H2 Hw2]; subst. apply Forall_app in Hw2 as [H3 H4].
  apply emits_N. unfold print_fragment.
  apply emits_silent_app; [quiet_lit|]. apply emits_silent_app; [assumption|]. apply emits_silent_app; [quiet_lit|].
  apply emits_silent_app; [assumption|]. apply emits_silent_app; [quiet_lit|].
  apply emits_silent_app; [apply wrap_silent; [apply silent_nil|now apply directives_silent|quiet_lit]|].
  apply block_emits; [assumption|now apply words_spreads].
Qed.
Lemma type_silent : forall t, silent (gty_name t) -> silent (print_type t).
Proof.
  induction t; cbn [gty_name print_type]; intros H; [assumption| |]; [|apply silent_app; [auto|quiet_lit]].
  apply silent_app; [quiet_lit|]. apply silent_app; [auto|quiet_lit].
Qed.
Lemma vardefs_silent : forall l, silents (flat_map (vardef_words ps) l) -> silents (map (print_vardef ps) l).
Proof.
  induction l as [|v l IH]; [constructor|]. cbn [flat_map map]. intros H. apply Forall_app in H as [H1 H2].
  constructor; [|now apply IH]. unfold vardef_words in H1. cbn [app] in H1.
  inversion H1 as [|? ? Ha Hw1]; subst. inversion Hw1 as [|? ? Hb Hw2]; subst. apply Forall_app in Hw2 as [Hc Hd].
  unfold print_vardef. apply silent_app; [quiet_lit|]. apply silent_app; [assumption|]. apply silent_app; [quiet_lit|].
  apply silent_app; [now apply type_silent|]. apply silent_app.
  - apply wrap_silent; [quiet_lit| |apply silent_nil]. destruct (v_default v); [now apply value_silent|apply silent_nil].
  - apply wrap_silent; [quiet_lit|now apply directives_silent|apply silent_nil].
Qed.
Lemma operation_N : forall o, readable_operation ps o -> N (print_operation ps o) = flat_map spreads (op_sels o).
Proof.
  intros o [Hw Hs]. apply quiets in Hw. unfold operation_words in Hw.
  repeat match goal with H : Forall _ (_ ++ _) |- _ => apply Forall_app in H as [? H] end.
  apply emits_N. unfold print_operation. apply emits_silent_app; [|apply block_emits; [assumption|now apply words_spreads]].
  destruct (String.eqb _ "query"); [apply silent_nil|]. apply silent_app; [|quiet_lit].
  apply silent_pjoin; [quiet_lit|]. repeat constructor.
  - destruct (op_kind o); quiet_lit.
  - apply silent_pjoin; [apply silent_nil|]. repeat constructor; [now apply opt_silent|].
    apply wrap_silent; [quiet_lit| |quiet_lit]. apply silent_pjoin; [quiet_lit|now apply vardefs_silent].
  - now apply directives_silent.
Qed.
Lemma with_typename_spreads : forall f, flat_map spreads (fr_sels (with_typename f)) = flat_map spreads (fr_sels f).
Proof. intros f. unfold with_typename. cbn. rewrite flat_map_app. destruct (existsb _ _); apply app_nil_r. Qed.
Lemma with_typename_readable : forall f, readable_fragment ps f -> readable_fragment ps (with_typename f).
Proof.
  intros f [Hw Hs]. split.
  - rewrite Forall_forall in *. intros w H.
    assert (G : In w (fragment_words ps f) \/ w = "__typename").
    { unfold fragment_words in *. cbn [fr_name fr_on fr_dirs fr_sels with_typename] in *. rewrite flat_map_app, !in_app_iff in *.
      destruct (existsb _ _); cbn in H; cbn [In]; intuition. }
    destruct G as [G| ->]; [auto|]. apply quietb_quiet. reflexivity.
  - intros n Hn. apply Hs. apply spreads_list. rewrite <- with_typename_spreads. now apply spreads_list.
Qed.
End Printer.
