(** Comments of an operation. *)
From Coq Require Import Lia.
From Verif Require Import Base Comments Spec_Comments P_Base.

Lemma sforall_app : forall p a b, sforall p (a +s+ b) = sforall p a && sforall p b.
Proof. intros p a b. induction a as [|x a IH]; [reflexivity|]. cbn. now rewrite IH, andb_assoc. Qed.
Lemma break_cases : forall a, is_break a = existsb (Nat.eqb (nat_of_ascii a)) [10; 13] || existsb (Nat.eqb (nat_of_ascii a)) [11; 12; 28; 29; 30].
Proof. intros [[] [] [] [] [] [] [] []]; reflexivity. Qed.
Lemma pieces_nonempty : forall n s, String.length s <= n -> pieces s <> [].
Proof.
  induction n as [|n IH]; intros [|a r] H E; cbn [pieces String.length] in *; [discriminate E|inversion H|discriminate E|]. destruct (is_break a); [discriminate E|].
  specialize (IH r). destruct (pieces r); [apply IH; [now apply le_S_n|reflexivity]|discriminate E].
Qed.
Lemma pieces_ne : forall s, pieces s <> [].
Proof. intros s. apply (pieces_nonempty (String.length s)), le_n. Qed.
(** a text without breaks, put before another *)
Definition prefix_first (s : string) (l : list string) : list string := match l with p :: ps => (s +s+ p) :: ps | [] => [] end.
Lemma pieces_flat : forall s t, one_line s -> plain s -> pieces (s +s+ t) = prefix_first s (pieces t).
Proof.
  unfold one_line, plain. induction s as [|a s IH]; intros t H1 H2; cbn [append]. { destruct (pieces t); reflexivity. }
  cbn [sforall] in H1, H2. apply andb_true_iff in H1 as [H1 H1']. apply andb_true_iff in H2 as [H2 H2']. apply negb_true_iff in H1, H2.
  cbn [pieces]. rewrite break_cases, H1, H2. cbn [orb]. rewrite IH by assumption. destruct (pieces t); reflexivity.
Qed.
Lemma lf_first : forall q r, startswith LF (String q r) = false <-> q <> lf.
Proof.
  intros q r. split.
  - intros H ->. assert (T : startswith LF (String lf r) = true) by (apply prefix_ex; exists r; reflexivity). congruence.
  - intros N. destruct (startswith LF (String q r)) eqn:E; [|reflexivity]. exfalso. apply prefix_ex in E as (x & E). injection E as -> _. now apply N.
Qed.
Lemma starts_app : forall r b, startswith LF r = false -> startswith LF b = false -> startswith LF (r +s+ b) = false.
Proof. intros [|q r] b H1 H2; [exact H2|]. cbn [append]. apply lf_first. now apply lf_first in H1. Qed.
Lemma pieces_break : forall b r, line_break b -> (b = CR -> startswith LF r = false) -> pieces (b +s+ r) = "" :: pieces r.
Proof.
  intros b r [-> | [-> | ->]] H; [destruct r; reflexivity| |destruct r; reflexivity]. specialize (H eq_refl). destruct r as [|x r]; [reflexivity|].
  apply lf_first in H. change (pieces (CR +s+ String x r)) with ("" :: pieces (if Ascii.eqb cr cr && Ascii.eqb x lf then r else String x r)).
  apply Ascii.eqb_neq in H. now rewrite H, andb_false_r.
Qed.
Lemma pieces_lines : forall s l, has_lines s l -> plain s -> pieces s = l.
Proof.
  induction 1 as [s H|s b r l H1 H2 H3 H4 IH]; intros HP.
  - rewrite <- (app_nil_r_s s) at 1. rewrite pieces_flat by assumption. cbn. now rewrite app_nil_r_s.
  - unfold plain in HP. rewrite !sforall_app in HP. apply andb_true_iff in HP as [P1 P2]. apply andb_true_iff in P2 as [P2 P3].
    rewrite pieces_flat, pieces_break, IH by assumption. cbn. now rewrite app_nil_r_s.
Qed.
Lemma lines_app : forall a l, has_lines a l -> forall A x b y B, l = A ++ [x] -> has_lines b (y :: B) -> startswith LF b = false -> has_lines (a +s+ b) (A ++ (x +s+ y) :: B).
Proof.
  induction 1 as [s H|s k r l H1 H2 H3 H4 IH]; intros A x b y B E HB S.
  - destruct A as [|z A]; [|destruct A; discriminate E]. injection E as ->. cbn. inversion HB; subst.
    + apply hl_one. unfold one_line in *. rewrite sforall_app. now apply andb_true_iff.
    + rewrite <- app_assoc_s. apply hl_more; try assumption. unfold one_line in *. rewrite sforall_app. now apply andb_true_iff.
  - destruct A as [|z A]; [injection E as -> ->; inversion H4|]. cbn in E. injection E as -> ->. cbn. rewrite !app_assoc_s. apply hl_more; try assumption.
    + intros K. apply starts_app; auto.
    + eapply IH; [reflexivity|exact HB|exact S].
Qed.
Lemma substring_app : forall a b, substring 0 (String.length a) (a +s+ b) = a.
Proof. induction a as [|x a IH]; intros b; cbn; [now destruct b|]. now rewrite IH. Qed.
Lemma published_counts : counts_lines published_line.
Proof.
  intros before after l HP HL. unfold published_line. rewrite substring_app. unfold splitlines. rewrite (pieces_lines _ _ HL HP).
  destruct (String.eqb_spec (last l "") "") as [E|N].
  - destruct l as [|x l _] using rev_ind; [inversion HL|]. rewrite removelast_last. rewrite last_last in *. rewrite app_length. cbn [length].
    destruct l as [|y l]; [left; reflexivity|right]. split; [exact E|]. cbn. split; lia.
  - left. destruct l; [inversion HL|reflexivity].
Qed.
Lemma exact_counts : counts_lines (fun body p => length (pieces (substring 0 p body))).
Proof. intros before after l HP HL. left. now rewrite substring_app, (pieces_lines _ _ HL HP). Qed.

Lemma hash_app : forall b t, no_hash t -> after_hash (b +s+ String "#"%char t) = Some t.
Proof.
  assert (N : forall t, no_hash t -> after_hash t = None).
  { unfold no_hash. induction t as [|a t IH]; intros H; [reflexivity|]. cbn in *. apply andb_true_iff in H as [H1 H2]. rewrite IH by assumption. apply negb_true_iff in H1. now rewrite H1. }
  induction b as [|a b IH]; intros t H; cbn; [now rewrite N|]. now rewrite IH.
Qed.
Lemma hash_none : forall t, no_hash t -> after_hash t = None.
Proof.
  unfold no_hash. induction t as [|a t IH]; intros H; [reflexivity|]. cbn in *. apply andb_true_iff in H as [H1 H2]. rewrite IH by assumption. apply negb_true_iff in H1. now rewrite H1.
Qed.
Lemma comments_texts : forall ls ts, comments_of ls ts -> flat_map (fun l => match after_hash l with Some x => [x] | None => [] end) ls = ts.
Proof.
  induction 1; cbn; [reflexivity|rewrite hash_none by assumption; exact IHcomments_of|]. rewrite hash_app by assumption. cbn [app]. now rewrite IHcomments_of.
Qed.
Lemma comments_app : forall a x b y, comments_of a x -> comments_of b y -> comments_of (a ++ b) (x ++ y).
Proof.
  intros a x b y H HB. induction H; cbn [app]; [exact HB|now apply co_line|]. now apply co_comment.
Qed.

Lemma pieces_app : forall a l, has_lines a l -> forall A x b, l = A ++ [x] -> plain a -> startswith LF b = false -> pieces (a +s+ b) = A ++ prefix_first x (pieces b).
Proof.
  induction 1 as [s H|s k r l H1 H2 H3 H4 IH]; intros A x b E HP S.
  - destruct A as [|z A]; [|destruct A; discriminate E]. injection E as ->. now apply pieces_flat.
  - unfold plain in HP. rewrite !sforall_app in HP. apply andb_true_iff in HP as [P1 P2]. apply andb_true_iff in P2 as [P2 P3].
    destruct A as [|z A]; [injection E as -> ->; inversion H4|]. cbn in E. injection E as -> ->. cbn. rewrite !app_assoc_s, pieces_flat, pieces_break by first [assumption|intros K; apply starts_app; auto].
    cbn. rewrite app_nil_r_s. f_equal. now apply IH.
Qed.
Lemma firstn_splitlines : forall n s, n < length (pieces s) -> firstn n (splitlines s) = firstn n (pieces s).
Proof.
  intros n s H. unfold splitlines. destruct (String.eqb _ _); [|reflexivity]. destruct (pieces s) as [|x l _] using rev_ind; [reflexivity|].
  rewrite removelast_last. rewrite app_length in H. cbn in H. rewrite firstn_app. replace (n - length l) with 0 by lia. now rewrite app_nil_r.
Qed.

Section Head.
Variables (line : string -> nat -> nat) (pre head rest : string) (above : list string) (p first : string) (middle : list string) (h : string).
Hypothesis HL : counts_lines line.
Hypothesis HH : head_lines pre head rest above p first middle h.
(** the first selection does not start a line *)
Hypothesis Hh : h <> "".
Notation body := (pre +s+ head +s+ rest).
Notation start := (String.length pre).
Notation position := (String.length (pre +s+ head)).
Notation inspected := (inspect_operation_for_documentation line (Some (body, start)) (Some position)).
Lemma inspected_lines : forall ts, comments_of ((p +s+ first) :: middle) ts ->
  (line body start = S (length above) /\ inspected = Ok (documentation ts))
  \/ (p = "" /\ line body start = length above /\ exists up l, above = up ++ [l] /\ forall t, comments_of [l] t -> inspected = Ok (documentation (t ++ ts))).
Proof.
  intros ts HT. destruct HH as [H1 H2 H3 H4 H5].
  assert (P : plain pre /\ plain (pre +s+ head)).
  { unfold plain in *. rewrite !sforall_app in *. apply andb_true_iff in H3 as [A B]. apply andb_true_iff in B as [B C]. rewrite A, B. split; reflexivity. }
  destruct P as [P1 P2].
  pose proof (lines_app _ _ H1 _ _ _ _ _ eq_refl H2 H4) as LH.
  assert (EB : pieces body = above ++ (p +s+ first) :: middle ++ prefix_first h (pieces rest)).
  { rewrite <- app_assoc_s. rewrite (pieces_app _ _ LH (above ++ (p +s+ first) :: middle) h rest); [|now rewrite <- app_assoc|exact P2|exact H5]. now rewrite <- app_assoc. }
  assert (NR : prefix_first h (pieces rest) <> []) by (destruct (pieces rest) eqn:E; [now apply pieces_ne in E|discriminate]).
  assert (EP : line body position = length above + S (S (length middle))).
  { destruct (HL _ rest _ P2 LH) as [E|(E & _)].
    - rewrite app_assoc_s in E. rewrite E, app_length. cbn. rewrite app_length. cbn. lia.
    - exfalso. apply Hh. rewrite <- E. change ((p +s+ first) :: middle ++ [h]) with (((p +s+ first) :: middle) ++ [h]). now rewrite app_assoc, last_last. }
  assert (FN : firstn (line body position - 1) (splitlines body) = above ++ (p +s+ first) :: middle).
  { rewrite EP. rewrite firstn_splitlines.
    - rewrite EB. replace (above ++ (p +s+ first) :: middle ++ prefix_first h (pieces rest)) with ((above ++ (p +s+ first) :: middle) ++ prefix_first h (pieces rest)) by now rewrite <- app_assoc.
      rewrite firstn_app. rewrite app_length. cbn [length]. replace (length above + S (S (length middle)) - 1 - (length above + S (length middle))) with 0 by lia. cbn. rewrite app_nil_r.
      apply firstn_all2. rewrite app_length. cbn. lia.
    - rewrite EB, app_length. cbn. rewrite app_length. destruct (prefix_first h (pieces rest)); [contradiction|]. cbn. lia. }
  unfold inspect_operation_for_documentation. rewrite FN.
  assert (ED : forall k ls us, skipn k (above ++ (p +s+ first) :: middle) = ls -> comments_of ls us ->
    match flat_map (fun l => match after_hash l with Some x => [x] | None => [] end) (skipn k (above ++ (p +s+ first) :: middle)) with [] => Ok None | doc => Ok (Some (join nl doc)) end = Ok (documentation us)).
  { intros k ls us -> HC. rewrite (comments_texts _ _ HC). destruct us; reflexivity. }
  destruct (HL _ (head +s+ rest) _ P1 H1) as [E|(E1 & E2 & E3)].
  - left. rewrite app_length in E. cbn in E. split; [lia|]. eapply ED; [|exact HT]. rewrite E. replace (length above + 1 - 1) with (length above) by lia.
    rewrite skipn_app, skipn_all, Nat.sub_diag. reflexivity.
  - right. rewrite last_last in E1. rewrite app_length in E2, E3. cbn in E2, E3. split; [exact E1|]. split; [lia|].
    destruct above as [|l up _] using rev_ind; [cbn in E2; lia|]. exists up, l. split; [reflexivity|]. intros t Ht. eapply ED; [|exact (comments_app _ _ _ _ Ht HT)].
    rewrite app_length in E3. cbn in E3. rewrite E3. replace (length up + 1 + 1 - 1 - 1) with (length up) by lia. rewrite <- app_assoc, skipn_app, skipn_all, Nat.sub_diag. reflexivity.
Qed.
End Head.

Theorem head_documentation : forall line pre head rest above p first middle h, counts_lines line -> head_lines pre head rest above p first middle h -> h <> "" ->
  (p = "" -> forall up l, above = up ++ [l] -> no_hash l) ->
  forall ts, comments_of ((p +s+ first) :: middle) ts ->
  inspect_operation_for_documentation line (Some (pre +s+ head +s+ rest, String.length pre)) (Some (String.length (pre +s+ head))) = Ok (documentation ts).
Proof.
  intros line pre head rest above p first middle h HL HH Hh HA ts HT. destruct (inspected_lines _ _ _ _ _ _ _ _ _ HL HH Hh ts HT) as [[_ E]|(E1 & _ & up & l & E2 & E)]; [exact E|].
  specialize (E []). apply E. apply co_line; [eapply HA; eassumption|constructor].
Qed.
Theorem line_above : forall pre head rest up b t first middle h, head_lines pre head rest (up ++ [b +s+ "#" +s+ t]) "" first middle h -> h <> "" -> no_hash b -> no_hash t ->
  forall ts, comments_of (first :: middle) ts ->
  inspect_operation_for_documentation published_line (Some (pre +s+ head +s+ rest, String.length pre)) (Some (String.length (pre +s+ head))) = Ok (documentation (t :: ts)).
Proof.
  intros pre head rest up b t first middle h HH Hh N1 N2 ts HT. destruct (inspected_lines _ _ _ _ _ _ _ _ _ published_counts HH Hh ts HT) as [[E _]|(_ & _ & up' & l & E2 & E)].
  - exfalso. destruct HH as [H1 _ H3 _ _]. unfold published_line in E. rewrite substring_app in E.
    assert (P1 : plain pre) by (unfold plain in *; rewrite sforall_app in H3; apply andb_true_iff in H3; tauto).
    unfold splitlines in E. rewrite (pieces_lines _ _ H1 P1), last_last, String.eqb_refl, removelast_last in E. destruct (up ++ [b +s+ "#" +s+ t]) eqn:EU; [destruct up; discriminate EU|]. lia.
  - apply app_inj_tail in E2 as [_ <-]. apply (E [t]). apply co_comment; [assumption..|constructor].
Qed.
(** every plain text has lines *)
Lemma lines_cons : forall a s l, one_line (String a "") -> has_lines s l -> has_lines (String a s) (prefix_first (String a "") l).
Proof.
  intros a s l H HL. unfold one_line in H. cbn [sforall] in H. rewrite andb_true_r in H. inversion HL; subst; cbn [prefix_first append].
  - apply hl_one. unfold one_line in *. cbn [sforall]. now rewrite H.
  - change (String a (s0 +s+ b +s+ r)) with ((String a s0) +s+ b +s+ r). apply hl_more; try assumption. unfold one_line in *. cbn [sforall]. now rewrite H.
Qed.
Lemma lines_pieces : forall s, plain s -> has_lines s (pieces s).
Proof.
  intros s. remember (String.length s) as n eqn:En. assert (Hn : String.length s <= n) by lia. clear En. revert s Hn. induction n as [|n IH]; intros [|a r] Hn HP; try (cbn in Hn; lia); try (apply hl_one; reflexivity).
  unfold plain in HP. cbn [sforall] in HP. apply andb_true_iff in HP as [H1 H2]. apply negb_true_iff in H1. cbn [String.length] in Hn.
  destruct (existsb (Nat.eqb (nat_of_ascii a)) [10; 13]) eqn:EB.
  - assert (B : a = lf \/ a = cr).
    { cbn in EB. rewrite orb_false_r in EB. apply orb_true_iff in EB as [EB|EB]; apply Nat.eqb_eq in EB; [left|right]; rewrite <- (ascii_nat_embedding a), EB; reflexivity. }
    destruct B as [-> | ->].
    + replace (pieces (String lf r)) with ("" :: pieces r) by (destruct r; reflexivity). apply (hl_more "" LF r); [reflexivity|now left|discriminate|]. apply IH; [lia|exact H2].
    + destruct r as [|b r]; [apply (hl_more "" CR ""); [reflexivity|right; now left|reflexivity|now apply hl_one]|].
      change (pieces (String cr (String b r))) with ("" :: pieces (if Ascii.eqb cr cr && Ascii.eqb b lf then r else String b r)).
      destruct (Ascii.eqb_spec b lf) as [->|N].
      * rewrite Ascii.eqb_refl. cbn [andb]. apply (hl_more "" (CR +s+ LF) r); [reflexivity|right; now right|discriminate|]. apply IH; [cbn [String.length] in Hn; lia|]. cbn [sforall] in H2. now apply andb_true_iff in H2.
      * rewrite andb_false_r. apply (hl_more "" CR (String b r)); [reflexivity|right; now left|intros _; now apply lf_first|]. apply IH; [lia|exact H2].
  - cbn [pieces]. rewrite break_cases, EB, H1. cbn [orb]. specialize (IH r ltac:(lia) H2). destruct (pieces r) as [|q qs] eqn:EP; [now apply pieces_ne in EP|].
    apply (lines_cons a r (q :: qs)); [|exact IH]. unfold one_line. cbn [sforall]. now rewrite EB.
Qed.
