(** Names of the classes generated for a selection. *)
From Coq Require Import Lia.
From Verif Require Import Base PyAst Gql Config Stylers Registry Utils Documents Inline Recurse Fragments Operations
  Spec_Types Spec_Fields Spec_Selection Spec_Naming Spec_Paths
  P_Base P_Gql P_Monad P_Stylers P_Annot P_Recurse P_Fields P_Selection P_Post P_Dispatch P_Attr.

(** ** Strings *)
Fixpoint caps (p : list string) : string := match p with [] => "" | k :: r => py_capitalize k +s+ caps r end.
Lemma caps_app : forall p q, caps (p ++ q) = caps p +s+ caps q.
Proof. induction p as [|k p IH]; intros q; [reflexivity|]. cbn [caps app]. now rewrite IH, app_assoc_s. Qed.
Lemma caps_snoc : forall p k, caps (p ++ [k]) = caps p +s+ py_capitalize k.
Proof. intros. rewrite caps_app. cbn [caps]. now rewrite app_nil_s. Qed.
Definition gk (k : string) : Prop := starts_with is_alpha k = true /\ str_lower k <> "base".
Lemma to_upper_alpha : forall x, is_alpha x = true -> is_upper (to_upper x) = true.
Proof.
  intros x H. assert (T := ascii_forall (fun x => negb (is_alpha x) || is_upper (to_upper x))).
  cbn beta in T. specialize (T ltac:(vm_compute; reflexivity) x). rewrite H in T. exact T.
Qed.
Lemma lower_upper : forall x, to_lower (to_upper x) = to_lower x.
Proof.
  intros x. assert (T := ascii_forall (fun x => Ascii.eqb (to_lower (to_upper x)) (to_lower x))).
  apply Ascii.eqb_eq. apply T. vm_compute. reflexivity.
Qed.
Lemma lower_lower : forall s, str_lower (str_lower s) = str_lower s.
Proof. induction s as [|x s IH]; [reflexivity|]. cbn. f_equal; [apply to_lower_id, to_lower_not_upper|exact IH]. Qed.
Lemma lower_cap : forall k, str_lower (py_capitalize k) = str_lower k.
Proof. intros [|x k]; [reflexivity|]. cbn. f_equal; [apply lower_upper|apply lower_lower]. Qed.
Lemma lower_no_upper : forall s, no_upper (str_lower s).
Proof. induction s as [|x s IH]; [reflexivity|]. unfold no_upper in *. cbn [str_lower smap sforall]. rewrite to_lower_not_upper. exact IH. Qed.
(** the empty word, or one that starts with a capital *)
Definition fresh_word (x : string) : Prop := x = "" \/ starts_with is_upper x = true.
Lemma fresh_caps : forall p x, Forall gk p -> fresh_word x -> fresh_word (caps p +s+ x).
Proof.
  intros [|[|a k] p] x H Hx; [exact Hx|inversion H as [|? ? [G _]]; discriminate|].
  right. inversion H as [|? ? [G _]]. cbn. now apply to_upper_alpha.
Qed.
(** words without inner capitals split off uniquely *)
Lemma split_word : forall a b x y, no_upper a -> no_upper b -> fresh_word x -> fresh_word y -> a +s+ x = b +s+ y -> a = b /\ x = y.
Proof.
  induction a as [|c a IH]; intros [|d b] x y Ha Hb Hx Hy E; cbn in E; [auto| | |].
  - exfalso. subst x. destruct Hx as [Hx|Hx]; [discriminate|]. cbn in Hx. unfold no_upper in Hb. cbn in Hb. rewrite Hx in Hb. discriminate.
  - exfalso. subst y. destruct Hy as [Hy|Hy]; [discriminate|]. cbn in Hy. unfold no_upper in Ha. cbn in Ha. rewrite Hy in Ha. discriminate.
  - injection E as -> E. unfold no_upper in Ha, Hb. cbn in Ha, Hb. apply andb_true_iff in Ha as [_ Ha], Hb as [_ Hb].
    destruct (IH b x y Ha Hb Hx Hy E) as [-> ->]. auto.
Qed.
Lemma split_cap : forall k k' x y, gk k -> gk k' -> fresh_word x -> fresh_word y ->
  py_capitalize k +s+ x = py_capitalize k' +s+ y -> py_capitalize k = py_capitalize k' /\ x = y.
Proof.
  intros [|a k] [|b k'] x y [G _] [G' _] Hx Hy E; try discriminate. cbn in E. injection E as E1 E.
  apply split_word in E as [E ->]; try apply lower_no_upper; try assumption. cbn. now rewrite E1, E.
Qed.
(** suffixes: none, or "Base" and a capitalised word *)
Definition suffix_ok (x : string) : Prop := x = "" \/ exists i, x = "Base" +s+ i /\ fresh_word i.
Lemma suffix_fresh : forall x, suffix_ok x -> fresh_word x.
Proof. intros x [->|(i & -> & _)]; [now left|now right]. Qed.
Lemma suffix_key : forall x k r, suffix_ok x -> gk k -> fresh_word r -> x <> py_capitalize k +s+ r.
Proof.
  intros x [|a k] r Hx [G1 G2] Hr E; [discriminate|]. destruct Hx as [->|(i & -> & Hi)]; [discriminate|].
  change ("Base" +s+ i) with (String "B" ("ase" +s+ i)) in E.
  change (py_capitalize (String a k) +s+ r) with (String (to_upper a) (str_lower k +s+ r)) in E. injection E as E1 E.
  change (String "a" (String "s" (String "e" i))) with ("ase" +s+ i) in E.
  apply split_word in E as [E _]; [|reflexivity|apply lower_no_upper|exact Hi|exact Hr].
  apply G2. rewrite <- lower_cap. cbn [py_capitalize]. rewrite <- E, <- E1. reflexivity.
Qed.
Definition ident : Type := (list string * string)%type.
Definition low (d : ident) : ident := (map str_lower (fst d), snd d).
Definition valid (d : ident) : Prop := Forall gk (fst d) /\ suffix_ok (snd d).
Definition nm (cls : string) (d : ident) : string := cls +s+ caps (fst d) +s+ snd d.
Lemma nm_inj : forall cls d e, valid d -> valid e -> nm cls d = nm cls e -> low d = low e.
Proof.
  intros cls [p x] [q y] [Hp Hx] [Hq Hy] E. unfold nm in E. apply string_app_inj in E. cbn [fst snd] in *. unfold low. cbn [fst snd].
  revert q Hq E. induction p as [|k p IH]; intros [|k' q] Hq E.
  - cbn [caps] in E. change ("" +s+ x) with x in E. change ("" +s+ y) with y in E. now subst.
  - exfalso. inversion Hq; subst. cbn [caps] in E. change ("" +s+ x) with x in E. rewrite app_assoc_s in E.
    revert E. apply suffix_key; [exact Hx|assumption|]. apply fresh_caps; [assumption|now apply suffix_fresh].
  - exfalso. inversion Hp; subst. cbn [caps] in E. change ("" +s+ y) with y in E. rewrite app_assoc_s in E. symmetry in E.
    revert E. apply suffix_key; [exact Hy|assumption|]. apply fresh_caps; [assumption|now apply suffix_fresh].
  - inversion Hp; inversion Hq; subst. cbn [caps] in E. rewrite !app_assoc_s in E.
    apply split_cap in E as [E1 E]; [|assumption|assumption|apply fresh_caps; [assumption|now apply suffix_fresh]..].
    cbn [map]. assert (L : str_lower k = str_lower k') by (rewrite <- (lower_cap k), <- (lower_cap k'); now rewrite E1).
    specialize (IH ltac:(assumption) q ltac:(assumption) E). injection IH as IH ->. now rewrite L, IH.
Qed.
Lemma nm_NoDup : forall cls L, Forall valid L -> NoDup (map low L) -> NoDup (map (nm cls) L).
Proof.
  intros cls L HV. induction HV as [|d L Hd HV IH]; intros N; [constructor|]. inversion N as [|? ? N1 N2]; subst. cbn [map]. constructor; [|auto].
  intros Hin. apply in_map_iff in Hin as (e & E & He). apply N1. apply in_map_iff. exists e. split; [|exact He].
  rewrite Forall_forall in HV. eapply nm_inj; [apply HV; exact He|exact Hd|exact E].
Qed.

Section Paths.
Variable cls : string.
(** [names] are those of classes at pairwise different positions below [P], whose first keys are
    among [ks] (up to case) *)
Definition under (P : list string) (ks : list string) (d : ident) : Prop :=
  exists k q, fst d = P ++ k :: q /\ In (str_lower k) ks.
Definition Cls (P : list string) (ks names : list string) : Prop :=
  exists L, names = map (nm cls) L /\ Forall (under P ks) L /\ Forall valid L /\ NoDup (map low L).
Lemma Cls_nil : forall P ks, Cls P ks [].
Proof. intros. exists []. repeat constructor. Qed.
Lemma NoDup_app_iff : forall {A} (a b : list A), NoDup a -> NoDup b -> (forall x, In x a -> ~ In x b) -> NoDup (a ++ b).
Proof.
  intros A a b Ha Hb D. induction Ha as [|x a Hx Ha IH]; [exact Hb|]. cbn. constructor.
  - rewrite in_app_iff. intros [H|H]; [auto|]. eapply D; [now left|exact H].
  - apply IH. intros y Hy. apply D. now right.
Qed.
Lemma Cls_app : forall P ks ks' a b, Cls P ks a -> Cls P ks' b -> (forall k, In k ks -> ~ In k ks') -> Cls P (ks ++ ks') (a ++ b).
Proof.
  intros P ks ks' a b (L & -> & U & V & N) (L' & -> & U' & V' & N') D. exists (L ++ L').
  split; [now rewrite map_app|]. rewrite !Forall_app, map_app. repeat split; try assumption.
  - eapply Forall_impl; [|exact U]. intros d (k & q & E & Hk). exists k, q. rewrite in_app_iff. auto.
  - eapply Forall_impl; [|exact U']. intros d (k & q & E & Hk). exists k, q. rewrite in_app_iff. auto.
  - apply NoDup_app_iff; [assumption|assumption|]. intros x Hx Hx'. apply in_map_iff in Hx as (d & <- & Hd), Hx' as (e & E & He).
    rewrite Forall_forall in U, U'. destruct (U d Hd) as (k & q & Ed & Hk), (U' e He) as (k' & q' & Ee & Hk').
    apply (f_equal fst) in E. unfold low in E. cbn [fst] in E. rewrite Ed, Ee, !map_app in E. apply app_inv_head in E. cbn [map] in E.
    injection E as E _.
    apply (D (str_lower k)); [exact Hk|]. now rewrite <- E.
Qed.
(** the classes at [P ++ [k]] itself and below *)
Lemma Cls_own : forall P k ks names L, Forall gk P -> gk k -> Cls (P ++ [k]) ks names ->
  Forall suffix_ok L -> NoDup L -> Cls P [str_lower k] (names ++ map (fun x => nm cls (P ++ [k], x)) L).
Proof.
  intros P k ks names L HP Hk (M & -> & U & V & N) HL NL. exists (M ++ map (fun x => (P ++ [k], x)) L).
  split; [now rewrite map_app, map_map|]. rewrite !Forall_app, map_app, map_map. repeat split.
  - eapply Forall_impl; [|exact U]. intros d (k' & q & E & _). exists k, (k' :: q). rewrite E, <- app_assoc. split; [reflexivity|now left].
  - apply Forall_forall. intros d Hd. apply in_map_iff in Hd as (x & <- & _). exists k, []. split; [reflexivity|now left].
  - exact V.
  - apply Forall_forall. intros d Hd. apply in_map_iff in Hd as (x & <- & Hx). rewrite Forall_forall in HL. split; [|now apply HL].
    cbn [fst]. apply Forall_app. split; [exact HP|now constructor].
  - apply NoDup_app_iff; [exact N| |].
    + clear -NL. induction NL as [|x l Hx _ IH]; [constructor|]. cbn [map]. constructor; [|exact IH]. intros Hin.
      apply in_map_iff in Hin as (y & E & Hy). apply (f_equal snd) in E. cbn in E. congruence.
    + intros d Hd Hd'. apply in_map_iff in Hd as (e & <- & He), Hd' as (x & E & _). rewrite Forall_forall in U.
      destruct (U e He) as (k' & q & Ee & _). apply (f_equal fst) in E. unfold low in E. cbn [fst] in E. rewrite Ee in E.
      apply (f_equal (@length string)) in E. rewrite !map_length, !app_length in E. cbn in E. lia.
Qed.

(** ** the generator *)
Variable c : gconfig.
Variable st : list styler.
Variable s : schema.
Hypothesis HK : NoDup (dkeys (s_types s)).
Notation tfn := (type_field_node c st s).
Notation ca := (c_create_catchall c).
Definition keys (l : list (fieldnode * string)) : list string := map (fun b => str_lower (response_key (fst b))) l.
Definition own_keys (g : fieldnode) (fd : fielddef) : list string :=
  if composite s (gty_name (fd_type fd)) then [str_lower (response_key g)] else [].
Definition fine (g : fieldnode) (fd : fielddef) : Prop :=
  composite s (gty_name (fd_type fd)) = true -> gk (response_key g) /\ all_apart s ca (gty_name (fd_type fd)) (selections g).
Definition named_well (t : typer) (g : fieldnode) : Prop := forall P fd, Forall gk P -> fine g fd ->
  post (fun res => Cls P (own_keys g fd) (defined (fst res))) (t g (cls +s+ caps P) fd).
Lemma branch_spec : forall n t fs g fd, get_type s n = Some t -> output_fields t = Some fs -> fn_name g <> "__typename" ->
  dget (fn_name g) fs = Some fd ->
  branch s n g = (if composite s (gty_name (fd_type fd)) then [(g, gty_name (fd_type fd))] else []).
Proof.
  intros n t fs g fd HT HF HN HD. unfold branch. rewrite HT, HF, HD. destruct (String.eqb_spec (fn_name g) "__typename"); [contradiction|reflexivity].
Qed.
Lemma field_def_branch : forall n g fd, get_field_def s n (fn_name g) = Some fd -> fn_name g <> "__typename" ->
  branch s n g = (if composite s (gty_name (fd_type fd)) then [(g, gty_name (fd_type fd))] else []).
Proof.
  intros n g fd H HN. unfold get_field_def in H. destruct (String.eqb_spec (fn_name g) "__typename"); [contradiction|].
  destruct (get_type s n) as [t|] eqn:T; [|discriminate]. destruct (Gql.type_fields t) as [fs|] eqn:F; [|discriminate].
  eapply branch_spec; try eassumption.
Qed.
Lemma branch_keys : forall n g fd, branch s n g = (if composite s (gty_name (fd_type fd)) then [(g, gty_name (fd_type fd))] else []) ->
  keys (branch s n g) = own_keys g fd.
Proof. intros n g fd E. unfold keys, own_keys. rewrite E. destruct (composite _ _); reflexivity. Qed.
Lemma all_apart_step : forall n sels g m, all_apart s ca n sels -> In (g, m) (branches s n sels) -> all_apart s ca m (selections g).
Proof. intros n sels g m H Hg m' sub R. apply H. eapply re_step; eassumption. Qed.
Lemma branch_fine : forall n sels x i g fd, all_apart s ca n sels -> In x sels -> incl (branch s i g) (branches_of s n x) ->
  branch s i g = (if composite s (gty_name (fd_type fd)) then [(g, gty_name (fd_type fd))] else []) -> fine g fd.
Proof.
  intros n sels x i g fd H Hx Hi E C. rewrite C in E.
  assert (Hb : In (g, gty_name (fd_type fd)) (branches s n sels)).
  { apply in_flat_map. exists x. split; [exact Hx|]. apply Hi. rewrite E. now left. }
  split; [|eapply all_apart_step; eassumption]. eapply ap_names; [apply H, re_here|exact Hb].
Qed.
Lemma branches_app : forall n a b, branches s n (a ++ b) = branches s n a ++ branches s n b.
Proof. intros. apply flat_map_app. Qed.
Lemma keys_app : forall a b, keys (a ++ b) = keys a ++ keys b.
Proof. intros. apply map_app. Qed.
Lemma nodup_split : forall (a b d : list string), NoDup (a ++ b ++ d) -> forall k, In k a -> ~ In k b.
Proof.
  intros a b d H k Ha Hb. induction a as [|x a IH]; [contradiction|]. cbn in H. inversion H as [|? ? H1 H2]; subst.
  destruct Ha as [->|Ha]; [|auto]. apply H1. rewrite !in_app_iff. auto.
Qed.
Lemma keys_disjoint : forall n pre x post', apart s ca n (pre ++ x :: post') ->
  forall k, In k (keys (branches s n pre)) -> ~ In k (keys (branches_of s n x)).
Proof.
  intros n pre x post' [N _ _ _]. change (x :: post') with ([x] ++ post') in N. rewrite !branches_app in N.
  fold (keys (branches s n pre ++ branches s n [x] ++ branches s n post')) in N. rewrite !keys_app in N.
  assert (E : branches s n [x] = branches_of s n x) by (unfold branches; cbn; apply app_nil_r). rewrite E in N.
  eapply nodup_split; exact N.
Qed.
Lemma snoc_branches : forall n pre x, branches s n (pre ++ [x]) = branches s n pre ++ branches_of s n x.
Proof. intros. rewrite branches_app. unfold branches at 2. cbn. now rewrite app_nil_r. Qed.
Lemma typename_branches : forall n x, is_typename_field x = true -> branches_of s n x = [].
Proof. intros n [g|f ds|cond ds l] H; try discriminate. cbn in *. unfold branch. now rewrite H. Qed.
Lemma Cls_keys : forall P ks names, Cls P ks names -> Cls P (ks ++ []) (names ++ []).
Proof. intros. now rewrite !app_nil_r. Qed.

Lemma nodup_tail : forall {A} (a b : list A), NoDup (a ++ b) -> NoDup b.
Proof. induction a as [|x a IH]; intros b H; [exact H|]. inversion H. auto. Qed.
Lemma nodup_head : forall {A} (a b : list A), NoDup (a ++ b) -> NoDup a.
Proof.
  induction a as [|x a IH]; intros b H; [constructor|]. cbn in H. inversion H as [|? ? H1 H2]; subst. constructor; [|eauto].
  intros Hx. apply H1. apply in_app_iff. now left.
Qed.
(** objects *)
Lemma object_names : forall P n cls' fields t l b0 r acc r', cls' = cls +s+ caps P -> Forall gk P ->
  get_type s n = Some t -> output_fields t = Some fields -> all_apart s ca n l ->
  (forall x, In x l -> deep (named_well tfn) x) ->
  walk (object_item tfn n cls' fields) (Some l) ([], [], b0) r = (Ok acc, r') ->
  Cls P (keys (branches s n l)) (defined (fst (fst acc))).
Proof.
  intros P n cls' fields t l b0 r acc r' -> HP HT HF HA HD H. unfold walk in H.
  eapply (mfold_ok _ (fun pre acc _ => Cls P (keys (branches s n pre)) (defined (fst (fst acc))))) in H; [exact H|apply Cls_nil|].
  clear H r r' acc. intros pre x post' [[classes bases] body] r [[classes' bases'] body'] r' El HC Hx. cbn [fst] in *.
  assert (Hin : In x l) by (rewrite El; apply in_elt).
  destruct (is_typename_field x) eqn:T.
  { apply ret_ok in Hx as [[= -> -> ->] ->]. rewrite snoc_branches, keys_app, typename_branches, app_nil_r by assumption. exact HC. }
  assert (Dj := keys_disjoint n pre x post' ltac:(rewrite <- El; apply HA, re_here)).
  rewrite snoc_branches, keys_app. destruct x as [g|f ds|cond ds m]; cbn [object_item] in Hx; [| |discriminate].
  - change (is_typename_field (SelField g)) with (String.eqb (fn_name g) "__typename") in T. rewrite T in Hx.
    apply String.eqb_neq in T.
    apply bind_ok in Hx as (fd & r1 & H1 & Hx). apply from_opt_ok in H1 as [E ->]. apply bind_ok in Hx as (res & r2 & H2 & Hx).
    apply ret_ok in Hx as [[= -> -> ->] ->]. assert (B := branch_spec _ _ _ _ _ HT HF T E).
    rewrite defined_app. cbn [branches_of] in Dj |- *. apply Cls_app; [exact HC| |exact Dj].
    rewrite (branch_keys _ _ _ B). eapply (HD _ Hin); [exact HP| |exact H2].
    eapply branch_fine; [exact HA|exact Hin|apply incl_refl|exact B].
  - apply bind_ok in Hx as (i & r1 & H1 & Hx). apply bind_ok in Hx as (b & r2 & H2 & Hx). apply ret_ok in Hx as [[= -> -> ->] ->].
    cbn [branches_of keys map]. now rewrite app_nil_r.
Qed.
(** interfaces *)
Lemma inline_names : forall P strict n sels on0 cond ds on sub r res r', on0 = cls +s+ caps P -> Forall gk P ->
  all_apart s ca n sels -> In (SelInline cond ds sub) sels -> cond = Some on ->
  (forall g, In (SelField g) sub -> named_well tfn g) ->
  inline_fields s tfn strict on0 on sub r = (Ok res, r') ->
  Cls P (keys (branches_of s n (SelInline cond ds sub))) (defined (fst res)).
Proof.
  intros P strict n sels on0 cond ds on sub r res r' -> HP HA Hin -> HD H. unfold inline_fields in H. cbn [branches_of].
  set (b := fun y => match y with SelField g => branch s on g | _ => [] end).
  assert (ND : NoDup (keys (flat_map b sub))).
  { assert (A := HA n sels (re_here _ _ _)). destruct A as [N _ _ _]. apply in_split in Hin as (u & v & ->).
    change (SelInline (Some on) ds sub :: v) with ([SelInline (Some on) ds sub] ++ v) in N. rewrite !branches_app in N.
    rewrite !map_app in N. apply nodup_tail, nodup_head in N. unfold branches in N. cbn [flat_map branches_of] in N.
    rewrite app_nil_r in N. exact N. }
  eapply (mfold_ok _ (fun pre acc _ => Cls P (keys (flat_map b pre)) (defined (fst acc)))) in H; [exact H|apply Cls_nil|].
  clear H r r' res. intros pre x post' acc r acc' r' El HC Hx. rewrite flat_map_app, keys_app. cbn [flat_map]. rewrite app_nil_r.
  assert (SK : acc' = acc -> b x = [] -> Cls P (keys (flat_map b pre) ++ keys (b x)) (defined (fst acc'))).
  { intros -> ->. cbn [keys map]. now rewrite app_nil_r. }
  destruct x as [g|f ds'|cond ds' m]; try (apply ret_ok in Hx as [-> ->]; now apply SK).
  destruct (String.eqb_spec (fn_name g) "__typename") as [T|T].
  { apply ret_ok in Hx as [-> ->]. apply SK; [reflexivity|]. cbn. unfold branch. now rewrite T. }
  apply bind_ok in Hx as (fd & r1 & H1 & Hx). apply from_opt_ok in H1 as [E ->]. apply bind_ok in Hx as (rs & r2 & H2 & Hx).
  apply ret_ok in Hx as [-> ->]. cbn [fst]. assert (B := field_def_branch _ _ _ E T). rewrite defined_app.
  apply Cls_app; [exact HC| |].
  - cbn [b]. rewrite (branch_keys _ _ _ B). eapply (HD g); [rewrite El; apply in_elt|exact HP| |exact H2].
    eapply branch_fine; [exact HA|exact Hin| |exact B]. cbn [branches_of]. intros y Hy. apply in_flat_map. exists (SelField g).
    split; [rewrite El; apply in_elt|exact Hy].
  - rewrite El, flat_map_app in ND. cbn [flat_map] in ND. rewrite !keys_app in ND. eapply nodup_split. exact ND.
Qed.
Lemma interface_names : forall P n parent d i fields l p0 r p r', parent = cls +s+ caps P -> Forall gk P ->
  get_type s n = Some (TInterface d i fields) -> all_apart s ca n l -> (forall x, In x l -> deep (named_well tfn) x) ->
  ip_classes p0 = [] ->
  walk (iface_item s tfn true fields parent) (Some l) p0 r = (Ok p, r') ->
  Cls P (keys (branches s n l)) (defined (ip_classes p)).
Proof.
  intros P n parent d i fields l p0 r p r' -> HP HT HA HD H0 H. unfold walk in H.
  eapply (mfold_ok _ (fun pre p _ => Cls P (keys (branches s n pre)) (defined (ip_classes p)))) in H; [exact H|rewrite H0; apply Cls_nil|].
  clear H H0 r r' p p0. intros pre x post' p r p' r' El HC Hx. assert (Hin : In x l) by (rewrite El; apply in_elt).
  destruct (is_typename_field x) eqn:T.
  { apply ret_ok in Hx as [-> ->]. rewrite snoc_branches, keys_app, typename_branches, app_nil_r by assumption. exact HC. }
  assert (Dj := keys_disjoint n pre x post' ltac:(rewrite <- El; apply HA, re_here)).
  rewrite snoc_branches, keys_app. destruct x as [g|f ds|cond ds m]; cbn [iface_item] in Hx.
  - change (is_typename_field (SelField g)) with (String.eqb (fn_name g) "__typename") in T. apply String.eqb_neq in T.
    apply bind_ok in Hx as (fd & r1 & H1 & Hx). apply from_opt_ok in H1 as [E ->]. apply bind_ok in Hx as (res & r2 & H2 & Hx).
    apply ret_ok in Hx as [-> ->]. cbn [ip_classes]. assert (B := branch_spec _ _ _ _ _ HT eq_refl T E).
    rewrite defined_app. cbn [branches_of] in Dj |- *. apply Cls_app; [exact HC| |exact Dj].
    rewrite (branch_keys _ _ _ B). eapply (HD _ Hin); [exact HP| |exact H2].
    eapply branch_fine; [exact HA|exact Hin|apply incl_refl|exact B].
  - apply bind_ok in Hx as (b & r1 & H1 & Hx). apply ret_ok in Hx as [-> ->]. cbn [branches_of keys map ip_classes]. now rewrite app_nil_r.
  - apply bind_ok in Hx as (on & r1 & H1 & Hx). apply from_opt_ok in H1 as [E ->]. apply bind_ok in Hx as (u & r2 & H2 & Hx).
    apply bind_ok in Hx as (res & r3 & H3 & Hx). apply ret_ok in Hx as [-> ->]. cbn [ip_classes]. rewrite defined_app.
    apply Cls_app; [exact HC| |exact Dj]. eapply inline_names; [reflexivity|exact HP|exact HA|exact Hin|exact E|apply (HD _ Hin)|exact H3].
Qed.
(** unions *)
Lemma union_names : forall parent o l r res r', (forall cond ds sub, ~ In (SelInline cond ds sub) l) ->
  union_annotation c s tfn parent (Some l) o r = (Ok res, r') -> fst res = [].
Proof.
  intros parent o l r res r' HN H. unfold union_annotation in H. apply bind_ok in H as ([classes names] & r1 & H1 & H).
  assert (E : classes = []).
  { unfold walk in H1. eapply (mfold_ok _ (fun _ acc _ => fst acc = [])) in H1; [exact H1|reflexivity|].
    intros pre x post' [a b] ra [a' b'] rb El Ha Hx. cbn [fst] in *. destruct (is_typename_field x); [now apply ret_ok in Hx as [[= -> ->] ->]|].
    destruct x as [g|f ds|cond ds m]; cbn [union_item] in Hx.
    - now apply ret_ok in Hx as [[= -> ->] ->].
    - apply bind_ok in Hx as (n & r2 & _ & Hx). now apply ret_ok in Hx as [[= -> ->] ->].
    - exfalso. apply (HN cond ds m). rewrite El. apply in_elt. }
  subst classes. destruct names as [|m [|m' names]]; [discriminate|now apply ret_ok in H as [-> ->]|].
  apply bind_ok in H as (u & r2 & _ & H). apply bind_ok in H as (e & r3 & _ & H). now apply ret_ok in H as [-> ->].
Qed.
Lemma wrap_post : forall (Q : list stmt * expr -> Prop) named t, (forall a e e', Q (a, e) -> Q (a, e')) ->
  (forall o, post Q (named (gty_name t) o)) -> forall o, post Q (wrap_annotation c named t o).
Proof.
  intros Q named t HQ. induction t as [n|t IH|t IH]; intros H o; cbn [wrap_annotation gty_name] in *; [apply H| |now apply IH].
  apply post_skip. intros _. apply post_skip. intros _. eapply post_bind; [apply IH; exact H|]. intros [a e] Hr. apply post_ret. cbn [fst snd].
  eapply HQ; exact Hr.
Qed.
Lemma defined_snoc : forall l n b d e, defined (l ++ [SClass n b d e]) = defined l ++ [n].
Proof. intros. now rewrite defined_app. Qed.
Lemma capitalised_suffix : forall i, starts_with is_upper i = true -> suffix_ok ("Base" +s+ i).
Proof. intros i H. right. exists i. split; [reflexivity|now right]. Qed.
Lemma named_names : forall alias name args ds sels P fd, let f := FieldNode alias name args ds sels in
  (forall l x, sels = Some l -> In x l -> deep (named_well tfn) x) -> Forall gk P -> fine f fd ->
  forall o, post (fun res => Cls P (own_keys f fd) (defined (fst res)))
    (named_annotation c st s tfn (cls +s+ caps P) (response_key f) sels (gty_name (fd_type fd)) o).
Proof.
  intros alias name args ds sels P fd f HD HP HF o r res r' H. unfold named_annotation in H. unfold own_keys, fine, composite in *.
  set (n := gty_name (fd_type fd)) in *. set (k := response_key f) in *.
  assert (SL : selections f = match sels with Some l => l | None => [] end) by reflexivity.
  assert (PN : forall x, (cls +s+ caps P) +s+ py_capitalize k +s+ x = nm cls (P ++ [k], x)).
  { intros x. unfold nm. cbn [fst snd]. rewrite caps_snoc, !app_assoc_s. reflexivity. }
  destruct (get_type s n) as [t|] eqn:T; [|discriminate]. destruct t as [d|d vs|d is fs dirs|d is fs|d ms|d fs dirs]; try discriminate.
  - apply bind_ok in H as (e & r1 & _ & H). apply ret_ok in H as [-> ->]. apply Cls_nil.
  - apply bind_ok in H as (e & r1 & _ & H). apply ret_ok in H as [-> ->]. apply Cls_nil.
  - (* object *)
    destruct (HF eq_refl) as [Hk HA]. unfold object_annotation in H. cbn zeta in H. apply bind_ok in H as (tf & r1 & H1 & H).
    assert (HPk : Forall gk (P ++ [k])) by (apply Forall_app; auto).
    assert (B : forall r, (let* r := walk (object_item tfn n ((cls +s+ caps P) +s+ py_capitalize k) fs) sels ([], [], [doc_stmt d; tf]) in
      let '(classes, bases, body) := r in
      let* add := match bases with
                  | [] => get_additional_bases_for_type c n
                  | _ => ret (map EName bases)
                  end in
      let* cfg := generate_pydantic_config (KT KObject) c None in
      let* e := optional_if o (ret (EName ((cls +s+ caps P) +s+ py_capitalize k))) in
      ret (classes ++ [SClass ((cls +s+ caps P) +s+ py_capitalize k) (add ++ names_of (c_object_bases c)) (body ++ cfg) []], e)) r = (Ok res, r') ->
      Cls P [str_lower k] (defined (fst res))).
    { intros r0 H0. clear H. rename H0 into H. apply bind_ok in H as ([[classes bases] body] & r2 & H2 & H). apply bind_ok in H as (add & r3 & _ & H).
      apply bind_ok in H as (cfg & r4 & _ & H). apply bind_ok in H as (e & r5 & _ & H). apply ret_ok in H as [-> ->]. cbn [fst].
      assert (C : exists ks, Cls (P ++ [k]) ks (defined classes)).
      { destruct sels as [l|]; [|unfold walk in H2; apply ret_ok in H2 as [[= -> -> ->] ->]; exists []; apply Cls_nil].
        eexists. change classes with (fst (fst (classes, bases, body))). eapply object_names; [|exact HPk|exact T|reflexivity| | |exact H2].
        - now rewrite caps_snoc, app_assoc_s.
        - exact HA.
        - intros x Hx. eapply HD; [reflexivity|exact Hx]. }
      destruct C as [ks C]. rewrite defined_snoc. specialize (PN ""). rewrite app_nil_s in PN. rewrite PN.
      change [nm cls (P ++ [k], "")] with (map (fun x => nm cls (P ++ [k], x)) [""]).
      eapply Cls_own; [exact HP|exact Hk|exact C|constructor; [now left|constructor]|]. constructor; [intros []|constructor]. }
    destruct (option_map non_typename sels) as [[|[g|fr ds'|cond ds' l] [|y l']]|]; try (eapply B; exact H).
    apply bind_ok in H as (i & r2 & _ & H). apply bind_ok in H as (e & r3 & _ & H). apply bind_ok in H as (e' & r4 & _ & H).
    apply ret_ok in H as [-> ->]. apply Cls_nil.
  - (* interface *)
    destruct (HF eq_refl) as [Hk HA]. unfold interface_annotation in H. cbn zeta in H.
    assert (HPk : Forall gk (P ++ [k])) by (apply Forall_app; auto).
    apply bind_ok in H as (p & r1 & H1 & H). apply bind_ok in H as (add & r2 & _ & H). apply bind_ok in H as (ib & r3 & _ & H).
    apply bind_ok in H as (cfg & r4 & _ & H). apply bind_ok in H as (ic & r5 & H5 & H). apply bind_ok in H as (u1 & r6 & _ & H).
    apply bind_ok in H as (u2 & r7 & _ & H). apply bind_ok in H as (rest & r8 & H8 & H). apply bind_ok in H as (e & r9 & _ & H).
    apply bind_ok in H as (u3 & r10 & _ & H). apply ret_ok in H as [-> ->]. cbn [fst].
    apply impl_classes_defined in H5.
    assert (C : exists ks, Cls (P ++ [k]) ks (defined (ip_classes p))).
    { destruct sels as [l|]; [|unfold walk in H1; apply ret_ok in H1 as [-> ->]; exists []; apply Cls_nil].
      eexists. eapply interface_names; [|exact HPk|exact T| | | |exact H1].
      - now rewrite caps_snoc, app_assoc_s.
      - exact HA.
      - intros x Hx. eapply HD; [reflexivity|exact Hx].
      - reflexivity. }
    destruct C as [ks C].
    assert (HI : forall i, In i (implementations s n) -> starts_with is_upper i = true /\ (ca = true -> i <> "CatchAll")).
    { intros i Hi. eapply ap_impls; [apply HA, re_here|exact T|exact Hi]. }
    assert (NI := implementations_NoDup s n HK).
    set (suffs := "Base" :: map (fun i => "Base" +s+ i) (implementations s n) ++ (if ca then ["Base" +s+ "CatchAll"] else [])).
    assert (ED : defined (ip_classes p ++ [SClass (((cls +s+ caps P) +s+ py_capitalize k) +s+ "Base") (add ++ ib) (ip_fields p ++ cfg) []] ++ ic ++ fst rest)
                 = defined (ip_classes p) ++ map (fun x => nm cls (P ++ [k], x)) suffs).
    { rewrite !defined_app. f_equal. unfold suffs. cbn [map]. rewrite map_app, map_map. cbn [defined flat_map app]. f_equal.
      - now rewrite app_assoc_s, PN.
      - f_equal.
        + rewrite H5. apply map_ext. intros i. now rewrite <- PN, !app_assoc_s.
        + destruct ca.
          * apply bind_ok in H8 as (ib2 & ra & _ & H8). apply bind_ok in H8 as (t2 & rb & _ & H8). apply bind_ok in H8 as (u4 & rc & _ & H8).
            apply ret_ok in H8 as [-> ->]. cbn [fst defined flat_map app map]. now rewrite <- PN, !app_assoc_s.
          * apply ret_ok in H8 as [-> ->]. reflexivity. }
    rewrite ED. eapply Cls_own; [exact HP|exact Hk|exact C| |].
    + unfold suffs. constructor; [right; exists ""; split; [reflexivity|now left]|]. apply Forall_app. split.
      * apply Forall_forall. intros x Hx. apply in_map_iff in Hx as (i & <- & Hi). apply capitalised_suffix. now apply HI.
      * destruct ca; constructor; [|constructor]. now apply capitalised_suffix.
    + unfold suffs. constructor.
      * rewrite in_app_iff. intros [Hi|Hi].
        -- apply in_map_iff in Hi as (i & E & Hi). change "Base" with ("Base" +s+ "") in E at 2. apply string_app_inj in E. subst i.
           apply HI in Hi as [Hi _]. discriminate.
        -- destruct ca; [destruct Hi as [Hi|[]]; discriminate|contradiction].
      * apply NoDup_app_iff.
        -- clear -NI. induction NI as [|x l Hx _ IH]; [constructor|]. cbn [map]. constructor; [|exact IH]. intros Hin.
           apply in_map_iff in Hin as (y & E & Hy). apply string_app_inj in E. now subst.
        -- destruct ca; repeat constructor. intros [].
        -- intros x Hx Hx'. apply in_map_iff in Hx as (i & <- & Hi). destruct ca; [|contradiction]. destruct Hx' as [E|[]].
           apply string_app_inj in E. subst i. now apply HI in Hi as [_ Hi]; apply Hi.
  - (* union *)
    destruct (HF eq_refl) as [Hk HA].
    assert (E : fst res = []).
    { destruct sels as [l|].
      - eapply union_names; [|exact H]. eapply ap_union; [apply HA, re_here|exact T].
      - discriminate H. }
    rewrite E. apply Cls_nil.
Qed.
Lemma tfn_names : forall f, named_well tfn f.
Proof.
  assert (STEP : forall a n ar ds sels, (forall l x, sels = Some l -> In x l -> deep (named_well tfn) x) -> named_well tfn (FieldNode a n ar ds sels)).
  { intros a n ar ds sels H P fd HP HF. rewrite tfn_eq. cbn zeta. eapply post_bind.
    - apply (wrap_post (fun res => Cls P (own_keys (FieldNode a n ar ds sels) fd) (defined (fst res)))); [intros ? ? ? Hq; exact Hq|].
      exact (named_names a n ar ds sels P fd H HP HF).
    - intros res Hr. apply post_skip. intros body. apply post_ret. exact Hr. }
  apply fieldnode_rect'; [intros; apply STEP; intros l x [=]|intros a n ar ds l HL; apply STEP; intros l' x [= <-]; apply HL].
Qed.
End Paths.

Lemma caps_root : forall cls, cls = cls +s+ caps [].
Proof. intros. cbn. now rewrite app_nil_s. Qed.
Lemma Cls_root : forall cls ks names, Cls cls [] ks names -> NoDup (names ++ [cls]).
Proof.
  intros cls ks names (L & -> & U & V & N).
  assert (E : [cls] = map (nm cls) [([], "")]) by (cbn; unfold nm; cbn; now rewrite !app_nil_s).
  replace (map (nm cls) L ++ [cls]) with (map (nm cls) (L ++ [([], "")])) by now rewrite map_app, <- E. apply nm_NoDup.
  - apply Forall_app. split; [exact V|]. constructor; [|constructor]. split; [constructor|now left].
  - rewrite map_app. apply NoDup_app_iff; [exact N|repeat constructor; intros []|].
    intros d Hd [<-|[]]. apply in_map_iff in Hd as (e & E' & He). rewrite Forall_forall in U. destruct (U e He) as (k & q & Ee & _).
    unfold low in E'. rewrite Ee in E'. discriminate.
Qed.
Lemma operation_C11 : forall c st s pc po add doc_of o r l r' root,
  NoDup (dkeys (s_types s)) -> composite s "String" = false -> root_type s (op_kind o) = Some root ->
  all_apart s (c_create_catchall c) root (op_sels o) ->
  generate_operation c st s pc po add doc_of o r = (Ok l, r') -> NoDup (defined l).
Proof.
  intros c st s pc po add doc_of o r l r' root HK HS HR HA H. unfold generate_operation in H.
  apply bind_ok in H as (name & r1 & H1 & H). apply bind_ok in H as (cb & r2 & H2 & H). apply bind_ok in H as (root' & r3 & H3 & H).
  apply from_opt_ok in H3 as [ER ->]. rewrite HR in ER. injection ER as <-. cbn zeta in H.
  apply bind_ok in H as (acc & r4 & H4 & H). apply bind_ok in H as (u & r5 & H5 & H). apply bind_ok in H as (doc & r6 & H6 & H).
  apply bind_ok in H as (args & r7 & H7 & H). apply bind_ok in H as (cfg & r8 & H8 & H). apply ret_ok in H as [-> ->].
  rewrite defined_snoc. eapply Cls_root.
  eapply (mfold_ok _ (fun pre acc _ => Cls (fst cb) [] (keys (branches s root pre)) (defined (fst acc)))) in H4; [exact H4|apply Cls_nil|].
  clear - HK HS HA. intros pre x post' a ra a' rb El HC Hx. destruct x as [g|f ds|cond ds m]; cbn [root_item] in Hx; try discriminate.
  assert (Hin : In (SelField g) (op_sels o)) by (rewrite El; apply in_elt).
  assert (Dj := keys_disjoint c s root pre (SelField g) post' ltac:(rewrite <- El; apply HA, re_here)).
  apply bind_ok in Hx as (fd & r1 & H1 & Hx). apply from_opt_ok in H1 as [E ->]. apply bind_ok in Hx as (res & r2 & H2 & Hx).
  apply ret_ok in Hx as [-> ->]. cbn [fst]. rewrite snoc_branches, keys_app, defined_app. rewrite (caps_root (fst cb)) in H2.
  destruct (String.eqb_spec (fn_name g) "__typename") as [T|T].
  - assert (EB : branches_of s root (SelField g) = []) by (cbn; unfold branch; now rewrite T). rewrite EB.
    unfold get_field_def in E. rewrite T in E. injection E as <-.
    apply Cls_app; [exact HC| |intros k _ []]. replace (keys []) with (own_keys s g (FieldDef (GNonNull (GNamed "String")) [] None None [])) by (unfold own_keys; cbn [fd_type gty_name]; now rewrite HS).
    eapply (tfn_names (fst cb) c st s HK g []); [constructor| |exact H2]. unfold fine. cbn [fd_type gty_name]. congruence.
  - assert (B := field_def_branch s _ _ _ E T). apply Cls_app; [exact HC| |exact Dj]. cbn [branches_of].
    rewrite (branch_keys s _ _ _ B). eapply tfn_names; [exact HK|constructor| |exact H2].
    eapply branch_fine; [exact HA|exact Hin|apply incl_refl|exact B].
Qed.
Lemma Cls_more : forall cls P ks ks' names, incl ks ks' -> Cls cls P ks names -> Cls cls P ks' names.
Proof.
  intros cls P ks ks' names HI (L & -> & U & V & N). exists L. repeat split; try assumption. eapply Forall_impl; [|exact U].
  intros d (k & q & E & Hk). exists k, q. auto.
Qed.
Lemma object_fragment_C11 : forall c st s pc pf add f cls d r l r', NoDup (dkeys (s_types s)) ->
  all_apart s (c_create_catchall c) (fr_on f) (fr_sels f) ->
  object_fragment c st s pc pf add f cls d r = (Ok l, r') -> NoDup (defined l).
Proof.
  intros c st s pc pf add f cls d r l r' HK HA H. unfold object_fragment in H.
  apply bind_ok in H as (a0 & r1 & H1 & H). apply bind_ok in H as (t & r2 & H2 & H). apply bind_ok in H as ([[classes bases] fields] & r3 & H3 & H).
  apply bind_ok in H as (m & r4 & H4 & H). apply bind_ok in H as (fb & r5 & H5 & H). apply bind_ok in H as (cfg & r6 & H6 & H).
  apply ret_ok in H as [-> ->]. rewrite defined_snoc. eapply Cls_root. change classes with (fst (fst (classes, bases, fields))).
  eapply (mfold_ok _ (fun pre acc _ => Cls cls [] (keys (branches s (fr_on f) pre)) (defined (fst (fst acc))))) in H3; [exact H3|apply Cls_nil|].
  clear - HK HA. intros pre x post' [[a b] e] ra [[a' b'] e'] rb El HC Hx. cbn [fst] in *.
  assert (Hin : In x (fr_sels f)) by (rewrite El; apply in_elt).
  assert (Dj := keys_disjoint c s (fr_on f) pre x post' ltac:(rewrite <- El; apply HA, re_here)). rewrite snoc_branches, keys_app.
  destruct x as [g|n ds|cond ds m]; cbn [object_fragment_item] in Hx.
  - destruct (String.eqb_spec (fn_name g) "__typename") as [T|T].
    { apply ret_ok in Hx as [[= -> -> ->] ->]. eapply Cls_more; [|exact HC]. apply incl_appl, incl_refl. }
    apply bind_ok in Hx as (fd & r1 & H1 & Hx). apply from_opt_ok in H1 as [E ->]. apply bind_ok in Hx as (res & r2 & H2 & Hx).
    apply ret_ok in Hx as [[= -> -> ->] ->]. rewrite defined_app. rewrite (caps_root cls) in H2. assert (B := field_def_branch s _ _ _ E T).
    apply Cls_app; [exact HC| |exact Dj]. cbn [branches_of].
    rewrite (branch_keys s _ _ _ B). eapply tfn_names; [exact HK|constructor| |exact H2].
    eapply branch_fine; [exact HA|exact Hin|apply incl_refl|exact B].
  - apply bind_ok in Hx as (mm & r1 & _ & Hx). apply bind_ok in Hx as (bb & r2 & _ & Hx). apply ret_ok in Hx as [[= -> -> ->] ->].
    eapply Cls_more; [|exact HC]. apply incl_appl, incl_refl.
  - apply ret_ok in Hx as [[= -> -> ->] ->]. eapply Cls_more; [|exact HC]. apply incl_appl, incl_refl.
Qed.
