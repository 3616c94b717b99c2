(** Input classes serialise to the valid input values. *)
From Verif Require Import Base PyAst Gql Config Stylers Registry PySem Spec_Config Spec_Types Spec_Inputs Spec_Refs Spec_Scope Spec_Dispatch Spec_Names Spec_Pydantic Spec_Response Spec_Values P_Base P_Inputs3.

Lemma owned_app : forall a b, owned (a ++ b) = owned a ++ owned b.
Proof. intros. apply flat_map_app. Qed.
Lemma split_unique : forall p1 p2 q1 q2 a b k, NoDup (owned (p1 ++ a :: q1)) -> p1 ++ a :: q1 = p2 ++ b :: q2 ->
  owned [a] = [k] -> owned [b] = [k] -> p1 = p2 /\ a = b /\ q1 = q2.
Proof.
  intros p1. induction p1 as [|x p1 IH]; intros p2 q1 q2 a b k ND E Ha Hb.
  - destruct p2 as [|y p2]; cbn in E; [injection E as -> ->; auto|]. injection E as <- ->. exfalso.
    change ([] ++ a :: p2 ++ b :: q2) with ([a] ++ p2 ++ [b] ++ q2) in ND. rewrite !owned_app, Ha, Hb in ND. inversion ND as [|? ? N _]. apply N. rewrite !in_app_iff. cbn. tauto.
  - destruct p2 as [|y p2]; cbn in E.
    + injection E as -> <-. exfalso. change ((b :: p1) ++ a :: q1) with ([b] ++ p1 ++ [a] ++ q1) in ND. rewrite !owned_app, Ha, Hb in ND.
      inversion ND as [|? ? N _]. apply N. rewrite !in_app_iff. cbn. tauto.
    + injection E as -> E. change ((y :: p1) ++ a :: q1) with ([y] ++ (p1 ++ a :: q1)) in ND. rewrite owned_app in ND.
      destruct (IH p2 q1 q2 a b k) as (-> & -> & ->); auto.
      clear - ND. induction (owned [y]) as [|z l IH]; [exact ND|]. cbn in ND. inversion ND; auto.
Qed.
Lemma find_unique : forall (l : list (string * expr * option expr)) f, NoDup (map (fun g => fst (fst g)) l) -> In f l ->
  find (fun g => String.eqb (fst (fst g)) (fst (fst f))) l = Some f.
Proof.
  induction l as [|g l IH]; intros f ND Hin; [contradiction|]. cbn. destruct (String.eqb_spec (fst (fst g)) (fst (fst f))) as [E|E].
  - destruct Hin as [->|Hin]; [reflexivity|]. exfalso. cbn in ND. inversion ND as [|? ? N _]. apply N. rewrite E. apply in_map_iff. eauto.
  - destruct Hin as [->|Hin]; [congruence|]. apply IH; [now inversion ND|assumption].
Qed.
Lemma last_field_in : forall body f, NoDup (map (fun g => fst (fst g)) (class_fields body)) ->
  In f (class_fields body) -> last_field (fst (fst f)) body = Some f.
Proof.
  intros body f ND Hin. unfold last_field. apply find_unique; [|now apply in_rev in Hin].
  rewrite map_rev. apply NoDup_rev. exact ND.
Qed.
Lemma last_field_inv : forall n body f, last_field n body = Some f -> In f (class_fields body).
Proof. intros n body f H. apply find_some in H as [H _]. now apply in_rev. Qed.
Lemma Forall2_l : forall {A B} (Q : A -> B -> Prop) l m x, Forall2 Q l m -> In x l -> exists y, In y m /\ Q x y.
Proof. intros A B Q l m x F. induction F as [|a b l m H F IH]; intros Hin; [contradiction|]. destruct Hin as [<-|Hx]; [exists b; split; [now left|assumption]|destruct (IH Hx) as (z & ? & ?); exists z; split; [now right|assumption]]. Qed.
Lemma Forall2_r : forall {A B} (Q : A -> B -> Prop) l m y, Forall2 Q l m -> In y m -> exists x, In x l /\ Q x y.
Proof. intros A B Q l m x F. induction F as [|a b l m H F IH]; intros Hin; [contradiction|]. destruct Hin as [<-|Hx]; [exists a; split; [now left|assumption]|destruct (IH Hx) as (z & ? & ?); exists z; split; [now right|assumption]]. Qed.
Lemma inhab_null' : forall tup leaf t, inhab tup leaf t JNull <-> is_nonnull t = false.
Proof. intros tup leaf [n|t|t]; cbn; intuition congruence. Qed.

Lemma exists_last_or : forall {A} (l : list A), l = [] \/ exists l' z, l = l' ++ [z].
Proof. intros A l. induction l as [|x l' _] using rev_ind; eauto. Qed.

Section V.
Variables (s : schema) (t : list stmt) (py : string -> data -> Prop) (sc : string -> data -> Prop) (st : list styler) (scalars : dict string) (tup : bool).
Notation cls n := (style_with sty_input st n).
Notation leaf := (input_leaf s scalars st).
Notation dumps := (dumps t py).
Notation holds := (holds t py).
Variable kept : string -> Prop.
Variable strict : Prop.
Hypothesis NDT : NoDup (owned t).
Definition outers (bases : list expr) : Prop := forall b, In b bases -> exists p, b = EName p /\ ~ In p (owned t) /\ p <> "Enum".
(** a class of the module with these fields, no others *)
Definition model_class (k : string) (flds : list (string * expr * option expr)) : Prop :=
  exists bases body, Spec_Response.class_of t k bases body /\ outers bases /\ class_fields body = flds /\ NoDup (map (fun g => fst (fst g)) flds)
    /\ (forall g, In g flds -> model_field (fst (fst g)))
    /\ (strict -> ~ In ("extra", CStr "allow") (config_entries body)).
Hypothesis K0 : forall n d fs dirs k f, kept n -> get_type s n = Some (TInput d fs dirs) -> In (k, f) fs -> kept (gty_name (if_type f)).
Hypothesis KS : forall n d, kept n -> get_type s n = Some (TScalar d) -> exists p, dget n scalars = Some p.
Hypothesis KS' : forall n p, dget n scalars = Some p -> ~ In (last_comp p) (owned t) /\ (forall v, py (last_comp p) v <-> sc n v) /\ ~ sc n RNull.
Hypothesis KE : forall n d vs, kept n -> get_type s n = Some (TEnum d vs) -> exists bases body,
  Spec_Response.class_of t (enum_type_class st n) bases body /\ In (EName "Enum") bases /\ forall v, enum_member body v <-> In v (dkeys vs).
Hypothesis KP : forall n d fs dirs, kept n -> get_type s n = Some (TInput d fs dirs) -> ~ is_oneof (InputDef d fs dirs) ->
  exists flds, model_class (cls n) flds /\ Forall2 (fun kv fld => input_field_ok tup leaf st (fst kv) (snd kv) fld) fs flds.
Definition wrapped (n : string) (fs : list (string * inputfield)) : Prop :=
  exists e, In (SAssign (EName (cls n)) e) t /\ serializer_of e = None
    /\ (forall x, accepts e x <-> exists kv, In kv fs /\ x = JLeaf (cls (n +s+ cap_first (fst kv))))
    /\ forall kv, In kv fs -> exists fld, model_class (cls (n +s+ cap_first (fst kv))) [fld] /\ wire_name (fst (fst fld)) (snd fld) = fst kv /\ may_omit (snd fld) = false
         /\ forall x, accepts (snd (fst fld)) x <-> inhab tup leaf (GNonNull (if_type (snd kv))) x.
Definition direct (n : string) (fs : list (string * inputfield)) : Prop :=
  exists e f pre body post, serializer_of e = Some f
    /\ t = pre ++ SFunc false f (PyArgs [PyArg "value" None; PyArg "handler" None] []) body None [] :: SAssign (EName (cls n)) e :: post
    /\ (forall x, accepts e x <-> exists kv, In kv fs /\ x = JLeaf (cls (gty_name (if_type (snd kv)))))
    /\ serializer_ok body (map (fun kv => (cls (gty_name (if_type (snd kv))), fst kv)) fs)
    /\ (forall kv, In kv fs -> exists m d fs' dirs, if_type (snd kv) = GNamed m /\ get_type s m = Some (TInput d fs' dirs))
    /\ NoDup (map (fun kv => cls (gty_name (if_type (snd kv)))) fs)
    /\ (forall kv, In kv fs -> ~ In (cls (gty_name (if_type (snd kv)))) reserved /\ In (cls (gty_name (if_type (snd kv)))) (owned t)).
Hypothesis KO : forall n d fs dirs, kept n -> get_type s n = Some (TInput d fs dirs) -> is_oneof (InputDef d fs dirs) -> wrapped n fs \/ direct n fs.

(** ** the statement that defines a name is unique *)
Lemma owner_unique : forall k a b, In a t -> In b t -> owned [a] = [k] -> owned [b] = [k] -> a = b.
Proof.
  intros k a b Ha Hb Ea Eb. apply in_split in Ha as (p1 & q1 & E1). apply in_split in Hb as (p2 & q2 & E2).
  rewrite E1 in NDT. eapply split_unique; [exact NDT|rewrite <- E1; exact E2|exact Ea|exact Eb].
Qed.
Lemma class_owned : forall k bases body, Spec_Response.class_of t k bases body -> In k (owned t).
Proof. intros k bases body (decs & H). apply in_flat_map. exists (SClass k bases body decs). split; [exact H|now left]. Qed.
Lemma alias_owned : forall k e, In (SAssign (EName k) e) t -> In k (owned t).
Proof. intros k e H. apply in_flat_map. exists (SAssign (EName k) e). split; [exact H|now left]. Qed.
Lemma class_det : forall k b1 x1 b2 x2, Spec_Response.class_of t k b1 x1 -> Spec_Response.class_of t k b2 x2 -> b1 = b2 /\ x1 = x2.
Proof. intros k b1 x1 b2 x2 (d1 & H1) (d2 & H2). assert (E := owner_unique k _ _ H1 H2 eq_refl eq_refl). injection E as -> -> _. auto. Qed.
Lemma class_alias : forall k b x e, Spec_Response.class_of t k b x -> In (SAssign (EName k) e) t -> False.
Proof. intros k b x e (d & H1) H2. discriminate (owner_unique k _ _ H1 H2 eq_refl eq_refl). Qed.
Lemma alias_det : forall k e e', In (SAssign (EName k) e) t -> In (SAssign (EName k) e') t -> e = e'.
Proof. intros k e e' H1 H2. assert (E := owner_unique k _ _ H1 H2 eq_refl eq_refl). now injection E. Qed.
Lemma wrapped_alias : forall k e pv ph body, wrapped_by t k e pv ph body -> In (SAssign (EName k) e) t /\ serializer_of e <> None.
Proof.
  intros k e pv ph body (f & pre & av & ah & ret & mid & post & E & -> & _). split; [|congruence].
  apply in_or_app. right. right. apply in_or_app. right. now left.
Qed.
Lemma no_enum : forall bases, outers bases -> ~ In (EName "Enum") bases.
Proof. intros bases H Hin. destruct (H _ Hin) as (p & [= <-] & _ & N). now apply N. Qed.
Lemma model_fields : forall k flds f, model_class k flds -> has_field t k f <-> In f flds.
Proof.
  intros k flds f (bases & body & HC & HO & HF & HN & HP & _). split.
  - intros H. inversion H as [k' b' body' n g HC' HL HV|k' b' body' b g HC' Hb _ HI]; subst.
    + destruct (class_det _ _ _ _ _ HC HC') as [-> ->]. eapply last_field_inv; exact HL.
    + exfalso. destruct (class_det _ _ _ _ _ HC HC') as [-> ->]. destruct (HO _ Hb) as (p & [= <-] & NP & _).
      inversion HI; subst; apply NP; eapply class_owned; eassumption.
  - intros H. subst flds. eapply hf_own; [exact HC|apply last_field_in; assumption|now apply HP].
Qed.
Lemma model_strict : forall k flds, model_class k flds -> strict -> ~ takes_extra t k.
Proof.
  intros k flds (bases & body & HC & HO & _ & _ & _ & HX) HS H. inversion H as [? ? ? HC' HE|? ? ? b HC' HB HI]; subst; destruct (class_det _ _ _ _ _ HC HC') as [<- <-].
  - now apply HX.
  - destruct (HO _ HB) as (p & [= <-] & NP & _). inversion HI; subst; apply NP; eapply class_owned; eassumption.
Qed.
Lemma model_dumps : forall k flds kvs, model_class k flds -> NoDup (dkeys kvs) ->
  (forall key v, In (key, v) kvs -> exists n a val, In (n, a, val) flds /\ wire_name n val = key /\ holds a v) ->
  (forall n a val, In (n, a, val) flds -> ~ In (wire_name n val) (dkeys kvs) -> may_omit val = true) ->
  dumps (JLeaf k) (RObj kvs).
Proof.
  intros k flds kvs HM ND HK HO. pose proof HM as (bases & body & HC & HB & HF & _ & HP & _). eapply dp_model; [exact HC|now apply no_enum| |exact ND| |].
  - intros n a v Hn. rewrite HF in Hn. destruct (HP _ Hn) as [P1 P2]. split; [exact P2|]. intros P. contradiction.
  - intros key v Hv. destruct (HK _ _ Hv) as (n & a & val & Hf & <- & HH). apply (WritesKey t py k n a val v); [|exact HH]. apply (model_fields _ _ _ HM). exact Hf.
  - intros n a val Hf. apply (HO n a). now apply (model_fields _ _ _ HM).
Qed.
Lemma dumps_all_choose : forall l ty, (forall v, In v l -> exists x, inhab tup leaf ty x /\ dumps x v) ->
  exists xs, (forall x, In x xs -> inhab tup leaf ty x) /\ dumps_all t py xs l.
Proof.
  induction l as [|v l IH]; intros ty H; [exists []; split; [intros x []|constructor]|].
  destruct (H v (or_introl eq_refl)) as (x & Hx & Hd). destruct (IH ty) as (xs & Hxs & Hds); [intros w Hw; apply H; now right|].
  exists (x :: xs). split; [intros y [<-|Hy]; auto|constructor; assumption].
Qed.
Lemma tagged : forall n fs e f pre body post kv, serializer_of e = Some f ->
  serializer_ok body (map (fun kv => (cls (gty_name (if_type (snd kv))), fst kv)) fs) ->
  NoDup (map (fun kv => cls (gty_name (if_type (snd kv)))) fs) ->
  (forall kv, In kv fs -> ~ In (cls (gty_name (if_type (snd kv)))) reserved /\ In (cls (gty_name (if_type (snd kv)))) (owned t)) ->
  t = pre ++ SFunc false f (PyArgs [PyArg "value" None; PyArg "handler" None] []) body None [] :: SAssign (EName (cls n)) e :: post ->
  In kv fs -> tags_with t "value" "handler" body (cls (gty_name (if_type (snd kv)))) (fst kv).
Proof.
  intros n fs e f pre body post kv ES HS ND HR Et Hkv glob subclass call v h r G1 G2 G3 G4 Hv Ha.
  edestruct (HS glob subclass call v h r G1 G2 G3) as (R & _); [| |exact Ha|].
  - intros c0 t0 Hc. apply in_map_iff in Hc as (kv' & [= <- <-] & Hk'). destruct (HR _ Hk') as [N1 N2]. split; [now apply G4|].
    intros X. apply N1. cbn in X |- *. intuition.
  - rewrite map_map. exact ND.
  - apply R. rewrite Hv. apply in_map_iff. exists kv. auto.
Qed.
(** ** every valid value can be written *)
Lemma complete : forall ty v, valid_input s sc ty v -> kept (gty_name ty) -> exists x, inhab tup leaf ty x /\ dumps x v.
Proof.
  intros ty v H. induction H as [ty Hn|ty v H IH Hv|ty l H IH|n d v HT Hs|n d vs v HT Hv|n d fs dirs kvs HT HO ND HK H IH HM|n d fs dirs k f v HT HO Hf H IH]; intros HKP; cbn [gty_name] in HKP.
  - exists JNull. split; [now apply inhab_null'|constructor].
  - destruct (IH HKP) as (x & Hx & Hd). exists x. split; [|exact Hd]. split; [|exact Hx]. intros ->. inversion Hd; subst. now apply Hv.
  - destruct (dumps_all_choose l ty) as (xs & Hxs & Hd); [intros v Hv; now apply IH|]. exists (JSeq tup xs). split; [right; eauto|now constructor].
  - destruct (KS _ _ HKP HT) as (p & Hp). destruct (KS' _ _ Hp) as (Hno & Hpy & _). exists (JLeaf (last_comp p)). split.
    + right. exists (last_comp p). split; [|reflexivity]. unfold input_leaf. rewrite HT. eauto.
    + apply dp_type; [exact Hno|]. now apply Hpy.
  - destruct (KE _ _ _ HKP HT) as (bases & body & HC & HE & HM). exists (JLeaf (enum_type_class st n)). split.
    + right. eexists. split; [|reflexivity]. unfold input_leaf. rewrite HT. reflexivity.
    + eapply dp_enum; [exact HC|exact HE|]. now apply HM.
  - exists (JLeaf (cls n)). split; [right; eexists; split; [unfold input_leaf; rewrite HT; reflexivity|reflexivity]|].
    destruct (KP _ _ _ _ HKP HT HO) as (flds & HC & HF). eapply model_dumps; [exact HC|exact ND| |].
    + intros k v Hv. pose proof (HK _ _ Hv) as Hk. unfold dkeys in Hk. apply in_map_iff in Hk as ([k' f] & <- & Hf). cbn [fst] in *.
      destruct (Forall2_l _ _ _ _ HF Hf) as ([[n' a] val] & Hin & FO). cbn [fst snd] in FO. exists n', a, val. split; [exact Hin|]. split; [apply (ifo_wire _ _ _ _ _ _ FO)|].
      destruct (IH _ _ _ Hv Hf) as (x & Hx & Hd); [eapply K0; eassumption|]. econstructor; [|exact Hd]. apply (ifo_type _ _ _ _ _ _ FO). now left.
    + intros n' a val Hin Hno. destruct (Forall2_r _ _ _ _ HF Hin) as ([k f] & Hf & FO). cbn [fst snd] in FO. apply (ifo_omit _ _ _ _ _ _ FO).
      rewrite inhab_null'. pose proof (ifo_wire _ _ _ _ _ _ FO) as W. cbn [fst snd] in W. rewrite W in Hno. destruct (HM _ _ Hf Hno); auto.
  - exists (JLeaf (cls n)). split; [right; eexists; split; [unfold input_leaf; rewrite HT; reflexivity|reflexivity]|].
    destruct IH as (x & Hx & Hd); [eapply K0; eassumption|].
    destruct (KO _ _ _ _ HKP HT HO) as [(e & He & ES & HA & HW)|(e & g & pre & body & post & ES & Et & HA & HS & HN & ND & HR)].
    + eapply dp_alias; [exact He|exact ES|]. econstructor; [apply HA; exists (k, f); split; [exact Hf|reflexivity]|].
      destruct (HW _ Hf) as ([[n' a] val] & HC & W & O & AC). cbn [fst snd] in *. eapply model_dumps; [exact HC| | |].
      * repeat constructor. intros [].
      * intros key v' [[= <- <-]|[]]. exists n', a, val. split; [now left|]. split; [exact W|]. econstructor; [|exact Hd]. apply AC. exact Hx.
      * intros n2 a2 v2 [[= <- <- <-]|[]] Hno. exfalso. apply Hno. left. symmetry. exact W.
    + destruct (HN _ Hf) as (m & d' & fs' & dirs' & Em & HT'). cbn [snd] in Em. rewrite Em in Hx. destruct Hx as [Hx0 [Hx|(c0 & Hl & ->)]]; [contradiction|].
      unfold input_leaf in Hl. rewrite HT' in Hl. subst c0. eapply (dp_wrapped t py (cls n) e "value" "handler" body (cls m)); [| |exact Hd|].
      * exists g, pre, None, None, None, [], post. split; [exact ES|]. split; [exact Et|intros []].
      * apply HA. exists (k, f). split; [exact Hf|]. cbn [snd]. rewrite Em. reflexivity.
      * assert (X := tagged n fs e g pre body post (k, f) ES HS ND HR Et Hf). cbn [fst snd] in X. rewrite Em in X. exact X.
Qed.
(** ** only valid values can be written *)
Hypothesis HD : defaults_nullable s.
Hypothesis HS : strict.
Hypothesis INJ : forall n d fs dirs, get_type s n = Some (TInput d fs dirs) -> NoDup (dkeys fs).
Lemma tag_unique : forall pv ph body m a b, In m (owned t) -> ~ In m reserved -> tags_with t pv ph body m a -> tags_with t pv ph body m b -> a = b.
Proof.
  intros pv ph body m a b Hm Hr HA HB.
  set (glob := fun n => if String.eqb n "isinstance" then Some (PVFun "isinstance") else Some (PVClass n)).
  set (call := fun (f : PySem.pv) (args : list PySem.pv) (kws : list (string * PySem.pv)) => POk (PVConst CNone)).
  assert (G4 : forall n, In n (owned t) -> ~ In n reserved -> glob n = Some (PVClass n)).
  { intros n _ Hn. unfold glob. destruct (String.eqb_spec n "isinstance") as [->|]; [|reflexivity]. exfalso. apply Hn. cbn. tauto. }
  pose proof (HA glob (fun _ _ => false) call (PVObj m []) (PVFun "h") (PVConst CNone) eq_refl eq_refl eq_refl G4 eq_refl eq_refl) as RA.
  pose proof (HB glob (fun _ _ => false) call (PVObj m []) (PVFun "h") (PVConst CNone) eq_refl eq_refl eq_refl G4 eq_refl eq_refl) as RB.
  rewrite RA in RB. now injection RB.
Qed.
Lemma core : forall ty x, inhab tup leaf ty x -> x <> JNull -> exists ty', gty_name ty' = gty_name ty /\ is_nonnull ty' = false /\ inhab tup leaf ty' x
  /\ forall v, v <> RNull -> valid_input s sc ty' v -> valid_input s sc ty v.
Proof.
  induction ty as [n|ty IH|ty IH]; intros x H Hx.
  - exists (GNamed n). auto.
  - exists (GList ty). auto.
  - cbn in H. destruct H as [_ H]. destruct (IH x H Hx) as (ty' & En & HN & HI & HV). exists ty'. repeat split; auto. intros v Hv HH. constructor; auto.
Qed.
Lemma core_leaf : forall ty k, inhab tup leaf ty (JLeaf k) -> exists n, gty_name ty = n /\ leaf n k
  /\ forall v, v <> RNull -> valid_input s sc (GNamed n) v -> valid_input s sc ty v.
Proof.
  intros ty k H. destruct (core ty _ H) as ([n|ty'|ty'] & En & HN & HI & HV); try discriminate.
  - cbn in HI. destruct HI as [HI|(c0 & Hl & [= <-])]; [discriminate|]. exists n. auto.
  - cbn in HI. destruct HI as [HI|(l & HI & _)]; discriminate.
Qed.
Definition wrapper_of (x : jval) (n : string) : Prop :=
  exists d fs dirs kv, kept n /\ get_type s n = Some (TInput d fs dirs) /\ is_oneof (InputDef d fs dirs) /\ wrapped n fs /\ In kv fs /\ x = JLeaf (cls (n +s+ cap_first (fst kv))).
Definition PD (x : jval) (v : data) : Prop :=
  (forall ty, kept (gty_name ty) -> inhab tup leaf ty x -> valid_input s sc ty v /\ (x <> JNull -> v <> RNull))
  /\ (forall n, wrapper_of x n -> valid_input s sc (GNamed n) v /\ v <> RNull).
Definition PA (l : list jval) (vs : list data) : Prop :=
  forall ty, kept (gty_name ty) -> (forall x, In x l -> inhab tup leaf ty x) -> forall v, In v vs -> valid_input s sc ty v.
Definition PH (e : expr) (v : data) : Prop :=
  (forall ty, kept (gty_name ty) -> (forall x, accepts e x -> inhab tup leaf ty x) -> valid_input s sc ty v)
  /\ (forall n, (forall x, accepts e x -> wrapper_of x n) -> valid_input s sc (GNamed n) v /\ v <> RNull).
Definition PW (k key : string) (v : data) : Prop :=
  (exists n a val, has_field t k (n, a, val) /\ wire_name n val = key /\ PH a v) \/ takes_extra t k.

(** it suffices to look at the named types *)
Lemma by_name : forall k v, (forall n, kept n -> leaf n k -> valid_input s sc (GNamed n) v /\ v <> RNull) ->
  (forall n, wrapper_of (JLeaf k) n -> valid_input s sc (GNamed n) v /\ v <> RNull) -> PD (JLeaf k) v.
Proof.
  intros k v H1 H2. split; [|exact H2]. intros ty Hk Hi. destruct (core_leaf _ _ Hi) as (n & En & Hl & HV). rewrite En in Hk.
  destruct (H1 n Hk Hl) as [Hv Hn]. split; auto.
Qed.
Lemma leaf_cases : forall n k, kept n -> leaf n k ->
  (exists d p, get_type s n = Some (TScalar d) /\ dget n scalars = Some p /\ k = last_comp p)
  \/ (exists d vs bases body, get_type s n = Some (TEnum d vs) /\ Spec_Response.class_of t k bases body /\ In (EName "Enum") bases /\ (forall v, enum_member body v <-> In v (dkeys vs)))
  \/ (exists d fs dirs flds, get_type s n = Some (TInput d fs dirs) /\ ~ is_oneof (InputDef d fs dirs) /\ model_class k flds /\ Forall2 (fun kv fld => input_field_ok tup leaf st (fst kv) (snd kv) fld) fs flds)
  \/ (exists d fs dirs, get_type s n = Some (TInput d fs dirs) /\ is_oneof (InputDef d fs dirs) /\ k = cls n /\ (wrapped n fs \/ direct n fs)).
Proof.
  intros n k Hk Hl. unfold input_leaf in Hl. destruct (get_type s n) as [[d|d vs| | | |d fs dirs]|] eqn:HT; try contradiction.
  - left. destruct Hl as (p & Hp & ->). eauto.
  - right. left. subst k. destruct (KE _ _ _ Hk HT) as (bases & body & H1 & H2 & H3). exists d, vs, bases, body. auto.
  - subst k. assert (DEC : is_oneof (InputDef d fs dirs) \/ ~ is_oneof (InputDef d fs dirs)) by (rewrite <- is_oneof_dec; destruct (Utils.is_oneof_input_type _); auto).
    destruct DEC as [HO|HO].
    + right. right. right. exists d, fs, dirs. repeat split; auto. eapply KO; eassumption.
    + right. right. left. destruct (KP _ _ _ _ Hk HT HO) as (flds & H1 & H2). exists d, fs, dirs, flds. auto.
Qed.
Lemma wrapper_class : forall k n, wrapper_of (JLeaf k) n -> exists d fs dirs kv fld, get_type s n = Some (TInput d fs dirs) /\ is_oneof (InputDef d fs dirs) /\ In kv fs /\ kept n
  /\ model_class k [fld] /\ wire_name (fst (fst fld)) (snd fld) = fst kv /\ may_omit (snd fld) = false
  /\ forall x, accepts (snd (fst fld)) x <-> inhab tup leaf (GNonNull (if_type (snd kv))) x.
Proof.
  intros k n (d & fs & dirs & kv & Hk & HT & HO & (e & _ & _ & _ & HW) & Hkv & [= ->]). destruct (HW _ Hkv) as (fld & H). exists d, fs, dirs, kv, fld. intuition.
Qed.
Lemma direct_alias : forall n fs, direct n fs -> exists e, In (SAssign (EName (cls n)) e) t /\ serializer_of e <> None.
Proof. intros n fs (e & f & pre & body & post & ES & E & _). exists e. split; [rewrite E; apply in_or_app; right; right; now left|congruence]. Qed.
Lemma model_owned : forall k flds, model_class k flds -> In k (owned t).
Proof. intros k flds (b & x & H & _). eapply class_owned; exact H. Qed.
Lemma oneof_alias : forall n fs, wrapped n fs \/ direct n fs -> exists e, In (SAssign (EName (cls n)) e) t.
Proof. intros n fs [(e & H & _)|H]; [eauto|]. destruct (direct_alias _ _ H) as (e & He & _). eauto. Qed.

Lemma sound_all : (forall x v, dumps x v -> PD x v) /\ (forall l vs, dumps_all t py l vs -> PA l vs) /\ (forall e v, holds e v -> PH e v) /\ (forall k key v, writes_key t py k key v -> PW k key v).
Proof.
  apply (dumps_mutind t py PD PA PH PW).
  - split; [|intros n (? & ? & ? & ? & _ & _ & _ & _ & _ & ?); discriminate]. intros ty Hk Hi. split; [constructor; now apply inhab_null' in Hi|congruence].
  - intros b l vs _ IH. split; [|intros n (? & ? & ? & ? & _ & _ & _ & _ & _ & ?); discriminate]. intros ty Hk Hi. split; [|discriminate].
    destruct (core ty _ Hi) as ([n|ty'|ty'] & En & HN & HI & HV); try discriminate.
    + cbn in HI. destruct HI as [HI|(c0 & Hl & HI)]; discriminate.
    + apply HV; [discriminate|]. constructor. cbn in HI. destruct HI as [HI|(l' & [= E <-] & HI)]; [discriminate|]. apply IH; [cbn in En; rewrite En; exact Hk|exact HI].
  - intros p v Hno Hpy. apply by_name.
    + intros n Hk Hl. destruct (leaf_cases _ _ Hk Hl) as [(d & p' & HT & Hp & ->)|[(d & vs & bases & body & HT & HC & _)|[(d & fs & dirs & flds & HT & HO & HC & _)|(d & fs & dirs & HT & HO & -> & HA)]]].
      * destruct (KS' _ _ Hp) as (_ & Hv & Hnn). apply Hv in Hpy. split; [econstructor; eassumption|intros ->; contradiction].
      * exfalso. apply Hno. eapply class_owned; exact HC.
      * exfalso. apply Hno. eapply model_owned; exact HC.
      * exfalso. apply Hno. destruct (oneof_alias _ _ HA) as (e & He). eapply alias_owned; exact He.
    + intros n Hw. destruct (wrapper_class _ _ Hw) as (? & ? & ? & ? & ? & _ & _ & _ & _ & HC & _). exfalso. apply Hno. eapply model_owned; exact HC.
  - intros k bases body v HC HE HM. apply by_name.
    + intros n Hk Hl. destruct (leaf_cases _ _ Hk Hl) as [(d & p' & HT & Hp & ->)|[(d & vs & bases' & body' & HT & HC' & HE' & HM')|[(d & fs & dirs & flds & HT & HO & (b' & x' & HC' & HO' & _) & _)|(d & fs & dirs & HT & HO & -> & HA)]]].
      * exfalso. destruct (KS' _ _ Hp) as (Hno & _). apply Hno. eapply class_owned; exact HC.
      * destruct (class_det _ _ _ _ _ HC HC') as [-> ->]. split; [|discriminate]. econstructor; [exact HT|]. now apply HM'.
      * exfalso. destruct (class_det _ _ _ _ _ HC HC') as [-> ->]. now apply (no_enum _ HO').
      * exfalso. destruct (oneof_alias _ _ HA) as (e & He). eapply class_alias; eassumption.
    + intros n Hw. destruct (wrapper_class _ _ Hw) as (? & ? & ? & ? & ? & _ & _ & _ & _ & (b' & x' & HC' & HO' & _) & _). exfalso.
      destruct (class_det _ _ _ _ _ HC HC') as [-> ->]. now apply (no_enum _ HO').
  - intros k bases body kvs HC HE _ ND HW IH HO. apply by_name.
    + intros n Hk Hl. destruct (leaf_cases _ _ Hk Hl) as [(d & p' & HT & Hp & ->)|[(d & vs & bases' & body' & HT & HC' & HE' & HM')|[(d & fs & dirs & flds & HT & HN & HM & HF)|(d & fs & dirs & HT & HN & -> & HA)]]].
      * exfalso. destruct (KS' _ _ Hp) as (Hno & _). apply Hno. eapply class_owned; exact HC.
      * exfalso. destruct (class_det _ _ _ _ _ HC HC') as [-> ->]. contradiction.
      * split; [|discriminate]. pose proof (INJ _ _ _ _ HT) as NDF.
        assert (KEY : forall key v, In (key, v) kvs -> exists f, In (key, f) fs /\ valid_input s sc (if_type f) v).
        { intros key v Hv. destruct (IH _ _ Hv) as [(n' & a & val & Hf & W & (HH & _))|X]; [|exfalso; exact (model_strict _ _ HM HS X)]. apply (model_fields _ _ _ HM) in Hf.
          destruct (Forall2_r _ _ _ _ HF Hf) as ([k' f] & Hin & FO). cbn [fst snd] in FO. pose proof (ifo_wire _ _ _ _ _ _ FO) as W'. cbn [fst snd] in W'.
          rewrite W in W'. subst k'. exists f. split; [exact Hin|]. apply HH; [eapply K0; eassumption|]. intros x Hx. apply (ifo_type _ _ _ _ _ _ FO) in Hx.
          destruct Hx as [Hx|[-> Hd]]; [exact Hx|]. apply inhab_null'. eapply HD; eassumption. }
        eapply vi_object; [exact HT|exact HN|exact ND| | |].
        -- intros key v Hv. destruct (KEY _ _ Hv) as (f & Hf & _). unfold dkeys. apply in_map_iff. exists (key, f). auto.
        -- intros key v f Hv Hf. destruct (KEY _ _ Hv) as (f' & Hf' & HV). assert (f = f'); [|now subst].
           apply (dget_In_NoDup key _ _ NDF) in Hf. apply (dget_In_NoDup key _ _ NDF) in Hf'. congruence.
        -- intros key f Hf Hno. destruct (Forall2_l _ _ _ _ HF Hf) as ([[n' a] val] & Hin & FO). cbn [fst snd] in FO.
           pose proof (ifo_wire _ _ _ _ _ _ FO) as W'. cbn [fst snd] in W'. specialize (HO n' a val (proj2 (model_fields _ _ _ HM) Hin)).
           rewrite W' in HO. specialize (HO Hno). apply (ifo_omit _ _ _ _ _ _ FO) in HO. rewrite inhab_null' in HO. tauto.
      * exfalso. destruct (oneof_alias _ _ HA) as (e & He). eapply class_alias; eassumption.
    + intros n Hw. destruct (wrapper_class _ _ Hw) as (d & fs & dirs & [kk f] & [[n' a] val] & HT & HN & Hkv & Hk & HM & W & O & AC). cbn [fst snd] in *. split; [|discriminate].
      assert (KEY : forall key v, In (key, v) kvs -> key = kk /\ valid_input s sc (GNonNull (if_type f)) v).
      { intros key v Hv. destruct (IH _ _ Hv) as [(n2 & a2 & val2 & Hf & W2 & (HH & _))|X]; [|exfalso; exact (model_strict _ _ HM HS X)]. apply (model_fields _ _ _ HM) in Hf. destruct Hf as [[= <- <- <-]|[]].
        split; [congruence|]. apply HH; [cbn; eapply K0; eassumption|]. intros x Hx. now apply AC. }
      destruct kvs as [|[k1 v1] rest].
      * specialize (HO n' a val (proj2 (model_fields _ _ _ HM) (or_introl eq_refl)) (fun x => x)). congruence.
      * destruct (KEY _ _ (or_introl eq_refl)) as [-> HV]. destruct rest as [|[k2 v2] rest].
        -- eapply vi_oneof; eassumption.
        -- exfalso. destruct (KEY k2 v2 (or_intror (or_introl eq_refl))) as [-> _]. inversion ND as [|? ? N _]. apply N. now left.
  - intros k e v He ES _ IH. apply by_name.
    + intros n Hk Hl. destruct (leaf_cases _ _ Hk Hl) as [(d & p' & HT & Hp & ->)|[(d & vs & bases' & body' & HT & HC' & HE' & HM')|[(d & fs & dirs & flds & HT & HN & (b' & x' & HC' & HO' & _) & HF)|(d & fs & dirs & HT & HN & -> & HA)]]].
      * exfalso. destruct (KS' _ _ Hp) as (Hno & _). apply Hno. eapply alias_owned; exact He.
      * exfalso. eapply class_alias; eassumption.
      * exfalso. eapply class_alias; eassumption.
      * destruct HA as [HA|HA].
        -- pose proof HA as (e' & He' & _ & HAcc & _). assert (e = e') by (eapply alias_det; eassumption). subst e'. apply (proj2 IH). intros x Hx.
           apply HAcc in Hx as (kv & Hkv & ->). exists d, fs, dirs, kv. auto 7.
        -- exfalso. destruct (direct_alias _ _ HA) as (e' & He' & ES'). assert (e = e') by (eapply alias_det; eassumption). subst e'. contradiction.
    + intros n Hw. destruct (wrapper_class _ _ Hw) as (? & ? & ? & ? & ? & _ & _ & _ & _ & (b' & x' & HC' & HO' & _) & _). exfalso. eapply class_alias; eassumption.
  - intros k e pv ph body m v tag HB HAcc Hd IH HTag. pose proof (wrapped_alias _ _ _ _ _ HB) as [He ES]. apply by_name.
    + intros n Hk Hl. destruct (leaf_cases _ _ Hk Hl) as [(d & p' & HT & Hp & ->)|[(d & vs & bases' & body' & HT & HC' & HE' & HM')|[(d & fs & dirs & flds & HT & HN & (b' & x' & HC' & HO' & _) & HF)|(d & fs & dirs & HT & HN & -> & HA)]]].
      * exfalso. destruct (KS' _ _ Hp) as (Hno & _). apply Hno. eapply alias_owned; exact He.
      * exfalso. eapply class_alias; eassumption.
      * exfalso. eapply class_alias; eassumption.
      * destruct HA as [HA|HA].
        -- exfalso. destruct HA as (e' & He' & ES' & _). assert (e = e') by (eapply alias_det; eassumption). subst e'. contradiction.
        -- split; [|discriminate]. pose proof HA as (e' & g & pre & body' & post & ES' & Et & HAcc' & HSer & HM & NDM & HR).
           assert (He' : In (SAssign (EName (cls n)) e') t) by (rewrite Et; apply in_or_app; right; right; now left).
           assert (e = e') by (eapply alias_det; eassumption). subst e'.
           apply HAcc' in HAcc as ([kk f] & Hkv & [= ->]). cbn [snd] in *. destruct (HM _ Hkv) as (m' & d' & fs' & dirs' & Em & HT'). cbn [snd] in Em.
           assert (EB : pv = "value" /\ ph = "handler" /\ body = body').
           { destruct HB as (g' & pre1 & av & ah & ret & mid & post1 & ES1 & Et1 & Hmid). assert (g' = g) by congruence. subst g'.
             rewrite Et1 in Et. rewrite Et1 in NDT.
             assert (E := split_unique (pre1 ++ SFunc false g (PyArgs [PyArg pv av; PyArg ph ah] []) body ret [] :: mid)
                            (pre ++ [SFunc false g (PyArgs [PyArg "value" None; PyArg "handler" None] []) body' None []]) post1 post
                            (SAssign (EName (cls n)) e) (SAssign (EName (cls n)) e) (cls n)).
             rewrite <- !app_assoc in E. cbn [app] in E. destruct (E NDT Et eq_refl eq_refl) as (E1 & _ & _). clear - E1 Hmid.
             destruct (exists_last_or mid) as [->|(mid' & z & ->)].
             - apply app_inj_tail in E1 as [_ E1]. injection E1 as -> _ -> _ -> _. auto.
             - exfalso. change (SFunc false g (PyArgs [PyArg pv av; PyArg ph ah] []) body ret [] :: mid' ++ [z]) with ((SFunc false g (PyArgs [PyArg pv av; PyArg ph ah] []) body ret [] :: mid') ++ [z]) in E1.
               rewrite app_assoc in E1. apply app_inj_tail in E1 as [_ ->]. apply Hmid. unfold binds. rewrite flat_map_app. apply in_or_app. right. now left. }
           destruct EB as (-> & -> & ->).
           assert (tag = kk).
           { pose proof (HR _ Hkv) as [R1 R2]. eapply tag_unique; [exact R2|exact R1|exact HTag|]. exact (tagged n fs e g pre body' post (kk, f) ES' HSer NDM HR Et Hkv). }
           subst tag. destruct (proj1 IH (GNamed m')) as [HV HN'].
           { pose proof (K0 _ _ _ _ _ _ Hk HT Hkv) as X. rewrite Em in X. exact X. }
           { right. eexists. split; [|reflexivity]. unfold input_leaf. rewrite HT', Em. reflexivity. }
           eapply vi_oneof; [exact HT|exact HN|exact Hkv|]. rewrite Em. constructor; [exact HV|apply HN'; discriminate].
    + intros n Hw. destruct (wrapper_class _ _ Hw) as (? & ? & ? & ? & ? & _ & _ & _ & _ & (b' & x' & HC' & HO' & _) & _). exfalso. eapply class_alias; eassumption.
  - intros ty Hk H v [].
  - intros x v l vs _ IHx _ IHl ty Hk H w [<-|Hw]; [apply IHx; [exact Hk|apply H; now left]|]. eapply IHl; [exact Hk| |exact Hw]. intros y Hy. apply H. now right.
  - intros e x v Ha _ IH. split.
    + intros ty Hk H. apply (proj1 IH); auto.
    + intros n H. apply (proj2 IH). auto.
  - intros k n a val v Hf _ IH. left. exists n, a, val. auto.
  - intros k key v H. right. exact H.
Qed.
End V.
