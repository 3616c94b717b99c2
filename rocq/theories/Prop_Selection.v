(** C45, C46: the classes generated for selections. *)
From Verif Require Import Base PyAst Gql Config Stylers Registry Utils Documents Inline Inputs Recurse Fragments Operations Objects
  Spec_Types Spec_Inputs Spec_Annot Spec_Fields Spec_Selection Spec_Dispatch P_Base P_Recurse P_Selection P_Modelled P_Modelled2 P_Dispatch Ex_Select.

(** ** C45.  [modelled] follows a selection to any depth: fields, inline fragments and fragment
    spreads directly in the selection set of each field.  Missing for the full property: what is
    nested inside an inline fragment on an interface other than fields, and inline fragments in
    fragments on objects; both get lost, see the refutations. *)
Theorem C45_selection_partial : forall c st s f parent fd r res r',
  type_field_node c st s f parent fd r = (Ok res, r') ->
  exists fld, class_fields (snd res) = [fld] /\ modelled st s r (c_create_catchall c) (fst res) f fd fld.
Proof. intros c st s f parent fd r res r' H. exact (modelled_all c st s f r parent fd r res r' (fsame_refl r) H (fst res) (incl_refl _)). Qed.
Print Assumptions C45_selection_partial.
Theorem C45_operation_partial : forall c st s pc po add doc_of o r l r', generate_operation c st s pc po add doc_of o r = (Ok l, r') ->
  exists root classes cls bases body, root_type s (op_kind o) = Some root /\ l = classes ++ [SClass cls bases body []]
    /\ carries (modelled st s r (c_create_catchall c) classes) s root (op_sels o) body
    /\ forall x, In x (op_sels o) -> exists g, x = SelField g.
Proof. exact operation_C45. Qed.
Print Assumptions C45_operation_partial.
(** [rm] is the registry the fragment's fields are generated in *)
Theorem C45_fragment_partial : forall c st s pc pf add f r l r', generate_fragment c st s pc pf add f r = (Ok l, r') ->
  exists t rm cls, get_type s (fr_on f) = Some t
    /\ r_frags rm = r_frags r' /\ r_fragtypes rm = r_fragtypes r' /\ r_iffrag rm = r_iffrag r /\ r_ufrag rm = r_ufrag r
    /\ dget (fr_name f) (r_fragtypes r') = Some (fr_on f) /\ dget (fr_name f) (r_frags r') = Some cls
    /\ match t with
       | TObject _ _ _ _ => object_fragment_ok st s rm (c_create_catchall c) l (fr_on f) (fr_sels f) cls
       | TInterface _ _ _ => exists ifs, dget (fr_name f) (r_iffrag r') = Some ifs
                             /\ interface_fragment_ok st s rm (c_create_catchall c) l (fr_on f) (fr_sels f) ifs
       | TUnion _ ms => exists ufs, dget (fr_name f) (r_ufrag r') = Some ufs
                        /\ union_fragment_ok st s rm (c_create_catchall c) l ms (fr_sels f) ufs
       | _ => False
       end.
Proof. exact fragment_C45. Qed.
Print Assumptions C45_fragment_partial.
(** node { id ...UF ... on User { userName } ... on Post { author { id } } } *)
Definition ex_node : fieldnode :=
  sub "node" [plain "id"; SelSpread "UF" []; on "User" [plain "userName"]; on "Post" [SelField (sub "author" [plain "id"])]].
Definition ex_reg : reg := with_fragtypes [("UF", "User")] (with_frags [("UF", "UF")] sx_reg).
Definition node_fd : fielddef := out (GNamed "Node").
Definition names_in (body : list stmt) : list string := map (fun f => fst (fst f)) (class_fields body).
Example C45_ex :
  exists classes body r', type_field_node default_config sst sx ex_node "Get" node_fd ex_reg = (Ok (classes, body), r')
  /\ option_map (fun x => (fst x, names_in (snd x))) (last_class classes "GetNodeBaseUser")
     = Some ([EName "UF"; EName "GetNodeBase"; EName "BaseModel"], ["typename"; "user_name"])
  /\ option_map (fun x => names_in (snd x)) (last_class classes "GetNodeBase") = Some ["id"]
  /\ option_map (fun x => names_in (snd x)) (last_class classes "GetNodeBasePost") = Some ["typename"; "author"]
  /\ option_map (fun x => names_in (snd x)) (last_class classes "GetNodeAuthorBase") = Some ["id"].
Proof. do 3 eexists. split; [vm_compute; reflexivity|]. repeat split; reflexivity. Qed.
Definition ex_frpc : frcfg := FrCfg [] [] None true false.
Definition ex_fragment (on_ : string) (l : list selection) : fragment := Fragment "UF" on_ [] l.
Definition ex_gen (f : fragment) : res (list stmt) * reg :=
  generate_fragment default_config sst sx ex_frpc (fun _ => "") (fun t => Ok t) f sx_reg.
Example C45_fragment_ex :
  exists l r', ex_gen (ex_fragment "Node" [plain "id"; on "User" [plain "userName"]]) = (Ok l, r')
  /\ dget "UF" (r_iffrag r') = Some [("User", "UFUser"); ("Post", "UFPost")]
  /\ option_map (fun x => (fst x, names_in (snd x))) (last_class l "UFUser") = Some ([EName "UFBase"; EName "BaseModel"], ["typename"; "user_name"]).
Proof. do 2 eexists. split; [vm_compute; reflexivity|]. split; reflexivity. Qed.
(** { node { ... on User { ...UF } } }: the fragment is neither a base nor in the class *)
Theorem C45_nested_spread_refuted : exists classes body r' bases b,
  type_field_node default_config sst sx (sub "node" [on "User" [SelSpread "UF" []]]) "Get" node_fd ex_reg = (Ok (classes, body), r')
  /\ last_class classes "GetNodeBaseUser" = Some (bases, b)
  /\ bases = [EName "GetNodeBase"; EName "BaseModel"] /\ names_in b = ["typename"]
  /\ option_map (fun x => fst x) (last_class classes "GetNodeBase") = Some [EName "BaseModel"].
Proof. do 5 eexists. split; [vm_compute; reflexivity|]. repeat split; reflexivity. Qed.
(** fragment UF on User { id ... on User { userName } }: userName is not in the class *)
Theorem C45_object_fragment_refuted : exists l r' bases b,
  ex_gen (ex_fragment "User" [plain "id"; on "User" [plain "userName"]]) = (Ok l, r')
  /\ last_class l "UF" = Some (bases, b) /\ bases = [EName "BaseModel"] /\ names_in b = ["typename"; "id"].
Proof. do 4 eexists. split; [vm_compute; reflexivity|]. repeat split; reflexivity. Qed.

(** ** C46.  Missing for the full property: an implementing type called CatchAll, and fields called
    typename in inline fragments; see the refutations. *)
Theorem C46_dispatch_partial : forall c st s f parent fd r res r' d i fields,
  let n := gty_name (fd_type fd) in
  NoDup (dkeys (s_types s)) -> (c_create_catchall c = true -> ~ In "CatchAll" (implementations s n)) ->
  (forall i ds m g, In (SelInline (Some i) ds m) (selections f) -> In (SelField g) m -> style_with sty_node st (response_key g) <> "typename") ->
  get_type s n = Some (TInterface d i fields) ->
  type_field_node c st s f parent fd r = (Ok res, r') ->
  exists fld ks ca, class_fields (snd res) = [fld] /\ polymorphic (snd (fst fld)) ks ca /\ (ca = None <-> c_create_catchall c = false)
    /\ (forall t, In t (implementations s n) -> exists k, (forall k', dispatch (fst res) ks ca t k' <-> k' = k)
          /\ carries_for st s r (c_create_catchall c) (selections f) (fst res) t k)
    /\ (forall t, ~ In t (implementations s n) -> forall k, dispatch (fst res) ks ca t k <-> ca = Some k).
Proof. exact dispatch_C46. Qed.
Print Assumptions C46_dispatch_partial.
Example C46_ex :
  exists classes body r', type_field_node default_config sst sx ex_node "Get" node_fd ex_reg = (Ok (classes, body), r')
  /\ tag classes "GetNodeBaseUser" = Some "User" /\ tag classes "GetNodeBasePost" = Some "Post" /\ tag classes "GetNodeBaseCatchAll" = None
  /\ NoDup (dkeys (s_types sx)) /\ ~ In "CatchAll" (implementations sx "Node")
  /\ (forall i ds m g, In (SelInline (Some i) ds m) (selections ex_node) -> In (SelField g) m -> style_with sty_node sst (response_key g) <> "typename").
Proof.
  do 3 eexists. split; [vm_compute; reflexivity|]. split; [reflexivity|]. split; [reflexivity|]. split; [reflexivity|].
  split; [|split].
  - cbn. repeat (constructor; [cbn; intuition discriminate|]). constructor.
  - cbn. intuition discriminate.
  - intros i ds m g [H|[H|[H|[H|[]]]]] Hg; try discriminate; injection H as <- <- <-; destruct Hg as [Hg|[]]; injection Hg as <-; vm_compute; discriminate.
Qed.
(** an object type called CatchAll implements Node: its objects end in the catch-all class, which
    misses the selected field *)
Definition ca_schema : schema :=
  Schema (sx_types ++ [("CatchAll", TObject None ["Node"] [("id", out (GNonNull (GNamed "ID"))); ("extra", out (GNamed "Int"))] [])]) (Some "Query") None None.
Theorem C46_type_name_refuted : exists classes body r' fld ks ca bases b,
  type_field_node default_config sst ca_schema (sub "node" [plain "id"; on "CatchAll" [plain "extra"]]) "Get" node_fd sx_reg = (Ok (classes, body), r')
  /\ class_fields body = [fld] /\ polymorphic (snd (fst fld)) ks ca /\ In "CatchAll" (implementations ca_schema "Node")
  /\ dispatch classes ks ca "CatchAll" "GetNodeBaseCatchAll"
  /\ last_class classes "GetNodeBaseCatchAll" = Some (bases, b) /\ names_in b = ["typename"] /\ bases = [EName "GetNodeBase"; EName "BaseModel"].
Proof.
  do 8 eexists. split; [vm_compute; reflexivity|]. split; [reflexivity|]. split; [cbn [fst snd]; apply poly_optional, poly_catch, (poly_tagged ["GetNodeBaseUser"; "GetNodeBasePost"; "GetNodeBaseCatchAll"])|].
  split; [vm_compute; tauto|]. split; [|split; [reflexivity|split; reflexivity]].
  right. split; [|split; [reflexivity|]].
  - intros k' [<-|[<-|[<-|[]]]]; vm_compute; discriminate.
  - do 3 eexists. split; [reflexivity|]. split; reflexivity.
Qed.
(** node { ... on User { typename: id } } takes the tag away from the class for User *)
Theorem C46_typename_field_refuted : exists classes body r' fld ks ca,
  type_field_node default_config sst sx (sub "node" [on "User" [SelField (FieldNode (Some "typename") "id" [] [] None)]]) "Get" node_fd sx_reg = (Ok (classes, body), r')
  /\ class_fields body = [fld] /\ polymorphic (snd (fst fld)) ks ca /\ In "User" (implementations sx "Node")
  /\ forall k, In k ks -> tag classes k <> Some "User".
Proof.
  do 6 eexists. split; [vm_compute; reflexivity|]. split; [reflexivity|]. split; [cbn [fst snd]; apply poly_optional, poly_catch, (poly_tagged ["GetNodeBaseUser"; "GetNodeBasePost"])|].
  split; [vm_compute; tauto|]. intros k [<-|[<-|[]]]; vm_compute; discriminate.
Qed.
