(** * C81: what the calls panic with.
    The texts of the panics, with tables of Go type names of their own (past/past.go:7-62 lists the exported
    names of the node types). *)
From Verif Require Export ThmMeta ThmDescr ThmAccessors ThmOptions.

(** ** The names of Go types in panic texts *)

(** the exported name of the type of a node *)
Definition exported_builtin (b : builtin) : string :=
  match b with
  | BBool => "Bool" | BInt32 => "Int32" | BInt64 => "Int64" | BSint32 => "Sint32" | BSint64 => "Sint64"
  | BSfixed32 => "Sfixed32" | BSfixed64 => "Sfixed64" | BUint32 => "Uint32" | BUint64 => "Uint64"
  | BFixed32 => "Fixed32" | BFixed64 => "Fixed64" | BFloat => "Float" | BDouble => "Double"
  | BString => "String" | BBytes => "Bytes"
  end.
Definition exported_kind (k : wkind) : string :=
  match k with
  | KFile => "File" | KService => "Service" | KMethod => "Method" | KMessage => "Message"
  | KField => "MessageField" | KEnum => "Enum" | KEnumValue => "EnumValue" | KMap => "Map"
  | KOneOf => "OneOf" | KBranch => "OneOfBranch" | KReserved => "Reserved" | KImport => "Import"
  | KSyntax => "Syntax" | KPackage => "Package"
  end.
Definition exported_value (v : oval) : string :=
  match v with
  | OVBool _ _ => "Bool" | OVInt _ _ => "Int" | OVUint _ _ => "Uint" | OVFloat _ _ => "Float"
  | OVString _ _ => "String" | OVBytes _ _ => "Bytes" | OVEnum _ _ _ => "Enum" | OVArray _ _ => "Array"
  | OVMap _ _ => "Map"
  end.
Definition exported (n : node) : string :=
  match n with
  | NAst k _ _ => exported_kind k
  | NBuiltin b => exported_builtin b
  | NRepeated _ _ => "Repeated"
  | NOption _ => "Option"
  | NValue v => "OptionValue" +:+ exported_value v
  | NMapItem _ _ => "OptionValueMapItem"
  end.
(** %T of a node; nil is an absent node *)
Definition type_label (o : option node) : string :=
  match o with Some n => "*core." +:+ exported n | None => "<nil>" end.

Lemma label_ok n : go_node n = type_label (Some n).
Proof. destruct n as [[]|[]| | |[]|]; reflexivity. Qed.

(** What is left of a node after taking off Repeated. *)
Fixpoint stripped (n : node) : option node :=
  match n with
  | NRepeated _ (Some e) => stripped e
  | NRepeated _ None => None
  | _ => Some n
  end.

(** ** TypeName *)

(** The types TypeName has a name for. *)
Definition has_type_name (o : option node) : Prop :=
  match o with
  | Some (NAst (KMessage | KEnum | KOneOf) _ _) | Some (NBuiltin _) => True
  | _ => False
  end.
(** TypeName has a name for a node or panics with the type of what is under Repeated; never anything else. *)
Theorem C81_type_name s n :
  (has_type_name (stripped n) -> exists x, type_name n s = (Ret x, s)) /\
  (~ has_type_name (stripped n) ->
   type_name n s = (Panic (PText ("unsupported type " +:+ type_label (stripped n))), s)).
Proof.
  induction n as [k a q|b|a|a e IH|o|v|key v] using node_nested_ind; cbn [stripped type_name].
  - destruct k; cbn [has_type_name]; split; intros H; try done; eexists; reflexivity.
  - split; [intros _; eexists; reflexivity|]. intros H. by destruct (H I).
  - split; [done|]. intros _. reflexivity.
  - destruct IH as [H1 H2]. split; intros H.
    + destruct (H1 H) as [x E]. eexists. by rewrite (rbind_val _ _ _ _ _ E).
    + unfold rbind. by rewrite (H2 H).
  - split; [done|]. reflexivity.
  - split; [done|]. intros _. unfold panic. by rewrite label_ok.
  - split; [done|]. reflexivity.
Qed.

(** ** NodeParent *)

(** Nodes NodeParent knows nothing of. *)
Definition no_parent (o : option node) : Prop :=
  match o with
  | None | Some (NAst KMap _ _) | Some (NBuiltin _) | Some (NMapItem _ _) => True
  | _ => False
  end.
(** On types of map fields, builtin types and nil, possibly under Repeated, and on items of map values
    NodeParent panics with a string; nothing is changed. *)
Theorem C81_parent s n :
  no_parent (stripped n) ->
  node_parent n s = (Panic (PText ("unsupported node type: " +:+ type_label (stripped n))), s).
Proof.
  induction n as [k a q|b|a|a e IH|o|v|key v] using node_nested_ind; cbn [stripped node_parent]; try done.
  - destruct k; try done.
  - intros _. unfold panic. by rewrite label_ok.
Qed.

(** ** NodeDescription *)

(** Nodes NodeDescription has a text for, of those that are not types of map fields. *)
Definition no_description (o : option node) : Prop :=
  match o with
  | None | Some (NBuiltin _) | Some (NValue _) | Some (NMapItem _ _) => True
  | _ => False
  end.
Theorem C81_description s n :
  no_description (stripped n) ->
  node_description n s = (Panic (PError (ENew ("unsupported node type: " +:+ type_label (stripped n)))), s).
Proof.
  induction n as [k a q|b|a|a e IH|o|v|key v] using node_nested_ind; cbn [stripped node_description]; try done.
  - intros _. cbn [flat_description]. unfold panic. by rewrite label_ok.
  - intros H. unfold rbind. by rewrite (IH H).
  - intros _. cbn [flat_description]. unfold panic. by rewrite label_ok.
Qed.
(** The type of a map field never has a description: the description of its key is asked for first, and
    that is a builtin type, or no possible key at all. *)
Theorem C81_description_of_map s a p t name kt vt num :
  element_at s p t -> t_data t = DMapField name kt vt num ->
  (forall b, map_key p s = (Ret b, s) ->
   node_description (NAst KMap a p) s = (Panic (PError (ENew ("unsupported node type: *core." +:+ exported_builtin b))), s)) /\
  (forall e, map_key p s = (Panic e, s) ->
   node_description (NAst KMap a p) s = (Panic e, s)).
Proof.
  intros Ht%element_heap Hd. cbn [node_description]. split; intros x E; unfold rbind at 1; rewrite E.
  - cbn [flat_description]. unfold rbind, panic. rewrite label_ok. reflexivity.
  - reflexivity.
Qed.

(** ** Map keys and values *)

(** Key of the type of a map field: every scalar but bytes is accepted, on anything else Key panics with
    the name of the type as written. *)
Theorem C81_map_key s p t name kt vt num :
  element_at s p t -> t_data t = DMapField name kt vt num ->
  (kt ∈ scalar_names -> kt <> "bytes" -> exists b, map_key p s = (Ret b, s) /\ builtin_string b = kt) /\
  (kt ∉ scalar_names \/ kt = "bytes" ->
   map_key p s = (Panic (PError (ENew ("key type " +:+ kt +:+ " is not supported in maps"))), s)).
Proof.
  intros Ht%element_heap Hd. unfold map_key. rewrite (rbind_val _ _ _ _ _ (deref_ok _ _ _ Ht)), Hd. split.
  - intros Hk Hb. unfold scalar_names in Hk. rewrite !elem_of_cons, elem_of_nil in Hk.
    repeat (destruct Hk as [->|Hk]); try done; eexists; (split; [reflexivity|reflexivity]).
  - intros [Hk| ->]; [|reflexivity].
    assert (builtin_comparable kt = None) as ->; [|reflexivity].
    pose proof (builtin_none _ Hk) as H. unfold builtin_type in H. by destruct (builtin_comparable kt).
Qed.
(** Value of the type of a map field: what C49 says is no value type is named in the panic as written. *)
Theorem C81_map_value s p t name kt vt num :
  reachable s -> element_at s p t -> t_data t = DMapField name kt vt num ->
  vt ∉ scalar_names -> (absolute vt \/ forall n, found s ("." +:+ vt) n -> ~ message_or_enum n) ->
  map_value p s = (Panic (PError (ENew ("value type " +:+ vt +:+ " is not supported in maps"))), s).
Proof.
  intros Hs Ht%element_heap Hd Hb Ha. pose proof (reachable_Inv _ Hs) as I.
  unfold map_value. rewrite (rbind_val _ _ _ _ _ (deref_ok _ _ _ Ht)), Hd, (builtin_none _ Hb). rewrite rbind_get.
  destruct (has_prefix vt ".") eqn:Hpre; cbn [negb].
  - destruct (names s !! "") as [p'|] eqn:Hq; [|reflexivity].
    exfalso. destruct (sc_names _ (proj1 I) _ _ Hq) as (f & Hf & Hfq). by apply fqn_here_nonempty in Hfq.
  - destruct Ha as [Ha|Hno]; [apply prefix_dot in Ha; congruence|].
    destruct (names s !! ("." +:+ vt)) as [obj|] eqn:Hn; [|reflexivity].
    destruct (lookup_named _ _ _ I Hn) as (f & u & k & a & s' & Hf & _ & Hw & Hk & E & _).
    assert (Hu : heap_at s obj = Some u) by (unfold heap_at; by rewrite Hf).
    rewrite (rbind_val _ _ _ _ _ (deref_ok _ _ _ Hu)).
    assert (Hfd : found s ("." +:+ vt) (NAst k a obj)) by (unfold found; by rewrite E).
    specialize (Hno _ Hfd).
    destruct (t_data u); try discriminate Hk; injection Hk as <-; try reflexivity; exfalso; by apply Hno.
Qed.

(** ** Numbers of fields *)

(** Value of a message field: there is one panic, for a oneof. *)
Theorem C81_field_number s a p :
  points_to s p (NAst KField a p) ->
  (exists num, field_value p s = (Ret num, s)) \/
  (exists t name, element_at s p t /\ t_data t = DOneof name /\
   field_value p s =
     (Panic (PError (ENew "oneof options do not have a value, you need to check field type first")), s)).
Proof.
  intros [_ (t & Ht & Hk)]. apply element_heap in Ht as Hh.
  unfold field_value. rewrite (rbind_val _ _ _ _ _ (deref_ok _ _ _ Hh)).
  destruct (t_data t) as [| | | | | |? []| | | | | | | | | | | |] eqn:Hd; try discriminate Hk;
    first [left; eexists; reflexivity | right; eexists t, _; split; [done|]; split; [done|reflexivity]].
Qed.
(** Optional of a message field never panics. *)
Theorem C81_field_optional s a p :
  points_to s p (NAst KField a p) -> exists b, field_optional p s = (Ret b, s).
Proof.
  intros [_ (t & Ht & Hk)]. apply element_heap in Ht as Hh.
  unfold field_optional. rewrite (rbind_val _ _ _ _ _ (deref_ok _ _ _ Hh)).
  destruct (t_data t) as [| | | | | |? []| | | | | | | | | | | |] eqn:Hd; try discriminate Hk;
    eexists; reflexivity.
Qed.

(** ** Options *)

(** Nodes that cannot carry options for the API; the parser's extend blocks, groups and extension ranges
    have no node at all. *)
Definition not_optionable (n : node) : Prop :=
  match n with
  | NAst (KFile | KMessage | KField | KEnum | KEnumValue | KOneOf | KService | KMethod) _ _ => False
  | _ => True
  end.
Theorem C81_options s n :
  not_optionable n ->
  options n s = (Panic (PError (ENew ("unsupported node type: " +:+ type_label (Some n)))), s) /\
  forall name, option_named n name s = (Panic (PError (ENew ("unsupported node type: " +:+ type_label (Some n)))), s).
Proof.
  intros H. rewrite <- label_ok. split; [|intros name]; unfold options, option_named; rewrite rbind_get;
    destruct n as [[]| | | | |]; done || reflexivity.
Qed.
(** OptionNamed of a plain message field (C36_plain_field_panics) names the node's own type. *)
Theorem C81_option_named_of_field s a p t name :
  element_at s p t -> plain_field (t_data t) ->
  option_named (NAst KField a p) name s = (Panic (PError (ENew "unsupported payload type: *core.MessageField")), s).
Proof.
  intros Ht%element_heap Hp. unfold option_named. rewrite rbind_get, (rbind_val _ _ _ _ _ (deref_ok _ _ _ Ht)).
  destruct (t_data t); try done.
Qed.

(** ** Pos *)

Lemma pos_deferred_walk s p n res :
  Inv s -> points_to s p n -> outside_groups s p -> p.2 <> [] -> p_file res = "" ->
  exists r s', pos_deferred n res s = (Ret r, s').
Proof.
  intros I Hp Hg Hne Hfile. unfold pos_deferred. rewrite Hfile. cbn [String.eqb negb]. destruct p as [g π].
  destruct (hierarchy_ok π g n (node_fuel n) [] s I Hp Hg) as (l & s' & El & Q & I' & Hl).
  { clear - Hp. induction n as [k b q|b|b|b e IH|op|v|key v] using node_nested_ind; try done.
    - apply points_ast in Hp as [-> _]. cbn. lia.
    - cbn [points_to] in Hp. specialize (IH Hp). cbn [node_fuel]. lia.
    - cbn in Hp. destruct Hp as [Hp _]. cbn [node_fuel]. rewrite Hp. cbn. lia. }
  unfold collect, node_hierarchy. rewrite (rbind_val _ _ _ _ _ El). cbn [app].
  destruct π as [|i π]; [done|].
  assert (exists x, list.last (n :: l) = Some x /\ node_at s' (root g) x) as (x & -> & k & a & -> & Hc).
  { clear - Hl. revert n l i Hl. induction π as [|j π IH]; intros n l i H; cbn in H;
      apply Forall2_cons_inv_l in H as (x & l'' & Hx & Hl' & ->).
    - apply Forall2_nil_inv_l in Hl' as ->. by exists x.
    - destruct (IH x l'' j Hl') as (y & Hy & Hr). by exists y. }
  destruct (nd_cache _ (proj2 I') _ _ Hc) as (p' & k' & a' & t' & [= <-] & [= <- <-] & Ht' & Hk').
  assert (exists x, t_data t' = DProto x) as [x Hd].
  { destruct (heap_element _ _ _ I' Ht') as [path He].
    eapply element_root. by exists path. }
  rewrite Hd in Hk'. injection Hk' as <-. rewrite (rbind_val _ _ _ _ _ (deref_ok _ _ _ Ht')), Hd. by eexists _, _.
Qed.
(** Pos of a Repeated type of a message or enum panics with an error about Repeated ... *)
Theorem C81_pos_repeated s a n p :
  reachable s -> points_to s p n -> outside_groups s p -> p.2 <> [] ->
  (pos (NRepeated a (Some n)) s).1 = Panic (PError (ENew "unsupported node type: *core.Repeated")).
Proof.
  intros Hs Hp Hg Hne. pose proof (reachable_Inv _ Hs) as I. unfold pos. cbn [pos_body panic].
  destruct (pos_deferred_walk s p (NRepeated a (Some n)) zero_pos I Hp Hg Hne eq_refl) as (r & s' & E).
  by rewrite E.
Qed.
(** ... and of a builtin or unresolved type, possibly under Repeated, with the string of NodeParent, which
    the deferred function calls while the first panic is under way. *)
Theorem C81_pos_builtin s n :
  stripped n = None \/ (exists b, stripped n = Some (NBuiltin b)) ->
  pos n s = (Panic (PText ("unsupported node type: " +:+ type_label (stripped n))), s).
Proof.
  intros H.
  assert (Hn : no_parent (stripped n)) by (destruct H as [->|[b ->]]; done).
  pose proof (C81_parent s n Hn) as E.
  assert (exists m, pos_body n s = (Panic m, s)) as [m Eb].
  { destruct n as [k a q|b|a o|o|v|key v]; try (eexists; reflexivity);
      cbn [stripped] in H; destruct H as [H|[? H]]; discriminate H. }
  unfold pos. rewrite Eb. unfold pos_deferred. cbn [zero_pos p_file String.eqb negb].
  assert (exists f, node_fuel n = S f) as [f Hf].
  { destruct n as [k a q|b|a [e|]|o|v|key v]; cbn; eauto. }
  unfold collect, node_hierarchy. rewrite Hf. cbn [hierarchy_from]. unfold rbind. cbn [ret].
  by rewrite E.
Qed.

(** ** Methods *)

(** Input and Output of a method whose type is no message: the run-time error of the type assertion says what
    the type is instead (nothing, a scalar, an enum, an enum value); if the name denotes something that is no
    type at all the error says what that is for the parser. *)
Theorem C81_method s p typ b m comps :
  reachable s -> asks_method s p typ b m -> in_scope s p comps ->
  (typ ∈ scalar_names ->
   exists bt, builtin_string bt = typ /\
     (m s).1 = Panic (PError (ENew ("interface conversion: core.Type is *core." +:+ exported_builtin bt +:+ ", not *core.Message")))) /\
  (typ ∉ scalar_names -> (forall q, ~ denotes s comps typ q) ->
   (m s).1 = Panic (PError (ENew "interface conversion: core.Type is nil, not *core.Message"))) /\
  (forall q k a d t, typ ∉ scalar_names -> denotes s comps typ q -> found s q (NAst k a d) -> element_at s d t ->
   (m s).1 = match k with
             | KMessage => Ret (b, NAst k a d)
             | KEnum | KEnumValue =>
                 Panic (PError (ENew ("interface conversion: core.Type is *core." +:+ exported_kind k +:+ ", not *core.Message")))
             | _ => Panic (PError (ENew ("node *proto." +:+ parser_name (t_data t) +:+ " does not represent a type")))
             end).
Proof.
  intros Hs Ha Hsc. pose proof (reachable_Inv _ Hs) as I. rewrite (asks_method_spec _ _ _ _ _ Ha).
  apply in_scope_of in Hsc as [Hsc Hid]. split; [|split].
  - intros Hb. destruct (builtin_some _ Hb) as (bt & Hbt & Hstr). exists bt. split; [done|].
    unfold get_type_body. rewrite Hbt. cbn [ret fst]. by destruct bt.
  - intros Hb Hno.
    destruct (get_type_body_spec s p typ comps I Hsc Hid Hb) as [(q' & n' & s1 & Hq & _)|[_ ->]];
      [by apply Hno in Hq|]. reflexivity.
  - intros q k a d t Hb Hd Hf Ht.
    destruct (get_type_body_spec s p typ comps I Hsc Hid Hb) as [(q' & n' & s1 & Hq & E & ->)|[Hn _]];
      [|by apply Hn in Hd].
    pose proof (denotes_fun _ _ _ _ _ Hd Hq) as ->.
    assert (n' = NAst k a d) as ->. { unfold found in Hf. rewrite E in Hf. by injection Hf. }
    destruct (found_at _ _ _ _ _ I Hf) as (_ & u & Hu & Hk). apply element_heap in Ht.
    assert (u = t) as -> by congruence.
    assert (no_type s (NAst k a d) = PError (ENew ("node *proto." +:+ parser_name (t_data t) +:+ " does not represent a type"))) as Hsay.
    { unfold no_type, not_a_type, go_visitee. by rewrite Ht, parser_ok, sapp_assoc. }
    cbn [fst]. rewrite Hsay. destruct k; try reflexivity; cbn in Hk; destruct (t_data t); discriminate Hk.
Qed.

(** ** Examples *)

(** a type of a map field, a repeated builtin type and an option value as TypeName, NodeParent, ... see them *)
Definition panic_text {A} (r : outcome A * registry) : string * bool :=
  match r.1 with
  | Panic (PText x) => (x, false)
  | Panic (PError err) => (error_text err, true)
  | _ => ("", false)
  end.
Example C81_example :
  let map_type := NAst KMap 0 (1, [9; 6]) in
  let ints := NRepeated 0 (Some (NBuiltin BInt32)) in
  (exists t, element_at demo_world (1, [9; 6]) t /\ t_data t = DMapField "map_field" "string" "bool" 111) /\
  panic_text (type_name map_type demo_world) = ("unsupported type *core.Map", false) /\
  panic_text (type_name (NRepeated 0 None) demo_world) = ("unsupported type <nil>", false) /\
  panic_text (node_parent map_type demo_world) = ("unsupported node type: *core.Map", false) /\
  panic_text (node_description map_type demo_world) = ("unsupported node type: *core.String", true) /\
  panic_text (node_description ints demo_world) = ("unsupported node type: *core.Int32", true) /\
  panic_text (pos ints demo_world) = ("unsupported node type: *core.Int32", false) /\
  panic_text (pos (NRepeated 0 (Some (NAst KMessage 0 (1, [6])))) demo_world) = ("unsupported node type: *core.Repeated", true) /\
  panic_text (options ints demo_world) = ("unsupported node type: *core.Repeated", true) /\
  panic_text (option_named (NAst KField 0 (1, [1; 6])) "(pb.field_tag)" demo_world) =
    ("unsupported payload type: *core.MessageField", true) /\
  panic_text (map_value (1, [3; 2]) maps_world) = ("value type .p.V is not supported in maps", true) /\
  panic_text (method_input (1, [0; 3]) clash_world) = ("node *proto.RPC does not represent a type", true).
Proof.
  cbn zeta. split; [eexists; split; [apply demo_element; vm_compute; reflexivity|reflexivity]|].
  repeat split; vm_compute; reflexivity.
Qed.
