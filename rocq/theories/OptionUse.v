(** * Options: specification and proofs. *)
From Verif Require Export TypeUse Handed.

(** ** Specification *)

(** A name without parentheses. *)
Fixpoint no_parens (s : string) : bool :=
  match s with
  | EmptyString => true
  | String c r => negb (Ascii.eqb c "(") && negb (Ascii.eqb c ")") && no_parens r
  end.

(** The name in an option statement and the name it refers to: [deprecated] refers to deprecated,
    [(a.b)] to a.b, [(a.b).c] to a.b.c. *)
Inductive refers_to : string -> string -> Prop :=
| ref_plain x : no_parens x = true -> refers_to x x
| ref_custom x : no_parens x = true -> refers_to ("(" +:+ x +:+ ")") x
| ref_path a b x y : refers_to a x -> refers_to b y -> refers_to (a +:+ b) (x +:+ y).

(** The descriptor message that holds the options of an element. *)
Definition options_message (d : data) : option string :=
  match d with
  | DProto _ => Some ".google.protobuf.FileOptions"
  | DMessage _ _ => Some ".google.protobuf.MessageOptions"
  | DNormalField _ _ _ _ _ | DMapField _ _ _ _ => Some ".google.protobuf.FieldOptions"
  | DOneof _ => Some ".google.protobuf.OneofOptions"
  | DEnum _ => Some ".google.protobuf.EnumOptions"
  | DEnumField _ _ => Some ".google.protobuf.EnumValueOptions"
  | DService _ => Some ".google.protobuf.ServiceOptions"
  | DRPC _ _ _ _ _ => Some ".google.protobuf.MethodOptions"
  | _ => None
  end.

(** The scope in which names of options of the node are looked up has the components [comps]: the
    package for a file, the NodeIndex for other nodes. *)
Definition options_scope (s : registry) (n : node) (comps : list string) : Prop :=
  Forall ident comps /\
  match n with
  | NAst KFile _ p => exists pkg, (file_package p s).1 = Ret pkg /\
                        ((pkg = "" /\ comps = []) \/ "." +:+ pkg = dotted comps)
  | _ => (node_index n s).1 = Ret (dotted comps)
  end.

Definition plain_field (d : data) : Prop :=
  match d with DNormalField _ _ _ _ _ => True | _ => False end.
Definition plain_field_named (name : string) (d : data) : bool :=
  match d with DNormalField n _ _ _ _ => String.eqb n name | _ => false end.

(** The field an option statement is about, [class] being the options message: the field the name
    denotes in the scope, or, if it denotes nothing at all there, the first field of the options
    message with exactly the name in the statement. *)
Inductive option_target (s : registry) (comps : list string) (class : ptr) (oname : string) : ptr -> Prop :=
| ot_denoted x q a f t :
    refers_to oname x -> denotes s comps x q -> found s q (NAst KField a f) ->
    element_at s f t -> plain_field (t_data t) -> option_target s comps class oname f
| ot_predefined x ct f :
    refers_to oname x -> (forall q, ~ denotes s comps x q) -> element_at s class ct ->
    head (children (plain_field_named oname) class ct) = Some f ->
    option_target s comps class oname f.

(** The name of the parser's type of an element (package proto of the emicklei parser) *)
Definition parser_name (d : data) : string :=
  match d with
  | DProto _ => "Proto" | DSyntax _ => "Syntax" | DEdition => "Edition" | DPackage _ => "Package"
  | DImport _ => "Import" | DComment => "Comment" | DOption _ _ => "Option" | DMessage _ _ => "Message"
  | DEnum _ => "Enum" | DService _ => "Service" | DNormalField _ _ _ _ _ => "NormalField"
  | DMapField _ _ _ _ => "MapField" | DOneof _ => "Oneof" | DOneOfField _ _ _ => "OneOfField"
  | DGroup _ => "Group" | DEnumField _ _ => "EnumField" | DRPC _ _ _ _ _ => "RPC"
  | DReserved _ _ => "Reserved" | DExtensions => "Extensions"
  end.

(** What is said about an option statement that is about no field: the name denotes nothing, or something that
    is no plain field (then the run-time error of a type assertion says what it is for the parser). *)
Inductive option_complaint (s : registry) (comps : list string) (oname : string) : payload -> Prop :=
| oc_nothing x :
    refers_to oname x -> (forall q, ~ denotes s comps x q) ->
    option_complaint s comps oname (PText "option field not found")
| oc_other x q k a f t :
    refers_to oname x -> denotes s comps x q -> found s q (NAst k a f) -> element_at s f t -> ~ plain_field (t_data t) ->
    option_complaint s comps oname
      (PError (ENew ("interface conversion: proto.Visitee is *proto." +:+ parser_name (t_data t) +:+ ", not *proto.NormalField"))).

(** The name written in the option statement at [q]. *)
Definition statement (s : registry) (q : ptr) (oname : string) : Prop :=
  exists t lit, element_at s q t /\ t_data t = DOption oname lit.

(** ** Proofs *)

Lemma strip_no_parens x : no_parens x = true -> strip_parens x = x.
Proof.
  induction x as [|c r IH]; [done|]. cbn. intros [[H1 H2]%andb_prop H3]%andb_prop.
  destruct (Ascii.eqb c "("); [done|]. destruct (Ascii.eqb c ")"); [done|]. cbn. by rewrite IH.
Qed.
Lemma strip_app x y : strip_parens (x +:+ y) = strip_parens x +:+ strip_parens y.
Proof.
  induction x as [|c r IH]; [done|]. rewrite sapp_cons. cbn [strip_parens]. rewrite IH.
  destruct (Ascii.eqb c "(" || Ascii.eqb c ")"); [done|]. by rewrite sapp_cons.
Qed.
Lemma refers_strip oname x : refers_to oname x -> strip_parens oname = x.
Proof.
  induction 1 as [x H|x Hx|a b x y _ IHa _ IHb]; [by apply strip_no_parens| |].
  - rewrite !strip_app, (strip_no_parens _ Hx). cbn. rewrite ?sapp_nil_l. apply sapp_nil_r.
  - by rewrite strip_app, IHa, IHb.
Qed.

Lemma names_denotes s s' comps x q : Inv s -> Inv s' -> names s' = names s ->
  denotes s comps x q -> denotes s' comps x q.
Proof.
  intros I I' Hn [Hf H].
  assert (Hfd : forall y, (exists n, found s y n) <-> (exists n, found s' y n)).
  { intros y. rewrite (found_names _ y I), (found_names _ y I'). by rewrite Hn. }
  assert (Hu : forall y, unknown s y <-> unknown s' y).
  { intros y. rewrite (unknown_names _ y I), (unknown_names _ y I'). by rewrite Hn. }
  split; [by apply Hfd|]. destruct H as [H|(Ha & k & Hk & -> & H)]; [by left|]. right.
  split; [done|]. exists k. split; [done|]. split; [done|]. intros j H1 H2. apply Hu. by apply H.
Qed.

Lemma found_at s q k a p : Inv s -> found s q (NAst k a p) ->
  names s !! q = Some p /\ exists t, heap_at s p = Some t /\ represented_by (t_data t) = Some k.
Proof.
  intros I Hf. unfold found in Hf. destruct (node_by_full_name q s) as [o s1] eqn:E. cbn in Hf. subst o.
  destruct (found_is_declared _ _ _ _ I E) as (path & f & t & k' & a' & p' & [= <- <- <-] & Hn & Hl & Hw & _ & Hk).
  split; [done|]. exists t. destruct Hl as (_ & Hf & _). split; [unfold heap_at; by rewrite Hf|].
  by rewrite represented_wrap.
Qed.
Lemma names_found s q p t k : Inv s -> names s !! q = Some p -> heap_at s p = Some t ->
  represented_by (t_data t) = Some k -> exists a, found s q (NAst k a p).
Proof.
  intros I Hn Ht Hk. rewrite represented_wrap in Hk.
  destruct (lookup_named _ _ _ I Hn) as (f & u & k' & a & s' & Hf & _ & Hw & Hk' & E & _).
  assert (heap_at s p = Some u) by (unfold heap_at; by rewrite Hf). assert (u = t) as -> by congruence.
  assert (k' = k) as -> by congruence. exists a. unfold found. by rewrite E.
Qed.

Lemma element_quiet s s' p t : Inv s -> quiet s s' -> element_at s' p t -> element_at s p t.
Proof.
  intros I Q H. apply heap_element; [done|]. apply element_heap in H. by rewrite (quiet_heap_at _ _ _ Q) in H.
Qed.
Lemma quiet_element s s' p t : quiet s s' -> element_at s p t -> element_at s' p t.
Proof. intros Q. apply element_at_grows. by apply quiet_grows. Qed.

Lemma option_target_quiet s s' comps class oname f : Inv s -> Inv s' -> quiet s s' ->
  option_target s comps class oname f -> option_target s' comps class oname f.
Proof.
  intros I I' Q. pose proof (q_names _ _ Q) as Hn.
  destruct 1 as [x q a f t Hx Hq Hf Ht Hp|x ct f Hx Hq Hc Hh].
  - destruct (found_at _ _ _ _ _ I Hf) as (Hn' & u & Hu & Hk).
    rewrite <- Hn in Hn'. rewrite <- (quiet_heap_at _ _ f Q) in Hu.
    destruct (names_found _ _ _ _ _ I' Hn' Hu Hk) as [a' Hf'].
    eapply ot_denoted; [exact Hx|by eapply (names_denotes s s')|exact Hf'|by eapply quiet_element|done].
  - eapply ot_predefined; [exact Hx| |by eapply quiet_element|exact Hh].
    intros q H. apply (Hq q). by eapply (names_denotes s' s).
Qed.

Lemma option_complaint_quiet s s' comps oname msg : Inv s -> Inv s' -> quiet s s' ->
  option_complaint s' comps oname msg -> option_complaint s comps oname msg.
Proof.
  intros I I' Q [x Hx Hq|x q k a f t Hx Hq Hf Ht Hp].
  - eapply oc_nothing; [exact Hx|]. intros q H. apply (Hq q). eapply (names_denotes s s'); [done|done|by rewrite (q_names _ _ Q)|done].
  - destruct (found_at _ _ _ _ _ I' Hf) as (Hn & v & Hv & Hk). rewrite (q_names _ _ Q) in Hn.
    rewrite (quiet_heap_at _ _ f Q) in Hv. destruct (names_found _ _ _ _ _ I Hn Hv Hk) as [a' Hf'].
    eapply oc_other; [exact Hx| |exact Hf'|by eapply element_quiet|done].
    eapply (names_denotes s' s); [done|done|by rewrite (q_names _ _ Q)|done].
Qed.
Lemma option_target_fun s comps class oname f f' :
  Inv s -> option_target s comps class oname f -> option_target s comps class oname f' -> f' = f.
Proof.
  intros I H1 H2.
  destruct H1 as [x q a f t Hx Hq Hf Ht Hp|x ct f Hx Hq Hc Hh];
  destruct H2 as [x' q' a' f' t' Hx' Hq' Hf' Ht' Hp'|x' ct' f' Hx' Hq' Hc' Hh'];
    apply refers_strip in Hx, Hx'; assert (x' = x) as -> by congruence.
  - rewrite (denotes_fun _ _ _ _ _ Hq Hq') in *. pose proof (found_fun _ _ _ _ Hf Hf'). congruence.
  - by apply Hq' in Hq.
  - by apply Hq in Hq'.
  - apply element_heap in Hc, Hc'. congruence.
Qed.

(** the two ways a scope is written *)
Definition scope_text (comps : list string) (sc : string) : Prop :=
  sc = dotted comps \/ (sc <> "" /\ has_prefix sc "." = false /\ "." +:+ sc = dotted comps).
Lemma resolve_text comps sc x : scope_text comps sc -> forall s, resolve sc x s = resolve (dotted comps) x s.
Proof.
  intros [->|(Hne & Hp & Hsc)] s; [done|]. unfold resolve. rewrite !rbind_get. f_equal.
  unfold resolve_name_raw. destruct (has_prefix x "."); [done|].
  assert (String.eqb sc "" = false) as -> by (by apply String.eqb_neq).
  rewrite Hp. cbn [negb andb]. rewrite Hsc.
  assert (has_prefix (dotted comps) "." = true) as ->.
  { apply dotted_head. intros ->. cbn in Hsc. by destruct sc. }
  by rewrite andb_false_r.
Qed.

Lemma find_kid_head (sel : data -> bool) kids :
  find_kid sel kids = head (map fst (List.filter (fun b => sel (t_data b.2)) kids)).
Proof.
  induction kids as [|[p t] kids IH]; [done|]. cbn. by destruct (sel (t_data t)).
Qed.
Lemma builtin_field_spec s class ct oname : heap_at s class = Some ct ->
  builtin_option_field class oname s = (Ret (head (children (plain_field_named oname) class ct)), s).
Proof.
  intros H. unfold builtin_option_field. rewrite (rbind_val _ _ _ _ _ (kids_of_ok _ _ _ H)).
  unfold ret. do 2 f_equal. apply (find_kid_head (plain_field_named oname)).
Qed.

Lemma alloc_quiet s : quiet s (alloc s).2.
Proof. apply quiet_alloc. Qed.

Lemma parser_ok d : go_proto d = "*proto." +:+ parser_name d.
Proof. by destruct d. Qed.

(** newOption gives the field the statement is about, and panics if there is none *)
Lemma new_option_spec s sc comps class ct q t oname lit x :
  Inv s -> Forall ident comps -> scope_text comps sc ->
  heap_at s class = Some ct -> heap_at s q = Some t -> t_data t = DOption oname lit -> refers_to oname x ->
  (exists f a s', option_target s comps class oname f /\
     new_option sc class q s = (Ret (mkOptn a q class f), s') /\ quiet s s' /\ Inv s') \/
  ((forall f, ~ option_target s comps class oname f) /\
   exists msg, (new_option sc class q s).1 = Panic msg /\ option_complaint s comps oname msg).
Proof.
  intros I Hid Hsc Hct Ht Hd Hx.
  pose proof (fun o s' => inv_step_ret _ s o s' (inv_new_option sc class q) I) as Hstep.
  assert (Hgo : forall f, new_option sc class q s = (a <~ alloc ;; ret (mkOptn a q class f)) s ->
     exists a s', new_option sc class q s = (Ret (mkOptn a q class f), s') /\ quiet s s' /\ Inv s').
  { intros f E. rewrite rbind_alloc in E. unfold ret in E. rewrite E. eexists _, _.
    split; [reflexivity|]. split; [apply alloc_quiet|]. by destruct (Hstep _ _ E). }
  assert (Hnew : forall nm (ok : bool), resolve (dotted comps) x s = (Ret (nm, ok), s) ->
    new_option sc class q s =
    (field <~ (if ok then
                  s <~ get ;;
                  match names s !! nm with
                  | None => panic (conversion "proto.Visitee" "<nil>" "*proto.NormalField")
                  | Some f =>
                      u <~ deref f ;;
                      match t_data u with
                      | DNormalField _ _ _ _ _ => ret (Some f)
                      | d => panic (conversion "proto.Visitee" (go_proto d) "*proto.NormalField")
                      end
                  end
                else builtin_option_field class oname) ;;
      match field with
      | None => panic "option field not found"
      | Some f => a <~ alloc ;; ret (mkOptn a q class f)
      end) s).
  { intros nm ok E. unfold new_option. rewrite (rbind_val _ _ _ _ _ (deref_ok _ _ _ Ht)), Hd.
    rewrite (refers_strip _ _ Hx).
    assert (E' : resolve sc x s = (Ret (nm, ok), s)) by (by rewrite (resolve_text _ _ _ Hsc)).
    by rewrite (rbind_val _ _ _ _ _ E'). }
  destruct (resolve_raw_spec s comps x I Hid) as [(nm & Hq & _)|[Hno _]].
  - specialize (Hnew _ _ (resolve_denotes _ _ _ _ I Hid Hq)).
    destruct (proj1 (found_names s nm I) (proj1 Hq)) as [f Hf].
    destruct (lookup_named _ _ _ I Hf) as (file & u & k & a & s1 & Hfl & _ & Hw & Hk & E & _).
    assert (Hu : heap_at s f = Some u) by (unfold heap_at; by rewrite Hfl).
    assert (Hfd : found s nm (NAst k a f)) by (unfold found; by rewrite E).
    destruct (match t_data u with DNormalField _ _ _ _ _ => true | _ => false end) eqn:Hpl.
    + left. exists f.
      assert (Hot : option_target s comps class oname f).
      { assert (k = KField) as -> by (destruct (t_data u); try done; cbn in Hk; congruence).
        eapply ot_denoted; [exact Hx|exact Hq|exact Hfd|by apply heap_element|by destruct (t_data u)]. }
      destruct (Hgo f) as (b & s' & E' & Q & I').
      { rewrite Hnew. unfold rbind at 1. rewrite rbind_get, Hf, (rbind_val _ _ _ _ _ (deref_ok _ _ _ Hu)).
        by destruct (t_data u). }
      exists b, s'. done.
    + right. split.
      * intros f' Hot. inversion Hot as [x' q' a' f'' t' Hx' Hq' Hf' Ht' Hp'|x' ct' f'' Hx' Hq']; subst.
        -- apply refers_strip in Hx'. rewrite (refers_strip _ _ Hx) in Hx'. subst x'.
           rewrite (denotes_fun _ _ _ _ _ Hq Hq') in *. pose proof (found_fun _ _ _ _ Hfd Hf') as [= _ _ <-].
           apply element_heap in Ht'. assert (t' = u) as -> by congruence. by destruct (t_data u).
        -- apply refers_strip in Hx'. rewrite (refers_strip _ _ Hx) in Hx'. subst x'. by apply Hq' in Hq.
      * rewrite Hnew. unfold rbind at 1. rewrite rbind_get, Hf, (rbind_val _ _ _ _ _ (deref_ok _ _ _ Hu)).
        exists (conversion "proto.Visitee" (go_proto (t_data u)) "*proto.NormalField").
        split; [destruct (t_data u); try done; reflexivity|].
        assert (conversion "proto.Visitee" (go_proto (t_data u)) "*proto.NormalField" =
          PError (ENew ("interface conversion: proto.Visitee is *proto." +:+ parser_name (t_data u) +:+ ", not *proto.NormalField"))) as ->.
        { unfold conversion. rewrite parser_ok. by destruct (t_data u). }
        eapply oc_other; [exact Hx|exact Hq|exact Hfd|by apply heap_element|]. intros Hpf. by destruct (t_data u).
  - destruct (resolve_unknown _ _ _ I Hid Hno) as [nm E]. specialize (Hnew _ _ E).
    pose proof (builtin_field_spec s class ct oname Hct) as Hb.
    destruct (head (children (plain_field_named oname) class ct)) as [f|] eqn:Hh.
    + left. exists f.
      assert (Hot : option_target s comps class oname f).
      { eapply ot_predefined; [exact Hx|exact Hno|by apply heap_element|done]. }
      destruct (Hgo f) as (b & s' & E' & Q & I'); [rewrite Hnew; by rewrite (rbind_val _ _ _ _ _ Hb)|].
      exists b, s'. done.
    + right. split.
      * intros f' Hot. inversion Hot as [x' q' a' f'' t' Hx' Hq' Hf' Ht' Hp'|x' ct' f'' Hx' Hq' Hc' Hh']; subst;
          apply refers_strip in Hx'; rewrite (refers_strip _ _ Hx) in Hx'; subst x'; [by apply Hno in Hq'|].
        apply element_heap in Hc'. congruence.
      * rewrite Hnew, (rbind_val _ _ _ _ _ Hb). eexists; split; [reflexivity|]. by eapply oc_nothing.
Qed.

(** *** The iteration of Registry.Options *)

Lemma dotted_cons_head c cs pkg : ident c -> "." +:+ pkg = dotted (c :: cs) -> pkg <> "" /\ has_prefix pkg "." = false.
Proof.
  intros [Hne Hnd] H. cbn in H. injection H as ->. destruct c as [|x r]; [done|]. rewrite sapp_cons. split; [done|].
  apply prefix_dot_false. intros [r' [= -> _]]. done.
Qed.

Lemma options_scope_text s n comps sc : options_scope s n comps ->
  match n with
  | NAst KFile _ p => (file_package p s).1 = Ret sc
  | NAst _ _ p => sc = scope_of s (VPtr p)
  | _ => False
  end ->
  match n with
  | NAst (KFile | KMessage | KField | KEnum | KEnumValue | KOneOf | KService | KMethod) _ _ => True
  | _ => False
  end -> Forall ident comps /\ scope_text comps sc.
Proof.
  intros [Hid H] Hsc Hn. split; [done|]. destruct n as [k a p| | | | |]; try done.
  destruct k; try done.
  - destruct H as (pkg & Hp & H). rewrite Hp in Hsc. injection Hsc as ->.
    destruct H as [[-> ->]|H]; [by left|]. right.
    destruct comps as [|c cs]; [cbn in H; discriminate H|]. pose proof (Forall_inv Hid) as Hc.
    destruct (dotted_cons_head _ _ _ Hc H). done.
  - subst sc. unfold node_index in H. rewrite rbind_get in H. injection H as ->. by left.
  - subst sc. unfold node_index in H. rewrite rbind_get in H. injection H as ->. by left.
  - subst sc. unfold node_index in H. rewrite rbind_get in H. injection H as ->. by left.
  - subst sc. unfold node_index in H. rewrite rbind_get in H. injection H as ->. by left.
  - subst sc. unfold node_index in H. rewrite rbind_get in H. injection H as ->. by left.
  - subst sc. unfold node_index in H. rewrite rbind_get in H. injection H as ->. by left.
  - subst sc. unfold node_index in H. rewrite rbind_get in H. injection H as ->. by left.
Qed.

Lemma option_class_found s cn a class : Inv s -> found s cn (NAst KMessage a class) ->
  option_class cn s = (Ret class, s) /\ exists ct, heap_at s class = Some ct.
Proof.
  intros I Hf. destruct (found_at _ _ _ _ _ I Hf) as (Hn & ct & Hct & Hk). split; [|eauto].
  unfold option_class. rewrite rbind_get, Hn, (rbind_val _ _ _ _ _ (deref_ok _ _ _ Hct)).
  by destruct (t_data ct).
Qed.

Lemma options_setup s n k a p t cn ca class comps :
  Inv s -> n = NAst k a p -> points_to s p n -> element_at s p t -> options_message (t_data t) = Some cn ->
  found s cn (NAst KMessage ca class) -> options_scope s n comps ->
  exists sc, Forall ident comps /\ scope_text comps sc /\
    options n s = (Ret (iter_kids p (pick_option sc class)), s).
Proof.
  intros I -> Hp Ht Hcn Hf Hsc. apply element_heap in Ht.
  destruct (option_class_found _ _ _ _ I Hf) as [Hcl _].
  apply points_ast in Hp as (_ & u & Hu%element_heap & Hk). assert (u = t) as -> by congruence.
  assert (Hs : forall sc, seq_options sc cn p s = (Ret (iter_kids p (pick_option sc class)), s)).
  { intros sc. unfold seq_options. by rewrite (rbind_val _ _ _ _ _ Hcl). }
  assert (Hk' : match k with KFile => t_data t = DProto (data_name (t_data t)) | _ => True end).
  { destruct k; try done. destruct Hk as [Hk|[? _]]; [|done]. by destruct (t_data t). }
  destruct k.
  all: try (exfalso; destruct Hk as [Hk|(Hk & nm & Hd)];
    [destruct (t_data t); try discriminate Hk; discriminate Hcn|discriminate Hk]; fail).
  - exists (package_of (t_kids t)).
    assert (Hfp : file_package p s = (Ret (package_of (t_kids t)), s)).
    { unfold file_package. by rewrite (rbind_val _ _ _ _ _ (deref_ok _ _ _ Ht)). }
    destruct (options_scope_text s (NAst KFile a p) comps (package_of (t_kids t)) Hsc) as [H1 H2];
      [by rewrite Hfp|done|]. split; [done|]. split; [done|].
    unfold options. rewrite rbind_get, (rbind_val _ _ _ _ _ Hfp). rewrite Hk' in Hcn. injection Hcn as <-. apply Hs.
  - exists (scope_of s (VPtr p)). destruct (options_scope_text s _ comps (scope_of s (VPtr p)) Hsc) as [H1 H2]; [done|done|].
    split; [done|]. split; [done|]. unfold options. rewrite rbind_get.
    destruct Hk as [Hk|[? _]]; [|done]. destruct (t_data t); try discriminate Hk. injection Hcn as <-. apply Hs.
  - exists (scope_of s (VPtr p)). destruct (options_scope_text s _ comps (scope_of s (VPtr p)) Hsc) as [H1 H2]; [done|done|].
    split; [done|]. split; [done|]. unfold options. rewrite rbind_get, (rbind_val _ _ _ _ _ (deref_ok _ _ _ Ht)).
    destruct Hk as [Hk|[? _]]; [|done]. destruct (t_data t); try discriminate Hk; injection Hcn as <-; apply Hs.
  - exists (scope_of s (VPtr p)). destruct (options_scope_text s _ comps (scope_of s (VPtr p)) Hsc) as [H1 H2]; [done|done|].
    split; [done|]. split; [done|]. unfold options. rewrite rbind_get.
    destruct Hk as [Hk|[? _]]; [|done]. destruct (t_data t); try discriminate Hk. injection Hcn as <-. apply Hs.
  - exists (scope_of s (VPtr p)). destruct (options_scope_text s _ comps (scope_of s (VPtr p)) Hsc) as [H1 H2]; [done|done|].
    split; [done|]. split; [done|]. unfold options. rewrite rbind_get.
    destruct Hk as [Hk|[? _]]; [|done]. destruct (t_data t); try discriminate Hk. injection Hcn as <-. apply Hs.
  - exists (scope_of s (VPtr p)). destruct (options_scope_text s _ comps (scope_of s (VPtr p)) Hsc) as [H1 H2]; [done|done|].
    split; [done|]. split; [done|]. unfold options. rewrite rbind_get.
    destruct Hk as [Hk|[? _]]; [|done]. destruct (t_data t); try discriminate Hk. injection Hcn as <-. apply Hs.
  - exists (scope_of s (VPtr p)). destruct (options_scope_text s _ comps (scope_of s (VPtr p)) Hsc) as [H1 H2]; [done|done|].
    split; [done|]. split; [done|]. unfold options. rewrite rbind_get.
    destruct Hk as [Hk|[? _]]; [|done]. destruct (t_data t); try discriminate Hk. injection Hcn as <-. apply Hs.
  - exists (scope_of s (VPtr p)). destruct (options_scope_text s _ comps (scope_of s (VPtr p)) Hsc) as [H1 H2]; [done|done|].
    split; [done|]. split; [done|]. unfold options. rewrite rbind_get.
    destruct Hk as [Hk|(_ & nm & Hd)]; [by destruct (t_data t)|]. rewrite Hd in Hcn. injection Hcn as <-. apply Hs.
Qed.

(** *** Loops whose body only queries *)

Lemma query_loop {A C} (sel : data -> bool) (Q : ptr -> A -> Prop) (pick : ptr * tree -> R (option A)) s0 kids
    (body : C -> A -> R (C * bool)) :
  (forall b s, sel (t_data b.2) = false -> pick b s = (Ret None, s)) ->
  (forall b s x s', b ∈ kids -> Inv s -> quiet s0 s -> sel (t_data b.2) = true -> pick b s = (Ret x, s') ->
     exists y, x = Some y /\ quiet s s' /\ Inv s' /\ Q b.1 y) ->
  (forall c x, client Queries (body c x)) ->
  forall c l0 s c' l s', Inv s -> quiet s0 s ->
  iterate pick kids (C * list A)%type (c, l0) (recording body) s = (Ret (c', l), s') ->
  exists l1, l = (l0 ++ l1)%list /\
    Forall2 Q (take (length l1) (map fst (List.filter (fun b => sel (t_data b.2)) kids))) l1 /\
    ((forall c x s c' s', body c x s <> (Ret (c', false), s')) ->
      length l1 = length (List.filter (fun b => sel (t_data b.2)) kids)).
Proof.
  intros Hskip Hpick Hb. induction kids as [|b kids IH]; intros c l0 s c' l s' I Q0 E; cbn [iterate List.filter] in *.
  - injection E as <- <- <-. exists []. rewrite app_nil_r. split; [done|]. split; [constructor|done].
  - assert (IH' := IH (fun b' s x s' Hb' => Hpick b' s x s' (elem_of_list_further _ _ _ Hb'))). clear IH.
    destruct (sel (t_data b.2)) eqn:Hsel.
    + apply rbind_Ret in E as (o & s1 & E1 & E).
      destruct (Hpick b s o s1 (elem_of_list_here _ _) I Q0 Hsel E1) as (y & -> & Q1 & I1 & Hy).
      apply rbind_Ret in E as ([[c2 l2] go] & s2 & E2 & E3). unfold recording in E2.
      apply rbind_Ret in E2 as ([c3 go3] & s3 & E2 & E4). cbn in E2, E4. injection E4 as <- <- <- <-.
      pose proof (query_quiet _ (Hb c y) s1) as Q2. rewrite E2 in Q2. cbn in Q2.
      assert (I3 : Inv s3).
      { pose proof (client_inv_step _ _ (client_query Loads _ (Hb c y)) s1 I1) as [H _]. by rewrite E2 in H. }
      destruct go3.
      * destruct (IH' _ _ _ _ _ _ I3 (quiet_trans _ _ _ Q0 (quiet_trans _ _ _ Q1 Q2)) E3) as (l1 & -> & H1 & H2).
        exists (y :: l1). rewrite <- app_assoc. split; [done|]. cbn [map length take]. split; [by constructor|].
        intros H. f_equal. by apply H2.
      * injection E3 as <- <- <-. exists [y]. split; [done|]. cbn [map length take]. split.
        -- constructor; [done|]. destruct (map _ _); constructor.
        -- intros H. by apply H in E2.
    + rewrite (rbind_val _ _ _ _ _ (Hskip b s Hsel)) in E. by eapply IH'.
Qed.

(** collecting: either everything, or a panic at the first bad child *)
Lemma collect_all {A} (sel : data -> bool) (Q : ptr -> A -> Prop) (pick : ptr * tree -> R (option A)) s0 kids :
  (forall b s, sel (t_data b.2) = false -> pick b s = (Ret None, s)) ->
  (forall b s, b ∈ kids -> Inv s -> quiet s0 s -> sel (t_data b.2) = true ->
     exists x s', pick b s = (Ret (Some x), s') /\ quiet s s' /\ Inv s' /\ Q b.1 x) ->
  forall l0 s, Inv s -> quiet s0 s ->
  exists l s', iterate pick kids (list A) l0 (fun c x => ret ((c ++ [x])%list, true)) s = (Ret (l0 ++ l)%list, s') /\
    quiet s s' /\ Inv s' /\
    Forall2 Q (map fst (List.filter (fun b => sel (t_data b.2)) kids)) l.
Proof.
  intros Hskip. induction kids as [|b kids IH]; intros Hpick l0 s I Q0; cbn [iterate List.filter].
  - exists [], s. rewrite app_nil_r. split; [done|]. split; [apply quiet_refl|]. split; [done|constructor].
  - assert (IH' := IH (fun b' s Hb' => Hpick b' s (elem_of_list_further _ _ _ Hb'))). clear IH.
    destruct (sel (t_data b.2)) eqn:Hsel.
    + destruct (Hpick b s (elem_of_list_here _ _) I Q0 Hsel) as (x & s1 & E1 & Q1 & I1 & Hx).
      rewrite (rbind_val _ _ _ _ _ E1), rbind_ret. cbn beta iota.
      destruct (IH' (l0 ++ [x])%list s1 I1 (quiet_trans _ _ _ Q0 Q1)) as (l & s' & E & Q2 & I2 & Hl).
      exists (x :: l), s'. rewrite E, <- app_assoc. split; [done|]. split; [by eapply quiet_trans|].
      split; [done|]. cbn. by constructor.
    + rewrite (rbind_val _ _ _ _ _ (Hskip b s Hsel)). by apply IH'.
Qed.
Lemma collect_bad {A} (sel : data -> bool) (Good : ptr -> Prop) (P : ptr -> payload -> Prop) (pick : ptr * tree -> R (option A)) s0 kids :
  (forall b s, sel (t_data b.2) = false -> pick b s = (Ret None, s)) ->
  (forall b s, b ∈ kids -> Inv s -> quiet s0 s -> sel (t_data b.2) = true ->
     (exists x s', pick b s = (Ret (Some x), s') /\ quiet s s' /\ Inv s' /\ Good b.1) \/
     exists msg, (pick b s).1 = Panic msg /\ P b.1 msg) ->
  (exists b, b ∈ kids /\ sel (t_data b.2) = true /\ ~ Good b.1) ->
  forall l0 s, Inv s -> quiet s0 s ->
  exists msg i q, (iterate pick kids (list A) l0 (fun c x => ret ((c ++ [x])%list, true)) s).1 = Panic msg /\
    map fst (List.filter (fun b => sel (t_data b.2)) kids) !! i = Some q /\ P q msg /\
    Forall Good (take i (map fst (List.filter (fun b => sel (t_data b.2)) kids))).
Proof.
  intros Hskip. induction kids as [|b kids IH]; intros Hpick (b0 & Hin & Hs0 & Hbad) l0 s I Q0; [by apply elem_of_nil in Hin|].
  cbn [iterate List.filter]. assert (IH' := IH (fun b' s Hb' => Hpick b' s (elem_of_list_further _ _ _ Hb'))). clear IH.
  assert (Hpan : forall {B} (m : R B) (k : B -> R (list A)) msg, (m s).1 = Panic msg -> (rbind m k s).1 = Panic msg).
  { intros B m k msg H. unfold rbind. destruct (m s) as [[] s1]; cbn in *; try done. congruence. }
  destruct (sel (t_data b.2)) eqn:Hsel.
  - cbn [map]. destruct (Hpick b s (elem_of_list_here _ _) I Q0 Hsel) as [(x & s1 & E1 & Q1 & I1 & G1)|(msg & H & HP)].
    + apply elem_of_cons in Hin as [->|Hin]; [by destruct Hbad|].
      rewrite (rbind_val _ _ _ _ _ E1), rbind_ret. cbn beta iota.
      destruct (IH' (ex_intro _ b0 (conj Hin (conj Hs0 Hbad))) (l0 ++ [x])%list s1 I1 (quiet_trans _ _ _ Q0 Q1)) as (msg & i & q & H1 & H2 & H3 & H4).
      exists msg, (S i), q. split; [done|]. split; [done|]. split; [done|]. cbn [take]. by constructor.
    + exists msg, 0, b.1. split; [by apply Hpan|]. split; [done|]. split; [done|constructor].
  - apply elem_of_cons in Hin as [->|Hin]; [congruence|].
    rewrite (rbind_val _ _ _ _ _ (Hskip b s Hsel)). apply IH'; [|done|done]. exists b0. done.
Qed.
