(** * C51 for option values. *)
From Verif Require Export ThmRender2 ThmDescr.

(** ** Specification *)

(** the exported name of the Go type of a value *)
Definition value_label (v : oval) : string :=
  match v with
  | OVBool _ _ => "OptionValueBool" | OVInt _ _ => "OptionValueInt" | OVUint _ _ => "OptionValueUint"
  | OVFloat _ _ => "OptionValueFloat" | OVString _ _ => "OptionValueString" | OVBytes _ _ => "OptionValueBytes"
  | OVEnum _ _ _ => "OptionValueEnum" | OVArray _ _ => "OptionValueArray" | OVMap _ _ => "OptionValueMap"
  end.
(** Pos looks for the file above a value, but nothing is above it: the panic is the one of NodeParent, or
    the failed assertion that the value itself is a file. *)
Definition no_file_of {A} (x : oval) (r : outcome A) : Prop :=
  r = Panic (PError (ENew "unsupported type *proto.Option")) \/
  r = Panic (PError (ENew ("interface conversion: core.Node is *core." +:+ value_label x +:+ ", not *core.File"))).

(** [x], a value inside [v], is the value of the literal [l] inside [lit]: elements of arrays
    correspond to the literals of the bracketed list, items of messages to the entries. *)
Inductive stems (lit : literal) (v : oval) : oval -> literal -> Prop :=
| st_self : stems lit v v lit
| st_elem h vs i v' l' x l : v = OVArray h vs -> vs !! i = Some v' -> lit_array lit !! i = Some l' ->
    stems l' v' x l -> stems lit v x l
| st_item h items i key v' l' x l : v = OVMap h items -> items !! i = Some (key, v') ->
    lit_map lit !! i = Some (key, l') -> stems l' v' x l -> stems lit v x l.
Definition is_array (v : oval) : Prop := match v with OVArray _ _ => True | _ => False end.

(** ** Proofs *)

Inductive fits (lit : literal) : oval -> Prop :=
| ft_array h vs : ov_lit h = None -> Forall2 fits (lit_array lit) vs -> fits lit (OVArray h vs)
| ft_map h items : ov_lit h = Some lit ->
    Forall2 (fun e i => i.1 = e.1 /\ fits e.2 i.2) (lit_map lit) items -> fits lit (OVMap h items)
| ft_other v : ov_lit (ov_hdr v) = Some lit -> parts v = [v] ->
    match v with OVArray _ _ | OVMap _ _ => False | _ => True end -> fits lit v.

Lemma build_fits fl lit : forall opt field ig s v s',
  build fl opt field lit ig s = (Ret v, s') -> fits lit v.
Proof.
  induction lit as [lp src arr omap IHa IHm] using literal_nested_ind.
  intros opt field ig s v s' E. rewrite build_unfold in E.
  cbn [lit_array lit_map lit_source] in E.
  apply rbind_Ret in E as (ft & s1 & E1 & E2). apply deref_Ret in E1 as [-> _].
  destruct (t_data ft); try discriminate E2.
  assert (Hnil : forall h (k : N -> oval), (forall a, fits (Lit lp src arr omap) (k a)) ->
     (a <~ alloc ;; ret (k a)) h = (Ret v, s') -> fits (Lit lp src arr omap) v).
  { intros h k Hk H. rewrite rbind_alloc in H. injection H as <- <-. apply Hk. }
  destruct (repeated && negb ig).
  { apply rbind_Ret in E2 as (vs & s2 & E2 & E3).
    rewrite rbind_alloc in E3. injection E3 as <- <-. apply ft_array; [done|]. cbn [lit_array].
    clear Hnil. revert s vs s2 E2. induction IHa as [|x l Hx _ IH]; intros s vs s2 E2.
    - injection E2 as <- <-. constructor.
    - cbn [build_array] in E2. apply rbind_Ret in E2 as (w & s3 & E3 & E4).
      apply rbind_Ret in E4 as (ws & s4 & E4 & E5). injection E5 as <- <-.
      constructor; [exact (Hx _ _ _ _ _ _ E3)|by eapply IH]. }
  destruct (String.eqb typ "bool").
  { destruct (parse_bool src); [|discriminate E2]. refine (Hnil _ _ _ E2); intros; by apply ft_other. }
  destruct (is_signed_type typ).
  { destruct (atoi src); [|discriminate E2]. refine (Hnil _ _ _ E2); intros; by apply ft_other. }
  destruct (is_unsigned_type typ).
  { destruct (parse_uint src); [|discriminate E2]. refine (Hnil _ _ _ E2); intros; by apply ft_other. }
  destruct (is_float_type typ).
  { destruct (fl_parse fl src); [|discriminate E2]. refine (Hnil _ _ _ E2); intros; by apply ft_other. }
  destruct (String.eqb typ "string"); [refine (Hnil _ _ _ E2); intros; by apply ft_other|].
  destruct (String.eqb typ "bytes"); [refine (Hnil _ _ _ E2); intros; by apply ft_other|].
  apply rbind_Ret in E2 as (ty & s2 & E2 & E3).
  destruct ty as [[[] ta tp| | | | |]|]; try discriminate E3.
  - apply rbind_Ret in E3 as (items & s3 & E3 & E4).
    rewrite rbind_alloc in E4. injection E4 as <- <-. apply ft_map; [done|]. cbn [lit_map].
    clear Hnil E2. revert s2 items s3 E3.
    induction IHm as [|[key x] l Hx _ IH]; intros s2 items s3 E3.
    + injection E3 as <- <-. constructor.
    + cbn [build_items] in E3. apply rbind_Ret in E3 as (f & s4 & E4 & E5).
      destruct f as [[[] fa fp| | | | |]|]; try discriminate E5; cycle 1.
      { apply rbind_Ret in E5 as (? & ? & _ & E5). discriminate E5. }
      apply rbind_Ret in E5 as (fd & s5 & E5 & E6). apply deref_Ret in E5 as [-> _].
      destruct (t_data fd); try discriminate E6.
      apply rbind_Ret in E6 as (w & s6 & E6 & E7).
      apply rbind_Ret in E7 as (ws & s7 & E7 & E8). injection E8 as <- <-.
      constructor; [split; [done|exact (Hx _ _ _ _ _ _ E6)]|by eapply IH].
  - apply rbind_Ret in E3 as (ev & s3 & E3 & E4).
    destruct ev as [[[] ea ep| | | | |]|]; try discriminate E4.
    refine (Hnil _ _ _ E4); intros; by apply ft_other.
Qed.

Lemma fits_array_inv lit h vs : fits lit (OVArray h vs) -> ov_lit h = None /\ Forall2 fits (lit_array lit) vs.
Proof. inversion 1; [done|]. done. Qed.
Lemma fits_map_inv lit h items : fits lit (OVMap h items) ->
  Forall2 (fun e i => i.1 = e.1 /\ fits e.2 i.2) (lit_map lit) items.
Proof. inversion 1; [done|]. done. Qed.
Lemma fits_stems lit v x l : fits lit v -> stems lit v x l -> ~ is_array x -> ov_lit (ov_hdr x) = Some l.
Proof.
  intros Hf Hs Hx. induction Hs as [lit v|lit v h vs i v' l' x l -> Hv Hl _ IH|lit v h items i key v' l' x l -> Hv Hl _ IH].
  - destruct Hf; [by destruct Hx|done|done].
  - apply IH; [|done]. destruct (fits_array_inv _ _ _ Hf) as [_ H].
    exact (Forall2_lookup_lr _ _ _ _ _ _ H Hl Hv).
  - apply IH; [|done]. pose proof (fits_map_inv _ _ _ Hf) as H.
    exact (proj2 (Forall2_lookup_lr _ _ _ _ _ _ H Hl Hv)).
Qed.
Lemma fits_parts lit : forall v, fits lit v -> forall x, x ∈ parts v -> exists l, stems lit v x l.
Proof.
  induction lit as [lp src arr omap IHa IHm] using literal_nested_ind.
  intros v Hv x Hx. rewrite parts_inner in Hx. apply elem_of_cons in Hx as [->|Hx]; [eexists; constructor|].
  inversion Hv as [h vs _ Hl|h items _ Hl|? _ Hp _]; subst; unfold inner in Hx; cbn [parts List.tl lit_array lit_map] in *.
  - apply elem_of_list_In, in_flat_map in Hx as (v' & Hv' & Hx). apply elem_of_list_In in Hx, Hv'.
    apply elem_of_list_lookup in Hv' as [i Hi]. destruct (Forall2_lookup_r _ _ _ _ _ Hl Hi) as (l' & Hl' & Hf).
    pose proof (Forall_lookup_1 _ _ _ _ IHa Hl') as IH. destruct (IH _ Hf _ Hx) as [l Hst].
    exists l. by eapply (st_elem _ _ _ _ _ _ _ _ _ eq_refl Hi).
  - apply elem_of_list_In, in_flat_map in Hx as ([k v'] & Hv' & Hx). apply elem_of_list_In in Hx, Hv'.
    apply elem_of_list_lookup in Hv' as [i Hi]. destruct (Forall2_lookup_r _ _ _ _ _ Hl Hi) as ([k' l'] & Hl' & Hk & Hf).
    cbn [fst snd] in *. subst k'. pose proof (Forall_lookup_1 _ _ _ _ IHm Hl') as IH. cbn [snd] in IH. destruct (IH _ Hf _ Hx) as [l Hst].
    exists l. by eapply (st_item _ _ _ _ _ _ _ _ _ _ eq_refl Hi).
  - rewrite Hp in Hx. by apply elem_of_nil in Hx.
Qed.

Lemma node_parent_item k v s : (node_parent (NMapItem k v) s).1 = Panic "unsupported node type: *core.OptionValueMapItem".
Proof. reflexivity. Qed.

Lemma deferred_value x s :
  ((node_parent (NValue x) s).1 = Ret None \/ (node_parent (NValue x) s).1 = Panic (PError (ENew "unsupported type *proto.Option"))) ->
  forall r, p_file r = "" -> no_file_of x (pos_deferred (NValue x) r s).1.
Proof.
  intros Hp r Hr. unfold pos_deferred. rewrite Hr. cbn [String.eqb negb].
  assert (Hf : exists n, node_fuel (NValue x) = S (S n)) by (cbn; eauto).
  destruct Hf as [n ->]. unfold collect, node_hierarchy, rbind at 1.
  cbn [hierarchy_from]. rewrite rbind_ret. cbn beta iota. unfold rbind at 1.
  destruct (node_parent (NValue x) s) as [o s1]. cbn [fst] in Hp. destruct Hp as [->| ->].
  - right. cbn [hierarchy_from ret app]. cbn [list.last]. unfold conversion. cbn [go_any go_node]. destruct x; reflexivity.
  - left. reflexivity.
Qed.

(** ** C51 *)

(** Pos of a value - of the option, or inside it - other than an array is the position of the literal
    it stems from, whatever has happened since. *)
Theorem C51_value fl o s v s1 {A} (c : R A) x l t oname lit :
  reachable s -> option_value fl o s = (Ret v, s1) -> client Loads c ->
  element_at s (o_proto o) t -> t_data t = DOption oname lit ->
  stems lit v x l -> ~ is_array x -> p_file (lit_pos l) <> "" ->
  pos (NValue x) (c s1).2 = (Ret (lit_pos l), (c s1).2).
Proof.
  intros Hs E Hc Ht Hd Hst Hx Hl. destruct (option_value_ret _ _ _ _ _ E) as (t' & nm & lit' & Ht' & Hd' & Eb).
  apply element_heap in Ht. assert (t' = t) as -> by congruence. assert (lit' = lit) as -> by congruence.
  pose proof (fits_stems _ _ _ _ (build_fits _ _ _ _ _ _ _ _ Eb) Hst Hx) as Hlit.
  unfold pos. cbn [pos_body]. rewrite Hlit. cbn [ret]. unfold pos_deferred.
  destruct (String.eqb_spec (p_file (lit_pos l)) ""); done.
Qed.
(** Every value inside stems from a literal of the statement. *)
Theorem C51_value_literal fl o s v s1 x t oname lit :
  option_value fl o s = (Ret v, s1) -> element_at s (o_proto o) t -> t_data t = DOption oname lit ->
  x ∈ parts v -> exists l, stems lit v x l.
Proof.
  intros E Ht Hd Hx. destruct (option_value_ret _ _ _ _ _ E) as (t' & nm & lit' & Ht' & Hd' & Eb).
  apply element_heap in Ht. assert (t' = t) as -> by congruence. assert (lit' = lit) as -> by congruence.
  exact (fits_parts _ _ (build_fits _ _ _ _ _ _ _ _ Eb) _ Hx).
Qed.
(** Where the position of the literal has no file name, Pos panics. *)
Theorem C51_value_unnamed fl o s v s1 {A} (c : R A) x l t oname lit :
  reachable s -> option_value fl o s = (Ret v, s1) -> client Loads c ->
  element_at s (o_proto o) t -> t_data t = DOption oname lit ->
  stems lit v x l -> x ∈ parts v -> ~ is_array x -> p_file (lit_pos l) = "" ->
  no_file_of x (pos (NValue x) (c s1).2).1.
Proof.
  intros Hs E Hc Ht Hd Hst Hin Hx Hl. pose proof (C27_value_parents_refuted fl o s v s1 c x Hs E Hin Hc) as Hp.
  destruct (option_value_ret _ _ _ _ _ E) as (t' & nm & lit' & Ht' & Hd' & Eb).
  apply element_heap in Ht. assert (t' = t) as -> by congruence. assert (lit' = lit) as -> by congruence.
  pose proof (fits_stems _ _ _ _ (build_fits _ _ _ _ _ _ _ _ Eb) Hst Hx) as Hlit.
  unfold pos. cbn [pos_body]. rewrite Hlit. cbn [ret]. exact (deferred_value x _ Hp _ Hl).
Qed.
(** Pos always panics on arrays and on items of messages. *)
Theorem C51_array_panics fl o s v s1 {A} (c : R A) x :
  reachable s -> option_value fl o s = (Ret v, s1) -> client Loads c -> x ∈ parts v -> is_array x ->
  no_file_of x (pos (NValue x) (c s1).2).1.
Proof.
  intros Hs E Hc Hx Ha. pose proof (C27_value_parents_refuted fl o s v s1 c x Hs E Hx Hc) as Hp.
  destruct (option_value_ret _ _ _ _ _ E) as (t & nm & lit & _ & _ & Eb).
  assert (Hn : ov_lit (ov_hdr x) = None).
  { clear Hp. destruct (fits_parts _ _ (build_fits _ _ _ _ _ _ _ _ Eb) _ Hx) as [l Hst].
    pose proof (build_fits _ _ _ _ _ _ _ _ Eb) as Hf. clear - Hst Hf Ha.
    induction Hst as [lit v|lit v h vs i v' l' x l -> Hv Hl _ IH|lit v h items i key v' l' x l -> Hv Hl _ IH].
    - destruct Hf as [| |v ? ? ?]; [done|done|by destruct v].
    - apply IH; [done|]. destruct (fits_array_inv _ _ _ Hf) as [_ H]. exact (Forall2_lookup_lr _ _ _ _ _ _ H Hl Hv).
    - apply IH; [done|]. pose proof (fits_map_inv _ _ _ Hf) as H. exact (proj2 (Forall2_lookup_lr _ _ _ _ _ _ H Hl Hv)). }
  unfold pos. cbn [pos_body]. rewrite Hn. cbn [panic].
  pose proof (deferred_value x (c s1).2 Hp zero_pos eq_refl) as Hm.
  destruct (pos_deferred _ _ _) as [r s3]. cbn [fst] in Hm. destruct Hm as [->| ->]; [by left|by right].
Qed.
Theorem C51_item_panics s key v :
  pos (NMapItem key v) s = (Panic (PText "unsupported node type: *core.OptionValueMapItem"), s).
Proof. reflexivity. Qed.

(** option (p.s) = "text" and option (p.nums) = [7] in lpos.proto, with positions *)
Definition lpos_f := "lpos.proto".
Definition plit (line : Z) (src : string) (arr : list literal) : literal := Lit (at_line lpos_f line) src arr [].
Definition lpos_elems : list tree :=
  [ el lpos_f 1 (DPackage "p") []; el lpos_f 2 (DImport desc_f) [];
    extb lpos_f 3 "google.protobuf.FileOptions" [ rfld lpos_f 4 "int32" "nums" 1; fld lpos_f 5 "string" "s" 2 ];
    el lpos_f 6 (DOption "(p.s)" (plit 6 "text" [])) [];
    el lpos_f 7 (DOption "(p.nums)" (plit 7 "" [plit 8 "7" []])) [] ].
Definition lpos_world : registry := world (std_files ++ [(lpos_f, lpos_elems)])%list [lpos_f].
Lemma lpos_reachable : reachable lpos_world.
Proof. apply world_reachable. vm_compute. reflexivity. Qed.
Example C51_value_example : exists o v s1 x l t oname lit,
  option_value no_float o lpos_world = (Ret v, s1) /\
  element_at lpos_world (o_proto o) t /\ t_data t = DOption oname lit /\
  is_array v /\ stems lit v x l /\ ~ is_array x /\ lit_pos l = at_line lpos_f 8.
Proof.
  assert (H : exists t, heap_at lpos_world (1, [4]) = Some t /\ t_data t = DOption "(p.nums)" (plit 7 "" [plit 8 "7" []])).
  { eexists. split; [vm_compute; reflexivity|reflexivity]. }
  assert (E : exists h vs, (option_value no_float (mkOptn 0 (1, [4]) (0, [2]) (1, [0; 2])) lpos_world).1 = Ret (OVArray h vs) /\
     exists h' z, vs = [OVInt h' z]).
  { eexists _, _. split; [vm_compute; reflexivity|]. eexists _, _. reflexivity. }
  pose proof lpos_reachable as Hs. revert H E Hs. generalize lpos_world as s.
  intros s (t & Ht & Hd) (h & vs & E & h' & z & ->) Hs.
  destruct (option_value no_float _ s) as [r s1] eqn:Ev. cbn in E. subst r.
  eexists _, _, s1, (OVInt h' z), (plit 8 "7" []), t, _, _. split; [exact Ev|].
  split; [apply heap_element; [by apply reachable_Inv|exact Ht]|]. split; [exact Hd|]. split; [done|].
  split; [|split; [by intros []|done]].
  eapply (st_elem _ _ _ _ 0); [reflexivity|reflexivity|reflexivity|constructor].
Qed.

(** option (v.s) = "text" where the literal has no file name: the two panics, one after the other *)
Example C51_unnamed_example : exists o v s1 t oname lit,
  option_value no_float o val_world = (Ret v, s1) /\ element_at val_world (o_proto o) t /\ t_data t = DOption oname lit /\
  stems lit v v lit /\ v ∈ parts v /\ ~ is_array v /\ p_file (lit_pos lit) = "" /\
  (pos (NValue v) s1).1 = Panic (PError (ENew "unsupported type *proto.Option")) /\
  (pos (NValue v) (recover (pos (NValue v)) s1).2).1 =
    Panic (PError (ENew "interface conversion: core.Node is *core.OptionValueString, not *core.File")).
Proof.
  assert (H : exists t, heap_at val_world (1, [13]) = Some t /\ t_data t = DOption "(v.s)" (lit0 "text"))
    by (eexists; split; [vm_compute; reflexivity|reflexivity]).
  assert (E : match option_value no_float (val_opt 13 6) val_world with
    | (Ret (OVString h x), s1) =>
        Some (x, (pos (NValue (OVString h x)) s1).1, (pos (NValue (OVString h x)) (recover (pos (NValue (OVString h x))) s1).2).1)
    | _ => None end =
    Some ("text", Panic (PError (ENew "unsupported type *proto.Option")),
      Panic (PError (ENew "interface conversion: core.Node is *core.OptionValueString, not *core.File"))))
    by (vm_compute; reflexivity).
  pose proof val_reachable as Hs. revert H E Hs. generalize val_world as s. intros s (t & Ht & Hd) E Hs.
  destruct (option_value no_float (val_opt 13 6) s) as [[[]| |] s1] eqn:Ev; try discriminate E.
  injection E as -> E1 E2. eexists _, _, s1, t, _, _. split; [exact Ev|].
  split; [apply heap_element; [by apply reachable_Inv|exact Ht]|]. split; [exact Hd|].
  split; [constructor|]. split; [apply elem_of_cons; by left|]. split; [by intros []|]. split; [reflexivity|].
  split; [exact E1|exact E2].
Qed.
