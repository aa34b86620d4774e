(** * Theorems on option values: examples of C38 - C42, and C43. *)
From Verif Require Export ThmValues2.

(** A file with options of many types:

      package v; import "google/protobuf/descriptor.proto";
      enum Color { RED = 0; GREEN = 1; }
      message Conf { int32 a = 1; repeated string tags = 2; Color color = 3; Conf inner = 4;
                     map<string, bool> m = 5; oneof o { int32 br = 6; } }
      extend google.protobuf.FileOptions {
        sfixed64 i = 1; fixed64 u = 2; uint32 bad = 3; repeated int32 nums = 4; Conf conf = 5;
        repeated Color colors = 6; string s = 7; bool b = 8; Color col = 9; }
      option (v.i) = -9223372036854775808; option (v.u) = 18446744073709551615; option (v.bad) = 5;
      option (v.nums) = [1, -2]; option (v.nums) = 3;
      option (v.conf) = { a: 7 tags: ["x", "y"] inner: { color: GREEN } };
      option (v.colors) = [RED]; option (v.s) = "text"; option (v.b) = true; option (v.col) = GREEN;
      option (v.i) = 0x10; option (v.i) = 9223372036854775808; option (v.conf) = { m: ...};
      option (v.conf) = { br: 1 };
      option (v.nums) = [1, x, 9223372036854775808]; option (v.u) = 18446744073709551616x;
      option (v.conf) = { a: 7 inner: { color: BLUE } nope: "" }; *)
Definition val_f := "vals.proto".
Definition lits (l : list literal) : literal := Lit zero_pos "" l [].
Definition litm (l : list (string * literal)) : literal := Lit zero_pos "" [] l.
Definition conf_lit : literal :=
  litm [("a", lit0 "7"); ("tags", lits [lit0 "x"; lit0 "y"]); ("inner", litm [("color", lit0 "GREEN")])].
Definition val_elems : list tree :=
  [ el val_f 1 (DSyntax "proto3") []; el val_f 2 (DPackage "v") []; el val_f 3 (DImport desc_f) [];
    el val_f 4 (DEnum "Color") [ el val_f 5 (DEnumField "RED" 0) []; el val_f 6 (DEnumField "GREEN" 1) [] ];
    msg val_f 7 "Conf"
      [ fld val_f 8 "int32" "a" 1; rfld val_f 9 "string" "tags" 2; fld val_f 10 "Color" "color" 3;
        fld val_f 11 "Conf" "inner" 4; el val_f 12 (DMapField "m" "string" "bool" 5) [];
        el val_f 13 (DOneof "o") [ el val_f 14 (DOneOfField "br" "int32" 6) [] ] ];
    extb val_f 15 "google.protobuf.FileOptions"
      [ fld val_f 16 "sfixed64" "i" 1; fld val_f 17 "fixed64" "u" 2; fld val_f 18 "uint32" "bad" 3;
        rfld val_f 19 "int32" "nums" 4; fld val_f 20 "Conf" "conf" 5; rfld val_f 21 "Color" "colors" 6;
        fld val_f 22 "string" "s" 7; fld val_f 23 "bool" "b" 8; fld val_f 24 "Color" "col" 9 ];
    opt val_f 30 "(v.i)" "-9223372036854775808"; opt val_f 31 "(v.u)" "18446744073709551615";
    opt val_f 32 "(v.bad)" "5";
    el val_f 33 (DOption "(v.nums)" (lits [lit0 "1"; lit0 "-2"])) []; opt val_f 34 "(v.nums)" "3";
    el val_f 35 (DOption "(v.conf)" conf_lit) [];
    el val_f 36 (DOption "(v.colors)" (lits [lit0 "RED"])) [];
    opt val_f 37 "(v.s)" "text"; opt val_f 38 "(v.b)" "true"; opt val_f 39 "(v.col)" "GREEN";
    opt val_f 40 "(v.i)" "0x10"; opt val_f 41 "(v.i)" "9223372036854775808";
    el val_f 42 (DOption "(v.conf)" (litm [("m", litm [])])) [];
    el val_f 43 (DOption "(v.conf)" (litm [("br", lit0 "1")])) [];
    el val_f 44 (DOption "(v.nums)" (lits [lit0 "1"; lit0 "x"; lit0 "9223372036854775808"])) [];
    opt val_f 45 "(v.u)" "18446744073709551616x";
    el val_f 46 (DOption "(v.conf)" (litm [("a", lit0 "7"); ("inner", litm [("color", lit0 "BLUE")]); ("nope", lit0 "")])) [] ].
Definition val_world : registry := world (std_files ++ [(val_f, val_elems)])%list [val_f].
Lemma val_reachable : reachable val_world.
Proof. apply world_reachable. vm_compute. reflexivity. Qed.
Lemma val_scoped : fields_scoped val_world.
Proof. apply check_scoped_ok. vm_compute. reflexivity. Qed.
Lemma val_element p t : heap_at val_world p = Some t -> element_at val_world p t.
Proof. apply heap_element, reachable_Inv, val_reachable. Qed.
(** the option of the [i]th element of the file, about the [j]th field of the extend block *)
Definition val_opt (i j : nat) : optn := mkOptn 0 (1, [i]) (0, [2]) (1, [j; 5]).
Lemma val_field p name typ num rep o t : heap_at val_world p = Some t -> t_data t = DNormalField name typ num rep o ->
  field_of_type val_world p typ rep.
Proof. intros H Hd. exists t, name, num, o. split; [by apply val_element|done]. Qed.
Lemma val_option i j t oname lit u name typ num rep o :
  heap_at val_world (1, [i]) = Some t -> t_data t = DOption oname lit ->
  heap_at val_world (1, [j; 5]) = Some u -> t_data u = DNormalField name typ num rep o ->
  option_with val_world (val_opt i j) (1, [j; 5]) lit.
Proof.
  intros Ht Hd Hu Hdu. split; [|split; [done|]].
  - exists t, oname. split; [by apply val_element|done].
  - exists typ, rep. by eapply val_field.
Qed.
Ltac vopt := eapply val_option; [vm_compute; reflexivity|reflexivity|vm_compute; reflexivity|reflexivity].
Ltac vfld := eapply val_field; [vm_compute; reflexivity|reflexivity].

Lemma type_denotes_at s f comps typ k q kd a d : Inv s ->
  scope_of s (VPtr f) = dotted comps -> forallb (fun c => negb (String.eqb c "") && no_dot c) comps = true ->
  typ ∉ (scalar_names ++ read_types)%list -> q = dotted (take k comps) +:+ "." +:+ typ ->
  has_prefix typ "." = false -> k <= length comps -> defined (names s) q = true ->
  forallb (fun j => negb (defined (names s) (dotted (take j comps) +:+ "." +:+ typ)))
    (List.seq (S k) (length comps - k)) = true ->
  found s q (NAst kd a d) -> type_denotes s f typ kd d.
Proof.
  intros I Hsc Hid Hty -> Hp Hk Hdf Hin Hf. split; [done|]. exists comps, (dotted (take k comps) +:+ "." +:+ typ), a.
  split; [|split; [by apply denotes_at|done]]. split; [|by apply idents]. exists KField, 0%N.
  split; [constructor|]. unfold node_index. rewrite rbind_get. cbn. by rewrite Hsc.
Qed.
Lemma not_scalar typ : bool_decide (typ ∈ (scalar_names ++ read_types)%list) = false -> typ ∉ (scalar_names ++ read_types)%list.
Proof. apply bool_decide_eq_false_1. Qed.
Lemma val_color f comps : scope_of val_world (VPtr f) = dotted comps -> comps = ["v"; "col"] \/ comps = ["v"; "Conf"; "color"] \/ comps = ["v"; "colors"] ->
  type_denotes val_world f "Color" KEnum (1, [3]).
Proof.
  intros Hf [->|[->| ->]].
  - eapply (type_denotes_at _ _ _ _ 1);
    [apply reachable_Inv, val_reachable|exact Hf|reflexivity|apply not_scalar; vm_compute; reflexivity
    |reflexivity|reflexivity|cbn; lia|vm_compute; reflexivity|vm_compute; reflexivity|unfold found; vm_compute; reflexivity].
  - eapply (type_denotes_at _ _ _ _ 1);
    [apply reachable_Inv, val_reachable|exact Hf|reflexivity|apply not_scalar; vm_compute; reflexivity
    |reflexivity|reflexivity|cbn; lia|vm_compute; reflexivity|vm_compute; reflexivity|unfold found; vm_compute; reflexivity].
  - eapply (type_denotes_at _ _ _ _ 1);
    [apply reachable_Inv, val_reachable|exact Hf|reflexivity|apply not_scalar; vm_compute; reflexivity
    |reflexivity|reflexivity|cbn; lia|vm_compute; reflexivity|vm_compute; reflexivity|unfold found; vm_compute; reflexivity].
Qed.
Lemma val_conf f comps : scope_of val_world (VPtr f) = dotted comps -> comps = ["v"; "conf"] \/ comps = ["v"; "Conf"; "inner"] ->
  type_denotes val_world f "Conf" KMessage (1, [4]).
Proof.
  intros Hf [->| ->].
  - eapply (type_denotes_at _ _ _ _ 1);
    [apply reachable_Inv, val_reachable|exact Hf|reflexivity|apply not_scalar; vm_compute; reflexivity
    |reflexivity|reflexivity|cbn; lia|vm_compute; reflexivity|vm_compute; reflexivity|unfold found; vm_compute; reflexivity].
  - eapply (type_denotes_at _ _ _ _ 1);
    [apply reachable_Inv, val_reachable|exact Hf|reflexivity|apply not_scalar; vm_compute; reflexivity
    |reflexivity|reflexivity|cbn; lia|vm_compute; reflexivity|vm_compute; reflexivity|unfold found; vm_compute; reflexivity].
Qed.
Lemma val_child sel d p t : heap_at val_world d = Some t -> head (children sel d t) = Some p ->
  first_child val_world sel d p.
Proof. intros H Hh. exists t. split; [by apply val_element|done]. Qed.
Ltac vchild := eapply val_child; [vm_compute; reflexivity|vm_compute; reflexivity].

(** the hypotheses of C38, C41, C42 and what the literal of the nested message denotes *)
Example C38_example fl :
  option_with val_world (val_opt 11 4) (1, [4; 5]) conf_lit /\ field_of_type val_world (1, [4; 5]) "Conf" false /\
  type_denotes val_world (1, [4; 5]) "Conf" KMessage (1, [4]) /\
  reads fl val_world (1, [4; 5]) false conf_lit
    (CMap [("a", CInt 7); ("tags", CArray [CString "x"; CString "y"]);
           ("inner", CMap [("color", CEnum (1, [1; 3]))])]) /\
  option_with val_world (val_opt 9 3) (1, [3; 5]) (lits [lit0 "1"; lit0 "-2"]) /\
  reads fl val_world (1, [3; 5]) false (lits [lit0 "1"; lit0 "-2"]) (CArray [CInt 1; CInt (-2)]) /\
  (** a map field, a branch *)
  (forall w, ~ reads fl val_world (1, [4; 5]) false (litm [("m", litm [])]) w).
Proof.
  assert (Hf : field_of_type val_world (1, [4; 5]) "Conf" false) by vfld.
  assert (Hc : type_denotes val_world (1, [4; 5]) "Conf" KMessage (1, [4])).
  { apply (val_conf _ ["v"; "conf"]); [vm_compute; reflexivity|by left]. }
  assert (Hn1 : signed_numeral "7" 7) by (apply (sn_plain "7" 7), (num_digit "7" 7), digit_cases; reflexivity).
  assert (Hn2 : signed_numeral "1" 1) by (apply (sn_plain "1" 1), (num_digit "1" 1), digit_cases; reflexivity).
  assert (Hn3 : signed_numeral "-2" (-2)) by (apply (sn_minus "2" 2), (num_digit "2" 2), digit_cases; reflexivity).
  assert (Hi : "int32" ∈ signed_types) by apply elem_of_list_here.
  split; [vopt|]. split; [done|]. split; [done|]. split; [|split; [vopt|split]].
  - eapply rd_message; [exact Hf|exact Hc|]. constructor; [|constructor; [|constructor; [|constructor]]]; (split; [done|]); cbn [fst snd].
    + exists (1, [0; 4]). split; [vchild|]. eapply (rd_scalar _ _ _ "int32" false); [vfld|by left|].
      apply sv_int; [done|done|lia].
    + exists (1, [1; 4]). split; [vchild|]. eapply (rd_array _ _ _ "string"); [vfld|].
      constructor; [|constructor; [|constructor]]; (eapply (rd_scalar _ _ _ "string" true); [vfld|by right|constructor]).
    + exists (1, [3; 4]). split; [vchild|]. eapply rd_message; [vfld|apply (val_conf _ ["v"; "Conf"; "inner"]); [vm_compute; reflexivity|by right]|].
      constructor; [|constructor]. split; [done|]. exists (1, [2; 4]). split; [vchild|].
      eapply rd_enum; [vfld|apply (val_color _ ["v"; "Conf"; "color"]); [vm_compute; reflexivity|by right; left]|vchild].
  - eapply (rd_array _ _ _ "int32"); [vfld|].
    constructor; [|constructor; [|constructor]]; (eapply (rd_scalar _ _ _ "int32" true); [vfld|by right|]); apply sv_int; done.
  - intros w Hw. pose proof (denotes_not_read _ _ _ _ _ Hc) as Hnr.
    destruct (reads_type_inv _ _ _ _ _ _ _ _ Hf (or_introl eq_refl) Hnr Hw)
      as [_ [(d' & p & Hv & Hd' & Hp)|(d' & vs & Hv & Hd' & Hl)]];
      destruct (type_denotes_fun _ _ _ _ _ _ _ (reachable_Inv _ val_reachable) Hc Hd') as [? ->]; [done|].
    inversion Hl as [|? ? ? ? [_ (f' & Hf' & Hr)]]; subst. cbn [fst snd] in *.
    assert (Hm : first_child val_world (field_called "m") (1, [4]) (1, [4; 4])) by vchild.
    rewrite (first_child_fun _ _ _ _ _ Hm Hf') in Hr.
    assert (exists ty re, field_of_type val_world (1, [4; 4]) ty re) as (ty & re & (t & n & m & op & Ht & Hd)%field_heap) by (inversion Hr; subst; eauto).
    vm_compute in Ht. injection Ht as <-. discriminate Hd.
Qed.

(** what protobuf says, and the code does not do *)
Theorem C40_uint32_refuted fl :
  calm val_world /\ field_of_type val_world (1, [2; 5]) "uint32" false /\ numeral "5" 5 /\
  option_with val_world (val_opt 8 2) (1, [2; 5]) (lit0 "5") /\
  (option_value fl (val_opt 8 2) val_world).1 = Panic (PError "unknown field type: uint32").
Proof.
  split; [apply world_calm; vm_compute; reflexivity|]. split; [vfld|].
  split; [apply (num_digit "5" 5), digit_cases; reflexivity|]. split; [vopt|]. vm_compute. reflexivity.
Qed.
Theorem C41_single_literal_refuted fl :
  calm val_world /\ field_of_type val_world (1, [3; 5]) "int32" true /\
  option_with val_world (val_opt 10 3) (1, [3; 5]) (lit0 "3") /\
  exists h, (option_value fl (val_opt 10 3) val_world).1 = Ret (OVArray h []).
Proof.
  split; [apply world_calm; vm_compute; reflexivity|]. split; [vfld|]. split; [vopt|].
  eexists. vm_compute. reflexivity.
Qed.
Theorem C41_repeated_enum_refuted fl :
  calm val_world /\ field_of_type val_world (1, [5; 5]) "Color" true /\
  type_denotes val_world (1, [5; 5]) "Color" KEnum (1, [3]) /\
  first_child val_world (value_called "RED") (1, [3]) (1, [0; 3]) /\
  option_with val_world (val_opt 12 5) (1, [5; 5]) (lits [lit0 "RED"]) /\
  (option_value fl (val_opt 12 5) val_world).1 = Panic (PError "unknown field type: Color").
Proof.
  split; [apply world_calm; vm_compute; reflexivity|]. split; [vfld|].
  split; [apply (val_color _ ["v"; "colors"]); [vm_compute; reflexivity|by right; right]|]. split; [vchild|]. split; [vopt|].
  vm_compute. reflexivity.
Qed.
Theorem C42_oneof_branch_refuted fl :
  calm val_world /\ type_denotes val_world (1, [4; 5]) "Conf" KMessage (1, [4]) /\
  (exists t, element_at val_world (1, [0; 5; 4]) t /\ t_data t = DOneOfField "br" "int32" 6) /\
  option_with val_world (val_opt 19 4) (1, [4; 5]) (litm [("br", lit0 "1")]) /\
  (option_value fl (val_opt 19 4) val_world).1 = Panic (PError "unknown message Conf field br").
Proof.
  split; [apply world_calm; vm_compute; reflexivity|].
  split; [apply (val_conf _ ["v"; "conf"]); [vm_compute; reflexivity|by left]|].
  split; [eexists; split; [apply val_element; vm_compute; reflexivity|reflexivity]|]. split; [vopt|].
  vm_compute. reflexivity.
Qed.
