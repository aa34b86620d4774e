(** * Theorems on what Option.Value panics with: C77. *)
From Verif Require Export ThmRender.

(** ** C77 *)

(** Option.Value panics exactly when something is wrong with the literal, and the error it panics with
    says what is wrong first. *)
Theorem C77_value fl s o f lit :
  reachable s -> fields_scoped s -> option_with s o f lit ->
  (forall v, (option_value fl o s).1 = Panic v -> exists c, fails fl s f false lit c /\ says fl c v) /\
  (forall c, fails fl s f false lit c -> exists v, (option_value fl o s).1 = Panic v /\ says fl c v).
Proof.
  intros Hs Hfs Ho. pose proof (reachable_Inv _ Hs) as I. rewrite (option_value_build _ _ _ _ _ Ho).
  destruct Ho as (_ & _ & Hf).
  destruct (build_spec fl s I Hfs lit (Some (o_proto o)) f false s I (quiet_refl s) Hf)
    as [(v & s' & E & Hr)|(c & msg & E & Hc & Hsay)]; rewrite ?E; cbn [fst].
  - split; [done|]. intros c Hc. by destruct (fails_none _ _ _ I _ _ _ _ Hc Hr).
  - split; [intros v [= <-]; eauto|]. intros c' Hc'. rewrite (fails_fun _ _ _ I _ _ _ _ Hc Hc'). eauto.
Qed.

(** The complaints cover everything: a literal denotes a content or has something wrong with it, never
    both, and there is only one thing that is wrong first. *)
Theorem C77_one_complaint fl s f typ rep lit :
  reachable s -> fields_scoped s -> field_of_type s f typ rep ->
  ((exists w, reads fl s f false lit w) \/ (exists c, fails fl s f false lit c)) /\
  (forall w c, reads fl s f false lit w -> ~ fails fl s f false lit c) /\
  (forall c c', fails fl s f false lit c -> fails fl s f false lit c' -> c' = c).
Proof.
  intros Hs Hfs Hf. pose proof (reachable_Inv _ Hs) as I. split; [|split].
  - destruct (build_spec fl s I Hfs lit None f false s I (quiet_refl s) ltac:(eauto))
      as [(v & s' & _ & Hr)|(c & msg & _ & Hc & _)]; eauto.
  - intros w c Hw Hc. exact (fails_none _ _ _ I _ _ _ _ Hc Hw).
  - intros c c'. apply (fails_fun _ _ _ I).
Qed.

(** literals of every kind of complaint; what Option.Value panics with follows by C77 *)
Definition val_fails (fl : floatlib) (i j : nat) (c : complaint) : Prop :=
  exists lit, option_with val_world (val_opt i j) (1, [j; 5]) lit /\ fails fl val_world (1, [j; 5]) false lit c.
Lemma val_says fl i j c : val_fails fl i j c ->
  exists v, (option_value fl (val_opt i j) val_world).1 = Panic v /\ says fl c v.
Proof.
  intros (lit & Ho & Hc). exact (proj2 (C77_value fl _ _ _ _ val_reachable val_scoped Ho) c Hc).
Qed.
Lemma plain_seven : signed_numeral "7" 7.
Proof. apply (sn_plain "7" 7), (num_digit "7" 7), digit_cases. reflexivity. Qed.
Lemma plain_one : signed_numeral "1" 1.
Proof. apply (sn_plain "1" 1), (num_digit "1" 1), digit_cases. reflexivity. Qed.
Example C77_example fl :
  (** 0x10 and an integer that is too big for int *)
  val_fails fl 16 0 (BadInt "0x10" false) /\ val_fails fl 17 0 (BadInt "9223372036854775808" true) /\
  (** the first of two bad elements *)
  val_fails fl 20 3 (BadInt "x" false) /\
  (** a text that is no number at all, but too long before that shows *)
  val_fails fl 21 1 (BadUint "18446744073709551616x" true) /\
  (** the second of three entries, in a nested message *)
  val_fails fl 22 4 (NoEnumValue "Color" "BLUE") /\
  (** a branch of a oneof is not found, a map is not read, uint32 and enums in lists are not known *)
  val_fails fl 19 4 (NoField "Conf" "br") /\ val_fails fl 18 4 (NotPlain "MapField") /\
  val_fails fl 8 2 (UnknownType "uint32") /\ val_fails fl 12 5 (UnknownType "Color").
Proof.
  assert (Hconf : type_denotes val_world (1, [4; 5]) "Conf" KMessage (1, [4])).
  { apply (val_conf _ ["v"; "conf"]); [vm_compute; reflexivity|by left]. }
  assert (Hf : field_of_type val_world (1, [4; 5]) "Conf" false) by vfld.
  assert (Hnil : entries_read fl val_world (1, [4]) []) by (intros ? H%elem_of_nil; done).
  assert (Hnone : forall x, atoi x = None -> atoi_fault x = FSyntax -> (forall z, ~ signed_numeral x z) /\ ~ int_too_big x).
  { intros x H1 H2. pose proof (int_fails x H1) as H. by rewrite H2 in H. }
  repeat match goal with |- _ /\ _ => split end.
  - eexists. split; [vopt|]. eapply fa_scalar; [vfld|by left|]. destruct (Hnone "0x10") as [H1 H2]; [reflexivity..|].
    apply sf_int_syntax; [unfold signed_types; set_solver|exact H1|exact H2].
  - eexists. split; [vopt|]. eapply fa_scalar; [vfld|by left|].
    apply sf_int_range; [unfold signed_types; set_solver|]. exact (int_fails "9223372036854775808" eq_refl).
  - eexists. split; [vopt|]. eapply (fa_array _ _ _ _ _ [lit0 "1"]); [vfld|reflexivity|..].
    + intros y ->%elem_of_list_singleton. exists (CInt 1). eapply rd_scalar; [vfld|by right|].
      apply sv_int; [unfold signed_types; set_solver|exact plain_one|done].
    + eapply fa_scalar; [vfld|by right|]. destruct (Hnone "x") as [H1 H2]; [reflexivity..|].
      apply sf_int_syntax; [unfold signed_types; set_solver|exact H1|exact H2].
  - eexists. split; [vopt|]. eapply fa_scalar; [vfld|by left|].
    apply sf_uint_range; [unfold unsigned_types; set_solver|]. exact (uint_fails "18446744073709551616x" eq_refl).
  - eexists. split; [vopt|]. eapply (fa_entry _ _ _ _ _ _ _ [("a", lit0 "7")]); [exact Hf|exact Hconf|reflexivity| | |].
    + intros y ->%elem_of_list_singleton. exists (1, [0; 4]), (CInt 7). split; [vchild|].
      eapply rd_scalar; [vfld|by left|]. apply sv_int; [unfold signed_types; set_solver|exact plain_seven|done].
    + vchild.
    + eapply (fa_entry _ _ _ _ _ _ _ []); [vfld|apply (val_conf _ ["v"; "Conf"; "inner"]); [vm_compute; reflexivity|by right]|reflexivity|exact Hnil| |].
      * vchild.
      * eapply fa_enum; [vfld|apply (val_color _ ["v"; "Conf"; "color"]); [vm_compute; reflexivity|by right; left]|].
        intros p (t & Ht%element_heap & Hp). vm_compute in Ht. injection Ht as <-. discriminate Hp.
  - eexists. split; [vopt|]. eapply (fa_no_field _ _ _ _ _ _ _ _ _ _ []); [exact Hf|exact Hconf|apply val_element; vm_compute; reflexivity|reflexivity|reflexivity|exact Hnil|].
    intros p (t & Ht%element_heap & Hp). vm_compute in Ht. injection Ht as <-. discriminate Hp.
  - eexists. split; [vopt|]. eapply (fa_not_plain _ _ _ _ _ _ _ [] _ _ _ _ (el val_f 12 (DMapField "m" "string" "bool" 5) [])); [exact Hf|exact Hconf|reflexivity|exact Hnil|vchild| |].
    2: by apply val_element; vm_compute; reflexivity.
    intros ty re (t & n & m & op & Ht & Hd)%field_heap. vm_compute in Ht. injection Ht as <-. discriminate Hd.
  - eexists. split; [vopt|]. eapply fa_type; [vfld|by left|..].
    + assert (H : bool_decide ("uint32" ∈ read_types) = false) by (vm_compute; reflexivity). exact (bool_decide_eq_false_1 _ H).
    + intros k d [H _]. destruct H. assert (G : bool_decide ("uint32" ∈ (scalar_names ++ read_types)%list) = true) by (vm_compute; reflexivity).
      exact (bool_decide_eq_true_1 _ G).
  - eexists. split; [vopt|]. eapply (fa_array _ _ _ _ _ []); [vfld|reflexivity|intros y Hy; by apply elem_of_nil in Hy|].
    assert (Hcol : type_denotes val_world (1, [5; 5]) "Color" KEnum (1, [3])).
    { apply (val_color _ ["v"; "colors"]); [vm_compute; reflexivity|by right; right]. }
    eapply fa_type; [vfld|by right|exact (denotes_not_read _ _ _ _ _ Hcol)|].
    intros k d Hd. destruct (type_denotes_fun _ _ _ _ _ _ _ (reachable_Inv _ val_reachable) Hcol Hd) as [-> _]. auto.
Qed.

(** the exact messages of some of them *)
Example C77_texts fl :
  map (fun ij => match (option_value fl (val_opt ij.1 ij.2) val_world).1 with
                 | Panic (PError err) => (error_text err, error_is "strconv.ErrRange" err, error_is "strconv.ErrSyntax" err)
                 | _ => ("", false, false)
                 end) [(20, 3); (21, 1); (22, 4); (19, 4)] =
  [("convert literal to int: strconv.Atoi: parsing ""x"": invalid syntax", false, true);
   ("convert literal to uint: strconv.ParseUint: parsing ""18446744073709551616x"": value out of range", true, false);
   ("unknown enum Color value BLUE", false, false);
   ("unknown message Conf field br", false, false)].
Proof. vm_compute. reflexivity. Qed.
