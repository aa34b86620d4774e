(** * Structure of option values: headers. *)
From Verif Require Export Handed.

Definition orphan (v : oval) : Prop := ov_option (ov_hdr v) = None.

Lemma parts_cons v : exists l, parts v = v :: l.
Proof. destruct v; cbn; eauto. Qed.
Definition inner (v : oval) : list oval := List.tl (parts v).
Lemma parts_inner v : parts v = v :: inner v.
Proof. by destruct v. Qed.

Lemma build_hdr fl lit : forall opt field ig s v s',
  build fl opt field lit ig s = (Ret v, s') ->
  ov_option (ov_hdr v) = opt /\ Forall orphan (inner v).
Proof.
  induction lit as [lp src arr omap IHa IHm] using literal_nested_ind.
  intros opt field ig s v s' E. rewrite build_unfold in E.
  cbn [lit_array lit_map lit_source] in E.
  apply rbind_Ret in E as (ft & s1 & E1 & E2). apply deref_Ret in E1 as [-> _].
  destruct (t_data ft); try discriminate E2.
  assert (Hnil : forall h (k : N -> oval), (forall a, ov_option (ov_hdr (k a)) = opt /\ inner (k a) = []) ->
     (a <~ alloc ;; ret (k a)) h = (Ret v, s') -> ov_option (ov_hdr v) = opt /\ Forall orphan (inner v)).
  { intros h k Hk H. rewrite rbind_alloc in H. injection H as <- <-. destruct (Hk (next h)) as [-> ->].
    split; [done|constructor]. }
  destruct (repeated && negb ig).
  { apply rbind_Ret in E2 as (vs & s2 & E2 & E3).
    rewrite rbind_alloc in E3. injection E3 as <- <-. split; [done|]. unfold inner. cbn [parts List.tl].
    clear Hnil. revert s vs s2 E2. induction IHa as [|x l Hx _ IH]; intros s vs s2 E2.
    - injection E2 as <- <-. constructor.
    - cbn [build_array] in E2. apply rbind_Ret in E2 as (w & s3 & E3 & E4).
      apply rbind_Ret in E4 as (ws & s4 & E4 & E5). injection E5 as <- <-.
      cbn [flat_map]. apply Forall_app. split; [|by eapply IH].
      destruct (Hx _ _ _ _ _ _ E3) as [H1 H2]. rewrite parts_inner. by constructor. }
  destruct (String.eqb typ "bool").
  { destruct (parse_bool src); [|discriminate E2]. refine (Hnil _ _ _ E2); intros; by split. }
  destruct (is_signed_type typ).
  { destruct (atoi src); [|discriminate E2]. refine (Hnil _ _ _ E2); intros; by split. }
  destruct (is_unsigned_type typ).
  { destruct (parse_uint src); [|discriminate E2]. refine (Hnil _ _ _ E2); intros; by split. }
  destruct (is_float_type typ).
  { destruct (fl_parse fl src); [|discriminate E2]. refine (Hnil _ _ _ E2); intros; by split. }
  destruct (String.eqb typ "string"); [refine (Hnil _ _ _ E2); intros; by split|].
  destruct (String.eqb typ "bytes"); [refine (Hnil _ _ _ E2); intros; by split|].
  apply rbind_Ret in E2 as (ty & s2 & E2 & E3).
  destruct ty as [[[] ta tp| | | | |]|]; try discriminate E3.
  - apply rbind_Ret in E3 as (items & s3 & E3 & E4).
    rewrite rbind_alloc in E4. injection E4 as <- <-. split; [done|]. unfold inner. cbn [parts List.tl].
    clear Hnil E2. revert s2 items s3 E3.
    induction IHm as [|[key x] l Hx _ IH]; intros s2 items s3 E3.
    + injection E3 as <- <-. constructor.
    + cbn [build_items] in E3. apply rbind_Ret in E3 as (f & s4 & E4 & E5).
      destruct f as [[[] fa fp| | | | |]|]; try discriminate E5; cycle 1.
      { apply rbind_Ret in E5 as (? & ? & _ & E5). discriminate E5. }
      apply rbind_Ret in E5 as (fd & s5 & E5 & E6). apply deref_Ret in E5 as [-> _].
      destruct (t_data fd); try discriminate E6.
      apply rbind_Ret in E6 as (w & s6 & E6 & E7).
      apply rbind_Ret in E7 as (ws & s7 & E7 & E8). injection E8 as <- <-.
      cbn [flat_map snd]. apply Forall_app. split; [|by eapply IH].
      destruct (Hx _ _ _ _ _ _ E6) as [H1 H2]. rewrite parts_inner. by constructor.
  - apply rbind_Ret in E3 as (ev & s3 & E3 & E4).
    destruct ev as [[[] ea ep| | | | |]|]; try discriminate E4.
    refine (Hnil _ _ _ E4); intros; by split.
Qed.

Lemma option_value_ret fl o s v s1 : option_value fl o s = (Ret v, s1) ->
  exists t nm lit, heap_at s (o_proto o) = Some t /\ t_data t = DOption nm lit /\
    build fl (Some (o_proto o)) (o_field o) lit false s = (Ret v, s1).
Proof.
  unfold option_value. intros E. apply rbind_Ret in E as (t & s2 & E1 & E).
  apply deref_Ret in E1 as [-> Ht]. destruct (t_data t) eqn:Hd; try discriminate E. eauto 10.
Qed.
