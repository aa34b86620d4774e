(** * Identity of nodes: proofs. *)
From Verif Require Export LoadFacts Routes.

(** ** Rules *)

Lemma iterate_rule {B A} (pick : B -> R (option A)) (l : list B) C
    (J : C -> registry -> Prop) (G : A -> registry -> Prop) yield :
  (forall b c s o s', b ∈ l -> J c s -> pick b s = (Ret o, s') ->
     J c s' /\ forall x, o = Some x -> G x s') ->
  (forall c x s c' go s', J c s -> G x s -> yield c x s = (Ret (c', go), s') -> J c' s') ->
  forall c s c' s', J c s -> iterate pick l C c yield s = (Ret c', s') -> J c' s'.
Proof.
  intros Hp Hy. induction l as [|b l IH]; intros c s c' s' HJ E; cbn [iterate] in E.
  - injection E as <- <-. done.
  - apply rbind_Ret in E as (o & s1 & E1 & E2).
    destruct (Hp b c s o s1 (elem_of_list_here _ _) HJ E1) as [HJ1 HG].
    assert (Hp' : forall b c s o s', b ∈ l -> J c s -> pick b s = (Ret o, s') ->
     J c s' /\ forall x, o = Some x -> G x s').
    { intros b' c0 s0 o0 s0' Hb. apply Hp. by constructor. }
    pose proof (IH Hp') as IH'.
    destruct o as [x|]; [|exact (IH' _ _ _ _ HJ1 E2)].
    apply rbind_Ret in E2 as ([c2 go] & s2 & E2 & E3).
    pose proof (Hy _ _ _ _ _ _ HJ1 (HG x eq_refl) E2) as HJ2.
    destruct go; [exact (IH' _ _ _ _ HJ2 E3)|]. injection E3 as <- <-. done.
Qed.

Lemma inv_step_ret {A} (m : R A) s a s' :
  keeps inv_step m -> Inv s -> m s = (Ret a, s') -> Inv s' /\ grows s s'.
Proof. intros K I E. specialize (K s I). by rewrite E in K. Qed.

Section kth.
  Context {A : Type} (G : A -> registry -> Prop).
  Hypothesis G_grows : forall x s s', grows s s' -> G x s -> G x s'.

  Lemma kth_iter_kids k p (pick : ptr * tree -> R (option A)) C c body s x s' :
    (forall b s y s', Inv s -> pick b s = (Ret (Some y), s') -> G y s') ->
    (forall b, keeps inv_step (pick b)) ->
    (forall c y, client Loads (body c y)) ->
    Inv s -> kth_of_loop k (iter_kids p pick) C c body s = (Ret (Some x), s') ->
    Inv s' /\ G x s'.
  Proof.
    intros Hp Kp Hb I E. unfold kth_of_loop in E. apply rbind_Ret in E as (r & s1 & E & E').
    injection E' as Hx <-.
    unfold iter_kids in E. apply rbind_Ret in E as (kids & s0 & E0 & E).
    assert (Inv s0).
    { eapply inv_step_ret; [|exact I|exact E0].
      apply keeps_kids_of; [apply inv_step_refl|apply inv_step_trans]. }
    assert (H1 : Inv s1 /\ forall y, r.2 = Some y -> G y s1).
    { revert E. apply (iterate_rule pick kids _
        (fun (st : C * nat * option A) s => Inv s /\ forall y, st.2 = Some y -> G y s) G).
      - intros b st s2 o s3 _ [I2 H2] E.
        destruct (inv_step_ret _ _ _ _ (Kp b) I2 E) as [I3 G3].
        split; [split; [done|]|].
        + intros y Hy. eapply G_grows; eauto.
        + intros y ->. eapply Hp; [exact I2|exact E].
      - intros st y s2 st' go s3 [I2 H2] HG E.
        apply rbind_Ret in E as ([c' go'] & s4 & E1 & E2). cbn in E2. injection E2 as <- <- <-.
        destruct (inv_step_ret _ _ _ _ (client_inv_step _ _ (Hb _ _)) I2 E1) as [I4 G4].
        split; [done|]. cbn. intros z. destruct (Nat.eqb st.1.2 k).
        + intros [= <-]. eauto.
        + intros Hz. eauto.
      - split; [done|]. done. }
    destruct H1 as [I1 H1]. split; [done|]. apply H1. exact Hx.
  Qed.
End kth.

Lemma inv_step_alloc : keeps inv_step alloc.
Proof.
  apply quiet_inv_step; [apply quiet_alloc|]. intros s N. apply nodes_set_next; [lia|done].
Qed.
Lemma inv_step_wrap v : keeps inv_step (wrap v).
Proof. apply quiet_inv_step; [apply quiet_wrap|]. intros s N. by apply wrap_nodes. Qed.
Lemma inv_step_field_type a p : keeps inv_step (field_type a p).
Proof. apply quiet_inv_step; [apply quiet_field_type|]. intros s N. by apply field_type_nodes. Qed.

Ltac kinv lem := apply lem; first [apply inv_step_refl|apply inv_step_trans|apply inv_step_alloc
  |apply inv_step_wrap|apply inv_step_field_type].

(** ** wrap hands out canonical nodes *)

Lemma wrap_canonical v s n s' :
  Inv s -> wrap v s = (Ret (Some n), s') -> canonical s' n.
Proof.
  intros [_ N] E. destruct (wrap_ret _ _ _ _ N E) as (p & k & a & t & -> & -> & _ & _ & Hc).
  exists k, a, p. done.
Qed.
Lemma assert_kind_ret i k o s n s' :
  assert_kind i k o s = (Ret n, s') -> s' = s /\ o = Some n /\ exists a p, n = NAst k a p.
Proof.
  destruct o as [[k' a p| | | | |]|]; try discriminate.
  destruct k, k'; cbn; try discriminate; unfold ret; intros [= <- <-]; eauto.
Qed.
Lemma wrap_as_canonical k p s n s' :
  Inv s -> wrap_as k p s = (Ret n, s') -> canonical s' n /\ exists a, n = NAst k a p.
Proof.
  intros I E. unfold wrap_as in E. apply rbind_Ret in E as (w & s1 & E1 & E2).
  apply assert_kind_ret in E2 as (-> & -> & a & q & ->).
  destruct I as [I1 N]. destruct (wrap_ret _ _ _ _ N E1) as (p' & k' & a' & t & [= <-] & [= <- <- <-] & _ & _ & Hc).
  split; [exists k, a, q; done|eauto].
Qed.
Lemma kids_of_ret p s l s' :
  kids_of p s = (Ret l, s') -> s' = s /\ exists t, heap_at s p = Some t /\ l = kids_at p t.
Proof.
  unfold kids_of, deref. intros E. apply rbind_Ret in E as (t & s1 & E1 & E2).
  rewrite rbind_get in E1. destruct (heap_at s p) as [t'|]; [|discriminate].
  injection E1 as <- <-. injection E2 as <- <-. eauto.
Qed.
Lemma lookup_kid_canonical p sel k s n s' :
  Inv s -> lookup_kid p sel k s = (Ret (Some n), s') -> canonical s' n.
Proof.
  intros I E. unfold lookup_kid in E. apply rbind_Ret in E as (kids & s1 & E1 & E2).
  apply kids_of_ret in E1 as (-> & _).
  destruct (find_kid sel kids) as [q|]; [|discriminate].
  apply rbind_Ret in E2 as (m & s2 & E2 & E3). injection E3 as <- <-.
  by eapply wrap_as_canonical.
Qed.
Lemma deref_Ret p s t s' : deref p s = (Ret t, s') -> s' = s /\ heap_at s p = Some t.
Proof.
  unfold deref. rewrite rbind_get. destruct (heap_at s p); [|discriminate].
  by intros [= <- <-].
Qed.
Lemma lookup_type_canonical p sel s n s' :
  Inv s -> lookup_type p sel s = (Ret (Some n), s') -> canonical s' n.
Proof.
  intros I E. unfold lookup_type in E. apply rbind_Ret in E as (kids & s1 & E1 & E2).
  apply kids_of_ret in E1 as (-> & _).
  destruct (find_kid sel kids) as [q|]; [|discriminate].
  apply rbind_Ret in E2 as (t & s2 & E2 & E3). apply deref_Ret in E2 as (-> & _).
  destruct (t_data t);
    apply rbind_Ret in E3 as (m & s3 & E3 & E4); injection E4 as <- <-;
    by eapply wrap_as_canonical.
Qed.
Fixpoint parent_canonical n : forall s m s',
  Inv s -> node_parent n s = (Ret (Some m), s') -> canonical s' m.
Proof.
  destruct n as [k a p|b|a [t|]|o|v|key v]; intros s m s' I; cbn [node_parent];
    try (intros E; discriminate E).
  - destruct k; try (intros E; discriminate E); by apply wrap_canonical.
  - by apply parent_canonical.
  - by apply wrap_canonical.
  - by apply wrap_canonical.
Qed.

Fixpoint node_pos_same n : forall s r s', node_pos n s = (Ret r, s') -> s' = s.
Proof.
  destruct n as [k a p|b|a [t|]|o|v|key v]; intros s r s'; cbn [node_pos];
    try (intros E; discriminate E).
  - intros E. assert (exists t, deref p s = (Ret t, s') \/ s' = s) as (t & [H|H]); [|by apply deref_Ret in H as [-> _]|done].
    destruct k; apply rbind_Ret in E as (t & s1 & E1 & E2); pose proof E1 as E0;
      apply deref_Ret in E1 as [-> _]; exists t;
      try (destruct (t_data t); try discriminate E2); injection E2 as _ <-; auto.
  - by intros [= _ <-].
  - apply node_pos_same.
  - intros E. apply rbind_Ret in E as (t & s1 & E1 & E2). apply deref_Ret in E1 as [-> _].
    by injection E2 as _ <-.
  - destruct (ov_option (ov_hdr v)); [|discriminate].
    intros E. apply rbind_Ret in E as (t & s1 & E1 & E2). apply deref_Ret in E1 as [-> _].
    by injection E2 as _ <-.
Qed.

Lemma node_file_canonical n s m s' :
  Inv s -> node_file n s = (Ret (Some m), s') -> canonical s' m.
Proof.
  intros I E. unfold node_file in E. apply rbind_Ret in E as (r & s1 & E1 & E2).
  apply node_pos_same in E1 as ->. rewrite rbind_get in E2.
  destruct (protos s !! p_file r); [|discriminate].
  apply rbind_Ret in E2 as (f & s2 & E2 & E3). injection E3 as <- <-.
  by eapply wrap_as_canonical.
Qed.

(** ** Types *)

(** what a route hands out *)
Definition handed (n : node) (s : registry) : Prop :=
  canonical s n \/ addr n = None \/ (stored s n /\ ~ declaration_node n).

Lemma handed_grows n s s' : grows s s' -> handed n s -> handed n s'.
Proof.
  intros G [H|[H|[H1 H2]]].
  - left. by eapply canonical_ext.
  - by right; left.
  - right; right. split; [|done]. destruct H1 as [[v H]|[k H]].
    + left. exists v. by eapply ext_cache.
    + right. exists k. by eapply ext_ftcache.
Qed.
Lemma elem_node_handed s n : elem_node s n -> handed n s.
Proof. intros [[b ->]|[H _]]; [by right; left|by left]. Qed.

Lemma field_type_ret a p s o s' :
  field_type a p s = (Ret o, s') -> ftcache s' !! (a, p) = Some o.
Proof.
  rewrite field_type_unfold. destruct (ftcache s !! (a, p)) as [res|] eqn:Hc.
  - by intros [= <- <-].
  - destruct (field_type_body p s) as [[res|m|] s1]; intros [= <- <-].
    cbn. by rewrite lookup_insert.
Qed.

Lemma field_type_handed a p s n s' :
  Inv s -> field_type a p s = (Ret (Some n), s') ->
  Inv s' /\ handed n s' /\ forall m, element_type (Some n) = Some m -> handed m s'.
Proof.
  intros I E. destruct (inv_step_ret _ _ _ _ (inv_step_field_type a p) I E) as [I' _].
  split; [done|]. pose proof (field_type_ret _ _ _ _ _ E) as Hc.
  destruct I' as [S' N']. destruct (nd_ftcache _ N' _ _ _ Hc) as (t & Ht & Hsh).
  assert (Hst : stored s' n) by (right; eauto).
  destruct (t_data t) as [| | | | | | |nm ty sq [] op| | | | | | | | | | |]; try done.
  - destruct Hsh as (b & r & -> & Hr). split; [right; right; split; [done|by intros []]|].
    cbn. intros m Hm. by apply elem_node_handed, Hr.
  - assert (Hn : handed n s') by (by apply elem_node_handed). split; [done|].
    destruct Hsh as [[b ->]|[(k & b & q & -> & _) _]]; cbn; intros m [= <-]; done.
  - destruct Hsh as [b ->]. assert (handed (NAst KOneOf b p) s') by (right; right; split; [done|by intros []]).
    split; [done|]. cbn. by intros m [= <-].
  - destruct Hsh as [b ->]. assert (handed (NAst KMap b p) s') by (right; right; split; [done|by intros []]).
    split; [done|]. cbn. by intros m [= <-].
Qed.

Lemma get_type_handed p name s n s' t :
  Inv s -> heap_at s p = Some t ->
  (forall nm ty sq op, t_data t <> DNormalField nm ty sq true op) ->
  get_type_by_name p name s = (Ret (Some n), s') -> elem_node s' n.
Proof.
  intros [S N] Ht Hd E. destruct (get_type_by_name_ret _ _ _ _ _ N E) as (_ & _ & t' & Ht' & H).
  assert (t' = t) as -> by congruence.
  destruct (t_data t) as [| | | | | | |nm ty sq [] op| | | | | | | | | | |]; try by apply H.
  by edestruct Hd.
Qed.

Lemma method_type_handed p name s t m s' :
  Inv s -> heap_at s p = Some t -> (exists a b c d e, t_data t = DRPC a b c d e) ->
  (ty <~ get_type_by_name p name ;; m <~ assert_kind "core.Type" KMessage ty ;; ret m) s = (Ret m, s') ->
  canonical s' m.
Proof.
  intros I Ht (a & b & c & d & e & Hd) E. apply rbind_Ret in E as (ty & s1 & E1 & E2).
  apply rbind_Ret in E2 as (m' & s2 & E2 & E3). injection E3 as <- <-.
  apply assert_kind_ret in E2 as (-> & -> & b' & q & ->).
  destruct (get_type_handed p name s _ s1 t I Ht ltac:(by rewrite Hd) E1) as [[x Hx]|[H _]];
    [discriminate Hx|done].
Qed.

Lemma map_value_handed p s n s' : Inv s -> map_value p s = (Ret n, s') -> handed n s'.
Proof.
  intros I E. unfold map_value in E. apply rbind_Ret in E as (t & s1 & E1 & E2).
  apply deref_Ret in E1 as [-> _]. destruct (t_data t); try discriminate E2.
  destruct (builtin_type typ) as [b|].
  - injection E2 as <- <-. by right; left.
  - rewrite rbind_get in E2. destruct (names s !! _) as [obj|]; [|discriminate E2].
    apply rbind_Ret in E2 as (u & s2 & E2 & E3). apply deref_Ret in E2 as [-> _].
    destruct (t_data u); try discriminate E3; left; by eapply wrap_as_canonical.
Qed.

(** ** Option values *)

Definition all_canonical (l : list node) (s : registry) : Prop := Forall (canonical s) l.
Lemma all_canonical_grows l s s' : grows s s' -> all_canonical l s -> all_canonical l s'.
Proof. intros G. apply Forall_impl. intros n. by eapply canonical_ext. Qed.

Lemma inv_step_build fl opt field lit ig : keeps inv_step (build fl opt field lit ig).
Proof. kinv keeps_build. Qed.

Lemma build_enums fl lit : forall opt field ig s v s',
  Inv s -> build fl opt field lit ig s = (Ret v, s') -> all_canonical (enums_in v) s'.
Proof.
  induction lit as [lp src arr omap IHa IHm] using literal_nested_ind.
  intros opt field ig s v s' I E. rewrite build_unfold in E.
  cbn [lit_array lit_map lit_source] in E.
  apply rbind_Ret in E as (ft & s1 & E1 & E2). apply deref_Ret in E1 as [-> _].
  destruct (t_data ft); try discriminate E2.
  assert (Hnil : forall h (k : N -> oval), (forall a, enums_in (k a) = []) ->
     (a <~ alloc ;; ret (k a)) h = (Ret v, s') -> all_canonical (enums_in v) s').
  { intros h k Hk H. rewrite rbind_alloc in H. injection H as <- <-. rewrite Hk. constructor. }
  destruct (repeated && negb ig).
  { apply rbind_Ret in E2 as (vs & s2 & E2 & E3).
    rewrite rbind_alloc in E3. injection E3 as <- <-. cbn [enums_in].
    assert (H : Inv s2 /\ all_canonical (flat_map enums_in vs) s2).
    { clear Hnil. revert s vs s2 I E2. induction IHa as [|x l Hx _ IH]; intros s vs s2 I E2.
      - injection E2 as <- <-. split; [done|constructor].
      - cbn [build_array] in E2. apply rbind_Ret in E2 as (w & s3 & E3 & E4).
        apply rbind_Ret in E4 as (ws & s4 & E4 & E5). injection E5 as <- <-.
        destruct (inv_step_ret _ _ _ _ (inv_step_build _ _ _ _ _) I E3) as [I3 G3].
        destruct (IH _ _ _ I3 E4) as [I4 H4]. split; [done|]. cbn [flat_map].
        apply Forall_app. split; [|done].
        assert (G4 : grows s3 s4).
        { assert (K : keeps inv_step (build_array fl field l)).
          { clear. induction l as [|y l IHl]; cbn [build_array].
            - apply keeps_ret, inv_step_refl.
            - apply keeps_bind; [apply inv_step_trans|apply inv_step_build|]. intros.
              apply keeps_bind; [apply inv_step_trans|apply IHl|]. intros.
              apply keeps_ret, inv_step_refl. }
          eapply inv_step_ret; [exact K|exact I3|exact E4]. }
        eapply all_canonical_grows; [exact G4|]. exact (Hx _ _ _ _ _ _ I E3). }
    destruct H as [I2 H2]. eapply all_canonical_grows; [|exact H2].
    apply quiet_grows, quiet_set_next. lia. }
  destruct (String.eqb typ "bool").
  { destruct (parse_bool src); [|discriminate E2]. refine (Hnil _ _ _ E2); intros; reflexivity. }
  destruct (is_signed_type typ).
  { destruct (atoi src); [|discriminate E2]. refine (Hnil _ _ _ E2); intros; reflexivity. }
  destruct (is_unsigned_type typ).
  { destruct (parse_uint src); [|discriminate E2]. refine (Hnil _ _ _ E2); intros; reflexivity. }
  destruct (is_float_type typ).
  { destruct (fl_parse fl src); [|discriminate E2]. refine (Hnil _ _ _ E2); intros; reflexivity. }
  destruct (String.eqb typ "string"); [refine (Hnil _ _ _ E2); intros; reflexivity|].
  destruct (String.eqb typ "bytes"); [refine (Hnil _ _ _ E2); intros; reflexivity|].
  apply rbind_Ret in E2 as (ty & s2 & E2 & E3).
  assert (I2 : Inv s2).
  { eapply inv_step_ret; [|exact I|exact E2]. kinv keeps_get_type_by_name. }
  destruct ty as [[[] ta tp| | | | |]|]; try discriminate E3.
  - apply rbind_Ret in E3 as (items & s3 & E3 & E4).
    rewrite rbind_alloc in E4. injection E4 as <- <-. cbn [enums_in].
    assert (H : Inv s3 /\ all_canonical (flat_map (fun kv => enums_in kv.2) items) s3).
    { clear Hnil E2 I. revert s2 items s3 I2 E3.
      induction IHm as [|[key x] l Hx _ IH]; intros s2 items s3 I E3.
      - injection E3 as <- <-. split; [done|constructor].
      - cbn [build_items] in E3. apply rbind_Ret in E3 as (f & s4 & E4 & E5).
        assert (I4 : Inv s4).
        { eapply inv_step_ret; [|exact I|exact E4]. kinv keeps_lookup_kid. }
        destruct f as [[[] fa fp| | | | |]|]; try discriminate E5; cycle 1.
        { apply rbind_Ret in E5 as (? & ? & _ & E5). discriminate E5. }
        apply rbind_Ret in E5 as (fd & s5 & E5 & E6). apply deref_Ret in E5 as [-> _].
        destruct (t_data fd); try discriminate E6.
        apply rbind_Ret in E6 as (w & s6 & E6 & E7).
        apply rbind_Ret in E7 as (ws & s7 & E7 & E8). injection E8 as <- <-.
        destruct (inv_step_ret _ _ _ _ (inv_step_build _ _ _ _ _) I4 E6) as [I6 _].
        destruct (IH _ _ _ I6 E7) as [I7 H7]. split; [done|]. cbn [flat_map snd].
        apply Forall_app. split; [|done].
        assert (G7 : grows s6 s7).
        { assert (K : keeps inv_step (build_items fl tp l)).
          { clear. induction l as [|[y z] l IHl]; cbn [build_items].
            - apply keeps_ret, inv_step_refl.
            - apply keeps_bind; [apply inv_step_trans|kinv keeps_lookup_kid|]. intros f.
              destruct f as [[[] fa fp| | | | |]|]; try (intros s0; apply inv_step_refl); cycle 1.
              { apply keeps_bind; [apply inv_step_trans| |intros; intros s0; apply inv_step_refl].
                unfold node_name. apply keeps_bind; [apply inv_step_trans|kinv keeps_deref|]. intros; intros s0; apply inv_step_refl. }
              apply keeps_bind; [apply inv_step_trans|kinv keeps_deref|]. intros fd.
              destruct (t_data fd); try (intros s0; apply inv_step_refl).
              apply keeps_bind; [apply inv_step_trans|apply inv_step_build|]. intros.
              apply keeps_bind; [apply inv_step_trans|apply IHl|]. intros.
              apply keeps_ret, inv_step_refl. }
          eapply inv_step_ret; [exact K|exact I6|exact E7]. }
        eapply all_canonical_grows; [exact G7|]. exact (Hx _ _ _ _ _ _ I4 E6). }
    destruct H as [I3 H3]. eapply all_canonical_grows; [|exact H3].
    apply quiet_grows, quiet_set_next. lia.
  - apply rbind_Ret in E3 as (ev & s3 & E3 & E4).
    destruct ev as [[[] ea ep| | | | |]|]; try discriminate E4.
    rewrite rbind_alloc in E4. injection E4 as <- <-. cbn [enums_in].
    constructor; [|constructor].
    eapply canonical_ext; [apply quiet_grows, quiet_set_next|].
    2: by eapply lookup_kid_canonical. lia.
Qed.

(** ** Iterators *)

Lemma pick_kind_canonical sel k b s n s' :
  Inv s -> pick_kind sel k b s = (Ret (Some n), s') -> canonical s' n.
Proof.
  intros I E. unfold pick_kind in E. destruct (sel (t_data b.2)); [|discriminate E].
  apply rbind_Ret in E as (m & s1 & E1 & E2). injection E2 as <- <-. by eapply wrap_as_canonical.
Qed.
Lemma pick_type_canonical b s n s' :
  Inv s -> pick_type b s = (Ret (Some n), s') -> canonical s' n.
Proof.
  intros I E. unfold pick_type in E. destruct (t_data b.2); try discriminate E;
    try destruct is_extend; try discriminate E;
    apply rbind_Ret in E as (m & s1 & E1 & E2); injection E2 as <- <-; by eapply wrap_as_canonical.
Qed.

Lemma kth_node_iterator k sq C c body s n s' :
  node_iterator sq -> (forall c x, client Loads (body c x)) ->
  Inv s -> kth_of_loop k sq C c body s = (Ret (Some n), s') -> canonical s' n.
Proof.
  intros Hsq Hb I E.
  assert (Hg : forall (x : node) s s', grows s s' -> canonical s x -> canonical s' x)
    by (intros x s0 s1; eapply canonical_ext).
  destruct Hsq;
    (eapply (kth_iter_kids (fun n s => canonical s n)) in E; [apply E|exact Hg| | |exact Hb|exact I];
     [intros b s0 y s1; first [apply pick_kind_canonical|apply pick_type_canonical]
     |intros b; first [kinv keeps_pick_kind|kinv keeps_pick_type]]).
Qed.

Definition handed_opt (o : option node) (s : registry) : Prop :=
  forall n, o = Some n -> handed n s.
Lemma pick_any_handed cn b s o s' :
  Inv s -> pick_any cn b s = (Ret (Some o), s') -> handed_opt o s'.
Proof.
  intros I E n ->. unfold pick_any in E. destruct (is_option (t_data b.2)).
  - apply rbind_Ret in E as (cl & s1 & _ & E). apply rbind_Ret in E as (op & s2 & _ & E).
    injection E as <- <-. by right; left.
  - apply rbind_Ret in E as (w & s1 & E1 & E2). injection E2 as -> <-.
    left. by eapply wrap_canonical.
Qed.
Lemma kth_everything k sq C c body s o s' :
  everything_iterator sq -> (forall c x, client Loads (body c x)) ->
  Inv s -> kth_of_loop k sq C c body s = (Ret (Some o), s') -> handed_opt o s'.
Proof.
  intros Hsq Hb I E.
  assert (Hg : forall (x : option node) s s', grows s s' -> handed_opt x s -> handed_opt x s').
  { intros x s0 s1 G H n Hn. eapply handed_grows; eauto. }
  destruct Hsq;
    (eapply (kth_iter_kids handed_opt) in E; [apply E|exact Hg| | |exact Hb|exact I];
     [intros b s0 y s1; apply pick_any_handed|intros b; kinv keeps_pick_any]).
Qed.

Lemma kth_hierarchy k fuel C body : (forall c x, client Loads (body c x)) ->
  forall o c i r s r' s',
  Inv s -> (forall n, o = Some n -> i <> 0 -> canonical s n) ->
  (forall n, r = Some n -> canonical s n) -> (i <= S k \/ is_Some r) ->
  hierarchy_from fuel o (C * nat * option node)%type (c, i, r)
    (fun st x => '(c', go) <~ body st.1.1 x ;;
       ret ((c', S st.1.2, if Nat.eqb st.1.2 (S k) then Some x else st.2), go)) s
  = (Ret r', s') -> forall n, r'.2 = Some n -> canonical s' n.
Proof.
  intros Hb. induction fuel as [|fuel IH]; intros o c i r s r' s' I Ho Hr Hi E;
    destruct o as [x|]; cbn [hierarchy_from] in E; try discriminate E;
    try (injection E as <- <-; exact Hr).
  apply rbind_Ret in E as ([st go] & s1 & E1 & E2).
  apply rbind_Ret in E1 as ([c' go'] & s2 & E1 & E3). cbn in E1, E3. injection E3 as <- <- <-.
  destruct (inv_step_ret _ _ _ _ (client_inv_step _ _ (Hb _ _)) I E1) as [I2 G2].
  set (r2 := if Nat.eqb i (S k) then Some x else r) in *.
  assert (Hr2 : forall n, r2 = Some n -> canonical s2 n).
  { intros n. unfold r2. destruct (Nat.eqb i (S k)) eqn:Hk.
    - apply Nat.eqb_eq in Hk. intros [= <-]. eapply canonical_ext; [exact G2|].
      apply Ho; [done|lia].
    - intros Hn. eapply canonical_ext; [exact G2|]. by apply Hr. }
  destruct go'; [|injection E2 as <- <-; exact Hr2].
  apply rbind_Ret in E2 as (par & s3 & E2 & E4).
  destruct (inv_step_ret _ _ _ _ (ltac:(kinv keeps_node_parent) : keeps inv_step (node_parent x)) I2 E2) as [I3 G3].
  eapply IH; [exact I3| | | |exact E4].
  - intros n -> _. exact (parent_canonical _ _ _ _ I2 E2).
  - intros n Hn. eapply canonical_ext; [exact G3|]. by apply Hr2.
  - unfold r2. destruct (Nat.eqb i (S k)) eqn:Hk; [right; eauto|].
    apply Nat.eqb_neq in Hk. destruct Hi as [Hi|Hi]; [left; lia|by right].
Qed.

(** ** All routes *)

Lemma route_handed m s n s' : route m -> Inv s -> m s = (Ret (Some n), s') -> handed n s'.
Proof.
  intros Hm I E. destruct Hm.
  all: try (left; first [eapply lookup_kid_canonical; eassumption
                        |eapply lookup_type_canonical; eassumption]).
  - left. unfold node_by_full_name in E. rewrite rbind_get in E. by eapply wrap_canonical.
  - left. exact (parent_canonical _ _ _ _ I E).
  - left. exact (node_file_canonical _ _ _ _ I E).
  - by destruct (field_type_handed _ _ _ _ _ I E) as (_ & H & _).
  - apply rbind_Ret in E as (t & s1 & E1 & E2). injection E2 as Ht <-.
    destruct t as [t|]; [|discriminate Ht].
    destruct (field_type_handed _ _ _ _ _ I E1) as (_ & _ & H). by apply H.
  - unfold branch_type in E. apply rbind_Ret in E as (t & s1 & E1 & E2).
    apply deref_Ret in E1 as [-> Ht]. destruct (t_data t) eqn:Hd; try discriminate E2.
    apply elem_node_handed. eapply get_type_handed; [exact I|exact Ht| |exact E2]. by rewrite Hd.
  - apply rbind_Ret in E as ([b x] & s1 & E1 & E2). cbn in E2. injection E2 as -> <-.
    unfold method_input in E1. apply rbind_Ret in E1 as (t & s2 & E1 & E2).
    apply deref_Ret in E1 as [-> Ht]. destruct (t_data t) eqn:Hd; try discriminate E2.
    left. eapply method_type_handed; [exact I|exact Ht|eauto 10|].
    apply rbind_Ret in E2 as (ty & s3 & E2 & E3). apply rbind_Ret in E3 as (x & s4 & E3 & E4).
    injection E4 as _ <- <-. rewrite (rbind_val _ _ _ _ _ E2), (rbind_val _ _ _ _ _ E3). done.
  - apply rbind_Ret in E as ([b x] & s1 & E1 & E2). cbn in E2. injection E2 as -> <-.
    unfold method_output in E1. apply rbind_Ret in E1 as (t & s2 & E1 & E2).
    apply deref_Ret in E1 as [-> Ht]. destruct (t_data t) eqn:Hd; try discriminate E2.
    left. eapply method_type_handed; [exact I|exact Ht|eauto 10|].
    apply rbind_Ret in E2 as (ty & s3 & E2 & E3). apply rbind_Ret in E3 as (x & s4 & E3 & E4).
    injection E4 as _ <- <-. rewrite (rbind_val _ _ _ _ _ E2), (rbind_val _ _ _ _ _ E3). done.
  - unfold just in E. apply rbind_Ret in E as (x & s1 & E1 & E2). injection E2 as -> <-.
    exact (map_value_handed _ _ _ _ I E1).
  - left. eapply kth_node_iterator; eassumption.
  - apply rbind_Ret in E as (o & s1 & E1 & E2). injection E2 as Ho <-.
    destruct o as [o|]; [|discriminate Ho]. cbn in Ho. subst o.
    exact (kth_everything _ _ _ _ _ _ _ _ H H0 I E1 n eq_refl).
  - left. unfold kth_of_loop in E. apply rbind_Ret in E as (r & s1 & E1 & E2).
    injection E2 as Hr <-. unfold node_hierarchy in E1.
    eapply kth_hierarchy; [exact H|exact I| | | |exact E1|exact Hr]; try done.
    left. lia.
  - apply rbind_Ret in E as (v & s1 & E1 & E2). injection E2 as Hk <-.
    left. unfold option_value in E1. apply rbind_Ret in E1 as (t & s2 & E1 & E3).
    apply deref_Ret in E1 as [-> _]. destruct (t_data t); try discriminate E3.
    apply build_enums in E3; [|done]. by eapply (Forall_lookup_1 _ _ _ _ E3).
Qed.

Lemma kth_client md {A} k (sq : seq A) C c body :
  api_seq sq -> (forall c x, client md (body c x)) -> client md (kth_of_loop k sq C c body).
Proof.
  intros Hsq Hb. unfold kth_of_loop. apply cl_bind; [|intros; apply cl_ret].
  apply cl_loop; [done|]. intros st x. apply cl_bind; [apply Hb|]. intros [c' go]. apply cl_ret.
Qed.
Lemma node_iterator_seq sq : node_iterator sq -> api_seq sq.
Proof. destruct 1; constructor. Qed.
Lemma everything_iterator_seq sq : everything_iterator sq -> api_seq sq.
Proof. destruct 1; constructor. Qed.
Lemma route_client m : route m -> client Loads m.
Proof.
  destruct 1; try (apply cl_api; constructor).
  all: unfold just; try (apply cl_bind; [apply cl_api; constructor|intros; apply cl_ret]).
  - apply kth_client; [by apply node_iterator_seq|done].
  - apply cl_bind; [|intros; apply cl_ret].
    apply kth_client; [by apply everything_iterator_seq|done].
  - apply kth_client; [constructor|done].
Qed.
Lemma source_client m : source m -> client Loads m.
Proof.
  destruct 1 as [m Hm|e fuel path He]; [by apply route_client|].
  apply cl_bind; [by apply cl_proto|]. intros. apply cl_ret.
Qed.

(** ** New nodes have new identities *)

Definition new_ids (s s' : registry) : Prop :=
  Inv s -> Inv s' /\ grows s s' /\
  forall x, stored s' x -> stored s x \/ addr x = None \/ exists a, addr x = Some a /\ (next s <= a)%N.

Lemma new_ids_refl s : new_ids s s.
Proof. intros I. split; [done|]. split; [apply grows_refl|]. auto. Qed.
Lemma new_ids_trans s1 s2 s3 : new_ids s1 s2 -> new_ids s2 s3 -> new_ids s1 s3.
Proof.
  intros A B I. destruct (A I) as (I2 & G2 & H2). destruct (B I2) as (I3 & G3 & H3).
  split; [done|]. split; [by eapply grows_trans|]. intros x Hx.
  destruct (H3 x Hx) as [H|[H|(a & Ha & Hl)]]; [by apply H2|by right; left|].
  right; right. exists a. split; [done|]. pose proof (ext_next _ _ _ G2). lia.
Qed.
Lemma new_ids_same {A} (m : R A) :
  keeps inv_step m -> (forall s, cache (m s).2 = cache s /\ ftcache (m s).2 = ftcache s) ->
  keeps new_ids m.
Proof.
  intros K H s I. destruct (K s I) as [I' G]. split; [done|]. split; [done|].
  intros x Hx. left. destruct (H s) as [Hc Hf]. unfold stored in *. by rewrite Hc, Hf in Hx.
Qed.
Lemma new_ids_wrap v : keeps new_ids (wrap v).
Proof.
  intros s I. destruct (inv_step_wrap v s I) as [I' G]. split; [done|]. split; [done|].
  intros x Hx. destruct (cache s !! v) as [o|] eqn:Hc; [rewrite (wrap_hit _ _ _ Hc) in Hx; by left|].
  revert Hx. unfold wrap. rewrite rbind_get, Hc.
  assert (Hnone : stored (set_cache (<[v:=None]> (cache s)) s) x -> stored s x).
  { intros [[v' H]|H]; [|by right]. cbn in H.
    apply lookup_insert_Some in H as [[_ H]|[_ H]]; [done|left; eauto]. }
  destruct v as [| | |p]; try (left; by apply Hnone).
  destruct (heap_at s p) as [t|]; [|by left].
  destruct (wrap_kind (t_data t)) as [k|]; [|left; by apply Hnone].
  rewrite rbind_alloc. cbn. intros [[v' H]|H]; [|by left; right].
  cbn in H. apply lookup_insert_Some in H as [[_ [= <-]]|[_ H]]; [|left; left; eauto].
  right; right. exists (next s). split; [done|lia].
Qed.
Lemma new_ids_alloc : keeps new_ids alloc.
Proof. apply new_ids_same; [apply inv_step_alloc|done]. Qed.

Lemma new_ids_field_type a p : keeps new_ids (field_type a p).
Proof.
  intros s I. destruct (inv_step_field_type a p s I) as [I' G]. split; [done|]. split; [done|].
  intros x. rewrite field_type_unfold. destruct (ftcache s !! (a, p)) as [res|]; [by left|].
  pose proof (keeps_field_type_body new_ids new_ids_refl new_ids_trans new_ids_alloc
    new_ids_wrap p s I) as (I1 & G1 & H1).
  destruct (field_type_body p s) as [[res|m|] s1] eqn:E; cbn [snd] in *.
  - intros [H|[k H]]; [apply H1; by left|]. cbn in H.
    apply lookup_insert_Some in H as [[_ ->]|[_ H]]; [|apply H1; right; eauto].
    destruct I as [S N]. destruct (field_type_body_ret _ _ _ _ N E) as (_ & _ & _ & [H|[H|(b & Hb & Hl & _)]]).
    + apply H1. by apply canonical_stored.
    + by right; left.
    + right; right. exists b. split; [done|lia].
  - intros [H|[k H]]; [apply H1; by left|]. cbn in H.
    apply lookup_insert_Some in H as [[_ H]|[_ H]]; [done|apply H1; right; eauto].
  - apply H1.
Qed.

Lemma proto_stored e fuel path s :
  cache (proto e fuel path s).2 = cache s /\ ftcache (proto e fuel path s).2 = ftcache s.
Proof.
  unfold proto. rewrite rbind_get. destruct (protos s !! path); [done|].
  pose proof (demark_same_nodes e fuel path s) as (H1 & H2 & _). unfold rbind.
  destruct (demark_file e fuel path s) as [[[err|]|m|] s1]; cbn [snd] in *; try done.
  cbn. destruct (protos s1 !! path); done.
Qed.
Lemma new_ids_proto e fuel path : env_ok e -> keeps new_ids (proto e fuel path).
Proof.
  intros He. apply new_ids_same; [|intros; apply proto_stored].
  apply client_inv_step with (b := Loads). by apply cl_proto.
Qed.
Lemma client_new_ids b {A} (m : R A) : client b m -> keeps new_ids m.
Proof.
  apply (keeps_client new_ids new_ids_refl new_ids_trans new_ids_alloc new_ids_wrap
    new_ids_field_type).
  - intros _ e fuel path. apply new_ids_proto.
  - intros _ e fuel path He. apply keeps_proto_or_exit; [apply new_ids_refl|by apply new_ids_proto].
Qed.

(** ** Sources *)

Lemma proto_ret_next e fuel path s f s1 :
  Inv s -> env_ok e -> proto e fuel path s = (Ret (inr f), s1) ->
  exists a g, f = NAst KFile a (root g) /\ (next s <= a < next s1)%N /\
    forall x, stored s1 x -> addr x <> Some a.
Proof.
  intros [S N] He E. destruct (proto_returns_loaded _ _ _ _ _ _ He S E) as (g & t & -> & _).
  exists (next s), g. split; [done|].
  pose proof (proto_stored e fuel path s) as [H1 H2]. rewrite E in H1, H2. cbn in H1, H2.
  split.
  - split; [lia|]. unfold proto in E. rewrite rbind_get in E.
    destruct (protos s !! path); [apply (f_equal snd) in E; cbn in E; subst s1; cbn; lia|].
    pose proof (demark_same_nodes e fuel path s) as (_ & _ & H3). unfold rbind in E.
    destruct (demark_file e fuel path s) as [[[err|]|m|] s2]; cbn in *; try discriminate E.
    destruct (protos s2 !! path); [|discriminate E]. apply (f_equal snd) in E. cbn in E. subst s1. cbn. lia.
  - intros x Hx Ha.
    assert (Hx' : stored s x) by (unfold stored in *; by rewrite H1, H2 in Hx).
    pose proof (nd_lt _ N x _ Hx' Ha). lia.
Qed.

Lemma source_owned m s n s' a :
  source m -> Inv s -> m s = (Ret (Some n), s') -> addr n = Some a ->
  (a < next s')%N /\
  (stored s' n \/ ((next s <= a)%N /\ forall x, stored s' x -> addr x <> Some a)).
Proof.
  intros Hm I E Ha. pose proof (source_client m Hm) as Hc.
  destruct (inv_step_ret _ _ _ _ (client_inv_step _ _ Hc) I E) as [I' _].
  destruct Hm as [m Hm|e fuel path He].
  - pose proof (route_handed m s n s' Hm I E) as [H|[H|[H _]]]; [|congruence|].
    + apply canonical_stored in H. split; [|by left]. destruct I' as [_ N]. by eapply nd_lt.
    + split; [|by left]. destruct I' as [_ N]. by eapply nd_lt.
  - apply rbind_Ret in E as (r & s1 & E1 & E2). injection E2 as Hr <-.
    destruct r as [|f]; [discriminate Hr|]. injection Hr as ->.
    destruct (proto_ret_next _ _ _ _ _ _ I He E1) as (b & g & -> & Hb & Hx).
    injection Ha as <-. split; [lia|]. right. split; [lia|done].
Qed.

Lemma go_eq_addr n1 n2 a : go_eq n1 n2 -> addr n1 = Some a -> addr n2 = Some a.
Proof.
  destruct n1, n2; cbn; try done; intros H; try destruct H as [_ ->]; try subst; congruence.
Qed.

(** ** C19, C20, C21 *)

Lemma same_declaration_same_node m1 m2 s0 s1 s2 s3 {A} (c : R A) k1 k2 a1 a2 p :
  reachable s0 -> route m1 -> m1 s0 = (Ret (Some (NAst k1 a1 p)), s1) ->
  client Loads c -> (c s1).2 = s2 ->
  route m2 -> m2 s2 = (Ret (Some (NAst k2 a2 p)), s3) ->
  declaration_node (NAst k1 a1 p) -> declaration_node (NAst k2 a2 p) ->
  NAst k1 a1 p = NAst k2 a2 p.
Proof.
  intros Hs Hm1 E1 Hc E2 Hm2 E3 D1 D2. pose proof (reachable_Inv _ Hs) as I0.
  destruct (inv_step_ret _ _ _ _ (client_inv_step _ _ (route_client _ Hm1)) I0 E1) as [I1 G1].
  destruct (client_inv_step _ _ Hc s1 I1) as [I2 G2]. rewrite E2 in I2, G2.
  destruct (inv_step_ret _ _ _ _ (client_inv_step _ _ (route_client _ Hm2)) I2 E3) as [I3 G3].
  destruct (route_handed _ _ _ _ Hm1 I0 E1) as [C1|[C1|[_ C1]]]; [|done|done].
  destruct (route_handed _ _ _ _ Hm2 I2 E3) as [C2|[C2|[_ C2]]]; [|done|done].
  apply (canonical_ext _ _ _ _ G2) in C1. apply (canonical_ext _ _ _ _ G3) in C1.
  destruct C1 as (k & a & q & Heq & C1), C2 as (k' & a' & q' & Heq' & C2).
  injection Heq as <- <- <-. injection Heq' as <- <- <-. congruence.
Qed.

Lemma equal_nodes_same_element m1 m2 s0 s1 s2 s3 {A} (c : R A) n1 n2 :
  reachable s0 -> source m1 -> m1 s0 = (Ret (Some n1), s1) ->
  client Loads c -> (c s1).2 = s2 ->
  source m2 -> m2 s2 = (Ret (Some n2), s3) ->
  is_Some (addr n1) -> go_eq n1 n2 -> n1 = n2.
Proof.
  intros Hs Hm1 E1 Hc E2 Hm2 E3 [a Ha] Hq. pose proof (reachable_Inv _ Hs) as I0.
  destruct (inv_step_ret _ _ _ _ (client_inv_step _ _ (source_client _ Hm1)) I0 E1) as [I1 G1].
  destruct (client_new_ids _ _ Hc s1 I1) as (I2 & G2 & H2). rewrite E2 in I2, G2, H2.
  destruct (client_new_ids _ _ (source_client _ Hm2) s2 I2) as (I3 & G3 & H3).
  rewrite E3 in I3, G3, H3. cbn in I3, G3, H3.
  destruct (source_owned _ _ _ _ _ Hm1 I0 E1 Ha) as [Hl1 O1].
  destruct (source_owned _ _ _ _ _ Hm2 I2 E3 (go_eq_addr _ _ _ Hq Ha)) as [Hl2 O2].
  pose proof (go_eq_addr _ _ _ Hq Ha) as Ha2.
  pose proof (ext_next _ _ _ G2) as Hn.
  assert (Hkeep : forall s s' x, grows s s' -> stored s x -> stored s' x).
  { intros s s' x G [[v H]|[k H]]; [left; exists v; by eapply ext_cache|right; exists k; by eapply ext_ftcache]. }
  destruct O2 as [O2|[Hge _]]; [|lia].
  destruct O1 as [O1|[_ O1]].
  - destruct I3 as [_ N3]. apply (nd_inj _ N3); [|done|by eexists|congruence].
    eapply Hkeep; [exact G3|]. eapply Hkeep; eauto.
  - exfalso. destruct (H3 _ O2) as [H|[H|(b & Hb & Hge)]]; [|congruence|].
    + destruct (H2 _ H) as [H'|[H'|(b & Hb & Hge)]]; [by apply (O1 _ H')|congruence|].
      rewrite Ha2 in Hb. injection Hb as ->. lia.
    + rewrite Ha2 in Hb. injection Hb as ->. lia.
Qed.

Lemma field_type_fixed a p s o s1 {A} (c : R A) s2 :
  reachable s -> field_type a p s = (Ret o, s1) -> client Loads c -> (c s1).2 = s2 ->
  field_type a p s2 = (Ret o, s2).
Proof.
  intros Hs E Hc E2. pose proof (reachable_Inv _ Hs) as I0.
  destruct (inv_step_ret _ _ _ _ (inv_step_field_type a p) I0 E) as [I1 _].
  destruct (client_inv_step _ _ Hc s1 I1) as [_ G]. rewrite E2 in G.
  apply field_type_ret in E. rewrite field_type_unfold.
  by rewrite (ext_ftcache _ _ _ G _ _ E).
Qed.
