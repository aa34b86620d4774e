(** * What API calls hand out. *)
From Verif Require Export Loops.

Lemma new_option_ret scope class q s o s' :
  new_option scope class q s = (Ret o, s') ->
  o_proto o = q /\ o_class o = class /\ exists t, heap_at s q = Some t /\ an_option (t_data t) = true.
Proof.
  unfold new_option. intros E. apply rbind_Ret in E as (t & s1 & E1 & E).
  apply deref_Ret in E1 as [-> Ht]. destruct (t_data t) eqn:Hd; try discriminate E.
  apply rbind_Ret in E as ([nm ok] & s2 & _ & E). apply rbind_Ret in E as ([f|] & s3 & _ & E); [|discriminate E].
  rewrite rbind_alloc in E. unfold ret in E. injection E as <- _. cbn. split; [done|]. split; [done|].
  exists t. by rewrite Hd.
Qed.
Lemma heap_at_grows_back s s' p t : grows s s' -> heap_at s p = Some t -> heap_at s' p = Some t.
Proof. intros G. by apply (ext_heap_at _ _ _ _ _ G). Qed.
Lemma inv_pick_any cn b : keeps inv_step (pick_any cn b).
Proof. kinv keeps_pick_any. Qed.
Lemma inv_new_option sc cl q : keeps inv_step (new_option sc cl q).
Proof. kinv keeps_new_option. Qed.
Lemma inv_option_class cn : keeps inv_step (option_class cn).
Proof. kinv keeps_option_class. Qed.
Lemma option_points s q o t : Inv s -> heap_at s q = Some t -> an_option (t_data t) = true ->
  o_proto o = q -> points_to s q (NOption o).
Proof. intros I Ht Ho Hq. split; [done|]. exists t. split; [by apply heap_element|done]. Qed.
Lemma wrap_option_points q cl s o s' : Inv s -> wrap_option q cl s = (Ret o, s') ->
  points_to s' q (NOption o).
Proof.
  intros I E. unfold wrap_option in E. rewrite rbind_get in E.
  destruct (new_option_ret _ _ _ _ _ _ E) as (H1 & _ & t & Ht & Hop).
  destruct (inv_step_ret _ _ _ _ (inv_new_option _ _ _) I E) as [I2 G2].
  eapply option_points; [exact I2|by eapply heap_at_grows_back|done|done].
Qed.

Lemma canonical_points s n : Inv s -> canonical s n -> exists p, points_to s p n.
Proof.
  intros I (k & a & p & -> & Hc). exists p. apply shows_points, node_at_shows; [done|]. by exists k, a.
Qed.
Lemma canonical_handed s n : Inv s -> canonical s n -> handed_out s n.
Proof. intros I H. destruct (canonical_points _ _ I H) as [p Hp]. by eapply ho_element. Qed.
Lemma elem_handed s n : Inv s -> elem_node s n -> handed_out s n.
Proof. intros I [[b ->]|[H _]]; [constructor|by apply canonical_handed]. Qed.
Lemma shape_handed s p n : Inv s -> type_shape s p n ->
  handed_out s n /\ forall m, element_type (Some n) = Some m -> handed_out s m.
Proof.
  intros I (t & Ht & H). pose proof (heap_element _ _ _ I Ht) as Hel.
  destruct (t_data t) as [| | | | | | |nm ty sq [] op| | | | | | | | | | |] eqn:Hd; try done.
  - destruct H as (a & o & -> & Ho). destruct o as [m|].
    + specialize (Ho m eq_refl). split.
      * destruct Ho as [[b ->]|[Hc _]]; [constructor|].
        destruct (canonical_points _ _ I Hc) as [q Hq]. by apply (ho_element _ q).
      * cbn. intros m' [= <-]. by apply elem_handed.
    + split; [constructor|]. done.
  - assert (handed_out s n) by (by apply elem_handed). split; [done|].
    destruct H as [[b ->]|[(k & b & q & -> & _) _]]; by intros m [= <-].
  - destruct H as [a ->]. assert (handed_out s (NAst KOneOf a p)).
    { apply (ho_element _ p). split; [done|]. eauto. }
    split; [done|]. by intros m [= <-].
  - destruct H as [a ->]. assert (handed_out s (NAst KMap a p)) by (by econstructor).
    split; [done|]. by intros m [= <-].
Qed.

Definition handed_opt_out (o : option node) (s : registry) : Prop :=
  forall n, o = Some n -> exists p, points_to s p n.
Lemma pick_any_out cn b s o s' :
  Inv s -> pick_any cn b s = (Ret (Some o), s') -> handed_opt_out o s'.
Proof.
  intros I E n ->. pose proof (inv_step_ret _ _ _ _ (inv_pick_any cn b) I E) as [I' _].
  unfold pick_any in E. destruct (is_option (t_data b.2)).
  - apply rbind_Ret in E as (cl & s1 & E1 & E). apply rbind_Ret in E as (op & s2 & E2 & E).
    destruct (inv_step_ret _ _ _ _ (inv_option_class cn) I E1) as [I1 G1].
    injection E as <- <-. exists b.1. by eapply wrap_option_points.
  - apply rbind_Ret in E as (w & s1 & E1 & E2). injection E2 as -> <-.
    apply canonical_points; [done|]. exact (wrap_canonical _ _ _ _ I E1).
Qed.
Lemma kth_everything_out k sq C c body s o s' :
  everything_iterator sq -> (forall c x, client Loads (body c x)) ->
  Inv s -> kth_of_loop k sq C c body s = (Ret (Some o), s') -> handed_opt_out o s'.
Proof.
  intros Hsq Hb I E.
  assert (Hg : forall (x : option node) s s', grows s s' -> handed_opt_out x s -> handed_opt_out x s').
  { intros x s0 s1 G H n Hn. destruct (H n Hn) as [p Hp]. exists p. by eapply points_grows. }
  destruct Hsq;
    (eapply (kth_iter_kids handed_opt_out) in E; [apply E|exact Hg| | |exact Hb|exact I];
     [intros b s0 y s1; apply pick_any_out|intros b; apply inv_pick_any]).
Qed.

Lemma route_out m s n s' : route m -> Inv s -> m s = (Ret (Some n), s') -> handed_out s' n.
Proof.
  intros Hm I E. pose proof (inv_step_ret _ _ _ _ (client_inv_step _ _ (route_client _ Hm)) I E) as [I' _].
  destruct (route_handed _ _ _ _ Hm I E) as [H|[Ha|[Hst Hd]]].
  - by apply canonical_handed.
  - destruct Hm.
    all: try (apply lookup_kid_canonical in E; [|done]; destruct E as (? & ? & ? & -> & _); discriminate Ha).
    all: try (apply lookup_type_canonical in E; [|done]; destruct E as (? & ? & ? & -> & _); discriminate Ha).
    + unfold node_by_full_name in E. rewrite rbind_get in E. apply wrap_canonical in E; [|done].
      by apply canonical_handed.
    + apply canonical_handed; [done|]. exact (parent_canonical _ _ _ _ I E).
    + apply canonical_handed; [done|]. exact (node_file_canonical _ _ _ _ I E).
    + pose proof (field_type_ret _ _ _ _ _ E) as Hc. destruct I' as [S' N'].
      exact (proj1 (shape_handed s' p n (conj S' N') (nd_ftcache _ N' _ _ _ Hc))).
    + apply rbind_Ret in E as (t & s1 & E1 & E2). injection E2 as Ht <-.
      destruct t as [t|]; [|discriminate Ht].
      pose proof (field_type_ret _ _ _ _ _ E1) as Hc. destruct I' as [S' N'].
      exact (proj2 (shape_handed s1 p t (conj S' N') (nd_ftcache _ N' _ _ _ Hc)) _ Ht).
    + unfold branch_type in E. apply rbind_Ret in E as (t & s1 & E1 & E2).
      apply deref_Ret in E1 as [-> Ht]. destruct (t_data t) eqn:Hd; try discriminate E2.
      apply elem_handed; [done|]. eapply get_type_handed; [exact I|exact Ht| |exact E2]. by rewrite Hd.
    + apply rbind_Ret in E as ([b x] & s1 & E1 & E2). cbn in E2. injection E2 as -> <-.
      unfold method_input in E1. apply rbind_Ret in E1 as (t & s2 & E1 & E2).
      apply deref_Ret in E1 as [-> Ht]. destruct (t_data t) eqn:Hd; try discriminate E2.
      apply rbind_Ret in E2 as (ty & s3 & E2 & E3). apply rbind_Ret in E3 as (y & s4 & E3 & E4).
      injection E4 as _ <- <-. apply assert_kind_ret in E3 as (_ & _ & ? & ? & ->). discriminate Ha.
    + apply rbind_Ret in E as ([b x] & s1 & E1 & E2). cbn in E2. injection E2 as -> <-.
      unfold method_output in E1. apply rbind_Ret in E1 as (t & s2 & E1 & E2).
      apply deref_Ret in E1 as [-> Ht]. destruct (t_data t) eqn:Hd; try discriminate E2.
      apply rbind_Ret in E2 as (ty & s3 & E2 & E3). apply rbind_Ret in E3 as (y & s4 & E3 & E4).
      injection E4 as _ <- <-. apply assert_kind_ret in E3 as (_ & _ & ? & ? & ->). discriminate Ha.
    + unfold just in E. apply rbind_Ret in E as (x & s1 & E1 & E2). injection E2 as -> <-.
      unfold map_value in E1. apply rbind_Ret in E1 as (t & s2 & E1 & E2).
      apply deref_Ret in E1 as [-> _]. destruct (t_data t); try discriminate E2.
      destruct (builtin_type typ) as [b|]; [injection E2 as <- _; constructor|].
      rewrite rbind_get in E2. destruct (names s !! _) as [obj|]; [|discriminate E2].
      apply rbind_Ret in E2 as (u & s3 & E2 & E3). apply deref_Ret in E2 as [-> _].
      destruct (t_data u); try discriminate E3;
        apply wrap_as_canonical in E3 as [_ [? ->]]; try done; discriminate Ha.
    + apply canonical_handed; [done|]. exact (kth_node_iterator _ _ _ _ _ _ _ _ H H0 I E).
    + apply rbind_Ret in E as (o & s1 & E1 & E2). injection E2 as Ho <-.
      destruct o as [o|]; [|discriminate Ho]. cbn in Ho. subst o.
      destruct (kth_everything_out _ _ _ _ _ _ _ _ H H0 I E1 n eq_refl) as [p Hp]. by eapply ho_element.
    + unfold kth_of_loop in E. apply rbind_Ret in E as (r & s1 & E1 & E2).
      injection E2 as Hr <-. unfold node_hierarchy in E1. apply canonical_handed; [done|].
      eapply kth_hierarchy; [exact H|exact I| | | |exact E1|exact Hr]; try done. left. lia.
    + apply rbind_Ret in E as (v & s1 & E1 & E2). injection E2 as Hk <-.
      unfold option_value in E1. apply rbind_Ret in E1 as (t & s2 & E1 & E3).
      apply deref_Ret in E1 as [-> _]. destruct (t_data t); try discriminate E3.
      apply build_enums in E3; [|done]. apply canonical_handed; [done|]. exact (Forall_lookup_1 _ _ _ _ E3 Hk).
  - destruct Hst as [[v Hc]|[[a p] Hc]]; destruct I' as [S' N'].
    + destruct (nd_cache _ N' _ _ Hc) as (p & k & a & t & -> & -> & Ht & Hk).
      apply canonical_handed; [done|]. by exists k, a, p.
    + exact (proj1 (shape_handed s' p n (conj S' N') (nd_ftcache _ N' _ _ _ Hc))).
Qed.
Lemma source_out m s n s' : source m -> Inv s -> m s = (Ret (Some n), s') -> handed_out s' n.
Proof.
  intros Hm I E. destruct Hm as [m Hm|e fuel path He]; [by eapply route_out|].
  apply rbind_Ret in E as (r & s1 & E1 & E2). injection E2 as Hr <-.
  destruct r as [|f]; [discriminate Hr|]. injection Hr as ->. destruct I as [S N].
  destruct (proto_returns_loaded _ _ _ _ _ _ He S E1) as (g & t & -> & Hl & _).
  apply (ho_element _ (root g)). split; [done|]. exists t. split; [exists path, t; done|].
  destruct Hl as (_ & _ & ->). done.
Qed.
Lemma handed_out_grows s s' n : grows s s' -> handed_out s n -> handed_out s' n.
Proof.
  intros G [p m H|a p t nm kt vt num H1 H2|b|a b|a]; try constructor.
  - eapply ho_element. by eapply points_grows.
  - econstructor; [by eapply element_at_grows|done].
Qed.
