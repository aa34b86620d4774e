(** * Navigation: proofs about NodeParent, NodeHierarchy and NodeFile. *)
From Verif Require Export ThmIterators.

Section node_ind.
  Variable P : node -> Prop.
  Hypothesis Hast : forall k a q, P (NAst k a q).
  Hypothesis Hbuiltin : forall b, P (NBuiltin b).
  Hypothesis Hnil : forall a, P (NRepeated a None).
  Hypothesis Hrep : forall a e, P e -> P (NRepeated a (Some e)).
  Hypothesis Hoption : forall o, P (NOption o).
  Hypothesis Hvalue : forall v, P (NValue v).
  Hypothesis Hitem : forall key v, P (NMapItem key v).
  Fixpoint node_nested_ind (n : node) : P n :=
    match n with
    | NAst k a q => Hast k a q
    | NBuiltin b => Hbuiltin b
    | NRepeated a None => Hnil a
    | NRepeated a (Some e) => Hrep a e (node_nested_ind e)
    | NOption o => Hoption o
    | NValue v => Hvalue v
    | NMapItem key v => Hitem key v
    end.
End node_ind.

Lemma element_at_grows s s' p t : grows s s' -> element_at s p t -> element_at s' p t.
Proof.
  intros G (path & f & Hl & Hw). exists path, f. split; [|done]. by eapply loaded_grows.
Qed.
Lemma element_root s g t : element_at s (g, []) t -> exists path, t_data t = DProto path.
Proof. intros (path & f & (_ & _ & Hd) & Hw). injection Hw as <-. eauto. Qed.
Lemma element_back s s' p t u : grows s s' -> element_at s p u -> element_at s' p t -> element_at s p t.
Proof.
  intros G Hu Ht. pose proof (element_at_grows _ _ _ _ G Hu) as Hu'.
  apply element_heap in Ht as Ht', Hu' as Hu''. assert (t = u) as -> by congruence. done.
Qed.
Lemma heap_at_parent s g i π t : heap_at s (g, i :: π) = Some t ->
  exists u, heap_at s (g, π) = Some u /\ t_kids u !! i = Some t.
Proof.
  unfold heap_at. cbn. destruct (heap s !! g) as [f|]; [|done].
  destruct (walk f π) as [u|]; [|done]. eauto.
Qed.
Lemma parent_allowed s g i π t : Inv s -> heap_at s (g, i :: π) = Some t ->
  exists u, heap_at s (g, π) = Some u /\ t_kids u !! i = Some t /\
    allowed (t_data u) (t_data t) = true.
Proof.
  intros I Ht. destruct (heap_at_parent _ _ _ _ _ Ht) as (u & Hu & Hi).
  exists u. split; [done|]. split; [done|]. by apply (wf_kid u i t (heap_wf _ _ _ I Hu) Hi).
Qed.

(** the two kinds of nodes that point to an element *)
Lemma points_ast s p k a q : points_to s p (NAst k a q) ->
  q = p /\ exists t, element_at s p t /\
    (represented_by (t_data t) = Some k \/ (k = KOneOf /\ exists name, t_data t = DOneof name)).
Proof.
  cbn. destruct k; intros [-> (t & H)]; (split; [done|]); exists t; try (destruct H; split; [done|by left]).
  destruct H as (name & H1 & H2). split; [done|]. right. eauto.
Qed.

Lemma points_element s p n : points_to s p n -> exists t, element_at s p t.
Proof.
  induction n as [k a q|b|a|a e IH|o|v|key v] using node_nested_ind; try done.
  - intros (_ & t & H & _)%points_ast. eauto.
  - cbn. intros (_ & t & H & _). eauto.
Qed.
Lemma points_grows s s' p n : grows s s' -> points_to s p n -> points_to s' p n.
Proof.
  intros G. induction n as [k a q|b|a|a e IH|o|v|key v] using node_nested_ind; cbn; try done.
  - destruct k; intros (-> & t & H); (split; [done|]); exists t;
      try (destruct H as [H1 H2]; split; [by eapply element_at_grows|done]).
    destruct H as (nm & H1 & H2). exists nm. split; [by eapply element_at_grows|done].
  - intros (-> & t & H1 & H2). split; [done|]. exists t. split; [by eapply element_at_grows|done].
Qed.
Lemma shows_points s p n : shows s p n -> points_to s p n.
Proof.
  intros (t & k & a & H1 & H2 & ->). cbn. destruct k; (split; [done|]); try (exists t; done).
  exfalso. by destruct (t_data t).
Qed.

Lemma points_parent s p n : Inv s -> points_to s p n ->
  node_parent n s =
  match p.2 with [] => (Ret None, s) | _ :: π => wrap (VPtr (p.1, π)) s end.
Proof.
  intros I. destruct p as [g π]. cbn [fst snd]. induction n as [k a q|b|a|a e IH|o|v|key v] using node_nested_ind; try done.
  - intros (-> & t & Ht & Hk)%points_ast. destruct π as [|i π].
    + destruct (element_root _ _ _ Ht) as [path Hd]. rewrite Hd in Hk.
      destruct Hk as [Hk|(_ & name & ?)]; [|done]. by injection Hk as <-.
    + destruct (parent_allowed _ _ _ _ _ I (element_heap _ _ _ Ht)) as (u & _ & _ & Hal).
      assert (k <> KFile /\ k <> KMap) as [H1 H2].
      { destruct Hk as [Hk|(-> & _)]; [|done].
        destruct (t_data t); cbn in Hk; try discriminate Hk; try (injection Hk as <-); try done.
        by destruct (t_data u). }
      destruct k; done.
  - cbn [points_to node_parent]. intros (-> & t & Ht & Ho). destruct π as [|i π]; [|done].
    destruct (element_root _ _ _ Ht) as [path Hd]. by rewrite Hd in Ho.
Qed.

(** the container of an element outside groups has a node *)
Lemma parent_node s g i π : Inv s -> (exists t, element_at s (g, i :: π) t) ->
  outside_groups s (g, i :: π) ->
  exists n s', wrap (VPtr (g, π)) s = (Ret (Some n), s') /\ quiet s s' /\ Inv s' /\ node_at s' (g, π) n.
Proof.
  intros I [t Ht%element_heap] Hg.
  destruct (parent_allowed _ _ _ _ _ I Ht) as (u & Hu & _ & Hal).
  assert (exists k, wrap_kind (t_data u) = Some k) as [k Hk].
  { assert (Hng : forall name, t_data u <> DGroup name).
    { intros name. apply (Hg (g, π)); [cbn; apply elem_of_cons; by left|by apply heap_element]. }
    destruct (t_data u); cbn in Hal |- *; try discriminate Hal; eauto. by edestruct Hng. }
  destruct (wrap_ok s (g, π) u k (proj2 I) Hu Hk) as (a & s' & E & Q & N & Hc).
  exists (NAst k a (g, π)), s'. split; [done|]. split; [done|]. split; [by eapply quiet_Inv|].
  exists k, a. done.
Qed.
Lemma outside_parent s g i π : outside_groups s (g, i :: π) -> outside_groups s (g, π).
Proof. intros H q u name Hq. apply H. cbn. apply elem_of_cons. by right. Qed.
Lemma outside_quiet s s' p : Inv s -> quiet s s' -> outside_groups s p -> outside_groups s' p.
Proof.
  intros I Q H q u name Hq Hu. apply (H q u name Hq).
  apply heap_element; [done|]. apply element_heap in Hu. unfold heap_at in *.
  by rewrite (q_heap _ _ Q) in Hu.
Qed.

Lemma hierarchy_ok π : forall g n fuel (l0 : list node) s,
  Inv s -> points_to s (g, π) n -> outside_groups s (g, π) -> length π < fuel ->
  exists l s', hierarchy_from fuel (Some n) (list node) l0 (fun c x => ret ((c ++ [x])%list, true)) s
                 = (Ret (l0 ++ n :: l)%list, s') /\
    quiet s s' /\ Inv s' /\ Forall2 (node_at s') (containers g π) l.
Proof.
  induction π as [|i π IH]; intros g n fuel l0 s I Hn Hg Hf.
  - destruct fuel as [|fuel]; [cbn in Hf; lia|]. exists [], s.
    cbn [hierarchy_from]. rewrite rbind_ret. cbn beta iota. rewrite (rbind_val _ _ _ _ _ (points_parent _ _ _ I Hn)).
    destruct fuel; (split; [done|]); (split; [apply quiet_refl|]); split; done || constructor.
  - destruct fuel as [|fuel]; [cbn in Hf; lia|]. cbn [length] in Hf.
    destruct (parent_node s g i π I (points_element _ _ _ Hn) Hg) as (m & s1 & E & Q1 & I1 & Hm).
    pose proof (points_parent _ _ _ I Hn) as Ep. cbn [fst snd] in Ep. rewrite E in Ep.
    destruct (IH g m fuel (l0 ++ [n])%list s1) as (l & s' & El & Q2 & I2 & Hl).
    + done.
    + by apply shows_points, node_at_shows.
    + apply (outside_quiet _ _ _ I Q1). by eapply outside_parent.
    + lia.
    + exists (m :: l), s'. cbn [hierarchy_from]. rewrite rbind_ret. cbn beta iota.
      rewrite (rbind_val _ _ _ _ _ Ep), El, <- app_assoc. split; [done|].
      split; [by eapply quiet_trans|]. split; [done|]. cbn [containers]. constructor; [|done].
      eapply node_at_grows; [by apply quiet_grows|done].
Qed.

Lemma visible_outside s path g f π : Inv s -> loaded s path g f -> visible f π = true -> outside_groups s (g, π).
Proof.
  intros I (_ & Hf & _). cbn. unfold outside_groups. cbn [fst snd].
  induction π as [|i π IH]; intros Hv q u name Hq Hu Hd; cbn in Hq.
  - by apply elem_of_nil in Hq.
  - cbn in Hv. apply andb_prop in Hv as [Hv1 Hv2].
    apply elem_of_cons in Hq as [->|Hq]; [|by eapply IH].
    apply element_heap in Hu. unfold heap_at in Hu. cbn in Hu. rewrite Hf in Hu. rewrite Hu, Hd in Hv2.
    discriminate Hv2.
Qed.

(** positions *)
Lemma stamped_walk path π : forall t u, stamped path t = true -> walk t π = Some u -> stamped path u = true.
Proof.
  induction π as [|i π IH]; intros t u Hw; cbn [walk]; [by intros [= <-]|].
  destruct (walk t π) as [v|] eqn:Hv; [|done]. intros Hi.
  specialize (IH _ _ Hw Hv). destruct v as [d ps c kids]. cbn [stamped t_kids] in *.
  apply andb_prop in IH as [_ IH]. rewrite List.forallb_forall in IH.
  apply IH, elem_of_list_In. by eapply elem_of_list_lookup_2.
Qed.
Lemma element_stamp s path p t : Inv s -> element_of s path p t -> p.2 <> [] -> p_file (t_pos t) = path.
Proof.
  intros [S _] (f & (Hp & Hf & Hd) & Hw) Hne.
  destruct (sc_heap _ S _ _ Hf) as (path' & els & -> & _ & Hst).
  injection Hd as ->. destruct p as [g π]. cbn [fst snd] in *.
  destruct π as [|i π] using rev_ind; [done|]. rewrite walk_snoc in Hw. cbn [t_kids file_tree] in Hw.
  destruct (els !! i) as [k|] eqn:Hk; [|done].
  assert (Hsk : stamped path k = true).
  { rewrite List.forallb_forall in Hst. apply Hst, elem_of_list_In. by eapply elem_of_list_lookup_2. }
  pose proof (stamped_walk _ _ _ _ Hsk Hw) as H. destruct t as [d ps c kids]. cbn in H |- *.
  apply andb_prop in H as [H _]. by apply String.eqb_eq in H.
Qed.

Lemma points_pos s path p t n : Inv s -> points_to s p n -> element_of s path p t ->
  node_pos n s = (Ret (match p.2 with [] => mkPos path 0 1 0 | _ => t_pos t end), s).
Proof.
  intros I Hp Ht. assert (Hh : heap_at s p = Some t) by (apply element_heap; by exists path).
  revert Hp. induction n as [k a q|b|a|a e IH|o|v|key v] using node_nested_ind; try done.
  - intros (-> & u & Hu & Hk)%points_ast. apply element_heap in Hu as Hu'.
    assert (u = t) as -> by congruence.
    destruct p as [g [|i π]]; cbn [snd].
    + destruct Ht as (f & (_ & _ & Hd) & Hw). injection Hw as ->. rewrite Hd in Hk.
      destruct Hk as [[= <-]|(_ & nm & ?)]; [|done]. cbn [node_pos].
      by rewrite (rbind_val _ _ _ _ _ (deref_ok _ _ _ Hh)), Hd.
    + destruct (parent_allowed _ _ _ _ _ I Hh) as (v & _ & _ & Hal).
      assert (k <> KFile) as H1.
      { destruct Hk as [Hk|(-> & _)]; [|done].
        destruct (t_data t); cbn in Hk; try discriminate Hk; try (injection Hk as <-); try done.
        by destruct (t_data v). }
      destruct k; try done; cbn [node_pos]; by rewrite (rbind_val _ _ _ _ _ (deref_ok _ _ _ Hh)).
  - cbn [points_to node_pos]. intros (-> & u & Hu & Ho). rewrite (rbind_val _ _ _ _ _ (deref_ok _ _ _ Hh)).
    destruct p as [g [|i π]]; [|done].
    destruct (element_root _ _ _ Hu) as [pth Hd]. by rewrite Hd in Ho.
Qed.

Lemma node_file_ok s path p t n : Inv s -> points_to s p n -> element_of s path p t ->
  exists m s', node_file n s = (Ret (Some m), s') /\ quiet s s' /\ Inv s' /\ node_at s' (root p.1) m.
Proof.
  intros I Hp Ht. unfold node_file. rewrite (rbind_val _ _ _ _ _ (points_pos _ _ _ _ _ I Hp Ht)), rbind_get.
  assert (p_file (match p.2 with [] => mkPos path 0 1 0 | _ => t_pos t end) = path) as ->.
  { destruct p as [g [|i π]]; cbn [snd]; [done|]. by eapply element_stamp. }
  destruct Ht as (f & (Hpr & Hf & Hd) & Hw). rewrite Hpr.
  assert (Hr : heap_at s (root p.1) = Some f) by (unfold heap_at, root; cbn; by rewrite Hf).
  assert (Hk : wrap_kind (t_data f) = Some KFile) by (by rewrite Hd).
  destruct (wrap_as_ok KFile _ _ _ I Hr Hk) as (a & s' & E & Q & I' & Hc & _).
  exists (NAst KFile a (root p.1)), s'. rewrite (rbind_val _ _ _ _ _ E). split; [done|]. split; [done|].
  split; [done|]. exists KFile, a. done.
Qed.
