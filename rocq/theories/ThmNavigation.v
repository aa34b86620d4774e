(** * Theorems on navigation: C23 - C27. *)
From Verif Require Export ThmIdentity ValueFacts.

Lemma route_node m s n k a p s' : reachable s -> route m -> m s = (Ret (Some n), s') ->
  n = NAst k a p -> declaration_node n ->
  reachable s' /\ Inv s' /\ node_at s' p n.
Proof.
  intros Hs Hm E -> Hd. pose proof (reachable_Inv _ Hs) as I0.
  destruct (inv_step_ret _ _ _ _ (client_inv_step _ _ (route_client _ Hm)) I0 E) as [I1 _].
  split; [by eapply client_reachable; [|apply route_client|]|]. split; [done|].
  destruct (route_handed _ _ _ _ Hm I0 E) as [H|[H|[_ H]]]; [|done|done].
  destruct H as (k' & a' & p' & Heq & Hc). injection Heq as <- <- <-. by exists k, a.
Qed.
Lemma client_step {A} (c : R A) s : client Loads c -> Inv s -> Inv (c s).2 /\ grows s (c s).2.
Proof. intros Hc I. by apply (client_inv_step _ _ Hc s I). Qed.
Lemma node_at_element s p n : Inv s -> node_at s p n -> exists t, element_at s p t.
Proof. intros I H. apply node_at_shows in H; [|done]. destruct H as (t & ? & ? & H & _). eauto. Qed.

(** The parent of a node of a child is the node of the container. *)
Lemma parent_of_child s p i n m : Inv s -> points_to s (child p i) n -> node_at s p m ->
  node_parent n s = (Ret (Some m), s).
Proof.
  intros I Hn (k & a & -> & Hc). destruct p as [g π].
  rewrite (points_parent _ _ _ I Hn). cbn [child fst snd]. exact (wrap_hit _ _ _ Hc).
Qed.
Lemma children_child sel p t q : q ∈ children sel p t -> exists i, q = child p i.
Proof.
  unfold children. intros (b & -> & Hb)%elem_of_list_fmap.
  apply elem_of_list_In, filter_In in Hb as [Hb _]. apply elem_of_list_In, elem_of_list_lookup in Hb as [i Hi].
  apply kids_at_lookup in Hi as (k & -> & _). by exists i.
Qed.
Lemma take_children k sel p t q : q ∈ take k (children sel p t) -> exists i, q = child p i.
Proof. intros H. apply (children_child sel p t). apply elem_of_list_lookup in H as [i Hi].
  apply lookup_take_Some in Hi as [Hi _]. by eapply elem_of_list_lookup_2. Qed.

(** ** C24 *)

(** Let [NAst k a p] be the node of a container, obtained by any route.  Whatever happens later, every
    node [n] a loop over one of the container's iterators sees has that node as its NodeParent, for
    ever. *)
Theorem C24_parent_of_child {A B C} m0 s0 s1 (c1 : R A) (c2 : R B) k a p sel sq (c : C) body c' l s3 n :
  reachable s0 -> route m0 -> m0 s0 = (Ret (Some (NAst k a p)), s1) -> declaration_node (NAst k a p) ->
  client Loads c1 -> iterates p sel sq -> (forall c x, client Loads (body c x)) ->
  sq (C * list node)%type (c, []) (recording body) (c1 s1).2 = (Ret (c', l), s3) -> n ∈ l ->
  client Loads c2 ->
  (node_parent n (c2 s3).2).1 = Ret (Some (NAst k a p)).
Proof.
  intros Hs Hm E Hd Hc1 Hit Hb El Hn Hc2.
  destruct (route_node _ _ _ _ _ _ _ Hs Hm E eq_refl Hd) as (_ & I1 & N1).
  destruct (client_step _ _ Hc1 I1) as [I2 G2].
  destruct (node_at_element _ _ _ I2 (node_at_grows _ _ _ _ G2 N1)) as [t Ht].
  destruct (loop_ok _ _ _ _ _ _ _ _ _ _ Hit I2 (element_heap _ _ _ Ht) Hb El) as (I3 & G3 & j & Hl & _).
  destruct (client_step _ _ Hc2 I3) as [I4 G4].
  apply elem_of_list_lookup in Hn as [i Hi].
  destruct (Forall2_lookup_r _ _ _ _ _ Hl Hi) as (q & Hq & Hsh).
  destruct (take_children j sel p t q) as [x ->]; [by eapply elem_of_list_lookup_2|].
  rewrite (parent_of_child _ p x n (NAst k a p) I4); [done| |].
  - eapply points_grows; [exact G4|]. by apply shows_points, node_at_shows.
  - eapply node_at_grows; [exact G4|]. eapply node_at_grows; [exact G3|]. by eapply node_at_grows.
Qed.

(** ... the same for the nodes seen by Everything ... *)
Inductive everything_of : ptr -> seq (option node) -> Prop :=
| eo_file p : everything_of p (file_everything p)
| eo_message p : everything_of p (message_everything p)
| eo_enum p : everything_of p (enum_everything p)
| eo_service p : everything_of p (service_everything p).

Lemma steps_any cn :
  steps (fun _ => true) (fun q x s => forall n, x = Some n -> points_to s q n) (pick_any cn).
Proof.
  constructor.
  - done.
  - intros b s o s' I Hb _ E. unfold pick_any in E. destruct (is_option (t_data b.2)) eqn:Ho.
    + apply rbind_Ret in E as (cl & s1 & E1 & E). apply rbind_Ret in E as (op & s2 & E2 & E).
      injection E as <- <-. eexists. split; [done|]. intros n [= <-].
      destruct (inv_step_ret _ _ _ _ (inv_option_class cn) I E1) as [I1 G1].
      unfold wrap_option in E2. rewrite rbind_get in E2.
      destruct (new_option_ret _ _ _ _ _ _ E2) as (H1 & _ & t & Ht & Hop).
      destruct (inv_step_ret _ _ _ _ (inv_new_option _ _ _) I1 E2) as [I2 G2].
      eapply option_points; [exact I2|by eapply heap_at_grows_back|done|done].
    + apply rbind_Ret in E as (w & s1 & E1 & E). injection E as <- <-. eexists. split; [done|].
      intros n ->. destruct (inv_step_ret _ _ _ _ (inv_step_wrap _) I E1) as [I1 G1].
      destruct (wrap_ret _ _ _ _ (proj2 I) E1) as (p & k & a & t & [= <-] & -> & _ & _ & Hc).
      apply shows_points, node_at_shows; [done|]. by exists k, a.
  - intros b. apply inv_pick_any.
  - intros p x s s' G H n Hx. eapply points_grows; [exact G|]. by apply H.
Qed.

Theorem C24_parent_in_everything {A B C} m0 s0 s1 (c1 : R A) (c2 : R B) k a p sq (c : C) body c' l s3 n :
  reachable s0 -> route m0 -> m0 s0 = (Ret (Some (NAst k a p)), s1) -> declaration_node (NAst k a p) ->
  client Loads c1 -> everything_of p sq -> (forall c x, client Loads (body c x)) ->
  sq (C * list (option node))%type (c, []) (recording body) (c1 s1).2 = (Ret (c', l), s3) -> Some n ∈ l ->
  client Loads c2 ->
  (node_parent n (c2 s3).2).1 = Ret (Some (NAst k a p)).
Proof.
  intros Hs Hm E Hd Hc1 Hit Hb El Hn Hc2.
  destruct (route_node _ _ _ _ _ _ _ Hs Hm E eq_refl Hd) as (_ & I1 & N1).
  destruct (client_step _ _ Hc1 I1) as [I2 G2].
  destruct (node_at_element _ _ _ I2 (node_at_grows _ _ _ _ G2 N1)) as [t Ht%element_heap].
  assert (exists cn, sq = iter_kids p (pick_any cn)) as [cn ->] by (destruct Hit; eexists; reflexivity).
  destruct (loop_iter p _ _ _ t _ c body c' l s3 (steps_any cn) I2 Ht Hb El) as (I3 & G3 & Hl & _).
  destruct (client_step _ _ Hc2 I3) as [I4 G4].
  apply elem_of_list_lookup in Hn as [i Hi].
  destruct (Forall2_lookup_r _ _ _ _ _ Hl Hi) as (q & Hq & Hsh).
  destruct (take_children (length l) (fun _ => true) p t q) as [x ->]; [by eapply elem_of_list_lookup_2|].
  rewrite (parent_of_child _ p x n (NAst k a p) I4); [done| |].
  - eapply points_grows; [exact G4|]. by apply Hsh.
  - eapply node_at_grows; [exact G4|]. eapply node_at_grows; [exact G3|]. by eapply node_at_grows.
Qed.

(** ... and for options: Registry.Options of the container and Method.Options. *)
Lemma steps_option sc cl : steps an_option (fun q x s => points_to s q (NOption x)) (pick_option sc cl).
Proof.
  constructor.
  - intros b s H. unfold pick_option. by replace (is_option (t_data b.2)) with false by (by destruct (t_data b.2)).
  - intros b s o s' I Hb Ho E. unfold pick_option in E.
    replace (is_option (t_data b.2)) with true in E by (by destruct (t_data b.2)).
    apply rbind_Ret in E as (x & s1 & E1 & E). injection E as <- <-. eexists. split; [done|].
    destruct (new_option_ret _ _ _ _ _ _ E1) as (H1 & _ & t & Ht & Hop).
    destruct (inv_step_ret _ _ _ _ (inv_new_option _ _ _) I E1) as [I2 G2].
    eapply option_points; [exact I2|by eapply heap_at_grows_back|done|done].
  - intros b. kinv keeps_pick_option.
  - intros p x s s' G H. by eapply points_grows.
Qed.
Lemma steps_method_option : steps an_option (fun q x s => points_to s q (NOption x)) pick_method_option.
Proof.
  constructor.
  - intros b s H. unfold pick_method_option. by replace (is_option (t_data b.2)) with false by (by destruct (t_data b.2)).
  - intros b s o s' I Hb Ho E. unfold pick_method_option in E.
    replace (is_option (t_data b.2)) with true in E by (by destruct (t_data b.2)).
    apply rbind_Ret in E as (cl & s0 & E0 & E).
    destruct (inv_step_ret _ _ _ _ (inv_option_class _) I E0) as [I0 G0].
    apply rbind_Ret in E as (x & s1 & E1 & E). injection E as <- <-. eexists. split; [done|].
    unfold wrap_option in E1. rewrite rbind_get in E1.
    destruct (new_option_ret _ _ _ _ _ _ E1) as (H1 & _ & t & Ht & Hop).
    destruct (inv_step_ret _ _ _ _ (inv_new_option _ _ _) I0 E1) as [I2 G2].
    eapply option_points; [exact I2|by eapply heap_at_grows_back|done|done].
  - intros b. kinv keeps_pick_method_option.
  - intros p x s s' G H. by eapply points_grows.
Qed.
(** what Registry.Options iterates over *)
Lemma options_iter k a p s sq s' : options (NAst k a p) s = (Ret sq, s') ->
  s' = s /\ exists sc cl, sq = iter_kids p (pick_option sc cl).
Proof.
  assert (H : forall sc cn s, seq_options sc cn p s = (Ret sq, s') ->
    s' = s /\ exists sc cl, sq = iter_kids p (pick_option sc cl)).
  { intros sc cn s0 E. unfold seq_options in E. apply rbind_Ret in E as (cl & s1 & E1 & E).
    injection E as <- <-. split; [|eauto]. unfold option_class in E1. rewrite rbind_get in E1.
    destruct (names s0 !! cn); [|discriminate E1]. apply rbind_Ret in E1 as (t & s2 & E1 & E2).
    apply deref_Ret in E1 as [-> _]. destruct (t_data t); try discriminate E2. by injection E2. }
  unfold options. rewrite rbind_get. destruct k; try discriminate; intros E; try (by apply H in E).
  - apply rbind_Ret in E as (pkg & s1 & E1 & E). unfold file_package in E1.
    apply rbind_Ret in E1 as (t & s2 & E1 & E2). apply deref_Ret in E1 as [-> _]. injection E2 as <- <-.
    by apply H in E.
  - apply rbind_Ret in E as (t & s1 & E1 & E). apply deref_Ret in E1 as [-> _].
    destruct (t_data t); try discriminate E; by apply H in E.
Qed.

Inductive options_of : node -> ptr -> (forall C, C -> (C -> optn -> R (C * bool)) -> R C) -> Prop :=
| oo_options n p : element_ptr n = Some p ->
    options_of n p (fun C c yield => sq <~ options n ;; sq C c yield)
| oo_method n p : element_ptr n = Some p -> options_of n p (method_options p).

Theorem C24_parent_of_option {A B C} m0 s0 s1 (c1 : R A) (c2 : R B) k a p lp (c : C) body c' l s3 o :
  reachable s0 -> route m0 -> m0 s0 = (Ret (Some (NAst k a p)), s1) -> declaration_node (NAst k a p) ->
  client Loads c1 -> options_of (NAst k a p) p lp -> (forall c x, client Loads (body c x)) ->
  lp (C * list optn)%type (c, []) (recording body) (c1 s1).2 = (Ret (c', l), s3) -> o ∈ l ->
  client Loads c2 ->
  (node_parent (NOption o) (c2 s3).2).1 = Ret (Some (NAst k a p)).
Proof.
  intros Hs Hm E Hd Hc1 Hit Hb El Hn Hc2.
  destruct (route_node _ _ _ _ _ _ _ Hs Hm E eq_refl Hd) as (_ & I1 & N1).
  destruct (client_step _ _ Hc1 I1) as [I2 G2].
  destruct (node_at_element _ _ _ I2 (node_at_grows _ _ _ _ G2 N1)) as [t Ht%element_heap].
  assert (exists pick, steps an_option (fun q x s => points_to s q (NOption x)) pick /\
    iter_kids p pick (C * list optn)%type (c, []) (recording body) (c1 s1).2 = (Ret (c', l), s3)) as (pick & Hp & El').
  { destruct Hit as [n q Hq|n q Hq].
    - apply rbind_Ret in El as (sq & s2 & E1 & E2).
      destruct n as [k' a' p'| | | | |]; try discriminate Hq; [|discriminate E1].
      injection Hq as ->. apply options_iter in E1 as (-> & sc & cl & ->). exists (pick_option sc cl).
      split; [apply steps_option|done].
    - exists pick_method_option. split; [apply steps_method_option|done]. }
  destruct (loop_iter p _ _ _ t _ c body c' l s3 Hp I2 Ht Hb El') as (I3 & G3 & Hl & _).
  destruct (client_step _ _ Hc2 I3) as [I4 G4].
  apply elem_of_list_lookup in Hn as [i Hi].
  destruct (Forall2_lookup_r _ _ _ _ _ Hl Hi) as (q & Hq & Hsh).
  destruct (take_children (length l) an_option p t q) as [x ->]; [by eapply elem_of_list_lookup_2|].
  rewrite (parent_of_child _ p x (NOption o) (NAst k a p) I4); [done| |].
  - eapply points_grows; [exact G4|]. exact Hsh.
  - eapply node_at_grows; [exact G4|]. eapply node_at_grows; [exact G3|]. by eapply node_at_grows.
Qed.

(** the field i32 and the option of the field, seen from the message *)
Definition the_message : R (option node) := node_by_full_name ".pb.Message".
Example C24_example :
  route the_message /\
  exists a s1, the_message demo_world = (Ret (Some (NAst KMessage a (1, [6]))), s1) /\
    declaration_node (NAst KMessage a (1, [6])) /\
    iterates (1, [6]) a_field (message_fields (1, [6])) /\
    everything_of (1, [6]) (message_everything (1, [6])) /\
    options_of (NAst KMessage a (1, [6])) (1, [6]) (fun C c yield => sq <~ options (NAst KMessage a (1, [6])) ;; sq C c yield) /\
    (exists c' l, length l = 10 /\
      (message_fields (1, [6]) (unit * list node)%type (tt, []) (recording (fun c _ => ret (c, true))) s1).1 = Ret (c', l)) /\
    (exists c' l, length l = 13 /\
      (message_everything (1, [6]) (unit * list (option node))%type (tt, []) (recording (fun c _ => ret (c, true))) s1).1 = Ret (c', l)) /\
    (exists c' l, length l = 1 /\
      ((sq <~ options (NAst KMessage a (1, [6])) ;; sq (unit * list optn)%type (tt, []) (recording (fun c _ => ret (c, true)))) s1).1 = Ret (c', l)).
Proof.
  split; [constructor|]. eexists _, _. split; [apply by_outcome; vm_compute; reflexivity|].
  split; [done|]. split; [constructor|]. split; [constructor|]. split; [by constructor|].
  split; [eexists _, _; split; [|vm_compute; reflexivity]; reflexivity|].
  split; eexists _, _; (split; [|vm_compute; reflexivity]; reflexivity).
Qed.

(** ** C25 *)

(** For a node of the element at [p] NodeHierarchy yields the node and then exactly the nodes of the
    containers of the element, innermost first; each is the NodeParent of the one before and the last
    one has no parent. *)
Theorem C25_hierarchy s p n fuel :
  reachable s -> points_to s p n -> outside_groups s p -> length p.2 < fuel ->
  exists l s', collect (node_hierarchy fuel n) s = (Ret (n :: l), s') /\
    Forall2 (shows s') (containers p.1 p.2) l /\
    (forall i x y, (n :: l) !! i = Some x -> (n :: l) !! S i = Some y ->
       node_parent x s' = (Ret (Some y), s')) /\
    (forall x, list.last (n :: l) = Some x -> node_parent x s' = (Ret None, s')).
Proof.
  intros Hs Hn Hg Hf. pose proof (reachable_Inv _ Hs) as I. destruct p as [g π]. cbn [fst snd] in *.
  destruct (hierarchy_ok π g n fuel [] s I Hn Hg Hf) as (l & s' & E & Q & I' & Hl).
  exists l, s'. split; [exact E|]. split; [by apply Forall2_shows|].
  apply (points_grows _ _ _ _ (quiet_grows _ _ Q)) in Hn. clear E Q Hs Hg Hf I s.
  revert n l Hn Hl. induction π as [|i π IH]; intros n l Hn Hl; cbn [containers] in Hl.
  - apply Forall2_nil_inv_l in Hl as ->. split; [by intros []|].
    intros x [= <-]. exact (points_parent _ _ _ I' Hn).
  - apply Forall2_cons_inv_l in Hl as (m & l' & Hm & Hl' & ->).
    assert (Hm' : points_to s' (g, π) m) by (by apply shows_points, node_at_shows).
    destruct (IH m l' Hm' Hl') as [IH1 IH2]. split; [|exact IH2].
    intros [|j] x y; [|apply IH1]. cbn. intros [= <-] [= <-].
    exact (parent_of_child s' (g, π) i n m I' Hn Hm).
Qed.

(** What NodeByFullName finds is not in a group, so its hierarchy ends in the file declaring it. *)
Lemma named_points s q n s1 : reachable s -> node_by_full_name q s = (Ret (Some n), s1) ->
  exists p, element_ptr n = Some p /\ points_to s1 p n /\ outside_groups s1 p /\ p.2 <> [] /\ reachable s1.
Proof.
  intros Hs E. pose proof (reachable_Inv _ Hs) as I.
  destruct (found_is_declared _ _ _ _ I E) as (path & f & t & k & a & [g π] & -> & Hp & Hl & Hw & Hq & Hk).
  cbn [fst snd] in *. exists (g, π). split; [done|].
  assert (Hc : client Loads (node_by_full_name q)) by (apply cl_api; constructor).
  assert (Hs1 : reachable s1) by (eapply client_reachable; [exact Hs|exact Hc|exact E]).
  destruct (inv_step_ret _ _ _ _ (client_inv_step _ _ Hc) I E) as [I1 G1].
  assert (Hl1 : loaded s1 path g f) by (by eapply loaded_grows).
  assert (Hv : visible f π = true /\ π <> []).
  { unfold fqn_here in Hq. rewrite Hw in Hq. destruct (own_name (t_data t)) eqn:Ho; [|done].
    destruct (visible f π); [|done]. split; [done|]. intros ->. injection Hw as <-.
    destruct Hl as (_ & _ & Hd). by rewrite Hd in Ho. }
  destruct Hv as [Hv Hne]. split; [|split; [|done]].
  - apply shows_points. exists t, k, a. split; [exists path, f; done|]. by rewrite represented_wrap.
  - exact (visible_outside _ _ _ _ _ I1 Hl1 Hv).
Qed.
Theorem C25_of_declaration s q n s1 fuel :
  reachable s -> node_by_full_name q s = (Ret (Some n), s1) ->
  exists p, element_ptr n = Some p /\ (length p.2 < fuel ->
  exists l f s2, collect (node_hierarchy fuel n) s1 = (Ret (n :: l ++ [f])%list, s2) /\
    Forall2 (shows s2) (containers p.1 p.2) (l ++ [f]) /\ shows s2 (root p.1) f).
Proof.
  intros Hs E. destruct (named_points _ _ _ _ Hs E) as ([g π] & Hp & Hn & Hg & Hne & Hs1).
  exists (g, π). split; [done|]. intros Hf. cbn [fst snd] in *.
  destruct (C25_hierarchy s1 (g, π) _ fuel Hs1 Hn Hg Hf) as (l & s2 & El & Hl2 & _).
  cbn [fst snd] in *. assert (Hlast : forall π l', π <> [] -> Forall2 (shows s2) (containers g π) l' ->
    exists l'' f', l' = (l'' ++ [f'])%list /\ shows s2 (root g) f').
  { clear. induction π as [|i π IH]; [done|]. intros l' _ H. cbn in H.
    apply Forall2_cons_inv_l in H as (m & l'' & Hm & Hl' & ->). destruct π as [|j π].
    - apply Forall2_nil_inv_l in Hl' as ->. exists [], m. done.
    - destruct (IH l'' ltac:(done) Hl') as (x & f' & -> & Hf'). exists (m :: x), f'. done. }
  destruct (Hlast π l Hne Hl2) as (l' & f' & -> & Hf'). exists l', f', s2. done.
Qed.

Example C25_example :
  let q := ".pb.Message.InnerMessage.field" in
  reachable demo_world /\
  exists n s1, node_by_full_name q demo_world = (Ret (Some n), s1) /\
    element_ptr n = Some (1, [0; 11; 6]) /\
    points_to s1 (1, [0; 11; 6]) n /\ outside_groups s1 (1, [0; 11; 6]) /\
    match collect (node_hierarchy 4 n) s1 with (Ret l, _) => length l = 4 | _ => False end.
Proof.
  intros q. pose proof demo_reachable as Hs. split; [exact Hs|].
  assert (E : exists n s1, node_by_full_name q demo_world = (Ret (Some n), s1) /\
    element_ptr n = Some (1, [0; 11; 6]) /\
    match collect (node_hierarchy 4 n) s1 with (Ret l, _) => length l = 4 | _ => False end).
  { eexists _, _. split; [apply by_outcome; vm_compute; reflexivity|]. split; [vm_compute; reflexivity|vm_compute; reflexivity]. }
  revert Hs E. generalize demo_world as s. clear. intros s Hs (n & s1 & E & Hp & Hl).
  destruct (named_points _ _ _ _ Hs E) as (p & Hp' & Hn & Hg & _).
  rewrite Hp in Hp'. injection Hp' as <-. exists n, s1. done.
Qed.

(** ** C26 *)

(** NodeFile of a node of an element is the node of the file the element is declared in ... *)
Theorem C26_node_file s p n :
  reachable s -> points_to s p n ->
  exists f s', node_file n s = (Ret (Some f), s') /\ shows s' (root p.1) f.
Proof.
  intros Hs Hn. pose proof (reachable_Inv _ Hs) as I.
  destruct (points_element _ _ _ Hn) as [t [path Ht]].
  destruct (node_file_ok _ _ _ _ _ I Hn Ht) as (m & s' & E & _ & I' & Hm).
  exists m, s'. split; [done|]. by apply node_at_shows.
Qed.

(** ... and it is the last node of NodeHierarchy, whichever is asked for first and whatever happens in
    between. *)
Theorem C26_node_file_ends_hierarchy s p n fuel l s1 {A} (c : R A) :
  reachable s -> points_to s p n -> outside_groups s p -> p.2 <> [] ->
  collect (node_hierarchy fuel n) s = (Ret l, s1) -> length p.2 < fuel -> client Loads c ->
  (node_file n (c s1).2).1 = Ret (list.last l).
Proof.
  intros Hs Hn Hg Hne E Hf Hc. pose proof (reachable_Inv _ Hs) as I.
  destruct p as [g π]. cbn [fst snd] in *.
  destruct (hierarchy_ok π g n fuel [] s I Hn Hg Hf) as (l' & s' & E' & Q & I' & Hl).
  unfold collect, node_hierarchy in E. rewrite E' in E. injection E as <- <-. cbn [app].
  destruct (client_step _ _ Hc I') as [I2 G2].
  apply (points_grows _ _ _ _ (quiet_grows _ _ Q)) in Hn. apply (points_grows _ _ _ _ G2) in Hn.
  destruct (points_element _ _ _ Hn) as [t [path Ht]].
  destruct (node_file_ok _ _ _ _ _ I2 Hn Ht) as (m & s3 & E3 & Q3 & I3 & Hm). rewrite E3. cbn [fst snd] in *.
  assert (exists f, list.last (n :: l') = Some f /\ node_at s' (root g) f) as (f & -> & Hf').
  { clear - Hne Hl. revert n l' Hl Hne. induction π as [|i π IH]; [done|]. intros n l' H _. cbn in H.
    apply Forall2_cons_inv_l in H as (x & l'' & Hx & Hl' & ->). destruct π as [|j π].
    - apply Forall2_nil_inv_l in Hl' as ->. by exists x.
    - destruct (IH x l'' Hl' ltac:(done)) as (f & Hf & Hr). by exists f. }
  apply (node_at_grows _ _ _ _ G2) in Hf'. apply (node_at_grows _ _ _ _ (quiet_grows _ _ Q3)) in Hf'.
  destruct Hf' as (k & a & -> & C1), Hm as (k' & a' & -> & C2).
  assert (Some (Some (NAst k a (root g))) = Some (Some (NAst k' a' (root g)))) as [= -> ->] by (by rewrite <- C1, <- C2).
  done.
Qed.

Example C26_example :
  exists n s1, node_by_full_name ".pb.Message.InnerMessage.field" demo_world = (Ret (Some n), s1) /\
    exists f, (node_file n s1).1 = Ret (Some f) /\ element_ptr f = Some (root 1).
Proof.
  eexists _, _. split; [apply by_outcome; vm_compute; reflexivity|].
  eexists. split; [vm_compute; reflexivity|reflexivity].
Qed.

(** ** C23 *)

(** NodeFile of any two nodes of elements of one file, and the last node of their hierarchies, are one
    and the same node, at any times (the instance of C19 for files). *)
Theorem C23_one_file_node s1 p1 n1 f1 s2 {A} (c : R A) p2 n2 f2 s3 :
  reachable s1 -> points_to s1 p1 n1 -> node_file n1 s1 = (Ret (Some f1), s2) ->
  client Loads c -> points_to (c s2).2 p2 n2 -> node_file n2 (c s2).2 = (Ret (Some f2), s3) ->
  f1 = f2 <-> p1.1 = p2.1.
Proof.
  intros Hs Hn1 E1 Hc Hn2 E2. pose proof (reachable_Inv _ Hs) as I1.
  destruct (points_element _ _ _ Hn1) as [t1 [path1 Ht1]].
  destruct (node_file_ok _ _ _ _ _ I1 Hn1 Ht1) as (m1 & x1 & E1' & Q1 & I2 & Hm1).
  rewrite E1 in E1'. injection E1' as <- <-. destruct (client_step _ _ Hc I2) as [I3 G3].
  destruct (points_element _ _ _ Hn2) as [t2 [path2 Ht2]].
  destruct (node_file_ok _ _ _ _ _ I3 Hn2 Ht2) as (m2 & x2 & E2' & Q2 & I4 & Hm2).
  rewrite E2 in E2'. injection E2' as <- <-.
  apply (node_at_grows _ _ _ _ G3) in Hm1. apply (node_at_grows _ _ _ _ (quiet_grows _ _ Q2)) in Hm1.
  destruct Hm1 as (k1 & a1 & -> & C1), Hm2 as (k2 & a2 & -> & C2). split.
  - by intros [= _ _ H].
  - intros H. rewrite H in C1 |- *. congruence.
Qed.

(** The File returned by Registry.Proto, however, is a new object every time: it is == to no node
    handed out before or afterwards, although it denotes the same AST. *)
Theorem C23_proto_file_is_fresh e fuel path s0 f s1 {A} (c : R A) m n s3 :
  reachable s0 -> env_ok e -> proto e fuel path s0 = (Ret (inr f), s1) ->
  client Loads c -> source m -> m (c s1).2 = (Ret (Some n), s3) ->
  ~ go_eq f n.
Proof.
  intros Hs He E1 Hc Hm E3 Hq. pose proof (reachable_Inv _ Hs) as I0.
  destruct (proto_ret_next _ _ _ _ _ _ I0 He E1) as (a & g & -> & Ha & Hx).
  destruct (inv_step_ret _ _ _ _ (client_inv_step _ _ (cl_proto Loads e fuel path eq_refl He)) I0 E1) as [I1 G1].
  destruct (client_new_ids _ _ Hc s1 I1) as (I2 & G2 & H2).
  destruct (client_new_ids _ _ (source_client _ Hm) _ I2) as (I3 & G3 & H3).
  rewrite E3 in I3, G3, H3. cbn [fst snd] in I3, G3, H3.
  pose proof (go_eq_addr _ _ a Hq eq_refl) as Ha2.
  destruct (source_owned _ _ _ _ _ Hm I2 E3 Ha2) as [Hl2 O2].
  pose proof (ext_next _ _ _ G2) as Hn.
  destruct O2 as [O2|[Hge _]]; [|lia].
  destruct (H3 _ O2) as [H|[H|(b & Hb & Hge)]]; [|congruence|].
  - destruct (H2 _ H) as [H'|[H'|(b & Hb & Hge)]]; [by apply (Hx _ H')|congruence|].
    rewrite Ha2 in Hb. injection Hb as ->. lia.
  - rewrite Ha2 in Hb. injection Hb as ->. lia.
Qed.
Theorem C23_proto_file_is_fresh_before e fuel path s0 f s1 {A} (c : R A) m n s3 :
  reachable s0 -> source m -> m s0 = (Ret (Some n), s1) -> client Loads c ->
  env_ok e -> proto e fuel path (c s1).2 = (Ret (inr f), s3) ->
  ~ go_eq n f.
Proof.
  intros Hs Hm E1 Hc He E3 Hq. pose proof (reachable_Inv _ Hs) as I0.
  destruct (inv_step_ret _ _ _ _ (client_inv_step _ _ (source_client _ Hm)) I0 E1) as [I1 G1].
  destruct (client_step _ _ Hc I1) as [I2 G2].
  destruct (proto_ret_next _ _ _ _ _ _ I2 He E3) as (a & g & -> & Ha & Hx).
  assert (Hn : addr n = Some a) by (destruct n as [k b p|b|b t|o|v|key v]; cbn in Hq; try done; by destruct Hq as [_ ->]).
  destruct (source_owned _ _ _ _ _ Hm I0 E1 Hn) as [Hl _]. pose proof (ext_next _ _ _ G2). lia.
Qed.

(** "Proto(path) == NodeFile(n)" for a node n of that file is false. *)
Theorem C23_proto_file_refuted :
  exists s path f s1 m n s2 nf s3 t,
    reachable s /\ proto demo_env 50 path s = (Ret (inr f), s1) /\ route m /\
    m s1 = (Ret (Some n), s2) /\ element_ptr n = Some t /\ element_ptr f = Some (root t.1) /\
    node_file n s2 = (Ret (Some nf), s3) /\ element_ptr nf = element_ptr f /\ ~ go_eq f nf.
Proof.
  exists demo_world, dat_f. eexists _, _, the_message, _, _, _, _, (1, [6]).
  split; [apply demo_reachable|]. split; [apply by_outcome; vm_compute; reflexivity|].
  split; [constructor|]. split; [apply by_outcome; vm_compute; reflexivity|].
  split; [reflexivity|]. split; [reflexivity|]. split; [apply by_outcome; vm_compute; reflexivity|].
  split; [reflexivity|]. by intros [_ ?].
Qed.

(** ** C27 *)

(** What API calls hand out is a node of an element, a map type, a builtin type or a Repeated of a
    builtin or unresolved type ... *)
Theorem C27_handed_out m s n s1 {A} (c : R A) :
  reachable s -> source m -> m s = (Ret (Some n), s1) -> client Loads c -> handed_out (c s1).2 n.
Proof.
  intros Hs Hm E Hc. pose proof (reachable_Inv _ Hs) as I.
  destruct (inv_step_ret _ _ _ _ (client_inv_step _ _ (source_client _ Hm)) I E) as [I1 _].
  eapply handed_out_grows; [apply (client_step _ _ Hc I1)|]. exact (source_out _ _ _ _ Hm I E).
Qed.

(** ... of the nodes of elements all have a parent, the node of the container, except files, whose
    parent is nil ... *)
Theorem C27_parent_of_element s p n :
  reachable s -> points_to s p n -> outside_groups s p ->
  match p.2 with
  | [] => node_parent n s = (Ret None, s)
  | _ :: π => exists c s', node_parent n s = (Ret (Some c), s') /\ shows s' (p.1, π) c
  end.
Proof.
  intros Hs Hn Hg. pose proof (reachable_Inv _ Hs) as I. pose proof (points_parent _ _ _ I Hn) as E.
  destruct p as [g [|i π]]; cbn [fst snd] in *; [done|].
  destruct (parent_node s g i π I (points_element _ _ _ Hn) Hg) as (m & s1 & E1 & Q & I1 & Hm).
  exists m, s1. rewrite E, E1. split; [done|]. by apply node_at_shows.
Qed.

(** ... members of groups have none ... *)
Theorem C27_parent_in_group s p n i π u name :
  reachable s -> points_to s p n -> p.2 = i :: π -> element_at s (p.1, π) u -> t_data u = DGroup name ->
  (node_parent n s).1 = Ret None \/ (node_parent n s).1 = Panic (PError (ENew "unsupported type *proto.Group")).
Proof.
  intros Hs Hn Hp Hu Hd. pose proof (reachable_Inv _ Hs) as I. rewrite (points_parent _ _ _ I Hn).
  destruct p as [g π']. cbn [fst snd] in *. subst π'. apply element_heap in Hu.
  destruct (cache s !! VPtr (g, π)) as [[m|]|] eqn:Hc.
  - destruct (nd_cache _ (proj2 I) _ _ Hc) as (p' & k & a & t & [= <-] & -> & Ht & Hk).
    assert (t = u) as -> by congruence. by rewrite Hd in Hk.
  - left. by rewrite (wrap_hit _ _ _ Hc).
  - right. rewrite (wrap_unsupported _ (VPtr (g, π)) Hc); [|exists u; by rewrite Hd].
    cbn [fst go_visitee]. rewrite Hu, Hd. reflexivity.
Qed.

(** ... and the other nodes panic, always. *)
Theorem C27_type_parents_refuted s :
  (forall a p, (node_parent (NAst KMap a p) s).1 = Panic "unsupported node type: *core.Map") /\
  (forall b, (node_parent (NBuiltin b) s).1 = Panic ("unsupported node type: " +:+ go_builtin b)) /\
  (forall a b, (node_parent (NRepeated a (Some (NBuiltin b))) s).1 = Panic ("unsupported node type: " +:+ go_builtin b)) /\
  (forall a, (node_parent (NRepeated a None) s).1 = Panic "unsupported node type: <nil>").
Proof. done. Qed.

(** NodeParent of the value of an option or of a value in it: the option statement, or, inside a value, no
    statement at all *)
Lemma value_parent_shape fl o s v s1 {A} (c : R A) x :
  reachable s -> option_value fl o s = (Ret v, s1) -> x ∈ parts v -> client Loads c ->
  let s2 := (c s1).2 in
  reachable s2 /\ exists w, (forall s3, node_parent (NValue x) s3 = wrap w s3) /\
    (w = VNilOption \/ exists p t nm lit, w = VPtr p /\ heap_at s2 p = Some t /\ t_data t = DOption nm lit).
Proof.
  intros Hs E Hx Hc. pose proof (reachable_Inv _ Hs) as I.
  assert (Hcl : client Loads (option_value fl o)) by (apply cl_api; constructor).
  pose proof (client_reachable _ _ _ _ Hs Hcl E) as Hs1.
  assert (Hs2 : reachable (c s1).2) by (eapply client_reachable; [exact Hs1|exact Hc|apply surjective_pairing]).
  cbn zeta. split; [exact Hs2|].
  destruct (inv_step_ret _ _ _ _ (client_inv_step _ _ Hcl) I E) as [I1 G1].
  destruct (client_step _ _ Hc I1) as [I2 G2]. destruct (option_value_ret _ _ _ _ _ E) as (t & nm & lit & Ht & Hd & Eb).
  apply (heap_at_grows_back _ _ _ _ (grows_trans _ _ _ G1 G2)) in Ht.
  destruct (build_hdr _ _ _ _ _ _ _ _ Eb) as [H1 H2].
  eexists. split; [intros s3; cbn [node_parent]; reflexivity|].
  rewrite parts_inner in Hx. apply elem_of_cons in Hx as [->|Hx].
  - rewrite H1. right. by exists (o_proto o), t, nm, lit.
  - left. rewrite Forall_forall in H2. apply elem_of_list_In, H2 in Hx. by rewrite Hx.
Qed.
Lemma wrap_statement s w :
  reachable s -> (w = VNilOption \/ exists p t nm lit, w = VPtr p /\ heap_at s p = Some t /\ t_data t = DOption nm lit) ->
  (wrap w s = (Ret None, s) /\ cache s !! w = Some None) \/
  (exists s', wrap w s = (Panic (PError (ENew "unsupported type *proto.Option")), s') /\ cache s' !! w = Some None).
Proof.
  intros Hs Hw. pose proof (reachable_Inv _ Hs) as I. destruct (cache s !! w) as [[m|]|] eqn:Hc.
  - destruct (nd_cache _ (proj2 I) _ _ Hc) as (p' & k & a & t' & -> & -> & Ht' & Hk).
    destruct Hw as [|(p & t & nm & lit & [= ->] & Ht & Hd)]; [done|]. assert (t' = t) as -> by congruence. by rewrite Hd in Hk.
  - left. by rewrite (wrap_hit _ _ _ Hc).
  - right. eexists. split.
    + rewrite (wrap_unsupported _ _ Hc).
      * destruct Hw as [->|(p & t & nm & lit & -> & Ht & Hd)]; cbn [go_visitee]; [reflexivity|]. rewrite Ht, Hd. reflexivity.
      * destruct Hw as [->|(p & t & nm & lit & -> & Ht & Hd)]; [done|]. exists t. by rewrite Hd.
    + cbn [set_cache cache]. apply lookup_insert.
Qed.

(** The parent of an option's value and of the values in it is never a node: NodeParent panics or
    gives nil. *)
Theorem C27_value_parents_refuted fl o s v s1 {A} (c : R A) x :
  reachable s -> option_value fl o s = (Ret v, s1) -> x ∈ parts v -> client Loads c ->
  (node_parent (NValue x) (c s1).2).1 = Ret None \/
  (node_parent (NValue x) (c s1).2).1 = Panic (PError (ENew "unsupported type *proto.Option")).
Proof.
  intros Hs E Hx Hc. destruct (value_parent_shape fl o s v s1 c x Hs E Hx Hc) as (Hs2 & w & -> & Hw).
  destruct (wrap_statement _ _ Hs2 Hw) as [[-> _]|(s' & -> & _)]; [by left|by right].
Qed.
(** It panics at most once: after the first call, recovered or not, it gives nil for ever. *)
Theorem C27_value_parents_later fl o s v s1 {A B} (c1 : R A) (c2 : R B) x :
  reachable s -> option_value fl o s = (Ret v, s1) -> x ∈ parts v -> client Loads c1 -> client Loads c2 ->
  let s2 := (c1 s1).2 in let s3 := (c2 (node_parent (NValue x) s2).2).2 in
  node_parent (NValue x) s3 = (Ret None, s3).
Proof.
  intros Hs E Hx Hc1 Hc2. cbn zeta. destruct (value_parent_shape fl o s v s1 c1 x Hs E Hx Hc1) as (Hs2 & w & Ew & Hw).
  assert (Hcl : client Loads (node_parent (NValue x))) by (apply cl_api; constructor).
  assert (I3 : Inv (node_parent (NValue x) (c1 s1).2).2)
    by (apply reachable_Inv; eapply client_reachable; [exact Hs2|exact Hcl|apply surjective_pairing]).
  destruct (client_step _ _ Hc2 I3) as [_ G]. rewrite Ew in G |- *. rewrite Ew.
  assert (Hk : cache (wrap w (c1 s1).2).2 !! w = Some None)
    by (destruct (wrap_statement _ _ Hs2 Hw) as [[-> Hk]|(s' & -> & Hk)]; exact Hk).
  apply wrap_hit. exact (ext_cache _ _ _ G _ _ Hk).
Qed.

(** the values exist: the first attempt panics, the second gives nil *)
Example C27_example :
  exists o s v s1, reachable s /\ option_value no_float o s = (Ret v, s1) /\ v ∈ parts v /\
    (node_parent (NValue v) s1).1 = Panic (PError (ENew "unsupported type *proto.Option")) /\
    (node_parent (NValue v) (recover (node_parent (NValue v)) s1).2).1 = Ret None.
Proof.
  assert (H : exists o s, reachable s /\ exists v, (option_value no_float o s).1 = Ret v /\
    (node_parent (NValue v) (option_value no_float o s).2).1 = Panic (PError (ENew "unsupported type *proto.Option")) /\
    (node_parent (NValue v) (recover (node_parent (NValue v)) (option_value no_float o s).2).2).1 = Ret None).
  { exists (mkOptn 0 (1, [5]) (0, [2]) (2, [0; 5])), demo_world. split; [apply demo_reachable|].
    eexists. split; [vm_compute; reflexivity|]. split; [vm_compute; reflexivity|vm_compute; reflexivity]. }
  destruct H as (o & s & Hs & v & E & H1 & H2). exists o, s, v, (option_value no_float o s).2.
  split; [done|]. split; [by apply by_outcome|]. split; [|done]. rewrite parts_inner. constructor.
Qed.
