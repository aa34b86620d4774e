(** * Theorems on iterators and lookups by name: C28 - C32, C59. *)
From Verif Require Export Identity Worlds Enumerate ThmLoading Iterate Resolve.

Lemma element_heap s p t : element_at s p t -> heap_at s p = Some t.
Proof. intros (path & f & (_ & Hf & _) & Hw). unfold heap_at. by rewrite Hf. Qed.
Lemma heap_element s p t : Inv s -> heap_at s p = Some t -> element_at s p t.
Proof.
  intros [S _]. unfold heap_at. destruct (heap s !! p.1) as [f|] eqn:Hf; [|done]. intros Hw.
  destruct (heap_loaded _ _ _ S Hf) as [path Hl]. by exists path, f.
Qed.
Lemma node_at_shows s p n : Inv s -> node_at s p n -> shows s p n.
Proof.
  intros I (k & a & -> & Hc).
  destruct (nd_cache _ (proj2 I) _ _ Hc) as (p' & k' & a' & t & [= <-] & [= <- <-] & Ht & Hw).
  exists t, k, a. split; [by apply heap_element|]. by rewrite represented_wrap.
Qed.
Lemma Forall2_shows s l l' : Inv s -> Forall2 (node_at s) l l' -> Forall2 (shows s) l l'.
Proof. intros I H. eapply Forall2_impl; [exact H|]. intros p n. by apply node_at_shows. Qed.

(** ** C28 *)

(** Collecting an iterator over the children of kind [sel] of a container gives one node per child of
    that kind, in source order, and nothing else; it never panics. *)
Theorem C28_iterator_yields_children p sel sq s t :
  reachable s -> element_at s p t -> iterates p sel sq ->
  exists l s', collect sq s = (Ret l, s') /\ Forall2 (shows s') (children sel p t) l.
Proof.
  intros Hs Ht Hit. pose proof (reachable_Inv _ Hs) as I.
  destruct (collect_ok _ _ _ _ _ Hit I (element_heap _ _ _ Ht)) as (l & s' & E & _ & I' & H & _).
  exists l, s'. split; [done|]. by apply Forall2_shows.
Qed.

(** The same for loops whose body does anything else with the registry (loading files included) but
    never breaks. *)
Theorem C28_loop_sees_children {C} p sel sq s t (c : C) body c' l s' :
  reachable s -> element_at s p t -> iterates p sel sq ->
  (forall c x, client Loads (body c x)) ->
  (forall c x s c' s', body c x s <> (Ret (c', false), s')) ->
  sq (C * list node)%type (c, []) (recording body) s = (Ret (c', l), s') ->
  Forall2 (shows s') (children sel p t) l.
Proof.
  intros Hs Ht Hit Hb Hgo E. pose proof (reachable_Inv _ Hs) as I.
  destruct (loop_ok _ _ _ _ _ _ _ _ _ _ Hit I (element_heap _ _ _ Ht) Hb E) as (I' & _ & k & H & Hk).
  rewrite take_ge in H by (by apply Hk). by apply Forall2_shows.
Qed.

Lemma demo_element p t : heap_at demo_world p = Some t -> element_at demo_world p t.
Proof. apply heap_element, reachable_Inv, demo_reachable. Qed.

(** the ten fields of pb.Message, two other children in between *)
Definition demo_message_tree : tree := default (file_tree "" []) (data_elems !! 6).
Example C28_example :
  reachable demo_world /\ element_at demo_world (1, [6]) demo_message_tree /\
  iterates (1, [6]) a_field (message_fields (1, [6])) /\
  children a_field (1, [6]) demo_message_tree = map (fun i => (1, [i; 6])) (List.seq 1 10) /\
  (** extend blocks are not messages *)
  children a_message (root 2) (file_tree meta_f meta_elems) = [].
Proof.
  split; [apply demo_reachable|]. split; [apply demo_element; vm_compute; reflexivity|].
  split; [constructor|]. split; [vm_compute; reflexivity|vm_compute; reflexivity].
Qed.

(** ** C29 *)

(** Whatever the loop body does and whenever it breaks, the loop sees an initial segment of the
    children. *)
Theorem C29_break_sees_prefix {C} p sel sq s t (c : C) body c' l s' :
  reachable s -> element_at s p t -> iterates p sel sq ->
  (forall c x, client Loads (body c x)) ->
  sq (C * list node)%type (c, []) (recording body) s = (Ret (c', l), s') ->
  Forall2 (shows s') (take (length l) (children sel p t)) l.
Proof.
  intros Hs Ht Hit Hb E. pose proof (reachable_Inv _ Hs) as I.
  destruct (loop_ok _ _ _ _ _ _ _ _ _ _ Hit I (element_heap _ _ _ Ht) Hb E) as (I' & _ & k & H & _).
  pose proof (Forall2_length _ _ _ H) as Hl. rewrite take_length in Hl.
  destruct (decide (k <= length (children sel p t))) as [Hk|Hk].
  - replace (length l) with k by lia. by apply Forall2_shows.
  - rewrite take_ge in H by lia. rewrite take_ge by lia. by apply Forall2_shows.
Qed.

(** A loop that stops after [k] elements returns the first [k] and leaves the registry's record of
    every element but these [k] as it was. *)
Theorem C29_rest_untouched k p sel sq s t :
  reachable s -> element_at s p t -> iterates p sel sq -> 0 < k ->
  exists l s', take_first k sq s = (Ret l, s') /\
    Forall2 (shows s') (take k (children sel p t)) l /\
    (forall v, (forall q, q ∈ take k (children sel p t) -> v <> VPtr q) -> cache s' !! v = cache s !! v).
Proof.
  intros Hs Ht Hit Hk. pose proof (reachable_Inv _ Hs) as I.
  destruct (take_first_ok k _ _ _ _ _ Hit I (element_heap _ _ _ Ht) Hk) as (l & s' & E & _ & I' & H1 & H2).
  exists l, s'. split; [done|]. split; [by apply Forall2_shows|done].
Qed.

Example C29_example :
  (take_first 3 (message_fields (1, [6])) demo_world).1
  = Ret [NAst KField 1 (1, [1; 6]); NAst KField 2 (1, [2; 6]); NAst KField 3 (1, [3; 6])].
Proof. vm_compute. reflexivity. Qed.

(** ** C30 *)

Lemma has_name_is_named s sel name q n t :
  (forall d, sel d = true -> own_name d = Some (data_name d)) ->
  heap_at s q = Some t -> sel (t_data t) = true -> shows s q n ->
  has_name s name n = is_named s name n.
Proof.
  intros Hd Ht Hs (t' & k & a & Ht' & _ & ->). cbn. apply element_heap in Ht'.
  assert (t' = t) as -> by congruence. unfold node_name.
  rewrite (rbind_val _ _ _ _ _ (deref_ok _ _ _ Ht)), Ht. cbn.
  rewrite (Hd _ Hs). apply eqb_bool_decide.
Qed.
Lemma find_ext {A} (f g : A -> bool) l : Forall (fun x => f x = g x) l -> List.find f l = List.find g l.
Proof. induction 1 as [|x l Hx _ IH]; [done|]. cbn. rewrite Hx. by destruct (g x). Qed.
Lemma children_heap sel s p t q :
  heap_at s p = Some t -> q ∈ children sel p t -> exists u, heap_at s q = Some u /\ sel (t_data u) = true.
Proof.
  intros Ht. unfold children. intros (b & -> & Hb)%elem_of_list_fmap.
  apply elem_of_list_In, filter_In in Hb as [Hb Hs]. apply elem_of_list_In in Hb.
  exists b.2. split; [by eapply kids_heap|done].
Qed.
Lemma find_has_name s sel name p t l :
  (forall d, sel d = true -> own_name d = Some (data_name d)) ->
  heap_at s p = Some t -> Forall2 (shows s) (children sel p t) l ->
  List.find (has_name s name) l = List.find (is_named s name) l.
Proof.
  intros Hd Ht Hl. apply find_ext, Forall_forall. intros n Hn.
  apply elem_of_list_In, elem_of_list_lookup in Hn as [i Hi].
  destruct (Forall2_lookup_r _ _ _ _ _ Hl Hi) as (q & Hq & Hsh).
  destruct (children_heap sel s p t q Ht) as (u & Hu & Hs); [by eapply elem_of_list_lookup_2|].
  by eapply has_name_is_named.
Qed.
Lemma looks_up_names p sel sq lk d : looks_up p sel sq lk -> sel d = true -> own_name d = Some (data_name d).
Proof. intros []; destruct d as [| | | | | |? []| | | | | | | | | | | |]; done. Qed.
Lemma looks_up_ext_names p sel sq lk d : looks_up_ext p sel sq lk -> sel d = true -> own_name d = Some (data_name d).
Proof. intros []; destruct d as [| | | | | |? []| | | | | | | | | | | |]; done. Qed.

(** A lookup by name returns the first node of the corresponding iterator whose Name() is that name,
    nil if there is none, at any time after the iteration. *)
Theorem C30_lookup_agrees_with_iterator p sel sq lk s t l s1 {A} (c : R A) s2 name :
  reachable s -> element_at s p t -> looks_up p sel sq lk ->
  collect sq s = (Ret l, s1) -> client Loads c -> (c s1).2 = s2 ->
  lk name s2 = (Ret (List.find (has_name s2 name) l), s2).
Proof.
  intros Hs Ht%element_heap Hlk E Hc E2. pose proof (reachable_Inv _ Hs) as I.
  assert (Hit : iterates p sel sq) by (destruct Hlk; constructor).
  destruct (collect_ok _ _ _ _ _ Hit I Ht) as (l' & s1' & E' & Q & I1 & Hl & _).
  rewrite E in E'. injection E' as <- <-.
  destruct (client_inv_step _ _ Hc s1 I1) as [I2 G2]. rewrite E2 in I2, G2.
  assert (Ht2 : heap_at s2 p = Some t).
  { eapply ext_heap_at; [exact G2|]. by rewrite (quiet_heap_at _ _ _ Q). }
  assert (Hl2 : Forall2 (node_at s2) (children sel p t) l).
  { eapply Forall2_impl; [exact Hl|]. intros q n. by apply node_at_grows. }
  rewrite (find_has_name s2 sel name p t l); [|intros d; by eapply looks_up_names|done|by apply Forall2_shows].
  by eapply lookup_first_at.
Qed.

(** File.Message and File.Type: the same, if the file has no extend block with that text as name. *)
Theorem C30_file_lookup_agrees p sel sq lk s t l s1 {A} (c : R A) s2 name :
  reachable s -> element_at s p t -> looks_up_ext p sel sq lk ->
  (forall kid, kid ∈ t_kids t -> t_data kid <> DMessage name true) ->
  collect sq s = (Ret l, s1) -> client Loads c -> (c s1).2 = s2 ->
  lk name s2 = (Ret (List.find (has_name s2 name) l), s2).
Proof.
  intros Hs Ht%element_heap Hlk Hno E Hc E2. pose proof (reachable_Inv _ Hs) as I.
  assert (Hit : iterates p sel sq) by (destruct Hlk; constructor).
  destruct (collect_ok _ _ _ _ _ Hit I Ht) as (l' & s1' & E' & Q & I1 & Hl & _).
  rewrite E in E'. injection E' as <- <-.
  destruct (client_inv_step _ _ Hc s1 I1) as [I2 G2]. rewrite E2 in I2, G2.
  assert (Ht2 : heap_at s2 p = Some t).
  { eapply ext_heap_at; [exact G2|]. by rewrite (quiet_heap_at _ _ _ Q). }
  assert (Hl2 : Forall2 (node_at s2) (children sel p t) l).
  { eapply Forall2_impl; [exact Hl|]. intros q n. by apply node_at_grows. }
  rewrite (find_has_name s2 sel name p t l); [|intros d; by eapply looks_up_ext_names|done|by apply Forall2_shows].
  by eapply lookup_first_ext_at.
Qed.

Example C30_example :
  looks_up (1, [6]) a_field (message_fields (1, [6])) (message_field (1, [6])) /\
  (exists a, (message_field (1, [6]) "map_field" demo_world).1 = Ret (Some (NAst KField a (1, [9; 6])))) /\
  (message_field (1, [6]) "branch1" demo_world).1 = Ret None /\
  (forall kid, kid ∈ data_elems -> t_data kid <> DMessage "Message" true).
Proof.
  split; [constructor|]. split; [eexists; vm_compute; reflexivity|].
  split; [vm_compute; reflexivity|]. intros kid Hk.
  repeat (apply elem_of_cons in Hk as [->|Hk]; [discriminate|]). by apply elem_of_nil in Hk.
Qed.

(** Without that condition it is false: a lookup in meta.proto returns an extend block, although the
    iterator yields no message at all. *)
Theorem C30_extend_block_refuted :
  exists s p name n, reachable s /\
    (collect (file_messages p) s).1 = Ret [] /\ (file_message p name s).1 = Ret (Some n) /\
    (file_type p name s).1 = Ret (Some n) /\
    (exists q, element_ptr n = Some q /\ (message_is_extension q s).1 = Ret true).
Proof.
  exists demo_world, (root 2), "google.protobuf.FileOptions". eexists.
  split; [apply demo_reachable|]. split; [vm_compute; reflexivity|]. split; [vm_compute; reflexivity|].
  split; [vm_compute; reflexivity|]. eexists. split; [reflexivity|vm_compute; reflexivity].
Qed.

(** ** C32 *)

(** A name nobody declares never gives a node: the first time such a name is looked up the call
    panics, and from then on nil is returned for every undeclared name. *)
Theorem C32_unknown_name s q s1 :
  reachable s -> unknown s q ->
  (node_by_full_name q s = (Panic (PError (ENew "unsupported type <nil>")), s1) \/ node_by_full_name q s = (Ret None, s1)) ->
  forall {A} (c : R A) s2 q', client Loads c -> (c s1).2 = s2 -> unknown s2 q' ->
  node_by_full_name q' s2 = (Ret None, s2).
Proof.
  intros Hs Hq Ho A c s2 q' Hc E2 Hq'. pose proof (reachable_Inv _ Hs) as I.
  assert (Hcl : client Loads (node_by_full_name q)) by (apply cl_api; constructor).
  assert (E1 : (node_by_full_name q s).2 = s1) by (destruct Ho as [-> | ->]; done).
  destruct (client_inv_step _ _ Hcl s I) as [I1 _]. rewrite E1 in I1.
  destruct (client_inv_step _ _ Hc s1 I1) as [I2 G2]. rewrite E2 in I2, G2.
  apply (unknown_names _ _ I) in Hq. apply (unknown_names _ _ I2) in Hq'.
  assert (Hnil : cache s1 !! VNil = Some None).
  { unfold node_by_full_name in E1. rewrite rbind_get, Hq in E1.
    destruct (cache s !! VNil) as [o|] eqn:Hn.
    - rewrite (wrap_hit _ _ _ Hn) in E1. cbn in E1. subst s1.
      destruct o as [n|]; [|done]. by destruct (nd_cache _ (proj2 I) _ _ Hn) as (? & ? & ? & ? & ? & _).
    - rewrite (wrap_unsupported _ _ Hn) in E1 by done. subst s1. cbn. by rewrite lookup_insert. }
  apply (ext_cache _ _ _ G2) in Hnil.
  unfold node_by_full_name. rewrite rbind_get, Hq'. by apply wrap_hit.
Qed.

(** The two outcomes of the premise are the only ones. *)
Theorem C32_unknown_name_outcomes s q :
  reachable s -> unknown s q ->
  (node_by_full_name q s).1 = Panic (PError (ENew "unsupported type <nil>")) \/ (node_by_full_name q s).1 = Ret None.
Proof.
  intros Hs Hq. pose proof (reachable_Inv _ Hs) as I. apply (unknown_names _ _ I) in Hq.
  unfold node_by_full_name. rewrite rbind_get, Hq. destruct (cache s !! VNil) as [o|] eqn:Hn.
  - rewrite (wrap_hit _ _ _ Hn). right. destruct o as [n|]; [|done].
    by destruct (nd_cache _ (proj2 I) _ _ Hn) as (? & ? & ? & ? & ? & _).
  - rewrite (wrap_unsupported _ _ Hn) by done. by left.
Qed.

(** So the same question is answered differently the second time. *)
Theorem C32_same_answer_refuted :
  exists s q s1, reachable s /\ unknown s q /\
    node_by_full_name q s = (Panic (PError (ENew "unsupported type <nil>")), s1) /\ node_by_full_name q s1 = (Ret None, s1).
Proof.
  assert (Hu : unknown demo_world ".no.such").
  { apply unknown_names; [apply reachable_Inv, demo_reachable|]. vm_compute. reflexivity. }
  assert (E : (node_by_full_name ".no.such" demo_world).1 = Panic (PError (ENew "unsupported type <nil>")))
    by (vm_compute; reflexivity).
  generalize demo_reachable. revert Hu E. generalize demo_world. intros s Hu E Hs.
  destruct (node_by_full_name ".no.such" s) as [o s1] eqn:E1. cbn in E. subst o.
  exists s, ".no.such", s1. split; [exact Hs|]. split; [exact Hu|]. split; [exact E1|].
  apply (C32_unknown_name s ".no.such" s1 Hs Hu (or_introl E1) (ret tt) s1);
    [constructor|reflexivity|].
  assert (Hcl : client Queries (node_by_full_name ".no.such")) by (apply cl_api; constructor).
  pose proof (query_quiet _ Hcl s) as Q. rewrite E1 in Q. cbn in Q.
  pose proof (client_inv_step _ _ (client_loads _ _ Hcl) s (reachable_Inv _ Hs)) as [I1 _].
  rewrite E1 in I1. cbn [snd] in I1. apply (unknown_names _ _ I1). rewrite (q_names _ _ Q).
  by apply (unknown_names _ _ (reachable_Inv _ Hs)).
Qed.

(** ** C59 *)

(** Enum.Enums yields nothing and Enum.Enum finds nothing, for every enum. *)
Theorem C59_enum_enums_empty p s t name :
  reachable s -> element_at s p t -> (exists n, t_data t = DEnum n) ->
  collect (enum_enums p) s = (Ret [], s) /\ enum_enum p name s = (Ret None, s).
Proof.
  intros Hs Ht%element_heap [n Hd]. pose proof (reachable_Inv _ Hs) as I.
  assert (Hk : forall b, b ∈ kids_at p t -> forall m, t_data b.2 <> DEnum m).
  { intros b Hb m Hm. pose proof (kids_allowed _ _ _ _ I Ht Hb) as Ha. rewrite Hd, Hm in Ha. done. }
  split.
  - unfold collect, enum_enums, iter_kids. rewrite (rbind_val _ _ _ _ _ (kids_of_ok _ _ _ Ht)).
    induction (kids_at p t) as [|b l IH]; [done|]. cbn [iterate]. unfold pick_kind at 1.
    destruct (is_enum (t_data b.2)) eqn:He.
    + exfalso. specialize (Hk b (elem_of_list_here _ _)).
      destruct (t_data b.2); try done. by eapply Hk.
    + rewrite rbind_ret. apply IH. intros b' Hb'. apply Hk. by constructor.
  - unfold enum_enum, lookup_kid. rewrite (rbind_val _ _ _ _ _ (kids_of_ok _ _ _ Ht)).
    induction (kids_at p t) as [|[q u] l IH]; [done|]. cbn [find_kid].
    specialize (Hk (q, u)) as Hu. cbn in Hu.
    assert (enum_sel name (t_data u) = false) as ->.
    { specialize (Hu (elem_of_list_here _ _)). destruct (t_data u); try done. by specialize (Hu name0). }
    apply IH. intros b' Hb'. apply Hk. by constructor.
Qed.
Example C59_example : exists t, element_at demo_world (1, [12; 6]) t /\ t_data t = DEnum "InnerEnum".
Proof. eexists. split; [apply demo_element; vm_compute; reflexivity|reflexivity]. Qed.
