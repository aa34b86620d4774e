(** * Wrapper objects: identity, caches. *)
From Verif Require Export Loading.

(** identity of a node as Go's == sees it *)
Definition addr (n : node) : option N :=
  match n with
  | NAst _ a _ | NRepeated a _ => Some a
  | _ => None
  end.

(** nodes the registry itself remembers *)
Definition stored (s : registry) (n : node) : Prop :=
  (exists v, cache s !! v = Some (Some n)) \/ (exists k, ftcache s !! k = Some (Some n)).

(** [n] is the node of the declaration it points to *)
Definition canonical (s : registry) (n : node) : Prop :=
  exists k a p, n = NAst k a p /\ cache s !! VPtr p = Some (Some n).

(** the type a name can resolve to *)
Definition elem_node (s : registry) (n : node) : Prop :=
  (exists b, n = NBuiltin b) \/ (canonical s n /\ implements_type n = true).

(** a cached field type has the shape the field's declaration prescribes *)
Definition type_shape (s : registry) (p : ptr) (n : node) : Prop :=
  exists t, heap_at s p = Some t /\
  match t_data t with
  | DNormalField _ _ _ true _ =>
      exists a o, n = NRepeated a o /\ (forall m, o = Some m -> elem_node s m)
  | DNormalField _ _ _ false _ => elem_node s n
  | DOneof _ => exists a, n = NAst KOneOf a p
  | DMapField _ _ _ _ => exists a, n = NAst KMap a p
  | _ => False
  end.

Record nodes (s : registry) : Prop := mkNodes {
  nd_cache : forall v n, cache s !! v = Some (Some n) ->
    exists p k a t, v = VPtr p /\ n = NAst k a p /\ heap_at s p = Some t /\
      wrap_kind (t_data t) = Some k;
  nd_none : forall p, cache s !! VPtr p = Some None ->
    exists t, heap_at s p = Some t /\ wrap_kind (t_data t) = None;
  nd_ftcache : forall a p n, ftcache s !! (a, p) = Some (Some n) -> type_shape s p n;
  nd_lt : forall n a, stored s n -> addr n = Some a -> (a < next s)%N;
  nd_inj : forall n1 n2, stored s n1 -> stored s n2 -> is_Some (addr n1) ->
    addr n1 = addr n2 -> n1 = n2
}.

Lemma nodes_fresh s : cache s = ∅ -> ftcache s = ∅ -> nodes s.
Proof.
  intros Hc Hf. assert (Hno : forall n, ~ stored s n).
  { intros n [[v H]|[k H]]; [rewrite Hc in H|rewrite Hf in H]; by rewrite lookup_empty in H. }
  constructor; rewrite ?Hc, ?Hf.
  - intros v n H. by rewrite lookup_empty in H.
  - intros p H. by rewrite lookup_empty in H.
  - intros a p n H. by rewrite lookup_empty in H.
  - intros n a H. by apply Hno in H.
  - intros n1 n2 H. by apply Hno in H.
Qed.

Lemma canonical_ext n s s' x : ext n s s' -> canonical s x -> canonical s' x.
Proof. intros E (k & a & p & -> & H). exists k, a, p. split; [done|]. eapply ext_cache; eauto. Qed.
Lemma elem_node_ext n s s' x : ext n s s' -> elem_node s x -> elem_node s' x.
Proof. intros E [H|[H1 H2]]; [by left|right]. split; [by eapply canonical_ext|done]. Qed.
Lemma type_shape_ext n s s' p x : ext n s s' -> type_shape s p x -> type_shape s' p x.
Proof.
  intros E (t & Ht & H). exists t. split; [by eapply ext_heap_at|].
  destruct (t_data t) as [| | | | | | |? ? ? [] ?| | | | | | | | | | |]; try done.
  - destruct H as (a & o & -> & Ho). exists a, o. split; [done|].
    intros m Hm. eapply elem_node_ext; eauto.
  - by eapply elem_node_ext.
Qed.

(** nothing new stored *)
Lemma nodes_same n s s' :
  ext n s s' -> cache s' = cache s -> ftcache s' = ftcache s -> nodes s -> nodes s'.
Proof.
  intros E Hc Hf [N1 N2 N3 N4 N5].
  assert (Hst : forall x, stored s' x -> stored s x).
  { intros x. unfold stored. by rewrite Hc, Hf. }
  constructor; rewrite ?Hc, ?Hf.
  - intros v x H. destruct (N1 v x H) as (p & k & a & t & H1 & H2 & H3 & H4).
    exists p, k, a, t. split; [done|]. split; [done|]. split; [by eapply ext_heap_at|done].
  - intros p H. destruct (N2 p H) as (t & H1 & H2). exists t.
    split; [by eapply ext_heap_at|done].
  - intros a p x H. eapply type_shape_ext; eauto.
  - intros x a H Ha. pose proof (ext_next _ _ _ E). specialize (N4 x a (Hst _ H) Ha). lia.
  - intros n1 n2 H1 H2. apply N5; auto.
Qed.

Lemma nodes_set_next s k : (next s <= k)%N -> nodes s -> nodes (set_next k s).
Proof. intros H. apply (nodes_same 0); [apply quiet_ext, quiet_set_next, H|done|done]. Qed.

(** storing a node: either one that is already stored or one with a fresh identity *)
Lemma nodes_store_cache s v o :
  nodes s -> cache s !! v = None ->
  match o with
  | None => forall p, v = VPtr p -> exists t, heap_at s p = Some t /\ wrap_kind (t_data t) = None
  | Some n => exists p k t, v = VPtr p /\ n = NAst k (next s) p /\ heap_at s p = Some t /\
                            wrap_kind (t_data t) = Some k
  end ->
  nodes (set_cache (<[v := o]> (cache s)) (set_next (next s + 1)%N s)).
Proof.
  intros [N1 N2 N3 N4 N5] Hv Ho.
  set (s' := set_cache (<[v := o]> (cache s)) (set_next (next s + 1)%N s)).
  assert (E : ext 0 s s').
  { apply quiet_ext. constructor; cbn; auto; try lia. intros v' n' H.
    rewrite lookup_insert_ne; [done|congruence]. }
  assert (Hst : forall x, stored s' x -> stored s x \/ (o = Some x)).
  { intros x [[v' H]|[k H]]; cbn in H; [|left; right; eauto].
    apply lookup_insert_Some in H as [[_ H]|[_ H]]; [by right|left; left; eauto]. }
  constructor.
  - intros v' n. cbn. rewrite lookup_insert_Some. intros [[<- ->]|[_ H]].
    + destruct Ho as (p & k & t & -> & -> & H3 & H4). exists p, k, (next s), t. done.
    + destruct (N1 v' n H) as (p & k & a & t & H1 & H2 & H3 & H4). exists p, k, a, t. done.
  - intros p. cbn. rewrite lookup_insert_Some. intros [[-> ->]|[_ H]]; [by apply Ho|].
    by apply N2.
  - intros a p n H. eapply type_shape_ext; eauto.
  - intros n a H Ha. cbn. apply Hst in H as [H|H].
    + specialize (N4 n a H Ha). lia.
    + subst o. destruct Ho as (p & k & t & _ & -> & _). injection Ha as <-. lia.
  - assert (Hmix : forall n1 n2, stored s n1 -> o = Some n2 -> is_Some (addr n1) ->
                   addr n1 = addr n2 -> False).
    { intros n1 n2 H1 -> [a Ha] Heq. destruct Ho as (p & k & t & _ & -> & _).
      cbn in Heq. specialize (N4 n1 (next s) H1 Heq). lia. }
    intros n1 n2 H1 H2 Ha Heq. apply Hst in H1 as [H1|H1], H2 as [H2|H2].
    + by apply N5.
    + exfalso; eauto.
    + exfalso. eapply (Hmix n2 n1); eauto; rewrite <- Heq; done.
    + congruence.
Qed.

Lemma nodes_store_none s v :
  nodes s -> cache s !! v = None ->
  (forall p, v = VPtr p -> exists t, heap_at s p = Some t /\ wrap_kind (t_data t) = None) ->
  nodes (set_cache (<[v := None]> (cache s)) s).
Proof.
  intros [N1 N2 N3 N4 N5] Hv Ho.
  set (s' := set_cache (<[v := None]> (cache s)) s).
  assert (E : ext 0 s s').
  { apply quiet_ext. constructor; cbn; auto; try lia. intros v' n' H.
    rewrite lookup_insert_ne; [done|congruence]. }
  assert (Hst : forall x, stored s' x -> stored s x).
  { intros x [[v' H]|[k H]]; cbn in H; [|right; eauto].
    apply lookup_insert_Some in H as [[_ H]|[_ H]]; [done|left; eauto]. }
  constructor.
  - intros v' n. cbn. rewrite lookup_insert_Some. intros [[<- ?]|[_ H]]; [done|].
    destruct (N1 v' n H) as (p & k & a & t & H1 & H2 & H3 & H4). exists p, k, a, t. done.
  - intros p. cbn. rewrite lookup_insert_Some. intros [[-> ?]|[_ H]]; [by apply Ho|].
    by apply N2.
  - intros a p n H. eapply type_shape_ext; eauto.
  - intros n a H Ha. apply (N4 n a); auto.
  - intros n1 n2 H1 H2 Ha Heq. apply N5; auto.
Qed.

(** ** wrap *)

Lemma wrap_hit s v o : cache s !! v = Some o -> wrap v s = (Ret o, s).
Proof. intros H. unfold wrap. rewrite rbind_get, H. done. Qed.

Lemma wrap_miss s p t k :
  cache s !! VPtr p = None -> heap_at s p = Some t -> wrap_kind (t_data t) = Some k ->
  wrap (VPtr p) s =
  (Ret (Some (NAst k (next s) p)),
   set_cache (<[VPtr p := Some (NAst k (next s) p)]> (cache s)) (set_next (next s + 1)%N s)).
Proof. intros Hc Ht Hk. unfold wrap. rewrite rbind_get, Hc, Ht, Hk. reflexivity. Qed.

Lemma wrap_unsupported s v :
  cache s !! v = None ->
  match v with
  | VPtr p => exists t, heap_at s p = Some t /\ wrap_kind (t_data t) = None
  | _ => True
  end ->
  wrap v s = (Panic (PError (ENew ("unsupported type " +:+ go_visitee s v))), set_cache (<[v := None]> (cache s)) s).
Proof.
  intros Hc Hv. unfold wrap. rewrite rbind_get, Hc.
  destruct v as [| | |p]; try done. destruct Hv as (t & Ht & Hk). rewrite Ht, Hk. done.
Qed.

Lemma wrap_dangling s p :
  cache s !! VPtr p = None -> heap_at s p = None ->
  wrap (VPtr p) s = (Panic "dangling AST pointer", s).
Proof. intros Hc Ht. unfold wrap. rewrite rbind_get, Hc, Ht. done. Qed.

Lemma wrap_ok s p t k :
  nodes s -> heap_at s p = Some t -> wrap_kind (t_data t) = Some k ->
  exists a s', wrap (VPtr p) s = (Ret (Some (NAst k a p)), s') /\ quiet s s' /\ nodes s' /\
    cache s' !! VPtr p = Some (Some (NAst k a p)).
Proof.
  intros N Ht Hk. destruct (cache s !! VPtr p) as [o|] eqn:Hc.
  - destruct o as [n|].
    + destruct (nd_cache _ N _ _ Hc) as (p' & k' & a & t' & [= <-] & -> & Ht' & Hk').
      assert (k' = k) as -> by congruence.
      exists a, s. rewrite (wrap_hit _ _ _ Hc). auto using quiet_refl.
    + destruct (nd_none _ N _ Hc) as (t' & Ht' & Hk'). congruence.
  - exists (next s), (wrap (VPtr p) s).2.
    pose proof (quiet_wrap (VPtr p) s) as Q.
    rewrite (wrap_miss _ _ _ _ Hc Ht Hk) in *. cbn [snd] in *.
    split; [done|]. split; [done|]. split.
    + apply nodes_store_cache; [done|done|]. eauto 10.
    + cbn. by rewrite lookup_insert.
Qed.

Lemma wrap_nodes v s : nodes s -> nodes (wrap v s).2.
Proof.
  intros N. destruct (cache s !! v) as [o|] eqn:Hc; [by rewrite (wrap_hit _ _ _ Hc)|].
  assert (Hun : match v with
                | VPtr p => exists t, heap_at s p = Some t /\ wrap_kind (t_data t) = None
                | _ => True end -> nodes (wrap v s).2).
  { intros Hv. rewrite (wrap_unsupported _ _ Hc Hv). cbn [snd].
    apply nodes_store_none; [done|done|]. intros p ->. done. }
  destruct v as [| | |p]; try by apply Hun.
  destruct (heap_at s p) as [t|] eqn:Ht.
  - destruct (wrap_kind (t_data t)) as [k|] eqn:Hk.
    + destruct (wrap_ok s p t k N Ht Hk) as (a & s' & E & _ & N' & _). by rewrite E.
    + apply Hun. eauto.
  - by rewrite (wrap_dangling _ _ Hc Ht).
Qed.

(** what a successful wrap returns *)
Lemma wrap_ret s v n s' :
  nodes s -> wrap v s = (Ret (Some n), s') ->
  exists p k a t, v = VPtr p /\ n = NAst k a p /\ heap_at s p = Some t /\
    wrap_kind (t_data t) = Some k /\ cache s' !! v = Some (Some n).
Proof.
  intros N E. destruct (cache s !! v) as [o|] eqn:Hc.
  - rewrite (wrap_hit _ _ _ Hc) in E. injection E as -> <-.
    destruct (nd_cache _ N _ _ Hc) as (p & k & a & t & H1 & H2 & H3 & H4).
    exists p, k, a, t. done.
  - destruct v as [| | |p];
      try (rewrite (wrap_unsupported _ _ Hc I) in E; discriminate E).
    destruct (heap_at s p) as [t|] eqn:Ht.
    + destruct (wrap_kind (t_data t)) as [k|] eqn:Hk.
      * destruct (wrap_ok s p t k N Ht Hk) as (a & s1 & E' & _ & N' & Hc').
        rewrite E' in E. injection E as <- <-. exists p, k, a, t. done.
      * rewrite (wrap_unsupported s (VPtr p)) in E; [discriminate E|done|eauto].
    + rewrite (wrap_dangling _ _ Hc Ht) in E. discriminate E.
Qed.

Lemma wrap_no_diverge v s : (wrap v s).1 <> Diverge.
Proof.
  unfold wrap. rewrite rbind_get. destruct (cache s !! v); [done|].
  destruct v as [| | |p]; try done. destruct (heap_at s p) as [t|]; [|done].
  by destruct (wrap_kind (t_data t)).
Qed.

(** ** field types *)

Lemma get_type_by_name_ret s p name o s' :
  nodes s -> get_type_by_name p name s = (Ret o, s') ->
  quiet s s' /\ nodes s' /\
  exists t, heap_at s p = Some t /\
  match t_data t with
  | DNormalField _ _ _ true _ =>
      exists a r, o = Some (NRepeated a r) /\ (forall m, r = Some m -> elem_node s' m) /\
        (next s <= a < next s')%N /\ forall n, stored s' n -> addr n <> Some a
  | _ => forall m, o = Some m -> elem_node s' m
  end.
Proof.
  intros N E. pose proof (keeps_get_type_by_name quiet quiet_refl quiet_trans quiet_alloc
    quiet_wrap p name s) as Q. rewrite E in Q. cbn [snd] in Q. split; [done|].
  unfold get_type_by_name in E.
  apply rbind_Ret in E as (r & s1 & E1 & E).
  assert (H1 : quiet s s1 /\ nodes s1 /\ forall m, r = Some m -> elem_node s1 m).
  { unfold get_type_body in E1. destruct (builtin_type name) as [b|].
    - injection E1 as <- <-. split; [apply quiet_refl|]. split; [done|].
      intros m [= <-]. left. eauto.
    - rewrite rbind_get in E1. unfold resolve in E1. unfold rbind at 1 in E1.
      rewrite rbind_get in E1.
      destruct (resolve_name_raw (names s) (scope_of s (VPtr p)) name) as [[q ok]|];
        [|discriminate E1].
      cbn in E1. destruct ok; cbn in E1.
      + destruct (names s !! q) as [obj|].
        * apply rbind_Ret in E1 as (w & s2 & Ew & E1).
          destruct w as [n|]; [|discriminate E1].
          destruct (implements_type n) eqn:Hi; [|discriminate E1].
          injection E1 as <- <-.
          pose proof (quiet_wrap (VPtr obj) s) as Qw. pose proof (wrap_nodes (VPtr obj) s N) as Nw.
          rewrite Ew in Qw, Nw. split; [done|]. split; [done|].
          intros m [= <-]. right. split; [|done].
          destruct (wrap_ret _ _ _ _ N Ew) as (p' & k & a & t & [= <-] & -> & _ & _ & Hc).
          exists k, a, obj. done.
        * injection E1 as <- <-. split; [apply quiet_refl|]. done.
      + injection E1 as <- <-. split; [apply quiet_refl|]. done. }
  destruct H1 as (Q1 & N1 & Hr).
  apply rbind_Ret in E as (t & s2 & Ed & E).
  unfold deref in Ed. rewrite rbind_get in Ed.
  destruct (heap_at s1 p) as [t'|] eqn:Ht; [|discriminate Ed]. injection Ed as <- <-.
  rewrite (quiet_heap_at _ _ _ Q1) in Ht.
  assert (Hother : ret r s1 = (Ret o, s') -> nodes s' /\ forall m, o = Some m -> elem_node s' m).
  { unfold ret. intros [= <- <-]. done. }
  destruct (t_data t') as [| | | | | | |nm ty sq [] op| | | | | | | | | | |] eqn:Hd;
    try (destruct (Hother E) as [Ho1 Ho2]; split; [done|]; exists t'; rewrite Hd;
         split; [done|exact Ho2]).
  rewrite rbind_alloc in E. injection E as <- <-.
  assert (N' : nodes (set_next (next s1 + 1)%N s1)) by (apply nodes_set_next; [lia|done]).
  split; [done|]. exists t'. rewrite Hd. split; [done|].
  exists (next s1), r. split; [done|]. split; [|split].
  - intros m Hm. eapply (elem_node_ext 0); [|by apply Hr].
    apply quiet_ext, quiet_set_next. lia.
  - pose proof (q_next _ _ Q1). cbn. lia.
  - intros n Hn Ha.
    assert (Hn1 : stored s1 n) by exact Hn.
    pose proof (nd_lt _ N1 n _ Hn1 Ha). lia.
Qed.

Lemma field_type_body_ret s p n s' :
  nodes s -> field_type_body p s = (Ret (Some n), s') ->
  quiet s s' /\ nodes s' /\ type_shape s' p n /\
  (canonical s' n \/ addr n = None \/
   exists a, addr n = Some a /\ (next s <= a < next s')%N /\
             forall x, stored s' x -> addr x <> Some a).
Proof.
  intros N E.
  pose proof (keeps_field_type_body quiet quiet_refl quiet_trans quiet_alloc quiet_wrap p s) as Q.
  rewrite E in Q. cbn [snd] in Q. split; [done|].
  unfold field_type_body in E. apply rbind_Ret in E as (t & s1 & Ed & E).
  unfold deref in Ed. rewrite rbind_get in Ed.
  destruct (heap_at s p) as [t'|] eqn:Ht; [|discriminate Ed]. injection Ed as <- <-.
  assert (Ht' : heap_at s' p = Some t') by (by rewrite (quiet_heap_at _ _ _ Q)).
  assert (Halloc : forall k, (a <~ alloc ;; ret (Some (NAst k a p))) = fun s =>
            (Ret (Some (NAst k (next s) p)), set_next (next s + 1)%N s)) by reflexivity.
  destruct (t_data t') as [| | | | | | |nm ty sq rep op| | | | | | | | | | |] eqn:Hd;
    try discriminate E.
  - destruct (get_type_by_name_ret _ _ _ _ _ N E) as (_ & N' & t2 & Ht2 & H).
    rewrite Ht in Ht2. injection Ht2 as <-. rewrite Hd in H.
    split; [done|]. unfold type_shape. destruct rep.
    + destruct H as (a & r & [= ->] & Hr & Ha & Hfresh). split.
      * exists t'. rewrite Hd. split; [done|]. eauto.
      * right; right. exists a. done.
    + specialize (H n eq_refl). split.
      * exists t'. rewrite Hd. done.
      * destruct H as [[b ->]|[Hc _]]; [right; by left|by left].
  - rewrite Halloc in E. injection E as <- <-.
    split; [apply nodes_set_next; [lia|done]|]. split.
    + exists t'. rewrite Hd. split; [done|]. eauto.
    + right; right. exists (next s). split; [done|]. split; [cbn; lia|].
      intros x Hx Ha. pose proof (nd_lt _ N x _ Hx Ha). lia.
  - rewrite Halloc in E. injection E as <- <-.
    split; [apply nodes_set_next; [lia|done]|]. split.
    + exists t'. rewrite Hd. split; [done|]. eauto.
    + right; right. exists (next s). split; [done|]. split; [cbn; lia|].
      intros x Hx Ha. pose proof (nd_lt _ N x _ Hx Ha). lia.
Qed.

Lemma nodes_store_ft s k o :
  nodes s -> ftcache s !! k = None ->
  (forall n, o = Some n -> type_shape s k.2 n /\
     (stored s n \/ addr n = None \/
      exists a, addr n = Some a /\ (a < next s)%N /\ forall x, stored s x -> addr x <> Some a)) ->
  nodes (set_ftcache (<[k := o]> (ftcache s)) s).
Proof.
  intros [N1 N2 N3 N4 N5] Hk Ho. set (s' := set_ftcache _ _).
  assert (E : ext 0 s s').
  { apply quiet_ext. constructor; cbn; auto; try lia. intros k' n' H.
    rewrite lookup_insert_ne; [done|congruence]. }
  assert (Hst : forall x, stored s' x -> stored s x \/ o = Some x).
  { intros x [[v' H]|[k' H]]; cbn in H; [left; left; eauto|].
    apply lookup_insert_Some in H as [[_ H]|[_ H]]; [by right|left; right; eauto]. }
  assert (Hnew : forall x, o = Some x -> stored s x \/ addr x = None \/
      exists a, addr x = Some a /\ (a < next s)%N /\ forall y, stored s y -> addr y <> Some a).
  { intros x ->. by apply Ho. }
  constructor.
  - intros v n H. destruct (N1 v n H) as (p & q & a & t & H1 & H2 & H3 & H4).
    exists p, q, a, t. done.
  - intros p H. by apply N2.
  - intros a p n. cbn. rewrite lookup_insert_Some. intros [[-> ->]|[_ H]].
    + eapply type_shape_ext; [exact E|]. by apply (Ho n).
    + eapply type_shape_ext; [exact E|]. eauto.
  - intros n a H Ha. cbn. apply Hst in H as [H|H]; [by eapply N4|].
    destruct (Hnew n H) as [H'|[H'|(a' & H1 & H2 & _)]]; [by eapply N4|congruence|].
    congruence.
  - assert (Hmix : forall n1 n2, stored s n1 -> o = Some n2 -> is_Some (addr n1) ->
                   addr n1 = addr n2 -> n1 = n2).
    { intros n1 n2 H1 H2 Ha Heq. destruct (Hnew n2 H2) as [H'|[H'|(a' & H3 & _ & H4)]].
      - by apply N5.
      - rewrite Heq, H' in Ha. by destruct Ha.
      - exfalso. apply (H4 n1 H1). congruence. }
    intros n1 n2 H1 H2 Ha Heq. apply Hst in H1 as [H1|H1], H2 as [H2|H2].
    + by apply N5.
    + by apply Hmix.
    + symmetry. apply Hmix; auto. by rewrite <- Heq.
    + congruence.
Qed.

Lemma inv_step_get_type p name s : nodes s -> nodes (get_type_by_name p name s).2.
Proof.
  revert s. apply (keeps_get_type_by_name (fun s s' => nodes s -> nodes s')); auto.
  - intros s N. apply nodes_set_next; [lia|done].
  - intros v s N. by apply wrap_nodes.
Qed.
Lemma field_type_body_nodes p s : nodes s -> nodes (field_type_body p s).2.
Proof.
  revert s. apply (keeps_field_type_body (fun s s' => nodes s -> nodes s')); auto.
  - intros s N. apply nodes_set_next; [lia|done].
  - intros v s N. by apply wrap_nodes.
Qed.

Lemma field_type_unfold a p s :
  field_type a p s =
  match ftcache s !! (a, p) with
  | Some res => (Ret res, s)
  | None =>
      match field_type_body p s with
      | (Ret res, s1) => (Ret res, set_ftcache (<[(a, p) := res]> (ftcache s1)) s1)
      | (Panic m, s1) => (Panic m, set_ftcache (<[(a, p) := None]> (ftcache s1)) s1)
      | (Diverge, s1) => (Diverge, s1)
      end
  end.
Proof. unfold field_type. rewrite rbind_get. by destruct (ftcache s !! (a, p)). Qed.

(** the body does not write the field type cache *)
Definition same_ft (s s' : registry) : Prop := ftcache s' = ftcache s.
Lemma same_ft_wrap v : keeps same_ft (wrap v).
Proof.
  intros s. unfold wrap. rewrite rbind_get. destruct (cache s !! v); [done|].
  destruct v as [| | |p]; try done. destruct (heap_at s p) as [t|]; [|done].
  by destruct (wrap_kind (t_data t)).
Qed.
Lemma field_type_body_ft p : keeps same_ft (field_type_body p).
Proof.
  apply keeps_field_type_body; unfold same_ft; try done; [congruence|apply same_ft_wrap].
Qed.
Lemma get_type_by_name_ft p n : keeps same_ft (get_type_by_name p n).
Proof.
  apply keeps_get_type_by_name; unfold same_ft; try done; [congruence|apply same_ft_wrap].
Qed.

Lemma canonical_stored s n : canonical s n -> stored s n.
Proof. intros (k & a & p & -> & H). left. eauto. Qed.

Lemma field_type_nodes a p s : nodes s -> nodes (field_type a p s).2.
Proof.
  intros N. rewrite field_type_unfold.
  destruct (ftcache s !! (a, p)) as [res|] eqn:Hc; [done|].
  pose proof (field_type_body_ft p s) as Hft. pose proof (field_type_body_nodes p s N) as N1.
  destruct (field_type_body p s) as [[res|m|] s1] eqn:E; cbn [snd] in *; [| |done].
  - apply nodes_store_ft; [done|by rewrite Hft|].
    intros n ->. destruct (field_type_body_ret _ _ _ _ N E) as (Q & _ & Hsh & Hor).
    split; [done|]. destruct Hor as [H|[H|(a' & H1 & H2 & H3)]].
    + left. by apply canonical_stored.
    + right; by left.
    + right; right. exists a'. split; [done|]. split; [lia|done].
  - apply nodes_store_ft; [done|by rewrite Hft|]. done.
Qed.

(** ** The full invariant, kept by every client program *)

Definition Inv (s : registry) : Prop := schema s /\ nodes s.

Definition inv_step (s s' : registry) : Prop := Inv s -> Inv s' /\ grows s s'.

Lemma inv_step_refl s : inv_step s s.
Proof. intros H. split; [done|apply grows_refl]. Qed.
Lemma inv_step_trans s1 s2 s3 : inv_step s1 s2 -> inv_step s2 s3 -> inv_step s1 s3.
Proof.
  intros A B H. destruct (A H) as [A1 A2]. destruct (B A1) as [B1 B2].
  split; [done|by eapply grows_trans].
Qed.
Lemma quiet_inv_step {A} (m : R A) :
  keeps quiet m -> (forall s, nodes s -> nodes (m s).2) -> keeps inv_step m.
Proof.
  intros Q HN s [S N]. specialize (Q s). split; [|by apply quiet_grows].
  split; [by eapply quiet_schema|by apply HN].
Qed.

Lemma proto_Inv e fuel path s o s' :
  env_ok e -> Inv s -> proto e fuel path s = (o, s') -> Inv s' /\ grows s s'.
Proof.
  intros He [S N] E. destruct (proto_ok e fuel path s o s' He S E) as (A1 & A2 & A3).
  split; [|done]. split; [done|].
  assert (Hsame : forall s1, same_nodes s s1 -> cache s1 = cache s /\ ftcache s1 = ftcache s)
    by (intros s1 (? & ? & _); done).
  destruct A3 as [g Hg|err H1 H2|els s1 H1 H2 H3 H4 H5 H6|els o s1 H1 H2 H3 H4 H5 H6].
  - apply nodes_set_next; [lia|done].
  - done.
  - destruct (Hsame s1 H5) as [B1 B2]. by eapply nodes_same.
  - destruct (Hsame s1 H5) as [B1 B2]. by eapply nodes_same.
Qed.

Lemma client_inv_step b {A} (m : R A) : client b m -> keeps inv_step m.
Proof.
  assert (Hp : forall e fuel path, env_ok e -> keeps inv_step (proto e fuel path)).
  { intros e fuel path He s Hs. destruct (proto e fuel path s) as [o s'] eqn:E.
    by eapply proto_Inv. }
  apply (keeps_client inv_step inv_step_refl inv_step_trans).
  - apply quiet_inv_step; [apply quiet_alloc|]. intros s N. apply nodes_set_next; [lia|done].
  - intros v. apply quiet_inv_step; [apply quiet_wrap|]. intros s N. by apply wrap_nodes.
  - intros a p. apply quiet_inv_step; [apply quiet_field_type|]. intros s N.
    by apply field_type_nodes.
  - intros _. exact Hp.
  - intros _ e fuel path He. apply keeps_proto_or_exit; auto using inv_step_refl.
Qed.

Lemma client_mono md md' {A} (m : R A) :
  (md = Loads -> md' = Loads) -> (md <> Queries -> md' <> Queries) ->
  client md m -> client md' m.
Proof.
  intros H1 H2. induction 1 as
    [A a|A msg|A B m k _ IHm _ IHk|A m _ IHm|A m Hm|A sq C c yield Hsq _ IHy
    |A n k _ IHk|e fuel path Hl He|e fuel path Hl He].
  - apply cl_ret.
  - apply cl_panic.
  - by apply cl_bind.
  - by apply cl_recover.
  - by apply cl_api.
  - by apply cl_loop.
  - by apply cl_options.
  - by apply cl_proto; auto.
  - by apply cl_proto_or_exit; auto.
Qed.
Lemma client_loads md {A} (m : R A) : client md m -> client Loads m.
Proof. by apply client_mono. Qed.
Lemma client_query md {A} (m : R A) : client Queries m -> client md m.
Proof. by apply client_mono. Qed.

Lemma history_Inv md s : history md s -> Inv s.
Proof.
  induction 1 as [e fuel s He E|A m s _ IH Hm].
  - destruct (new_registry_ok e fuel s He E) as (A1 & A2 & A3 & _).
    split; [done|]. by apply nodes_fresh.
  - by apply (client_inv_step md m Hm s).
Qed.
Lemma reachable_Inv s : reachable s -> Inv s.
Proof. apply history_Inv. Qed.
Lemma client_history md {A} (m : R A) s o s' :
  history md s -> client md m -> m s = (o, s') -> history md s'.
Proof. intros H Hm E. replace s' with (m s).2 by (by rewrite E). by econstructor. Qed.
Lemma client_reachable {A} (m : R A) s o s' :
  reachable s -> client Loads m -> m s = (o, s') -> reachable s'.
Proof. apply client_history. Qed.
Lemma calm_reachable s : calm s -> reachable s.
Proof.
  induction 1 as [e fuel s He E|A m s _ IH Hm].
  - by eapply hist_new.
  - apply hist_client; [done|]. by eapply client_loads.
Qed.

(** ** Calm histories: every loaded file is complete *)
Definition complete (s : registry) : Prop := forall g, g < length (heap s) -> done s g.

Definition calm_step (s s' : registry) : Prop :=
  schema s /\ complete s -> (schema s' /\ complete s') /\ grows s s'.
Lemma calm_step_refl s : calm_step s s.
Proof. intros H. split; [done|apply grows_refl]. Qed.
Lemma calm_step_trans s1 s2 s3 : calm_step s1 s2 -> calm_step s2 s3 -> calm_step s1 s3.
Proof.
  intros A B H. destruct (A H) as [A1 A2]. destruct (B A1) as [B1 B2].
  split; [done|by eapply grows_trans].
Qed.
Lemma quiet_complete s s' : quiet s s' -> complete s -> complete s'.
Proof.
  intros Q H g Hg. rewrite (q_heap _ _ Q) in Hg.
  eapply (ext_done 0); [by apply quiet_ext|done|by apply H].
Qed.
Lemma quiet_calm_step {A} (m : R A) : keeps quiet m -> keeps calm_step m.
Proof.
  intros Q s [S C]. specialize (Q s). split; [|by apply quiet_grows].
  split; [by eapply quiet_schema|by eapply quiet_complete].
Qed.
Lemma proto_complete e fuel path s r s' :
  env_ok e -> schema s -> complete s -> proto e fuel path s = (Ret r, s') -> complete s'.
Proof.
  intros He S C E. destruct (proto_ok e fuel path s _ s' He S E) as (A1 & A2 & A3).
  inversion A3 as [g Hg H1 H2|err Hp Hr H1 H2|els s1 Hp Hr H1 H2 H3 H4 H5 H6
                  |els o s1 Hp Hr H1 H2 H3 H4 H5 H6]; subst.
  - eapply quiet_complete; [apply quiet_set_next; lia|done].
  - done.
  - intros g Hg. destruct (decide (g < length (heap s))) as [Hl|Hl].
    + eapply ext_done; [exact A2|done|by apply C].
    + assert (Hg1 : g < length (heap s1)) by exact Hg.
      assert (E1 : ext 0 s1 (set_next (next s + 1) s1)).
      { apply quiet_ext, quiet_set_next. destruct H3 as (_ & _ & ->). lia. }
      apply (ext_done 0 _ _ g E1 Hg1). apply H4. lia.
  - exfalso. by eapply H4.
Qed.
Lemma calm_complete s : calm s -> schema s /\ complete s.
Proof.
  induction 1 as [e fuel s He E|A m s _ IH Hm].
  - destruct (new_registry_ok e fuel s He E) as (A1 & _ & _ & _ & _ & A2). done.
  - assert (Hk : keeps calm_step m); [|by apply (Hk s)].
    apply (keeps_client calm_step calm_step_refl calm_step_trans) with (b := CalmLoads); [| | |done| |done].
    + apply quiet_calm_step, quiet_alloc.
    + intros v. apply quiet_calm_step, quiet_wrap.
    + intros a p. apply quiet_calm_step, quiet_field_type.
    + intros _ e fuel path He s0 [S C]. unfold proto_or_exit.
      destruct (proto e fuel path s0) as [[r|msg|] s1] eqn:E; cbn [snd];
        [|split; [done|apply grows_refl]|split; [done|apply grows_refl]].
      destruct (proto_ok e fuel path s0 _ s1 He S E) as (A1 & A2 & _).
      split; [|done]. split; [done|]. exact (proto_complete e fuel path s0 r s1 He S C E).
Qed.
