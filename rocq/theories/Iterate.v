(** * Iterators and lookups: proofs. *)
From Verif Require Export Observe Identity.

Lemma represented_wrap d : represented_by d = wrap_kind d.
Proof. by destruct d. Qed.

(** [n] is the node of the element at [p] *)
Definition node_at (s : registry) (p : ptr) (n : node) : Prop :=
  exists k a, n = NAst k a p /\ cache s !! VPtr p = Some (Some n).

Lemma node_at_canonical s p n : node_at s p n -> canonical s n.
Proof. intros (k & a & -> & H). exists k, a, p. done. Qed.
Lemma node_at_grows s s' p n : grows s s' -> node_at s p n -> node_at s' p n.
Proof. intros G (k & a & -> & H). exists k, a. split; [done|]. by eapply ext_cache. Qed.

(** a pick function that selects children and wraps them *)
Definition picks (sel : data -> bool) (pick : ptr * tree -> R (option node)) : Prop :=
  forall (b : ptr * tree) s, Inv s -> heap_at s b.1 = Some b.2 ->
  if sel (t_data b.2)
  then exists n s', pick b s = (Ret (Some n), s') /\ quiet s s' /\ Inv s' /\ node_at s' b.1 n /\
         (exists k a, represented_by (t_data b.2) = Some k /\ n = NAst k a b.1) /\
         forall v, v <> VPtr b.1 -> cache s' !! v = cache s !! v
  else pick b s = (Ret None, s).

Lemma quiet_Inv s s' : quiet s s' -> nodes s' -> Inv s -> Inv s'.
Proof. intros Q N [S _]. split; [by eapply quiet_schema|done]. Qed.

Lemma assert_kind_ok i k a p s : assert_kind i k (Some (NAst k a p)) s = (Ret (NAst k a p), s).
Proof. by destruct k. Qed.
Lemma wrap_only v s v' : v' <> v -> cache (wrap v s).2 !! v' = cache s !! v'.
Proof.
  intros Hv. unfold wrap. rewrite rbind_get. destruct (cache s !! v); [done|].
  destruct v as [| | |p]; cbn; try by rewrite lookup_insert_ne.
  destruct (heap_at s p) as [t|]; [|done].
  destruct (wrap_kind (t_data t)); cbn; by rewrite lookup_insert_ne.
Qed.
Lemma wrap_as_ok k p t s :
  Inv s -> heap_at s p = Some t -> wrap_kind (t_data t) = Some k ->
  exists a s', wrap_as k p s = (Ret (NAst k a p), s') /\ quiet s s' /\ Inv s' /\
    cache s' !! VPtr p = Some (Some (NAst k a p)) /\
    forall v, v <> VPtr p -> cache s' !! v = cache s !! v.
Proof.
  intros I Ht Hk. destruct (wrap_ok s p t k (proj2 I) Ht Hk) as (a & s' & E & Q & N & Hc).
  exists a, s'. split; [|split; [done|split; [by eapply quiet_Inv|split; [done|]]]].
  - unfold wrap_as. rewrite (rbind_val _ _ _ _ _ E). apply assert_kind_ok.
  - intros v Hv. pose proof (wrap_only (VPtr p) s v Hv) as H. by rewrite E in H.
Qed.
Lemma picks_kind sel k :
  (forall d, sel d = true -> wrap_kind d = Some k) -> picks sel (pick_kind sel k).
Proof.
  intros Hk b s I Ht. unfold pick_kind. destruct (sel (t_data b.2)) eqn:Hs; [|done].
  destruct (wrap_as_ok k b.1 b.2 s I Ht (Hk _ Hs)) as (a & s' & E & Q & I' & Hc & Ho).
  exists (NAst k a b.1), s'. rewrite (rbind_val _ _ _ _ _ E). split; [done|]. split; [done|].
  split; [done|]. split; [exists k, a; done|]. split; [|done].
  exists k, a. rewrite represented_wrap. auto.
Qed.
Lemma picks_type : picks a_type pick_type.
Proof.
  intros b s I Ht. unfold pick_type.
  assert (H : forall k, wrap_kind (t_data b.2) = Some k ->
    exists n s', (n0 <~ wrap_as k b.1;; ret (Some n0)) s = (Ret (Some n), s') /\
      quiet s s' /\ Inv s' /\ node_at s' b.1 n /\
      (exists k a, represented_by (t_data b.2) = Some k /\ n = NAst k a b.1) /\
      forall v, v <> VPtr b.1 -> cache s' !! v = cache s !! v).
  { intros k Hk. destruct (wrap_as_ok k b.1 b.2 s I Ht Hk) as (a & s' & E & Q & I' & Hc & Ho).
    exists (NAst k a b.1), s'. rewrite (rbind_val _ _ _ _ _ E). split; [done|]. split; [done|].
    split; [done|]. split; [exists k, a; done|]. split; [|done].
    exists k, a. by rewrite represented_wrap. }
  destruct (t_data b.2) as [| | | | | |? []| | | | | | | | | | | |] eqn:Hd; cbn [a_type]; try done;
    apply H; done.
Qed.

Lemma iterates_pick p sel sq : iterates p sel sq ->
  exists pick, sq = iter_kids p pick /\ picks sel pick.
Proof.
  intros []; eexists; (split; [reflexivity|]); try apply picks_type;
    apply picks_kind; intros []; try done; by intros [].
Qed.

(** ** Collecting everything *)

Lemma kids_at_lookup p t i b : kids_at p t !! i = Some b ->
  exists k, b = (child p i, k) /\ t_kids t !! i = Some k.
Proof.
  unfold kids_at. rewrite list_lookup_imap. destruct (t_kids t !! i) as [k|]; [|done].
  cbn. intros [= <-]. eauto.
Qed.
Lemma heap_at_child s p t i k :
  heap_at s p = Some t -> t_kids t !! i = Some k -> heap_at s (child p i) = Some k.
Proof.
  unfold heap_at. cbn. destruct (heap s !! p.1) as [f|]; [|done]. cbn. intros -> H. exact H.
Qed.
Lemma kids_heap s p t b : heap_at s p = Some t -> b ∈ kids_at p t -> heap_at s b.1 = Some b.2.
Proof.
  intros Ht [i Hi]%elem_of_list_lookup. apply kids_at_lookup in Hi as (k & -> & Hk).
  by eapply heap_at_child.
Qed.
Lemma deref_ok s p t : heap_at s p = Some t -> deref p s = (Ret t, s).
Proof. intros H. unfold deref. by rewrite rbind_get, H. Qed.
Lemma kids_of_ok s p t : heap_at s p = Some t -> kids_of p s = (Ret (kids_at p t), s).
Proof. intros H. unfold kids_of. by rewrite (rbind_val _ _ _ _ _ (deref_ok _ _ _ H)). Qed.

(** what a loop that runs to the end without touching the registry sees *)
Lemma collect_picks sel pick kids : picks sel pick ->
  forall l0 s, Inv s -> (forall b, b ∈ kids -> heap_at s b.1 = Some b.2) ->
  exists l s', iterate pick kids (list node) l0 (fun c x => ret ((c ++ [x])%list, true)) s
                = (Ret (l0 ++ l)%list, s') /\
    quiet s s' /\ Inv s' /\
    Forall2 (node_at s') (map fst (List.filter (fun b => sel (t_data b.2)) kids)) l /\
    Forall2 (fun b n => exists k a, represented_by (t_data b.2) = Some k /\ n = NAst k a b.1)
      (List.filter (fun b => sel (t_data b.2)) kids) l.
Proof.
  intros Hp. induction kids as [|b kids IH]; intros l0 s I Hk; cbn [iterate List.filter].
  - exists [], s. rewrite app_nil_r. split; [done|]. split; [apply quiet_refl|].
    split; [done|]. split; constructor.
  - pose proof (Hp b s I (Hk b (elem_of_list_here _ _))) as Hb.
    destruct (sel (t_data b.2)).
    + destruct Hb as (n & s1 & E & Q & I1 & Hn & Hr & Hone). rewrite (rbind_val _ _ _ _ _ E).
      unfold ret at 1. rewrite (rbind_val _ _ _ (_, _) s1 eq_refl).
      destruct (IH (l0 ++ [n])%list s1 I1) as (l & s2 & E2 & Q2 & I2 & H2 & H3).
      { intros b' Hb'. rewrite (quiet_heap_at _ _ _ Q). apply Hk. by constructor. }
      exists (n :: l), s2. cbn. rewrite E2, <- app_assoc. split; [done|].
      split; [by eapply quiet_trans|]. split; [done|]. cbn [map]. split.
      * constructor; [|done]. eapply node_at_grows; [apply quiet_grows, Q2|done].
      * constructor; done.
    + rewrite (rbind_val _ _ _ _ _ Hb).
      apply IH; [done|]. intros b' Hb'. apply Hk. by constructor.
Qed.

Lemma collect_ok p sel sq t s :
  iterates p sel sq -> Inv s -> heap_at s p = Some t ->
  exists l s', collect sq s = (Ret l, s') /\ quiet s s' /\ Inv s' /\
    Forall2 (node_at s') (children sel p t) l /\
    Forall2 (fun b n => exists k a, represented_by (t_data b.2) = Some k /\ n = NAst k a b.1)
      (List.filter (fun b => sel (t_data b.2)) (kids_at p t)) l.
Proof.
  intros Hit I Ht. destruct (iterates_pick _ _ _ Hit) as (pick & -> & Hp).
  unfold collect, iter_kids. rewrite (rbind_val _ _ _ _ _ (kids_of_ok _ _ _ Ht)).
  destruct (collect_picks sel pick (kids_at p t) Hp [] s I) as (l & s' & E & Q & I' & H1 & H2).
  { intros b. by apply kids_heap. }
  exists l, s'. split; [exact E|]. done.
Qed.

(** ** Loops with arbitrary bodies *)

Lemma loop_picks {C} sel pick kids (body : C -> node -> R (C * bool)) :
  picks sel pick -> (forall c x, client Loads (body c x)) ->
  forall c l0 s c' l s', Inv s -> (forall b, b ∈ kids -> heap_at s b.1 = Some b.2) ->
  iterate pick kids (C * list node)%type (c, l0) (recording body) s = (Ret (c', l), s') ->
  Inv s' /\ grows s s' /\
  exists l1 k, l = (l0 ++ l1)%list /\
    Forall2 (node_at s') (take k (map fst (List.filter (fun b => sel (t_data b.2)) kids))) l1 /\
    ((forall c x s c' s', body c x s <> (Ret (c', false), s')) ->
     length (List.filter (fun b => sel (t_data b.2)) kids) <= k).
Proof.
  intros Hp Hb. induction kids as [|b kids IH]; intros c l0 s c' l s' I Hk E; cbn [iterate List.filter] in *.
  - injection E as <- <- <-. split; [done|]. split; [apply grows_refl|].
    exists [], 0. rewrite app_nil_r. split; [done|]. split; [constructor|]. done.
  - pose proof (Hp b s I (Hk b (elem_of_list_here _ _))) as Hb1.
    assert (Hsub : forall s1, grows s s1 -> forall b', b' ∈ kids -> heap_at s1 b'.1 = Some b'.2).
    { intros s1 G b' Hb'. eapply ext_heap_at; [exact G|]. apply Hk. by constructor. }
    destruct (sel (t_data b.2)).
    + destruct Hb1 as (n & s1 & E1 & Q & I1 & Hn & _). rewrite (rbind_val _ _ _ _ _ E1) in E.
      apply rbind_Ret in E as ([[c2 l2] go] & s2 & E2 & E3). unfold recording in E2.
      apply rbind_Ret in E2 as ([c3 go3] & s3 & E2 & E4). cbn in E2, E4.
      injection E4 as <- <- <- <-.
      destruct (inv_step_ret _ _ _ _ (client_inv_step _ _ (Hb _ _)) I1 E2) as [I3 G3].
      pose proof (quiet_grows _ _ Q) as G1. pose proof (grows_trans _ _ _ G1 G3) as G13.
      destruct go3.
      * destruct (IH _ _ _ _ _ _ I3 (Hsub _ G13) E3) as (I' & G' & l1 & k & -> & H1 & H2).
        split; [done|]. split; [exact (grows_trans _ _ _ G13 G')|].
        exists (n :: l1), (S k). rewrite <- app_assoc. split; [done|]. cbn [map take]. split.
        -- constructor; [|done]. eapply node_at_grows; [exact G'|]. exact (node_at_grows _ _ _ _ G3 Hn).
        -- intros H. cbn. specialize (H2 H). lia.
      * injection E3 as <- <- <-. split; [done|]. split; [done|].
        exists [n], 1. split; [done|]. cbn [map take]. split.
        -- constructor; [exact (node_at_grows _ _ _ _ G3 Hn)|]. destruct (map _ _); constructor.
        -- intros H. by apply H in E2.
    + rewrite (rbind_val _ _ _ _ _ Hb1) in E. eapply IH; [exact I| |exact E].
      apply Hsub, grows_refl.
Qed.

Lemma loop_ok {C} p sel sq t s (c : C) body c' l s' :
  iterates p sel sq -> Inv s -> heap_at s p = Some t ->
  (forall c x, client Loads (body c x)) ->
  sq (C * list node)%type (c, []) (recording body) s = (Ret (c', l), s') ->
  Inv s' /\ grows s s' /\ exists k,
    Forall2 (node_at s') (take k (children sel p t)) l /\
    ((forall c x s c' s', body c x s <> (Ret (c', false), s')) -> length (children sel p t) <= k).
Proof.
  intros Hit I Ht Hb E. destruct (iterates_pick _ _ _ Hit) as (pick & -> & Hp).
  unfold iter_kids in E. rewrite (rbind_val _ _ _ _ _ (kids_of_ok _ _ _ Ht)) in E.
  destruct (loop_picks sel pick (kids_at p t) body Hp Hb c [] s c' l s' I) as (I' & G & l1 & k & -> & H1 & H2);
    [intros b; by apply kids_heap|exact E|].
  split; [done|]. split; [done|]. exists k. split; [done|].
  unfold children. rewrite map_length. done.
Qed.

(** ** The first elements only *)

Lemma take_picks sel pick kids k : picks sel pick ->
  forall l0 s, Inv s -> (forall b, b ∈ kids -> heap_at s b.1 = Some b.2) -> length l0 < k ->
  exists l s', iterate pick kids (list node) l0
      (fun c x => ret ((c ++ [x])%list, Nat.ltb (S (length c)) k)) s = (Ret (l0 ++ l)%list, s') /\
    quiet s s' /\ Inv s' /\
    Forall2 (node_at s') (take (k - length l0) (map fst (List.filter (fun b => sel (t_data b.2)) kids))) l /\
    (forall v, (forall q, q ∈ take (k - length l0) (map fst (List.filter (fun b => sel (t_data b.2)) kids)) -> v <> VPtr q) ->
       cache s' !! v = cache s !! v).
Proof.
  intros Hp. induction kids as [|b kids IH]; intros l0 s I Hk Hlt; cbn [iterate List.filter].
  - exists [], s. rewrite app_nil_r. split; [done|]. split; [apply quiet_refl|].
    split; [done|]. cbn [map]. rewrite take_nil. split; [constructor|done].
  - pose proof (Hp b s I (Hk b (elem_of_list_here _ _))) as Hb.
    destruct (sel (t_data b.2)).
    + destruct Hb as (n & s1 & E & Q & I1 & Hn & Hr & Hone). rewrite (rbind_val _ _ _ _ _ E).
      unfold ret at 1. rewrite (rbind_val _ _ _ (_, _) s1 eq_refl).
      destruct (Nat.ltb_spec (S (length l0)) k) as [Hl|Hl].
      * destruct (IH (l0 ++ [n])%list s1 I1) as (l & s2 & E2 & Q2 & I2 & H2 & H3).
        { intros b' Hb'. rewrite (quiet_heap_at _ _ _ Q). apply Hk. by constructor. }
        { rewrite app_length. cbn. lia. }
        rewrite app_length in H2, H3. cbn [length] in H2, H3.
        exists (n :: l), s2. rewrite E2, <- app_assoc. split; [done|].
        split; [by eapply quiet_trans|]. split; [done|]. cbn [map].
        replace (k - length l0) with (S (k - (length l0 + 1))) by lia. cbn [take]. split.
        -- constructor; [|done]. eapply node_at_grows; [apply quiet_grows, Q2|done].
        -- intros v Hv. rewrite H3, Hone; [done| |].
           ++ apply Hv. by constructor.
           ++ intros q Hq. apply Hv. by constructor.
      * exists [n], s1. split; [done|]. split; [done|]. split; [done|]. cbn [map].
        replace (k - length l0) with 1 by lia. cbn [take]. rewrite take_0. split.
        -- constructor; [done|constructor].
        -- intros v Hv. apply Hone, Hv. by constructor.
    + rewrite (rbind_val _ _ _ _ _ Hb). apply IH; [done| |done].
      intros b' Hb'. apply Hk. by constructor.
Qed.

Lemma take_first_ok k p sel sq t s :
  iterates p sel sq -> Inv s -> heap_at s p = Some t -> 0 < k ->
  exists l s', take_first k sq s = (Ret l, s') /\ quiet s s' /\ Inv s' /\
    Forall2 (node_at s') (take k (children sel p t)) l /\
    (forall v, (forall q, q ∈ take k (children sel p t) -> v <> VPtr q) ->
       cache s' !! v = cache s !! v).
Proof.
  intros Hit I Ht Hk. destruct (iterates_pick _ _ _ Hit) as (pick & -> & Hp).
  unfold take_first, iter_kids. rewrite (rbind_val _ _ _ _ _ (kids_of_ok _ _ _ Ht)).
  destruct (take_picks sel pick (kids_at p t) k Hp [] s I) as (l & s' & E & Q & I' & H1 & H2).
  { intros b. by apply kids_heap. }
  { done. }
  cbn [length] in H1, H2. rewrite Nat.sub_0_r in H1, H2. exists l, s'. done.
Qed.

(** ** Lookups by name *)

Definition is_named (s : registry) (name : string) (n : node) : bool :=
  match n with
  | NAst _ _ p =>
      match heap_at s p with
      | Some t => bool_decide (own_name (t_data t) = Some name)
      | None => false
      end
  | _ => false
  end.

Lemma find_kid_first s name sel sel' kids l :
  (forall b, b ∈ kids -> heap_at s b.1 = Some b.2) ->
  (forall b, b ∈ kids -> sel' (t_data b.2) =
     sel (t_data b.2) && bool_decide (own_name (t_data b.2) = Some name)) ->
  Forall2 (node_at s) (map fst (List.filter (fun b => sel (t_data b.2)) kids)) l ->
  match find_kid sel' kids with
  | Some q => exists n t, List.find (is_named s name) l = Some n /\ node_at s q n /\
                heap_at s q = Some t /\ sel (t_data t) = true
  | None => List.find (is_named s name) l = None
  end.
Proof.
  intros Hh Hsel. revert l. induction kids as [|[q t] kids IH]; intros l H; cbn in *.
  - by inversion H.
  - pose proof (Hh _ (elem_of_list_here _ _)) as Hq. cbn in Hq.
    pose proof (Hsel _ (elem_of_list_here _ _)) as Hs. cbn in Hs.
    assert (IH' := IH (fun b Hb => Hh b (elem_of_list_further _ _ _ Hb))
                      (fun b Hb => Hsel b (elem_of_list_further _ _ _ Hb))).
    rewrite Hs. destruct (sel (t_data t)) eqn:Hst; cbn in *.
    + apply Forall2_cons_inv_l in H as (n & l' & Hn & Hl & ->). cbn.
      assert (Hnm : is_named s name n = bool_decide (own_name (t_data t) = Some name)).
      { destruct Hn as (k & a & -> & _). cbn. by rewrite Hq. }
      rewrite Hnm. destruct (bool_decide (own_name (t_data t) = Some name)); [|by apply IH'].
      exists n, t. done.
    + by apply IH'.
Qed.

Lemma lookup_kid_first p t s name sel sel' k l :
  Inv s -> heap_at s p = Some t ->
  (forall b, b ∈ kids_at p t -> sel' (t_data b.2) =
     sel (t_data b.2) && bool_decide (own_name (t_data b.2) = Some name)) ->
  (forall d, sel d = true -> wrap_kind d = Some k) ->
  Forall2 (node_at s) (children sel p t) l ->
  lookup_kid p sel' k s = (Ret (List.find (is_named s name) l), s).
Proof.
  intros I Ht Hsel Hk Hl. unfold lookup_kid. rewrite (rbind_val _ _ _ _ _ (kids_of_ok _ _ _ Ht)).
  pose proof (find_kid_first s name sel sel' (kids_at p t) l (fun b => kids_heap s p t b Ht) Hsel Hl) as H.
  destruct (find_kid sel' (kids_at p t)) as [q|]; [|by rewrite H].
  destruct H as (n & u & -> & (k' & a & -> & Hc) & Hu & Hs).
  destruct (nd_cache _ (proj2 I) _ _ Hc) as (p' & k'' & a' & t' & [= <-] & [= <- <-] & Ht' & Hw).
  assert (k' = k) as ->. { specialize (Hk _ Hs). congruence. }
  unfold wrap_as. rewrite (rbind_val _ _ s (NAst k a q) s); [done|].
  rewrite (rbind_val _ _ _ _ _ (wrap_hit _ _ _ Hc)). apply assert_kind_ok.
Qed.
Lemma lookup_type_first p t s name sel' l :
  Inv s -> heap_at s p = Some t ->
  (forall b, b ∈ kids_at p t -> sel' (t_data b.2) =
     a_type (t_data b.2) && bool_decide (own_name (t_data b.2) = Some name)) ->
  Forall2 (node_at s) (children a_type p t) l ->
  lookup_type p sel' s = (Ret (List.find (is_named s name) l), s).
Proof.
  intros I Ht Hsel Hl. unfold lookup_type. rewrite (rbind_val _ _ _ _ _ (kids_of_ok _ _ _ Ht)).
  pose proof (find_kid_first s name a_type sel' (kids_at p t) l (fun b => kids_heap s p t b Ht) Hsel Hl) as H.
  destruct (find_kid sel' (kids_at p t)) as [q|]; [|by rewrite H].
  destruct H as (n & u & -> & (k' & a & -> & Hc) & Hu & Hs).
  destruct (nd_cache _ (proj2 I) _ _ Hc) as (p' & k'' & a' & t' & [= <-] & [= <- <-] & Ht' & Hw).
  assert (t' = u) as -> by congruence.
  rewrite (rbind_val _ _ _ _ _ (deref_ok _ _ _ Hu)).
  assert (Hgo : forall k, wrap_kind (t_data u) = Some k ->
    (n <~ wrap_as k q ;; ret (Some n)) s = (Ret (Some (NAst k' a q)), s)).
  { intros k Hk. assert (k' = k) as -> by congruence.
    unfold wrap_as. rewrite (rbind_val _ _ s (NAst k a q) s); [done|].
    rewrite (rbind_val _ _ _ _ _ (wrap_hit _ _ _ Hc)). apply assert_kind_ok. }
  destruct (t_data u) as [| | | | | |? []| | | | | | | | | | | |]; try done; by apply Hgo.
Qed.

Lemma eqb_bool_decide (n name : string) : String.eqb n name = bool_decide (Some n = Some name).
Proof.
  destruct (String.eqb_spec n name) as [->|H]; symmetry.
  - by apply bool_decide_eq_true.
  - apply bool_decide_eq_false. congruence.
Qed.

Lemma lookup_first_at p sel sq lk s t l name :
  looks_up p sel sq lk -> Inv s -> heap_at s p = Some t ->
  Forall2 (node_at s) (children sel p t) l ->
  lk name s = (Ret (List.find (is_named s name) l), s).
Proof.
  intros Hlk I Ht Hl.
  destruct Hlk;
    first [eapply lookup_kid_first|eapply lookup_type_first]; try eassumption;
    try (intros [? [d ? ? ?]] _; cbn [t_data snd]; destruct d as [| | | | | |? []| | | | | | | | | | | |];
         cbn; rewrite ?eqb_bool_decide; done);
    intros []; try done; by intros [].
Qed.
Lemma lookup_first_ext_at p sel sq lk s t l name :
  looks_up_ext p sel sq lk -> Inv s -> heap_at s p = Some t ->
  (forall kid, kid ∈ t_kids t -> t_data kid <> DMessage name true) ->
  Forall2 (node_at s) (children sel p t) l ->
  lk name s = (Ret (List.find (is_named s name) l), s).
Proof.
  intros Hlk I Ht Hno Hl.
  assert (Hno' : forall b, b ∈ kids_at p t -> t_data b.2 <> DMessage name true).
  { intros b [i Hi]%elem_of_list_lookup. apply kids_at_lookup in Hi as (k & -> & Hk).
    apply Hno. by eapply elem_of_list_lookup_2. }
  assert (Hx : forall n b, b ∈ kids_at p t -> t_data b.2 = DMessage n true -> String.eqb n name = false).
  { intros n b Hb Hd. apply String.eqb_neq. intros ->. by apply (Hno' _ Hb). }
  destruct Hlk.
  - eapply lookup_kid_first; try eassumption.
    + intros b Hb. specialize (Hx). destruct (t_data b.2) as [| | | | | |n []| | | | | | | | | | | |] eqn:Hd;
        cbn; rewrite ?(Hx _ _ Hb Hd), ?eqb_bool_decide; done.
    + intros []; try done; by intros [].
  - eapply lookup_type_first; try eassumption.
    intros b Hb. specialize (Hx). destruct (t_data b.2) as [| | | | | |n []| | | | | | | | | | | |] eqn:Hd;
        cbn; rewrite ?(Hx _ _ Hb Hd), ?eqb_bool_decide; done.
Qed.

(** ** Nesting allowed by the grammar *)

Lemma wf_kid t i k : wf_tree t = true -> t_kids t !! i = Some k ->
  allowed (t_data t) (t_data k) = true /\ wf_tree k = true.
Proof.
  destruct t as [d ps cm kids]. cbn [wf_tree t_kids t_data]. intros H Hi.
  rewrite List.forallb_forall in H. apply andb_prop, H, elem_of_list_In.
  by eapply elem_of_list_lookup_2.
Qed.
Lemma wf_walk π : forall t u, wf_tree t = true -> walk t π = Some u -> wf_tree u = true.
Proof.
  induction π as [|i π IH]; intros t u Hw; cbn [walk]; [by intros [= <-]|].
  destruct (walk t π) as [v|] eqn:Hv; [|done]. intros Hi.
  by apply (wf_kid v i u (IH _ _ Hw Hv) Hi).
Qed.
Lemma heap_wf s p t : Inv s -> heap_at s p = Some t -> wf_tree t = true.
Proof.
  intros [S _]. unfold heap_at. destruct (heap s !! p.1) as [f|] eqn:Hf; [|done].
  destruct (sc_heap _ S _ _ Hf) as (path & els & _ & Hw & _). by apply wf_walk.
Qed.
Lemma kids_allowed s p t b : Inv s -> heap_at s p = Some t -> b ∈ kids_at p t ->
  allowed (t_data t) (t_data b.2) = true.
Proof.
  intros I Ht [i Hi]%elem_of_list_lookup. apply kids_at_lookup in Hi as (k & -> & Hk).
  by apply (wf_kid t i k (heap_wf _ _ _ I Ht) Hk).
Qed.
