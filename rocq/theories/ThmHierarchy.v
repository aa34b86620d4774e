(** * C73: the iterator of NodeHierarchy can be used up. *)
From Verif Require Export Hierarchy ThmNavigation.

(** The first range over a new iterator is what [node_hierarchy] describes, for every loop body that
    leaves the iterator alone. *)
Theorem C73_first_range fuel n C (c : C) body s :
  (r <~ range_over fuel (new_hierarchy n) c (apart body) ;; ret r.1) s = node_hierarchy fuel n C c body s.
Proof.
  unfold node_hierarchy, new_hierarchy. generalize (Some n) as o. clear n. intros o. revert o c s.
  induction fuel as [|fuel IH]; intros [n|] c s; try reflexivity.
  specialize (fun par c' s2 => IH par c' s2). unfold rbind, apart in *. cbn [range_over hierarchy_from] in *.
  unfold rbind, apart in *. destruct (body c n s) as [[[c' go]|m|] s1]; try reflexivity.
  unfold ret. cbn [fst snd]. destruct go; [|reflexivity].
  destruct (node_parent n s1) as [[par|m|] s2]; try reflexivity.
  rewrite <- IH. reflexivity.
Qed.

Lemma range_step fuel n C (c : C) body s c' go s1 : body c n s = (Ret (c', go), s1) ->
  range_over (S fuel) (Some n) c (apart body) s =
  if go : bool then (par <~ node_parent n ;; range_over fuel par c' (apart body)) s1 else (Ret (c', Some n), s1).
Proof. intros E. cbn [range_over]. unfold apart at 1, rbind at 1 2. rewrite E. by destruct go. Qed.

Lemma range_taking k π : forall g n fuel (l0 : list node) s,
  Inv s -> points_to s (g, π) n -> outside_groups s (g, π) -> length π < fuel -> length l0 < k ->
  exists seen it s', range_over fuel (Some n) l0 (apart (taking k)) s = (Ret ((l0 ++ n :: seen)%list, it), s') /\
    quiet s s' /\ Inv s' /\ Forall2 (node_at s') (take (k - S (length l0)) (containers g π)) seen /\
    it = (if (k <=? length l0 + S (length π))%nat then list.last (n :: seen) else None).
Proof.
  induction π as [|i π IH]; intros g n fuel l0 s I Hn Hg Hf Hk;
    (destruct fuel as [|fuel]; [cbn in Hf; lia|]);
    rewrite (range_step fuel n _ l0 (taking k) s _ _ _ eq_refl);
    replace (length l0 + 1) with (S (length l0)) by lia.
  - exists []. destruct (S (length l0) <? k)%nat eqn:Hlt.
    + rewrite (rbind_val _ _ _ _ _ (points_parent _ _ _ I Hn)).
      eexists None, s. apply Nat.ltb_lt in Hlt.
      split; [by destruct fuel|]. split; [apply quiet_refl|]. split; [done|].
      split; [cbn [containers]; by rewrite take_nil|]. cbn [length].
      destruct ((k <=? length l0 + 1)%nat) eqn:Hle; [apply Nat.leb_le in Hle; lia|done].
    + apply Nat.ltb_ge in Hlt. eexists _, s. split; [done|]. split; [apply quiet_refl|].
      split; [done|]. split; [cbn [containers]; by rewrite take_nil|]. cbn [length].
      destruct ((k <=? length l0 + 1)%nat) eqn:Hle; [done|apply Nat.leb_gt in Hle; lia].
  - cbn [length] in Hf. destruct (S (length l0) <? k)%nat eqn:Hlt.
    + apply Nat.ltb_lt in Hlt.
      destruct (parent_node s g i π I (points_element _ _ _ Hn) Hg) as (m & s1 & E & Q1 & I1 & Hm).
      pose proof (points_parent _ _ _ I Hn) as Ep. cbn [fst snd] in Ep. rewrite E in Ep.
      destruct (IH g m fuel (l0 ++ [n])%list s1) as (seen & it & s' & El & Q2 & I2 & Hl & Hit).
      * done.
      * by apply shows_points, node_at_shows.
      * apply (outside_quiet _ _ _ I Q1). by eapply outside_parent.
      * lia.
      * rewrite app_length. cbn. lia.
      * exists (m :: seen), it, s'. rewrite (rbind_val _ _ _ _ _ Ep), El, <- app_assoc. split; [done|].
        split; [by eapply quiet_trans|]. split; [done|]. rewrite app_length in Hl, Hit. cbn [length] in Hl, Hit.
        split.
        -- cbn [containers]. replace (k - S (length l0)) with (S (k - S (length l0 + 1))) by lia.
           cbn [take]. constructor; [|done]. eapply node_at_grows; [by apply quiet_grows|done].
        -- rewrite Hit. cbn [length]. replace (length l0 + 1 + S (length π)) with (length l0 + S (S (length π))) by lia.
           done.
    + apply Nat.ltb_ge in Hlt. exists []. eexists _, s. split; [done|]. split; [apply quiet_refl|].
      split; [done|]. replace (k - S (length l0)) with 0 by lia. split; [constructor|].
      cbn [length]. destruct (k <=? _)%nat eqn:Hle; [done|apply Nat.leb_gt in Hle; lia].
Qed.

Lemma prefix_parents s g π : forall n seen j, Inv s -> points_to s (g, π) n ->
  Forall2 (node_at s) (take j (containers g π)) seen ->
  forall i x y, (n :: seen) !! i = Some x -> (n :: seen) !! S i = Some y -> node_parent x s = (Ret (Some y), s).
Proof.
  induction π as [|i π IH]; intros n seen j I Hn Hl.
  - cbn [containers] in Hl. rewrite take_nil in Hl. apply Forall2_nil_inv_l in Hl as ->. by intros [].
  - destruct j as [|j]; cbn [containers take] in Hl.
    { apply Forall2_nil_inv_l in Hl as ->. by intros []. }
    apply Forall2_cons_inv_l in Hl as (m & l' & Hm & Hl' & ->).
    assert (Hm' : points_to s (g, π) m) by (by apply shows_points, node_at_shows).
    intros [|j'] x y; [|exact (IH m l' j I Hm' Hl' j' x y)]. cbn. intros [= <-] [= <-].
    exact (parent_of_child s (g, π) i n m I Hn Hm).
Qed.

(** A range over a new iterator that breaks at the [k]-th element (or runs to the end if there are fewer):
    it sees the node and its first [k - 1] containers, each the NodeParent of the one before.  If it broke,
    the iterator now stands for NodeHierarchy of the last element seen; if not, it is used up. *)
Theorem C73_range s p n fuel k :
  reachable s -> points_to s p n -> outside_groups s p -> length p.2 < fuel -> 0 < k ->
  exists seen it s', range_over fuel (new_hierarchy n) [] (apart (taking k)) s = (Ret (n :: seen, it), s') /\
    Forall2 (shows s') (take (k - 1) (containers p.1 p.2)) seen /\
    (forall i x y, (n :: seen) !! i = Some x -> (n :: seen) !! S i = Some y ->
       node_parent x s' = (Ret (Some y), s')) /\
    (k <= S (length (containers p.1 p.2)) -> exists x, list.last (n :: seen) = Some x /\ it = new_hierarchy x) /\
    (S (length (containers p.1 p.2)) < k -> it = None).
Proof.
  intros Hs Hn Hg Hf Hk. pose proof (reachable_Inv _ Hs) as I. destruct p as [g π]. cbn [fst snd] in *.
  destruct (range_taking k π g n fuel [] s I Hn Hg Hf Hk) as (seen & it & s' & E & Q & I' & Hl & Hit).
  cbn [length app] in *. assert (Hlen : length (containers g π) = length π).
  { clear. induction π; cbn; congruence. }
  exists seen, it, s'. split; [exact E|]. split; [by apply Forall2_shows|].
  apply (points_grows _ _ _ _ (quiet_grows _ _ Q)) in Hn.
  split; [by eapply prefix_parents|]. rewrite Hlen. split.
  - intros Hle. assert ((k <=? 0 + S (length π))%nat = true) as Hb by (by apply Nat.leb_le).
    rewrite Hb in Hit. destruct (list.last (n :: seen)) as [x|] eqn:Hx; [by exists x|].
    by apply last_None in Hx.
  - intros Hlt. assert ((k <=? 0 + S (length π))%nat = false) as Hb by (by apply Nat.leb_gt). by rewrite Hb in Hit.
Qed.

(** A used up iterator yields nothing, whatever the loop and whenever it runs. *)
Theorem C73_used_up fuel C (c : C) body s : range_over fuel None c body s = (Ret (c, None), s).
Proof. by destruct fuel. Qed.

Lemma outside_grows s s' p : Inv s -> grows s s' -> (exists t, element_at s p t) ->
  outside_groups s p -> outside_groups s' p.
Proof.
  intros I G He Hg q u name Hq Hu. destruct p as [g π]. cbn [fst snd] in *.
  assert (exists t, element_at s q t) as [t Ht].
  { clear Hg Hu. revert He Hq. induction π as [|i π IH]; intros [t Ht] Hq; [by apply elem_of_nil in Hq|].
    apply element_heap in Ht as Hh. destruct (parent_allowed _ _ _ _ _ I Hh) as (v & Hv & _).
    apply (heap_element _ _ _ I) in Hv. cbn [containers] in Hq.
    apply elem_of_cons in Hq as [->|Hq]; [by exists v|]. apply IH; [by exists v|done]. }
  assert (t = u) as <-.
  { apply (element_at_grows _ _ _ _ G), element_heap in Ht as Ht'. apply element_heap in Hu. congruence. }
  exact (Hg q t name Hq Ht).
Qed.

(** Two ranges over one iterator, with any other use of the registry between them: if the first one broke
    at the [k]-th element, the second one sees that element again and then the containers after it; if the
    first one did not break, the second one sees nothing. *)
Theorem C73_again s p n fuel k {A} (m : R A) k2 :
  reachable s -> points_to s p n -> outside_groups s p -> length p.2 < fuel -> 0 < k -> 0 < k2 ->
  client Loads m ->
  exists seen it s1, range_over fuel (new_hierarchy n) [] (apart (taking k)) s = (Ret (n :: seen, it), s1) /\
    exists seen2 it2 s2, range_over fuel it [] (apart (taking k2)) (m s1).2 = (Ret (seen2, it2), s2) /\
      Forall2 (points_to s2) (take k2 (drop (k - 1) (p :: containers p.1 p.2))) seen2 /\
      (k <= S (length (containers p.1 p.2)) -> head seen2 = list.last (n :: seen)).
Proof.
  intros Hs Hn Hg Hf Hk Hk2 Hm. pose proof (reachable_Inv _ Hs) as I. destruct p as [g π]. cbn [fst snd] in *.
  destruct (range_taking k π g n fuel [] s I Hn Hg Hf Hk) as (seen & it & s1 & E & Q & I1 & Hl & Hit).
  cbn [length app] in *. exists seen, it, s1. split; [exact E|].
  destruct (client_step m s1 Hm I1) as [I2 G2]. set (s2 := (m s1).2) in *.
  apply (outside_quiet _ _ _ I Q) in Hg. pose proof (quiet_grows _ _ Q) as G.
  apply (points_grows _ _ _ _ G) in Hn. clear E Hs I Q G s.
  assert (Hlen : length (containers g π) = length π).
  { clear. induction π; cbn; congruence. }
  destruct ((k <=? 0 + S (length π))%nat) eqn:Hb.
  - apply Nat.leb_le in Hb.
    (* the element the iterator stands at *)
    assert (H : exists π' x, it = Some x /\ list.last (n :: seen) = Some x /\ points_to s1 (g, π') x /\
      outside_groups s1 (g, π') /\ length π' <= length π /\ drop (k - 1) (@cons ptr (g, π) (containers g π)) = @cons ptr (g, π') (containers g π')).
    { clear Hm I2 G2 s2. rewrite Hit. clear Hit it Hf Hlen. revert n seen k Hn Hg Hk Hl Hb.
      induction π as [|i π IH]; intros n seen k Hn Hg Hk Hl Hb; cbn [length containers] in *.
      - cbn [containers] in Hl. rewrite take_nil in Hl. apply Forall2_nil_inv_l in Hl as ->. exists [], n.
        replace (k - 1) with 0 by lia. done.
      - destruct (k - 1) as [|j] eqn:Hj; cbn [take] in Hl.
        + apply Forall2_nil_inv_l in Hl as ->. exists (i :: π), n. done.
        + apply Forall2_cons_inv_l in Hl as (x & l' & Hx & Hl' & ->).
          destruct (IH x l' (S j)) as (π' & y & H1 & H2 & H3 & H4 & H5 & H6).
          * by apply shows_points, node_at_shows.
          * by eapply outside_parent.
          * lia.
          * replace (S j - 1) with j by lia. done.
          * lia.
          * exists π', y. replace (S j - 1) with j in H6 by lia. cbn [drop]. split; [by rewrite last_cons_cons|].
            split; [by rewrite last_cons_cons|]. split; [done|]. split; [done|]. split; [lia|done]. }
    destruct H as (π' & x & -> & Hlast & Hx & Hgx & Hle & Hdrop).
    assert (Hgx2 : outside_groups s2 (g, π')).
    { eapply outside_grows; [exact I1|exact G2|by eapply points_element|exact Hgx]. }
    apply (points_grows _ _ _ _ G2) in Hx.
    destruct (range_taking k2 π' g x fuel [] s2 I2 Hx Hgx2 ltac:(lia) Hk2) as (seen2 & it2 & s3 & E2 & Q2 & I3 & Hl2 & _).
    cbn [length app] in *. exists (x :: seen2), it2, s3. split; [exact E2|]. rewrite Hdrop. split.
    + destruct k2 as [|k2]; [lia|]. cbn [take]. constructor; [by eapply points_grows; [by apply quiet_grows|]|].
      replace (S k2 - 1) with k2 in Hl2 by lia. eapply Forall2_impl; [exact Hl2|].
      intros q y Hy. by apply shows_points, node_at_shows.
    + intros _. by rewrite Hlast.
  - apply Nat.leb_gt in Hb. rewrite Hit. exists [], None, s2. rewrite C73_used_up. split; [done|].
    split; [|rewrite Hlen; lia]. rewrite drop_ge by (cbn; rewrite Hlen; lia). by rewrite take_nil.
Qed.

Lemma range_all π : forall g n fuel s,
  Inv s -> points_to s (g, π) n -> outside_groups s (g, π) -> length π < fuel ->
  exists s', range_over fuel (Some n) tt (apart (fun c _ => ret (c, true))) s = (Ret (tt, None), s').
Proof.
  induction π as [|i π IH]; intros g n fuel s I Hn Hg Hf;
    (destruct fuel as [|fuel]; [cbn in Hf; lia|]);
    rewrite (range_step fuel n _ tt (fun c _ => ret (c, true)) s _ _ _ eq_refl).
  - rewrite (rbind_val _ _ _ _ _ (points_parent _ _ _ I Hn)). exists s. by destruct fuel.
  - cbn [length] in Hf.
    destruct (parent_node s g i π I (points_element _ _ _ Hn) Hg) as (m & s1 & E & Q1 & I1 & Hm).
    pose proof (points_parent _ _ _ I Hn) as Ep. cbn [fst snd] in Ep. rewrite E in Ep.
    rewrite (rbind_val _ _ _ _ _ Ep). apply (IH g).
    + done.
    + by apply shows_points, node_at_shows.
    + apply (outside_quiet _ _ _ I Q1). by eapply outside_parent.
    + lia.
Qed.

(** A loop over the iterator whose body runs over the same iterator to its end, without breaking, panics
    when it goes on. *)
Theorem C73_nested s p n fuel :
  reachable s -> points_to s p n -> outside_groups s p -> length p.2 < fuel ->
  exists s', range_over fuel (new_hierarchy n) tt (ranging_inside fuel) s = (Panic "unsupported node type: <nil>", s').
Proof.
  intros Hs Hn Hg Hf. pose proof (reachable_Inv _ Hs) as I. destruct p as [g π]. cbn [fst snd] in *.
  destruct (range_all π g n fuel s I Hn Hg Hf) as (s' & E). exists s'.
  assert (H : forall fuel1, 0 < fuel1 ->
    range_over fuel1 (Some n) tt (ranging_inside fuel) s = (Panic "unsupported node type: <nil>", s')).
  { intros [|fuel1] ?; [lia|]. cbn [range_over]. unfold ranging_inside at 1, rbind at 1 2. by rewrite E. }
  apply H. lia.
Qed.

(** The hypotheses hold of the field of an inner message of the demo schema; there, of the four nodes of
    the hierarchy a range that breaks at the second sees two, the next one three, beginning with the
    second, and the one after that none. *)
Definition ranges (q : string) : R (list (list node)) :=
  o <~ node_by_full_name q ;;
  match o with
  | Some n =>
      '(l1, it1) <~ range_over 4 (new_hierarchy n) [] (apart (taking 2)) ;;
      '(l2, it2) <~ range_over 4 it1 [] (apart (taking 9)) ;;
      '(l3, it3) <~ range_over 4 it2 [] (apart (taking 9)) ;;
      ret [l1; l2; l3]
  | None => ret []
  end.
Example C73_example :
  let q := ".pb.Message.InnerMessage.field" in
  (exists n s1, reachable s1 /\ points_to s1 (1, [0; 11; 6]) n /\ outside_groups s1 (1, [0; 11; 6])) /\
  match (ranges q demo_world).1 with
  | Ret l => map (map element_ptr) l =
      [[Some (1, [0; 11; 6]); Some (1, [11; 6])]; [Some (1, [11; 6]); Some (1, [6]); Some (1, [])]; []]
  | _ => False
  end.
Proof.
  intros q. split; [|vm_compute; reflexivity].
  assert (H : reachable demo_world /\ exists n s1, node_by_full_name q demo_world = (Ret (Some n), s1) /\
    points_to s1 (1, [0; 11; 6]) n /\ outside_groups s1 (1, [0; 11; 6])).
  { destruct C25_example as (Hs & n & s1 & E & _ & H1 & H2 & _).
    exact (conj Hs (ex_intro _ n (ex_intro _ s1 (conj E (conj H1 H2))))). }
  revert H. generalize demo_world as s. clear. intros s (Hs & n & s1 & E & H1 & H2). exists n, s1.
  split; [|split; [exact H1|exact H2]].
  by destruct (named_points _ _ _ _ Hs E) as (? & _ & _ & _ & _ & ?).
Qed.

(** a loop body that ranges over the same iterator, breaks there at the [k]-th element, and goes on
    unless it has been run [m] times *)
Definition stepping (fuel k m : nat) (l : list node) (it : iterator) (x : node) : R (list node * iterator * bool) :=
  '(_, it') <~ range_over fuel it [] (apart (taking k)) ;; ret ((l ++ [x])%list, it', (length l + 1 <? m)%nat).

Lemma containers_nth g π : forall j, j <= length π -> (@cons ptr (g, π) (containers g π)) !! j = Some ((g, drop j π) : ptr).
Proof.
  induction π as [|i π IH]; intros [|j] Hj; cbn [length] in Hj; try done; try lia.
  cbn [containers lookup list_lookup drop]. apply (IH j). lia.
Qed.
Lemma inner_range k π g n fuel s :
  Inv s -> points_to s (g, π) n -> outside_groups s (g, π) -> length π < fuel -> 0 < k ->
  exists l it s', range_over fuel (Some n) [] (apart (taking k)) s = (Ret (l, it), s') /\ quiet s s' /\ Inv s' /\
    (k <= S (length π) -> exists x, it = Some x /\ points_to s' (g, drop (k - 1) π) x /\ outside_groups s' (g, drop (k - 1) π)) /\
    (S (length π) < k -> it = None).
Proof.
  intros I Hn Hg Hf Hk.
  destruct (range_taking k π g n fuel [] s I Hn Hg Hf Hk) as (seen & it & s1 & E & Q & I1 & Hl & Hit).
  cbn [length app] in *. exists (n :: seen), it, s1. split; [exact E|]. split; [done|]. split; [done|].
  apply (outside_quiet _ _ _ I Q) in Hg. pose proof (quiet_grows _ _ Q) as G.
  apply (points_grows _ _ _ _ G) in Hn. clear E I Q G s. split.
  - intros Hb. assert ((k <=? 0 + S (length π))%nat = true) as Hb' by (by apply Nat.leb_le). rewrite Hb' in Hit. clear Hb'.
    rewrite Hit. clear Hit it Hf. revert n seen k Hn Hg Hk Hl Hb.
    induction π as [|i π IH]; intros n seen k Hn Hg Hk Hl Hb; cbn [length containers] in *.
    + rewrite take_nil in Hl. apply Forall2_nil_inv_l in Hl as ->. exists n. by rewrite drop_nil.
    + destruct (k - 1) as [|j] eqn:Hj; cbn [take] in Hl.
      * apply Forall2_nil_inv_l in Hl as ->. exists n. done.
      * apply Forall2_cons_inv_l in Hl as (x & l' & Hx & Hl' & ->).
        destruct (IH x l' (S j)) as (y & H1 & H2 & H3).
        -- by apply shows_points, node_at_shows.
        -- by eapply outside_parent.
        -- lia.
        -- replace (S j - 1) with j by lia. done.
        -- lia.
        -- exists y. replace (S j - 1) with j in * by lia. cbn [drop]. by rewrite last_cons_cons.
  - intros Hb. assert ((k <=? 0 + S (length π))%nat = false) as Hb' by (by apply Nat.leb_gt). by rewrite Hb' in Hit.
Qed.

Lemma nested_steps fuel k m : 0 < k -> forall r π g n l0 fuel1 s,
  Inv s -> points_to s (g, π) n -> outside_groups s (g, π) -> length π < fuel -> length π < fuel1 ->
  length l0 + S r = m -> S r * k <= S (length π) ->
  exists seen x s', range_over fuel1 (Some n) l0 (stepping fuel k m) s = (Ret ((l0 ++ seen)%list, Some x), s') /\
    grows s s' /\ length seen = S r /\
    (forall j y, seen !! j = Some y -> points_to s' (g, drop (j * k) π) y) /\ points_to s' (g, drop (S r * k - 1) π) x.
Proof.
  intros Hk. induction r as [|r IH]; intros π g n l0 fuel1 s I Hn Hg Hf Hf1 Hm Hr;
    (destruct fuel1 as [|fuel1]; [lia|]);
    destruct (inner_range k π g n fuel s I Hn Hg Hf Hk) as (l & it & s1 & E & Q & I1 & (x & -> & Hx & Hgx) & _); try nia;
    cbn [range_over]; unfold stepping at 1; unfold rbind at 1 2; rewrite E; unfold ret at 1; cbn [fst snd].
  - replace (length l0 + 1 <? m)%nat with false by (symmetry; apply Nat.ltb_ge; lia).
    exists [n], x, s1. split; [done|]. split; [by apply quiet_grows|]. split; [done|]. split.
    + intros [|j] y; [|done]. intros [= <-]. cbn. eapply points_grows; [by apply quiet_grows|done].
    + by rewrite Nat.mul_1_l.
  - replace (length l0 + 1 <? m)%nat with true by (symmetry; apply Nat.ltb_lt; lia).
    destruct (drop (k - 1) π) as [|i ρ] eqn:Hd.
    { exfalso. assert (Hlen : length (drop (k - 1) π) = 0) by (by rewrite Hd). rewrite drop_length in Hlen. nia. }
    assert (Hρ : ρ = drop k π).
    { replace k with (S (k - 1)) by lia. change ρ with (drop 1 (i :: ρ)). rewrite <- Hd, drop_drop. f_equal. lia. }
    destruct (parent_node s1 g i ρ I1 (points_element _ _ _ Hx) Hgx) as (y & s2 & E2 & Q2 & I2 & Hy).
    pose proof (points_parent _ _ _ I1 Hx) as Ep. cbn [fst snd] in Ep. rewrite E2 in Ep.
    rewrite (rbind_val _ _ _ _ _ Ep).
    destruct (IH ρ g y (l0 ++ [n])%list fuel1 s2) as (seen & z & s' & E3 & G3 & Hlen & Hseen & Hz).
    + done.
    + by apply shows_points, node_at_shows.
    + apply (outside_quiet _ _ _ I1 Q2). by eapply outside_parent.
    + rewrite Hρ, drop_length. lia.
    + rewrite Hρ, drop_length. nia.
    + rewrite app_length. cbn. lia.
    + rewrite Hρ, drop_length. nia.
    + assert (G : grows s s') by (eapply grows_trans; [by apply quiet_grows|]; eapply grows_trans; [by apply quiet_grows|done]).
      exists (n :: seen), z, s'. split; [by rewrite E3, <- app_assoc|]. split; [done|]. split; [cbn; by rewrite Hlen|]. split.
      * intros [|j] u Hu; [injection Hu as <-; by eapply points_grows|]. cbn in Hu. apply Hseen in Hu.
        rewrite Hρ, drop_drop in Hu. by replace (S j * k) with (k + j * k) by lia.
      * rewrite Hρ, drop_drop in Hz. replace (S (S r) * k - 1) with (k + (S r * k - 1)) by nia. done.
Qed.

(** A loop over the iterator whose body runs over the same iterator, breaks there at the [k]-th element,
    and then goes on: the outer loop sees every [k]-th element only.  If it breaks in its [m]-th run the
    iterator stands at the last element the inner loop has seen. *)
Theorem C73_nested_steps s p n fuel k m :
  reachable s -> points_to s p n -> outside_groups s p -> length p.2 < fuel -> 0 < k -> 0 < m ->
  m * k <= S (length (containers p.1 p.2)) ->
  exists seen x s', range_over fuel (new_hierarchy n) [] (stepping fuel k m) s = (Ret (seen, new_hierarchy x), s') /\
    length seen = m /\
    (forall j y, seen !! j = Some y -> exists q, (p :: containers p.1 p.2) !! (j * k) = Some q /\ points_to s' q y) /\
    (exists q, (p :: containers p.1 p.2) !! (m * k - 1) = Some q /\ points_to s' q x).
Proof.
  intros Hs Hn Hg Hf Hk Hm Hle. pose proof (reachable_Inv _ Hs) as I. destruct p as [g π]. cbn [fst snd] in *.
  assert (Hlen : length (containers g π) = length π) by (clear; induction π; cbn; congruence).
  destruct m as [|m]; [lia|].
  destruct (nested_steps fuel k (S m) Hk m π g n [] fuel s I Hn Hg Hf Hf eq_refl) as (seen & x & s' & E & _ & Hl & Hseen & Hx); [lia|].
  exists seen, x, s'. split; [exact E|]. split; [done|]. split.
  - intros j y Hy. exists (g, drop (j * k) π). split; [|by apply Hseen].
    apply containers_nth. apply lookup_lt_Some in Hy. nia.
  - exists (g, drop (S m * k - 1) π). split; [apply containers_nth; lia|done].
Qed.

Lemma nested_all fuel k m : 0 < k -> forall N π g n l0 fuel1 s, length π < N ->
  Inv s -> points_to s (g, π) n -> outside_groups s (g, π) -> length π < fuel -> length π < fuel1 ->
  length l0 + S (length π) < m ->
  ((k | S (length π)) -> exists seen s', range_over fuel1 (Some n) l0 (stepping fuel k m) s = (Ret ((l0 ++ seen)%list, None), s') /\
     grows s s' /\ length seen * k = S (length π) /\ (forall j y, seen !! j = Some y -> points_to s' (g, drop (j * k) π) y)) /\
  (~ (k | S (length π)) -> exists s', range_over fuel1 (Some n) l0 (stepping fuel k m) s = (Panic "unsupported node type: <nil>", s')).
Proof.
  intros Hk. induction N as [|N IH]; intros π g n l0 fuel1 s HN I Hn Hg Hf Hf1 Hm; [lia|].
  destruct fuel1 as [|fuel1]; [lia|].
  destruct (inner_range k π g n fuel s I Hn Hg Hf Hk) as (l & it & s1 & E & Q & I1 & Hbr & Hend).
  assert (Hgo : (length l0 + 1 <? m)%nat = true) by (apply Nat.ltb_lt; lia).
  assert (Hstep : range_over (S fuel1) (Some n) l0 (stepping fuel k m) s =
    (par <~ (match it with Some m0 => node_parent m0 | None => panic "unsupported node type: <nil>" end) ;;
     range_over fuel1 par (l0 ++ [n])%list (stepping fuel k m)) s1).
  { cbn [range_over]; unfold stepping at 1; unfold rbind at 1 2; rewrite E; unfold ret at 1; cbn [fst snd]. by rewrite Hgo. }
  rewrite Hstep. clear Hstep. destruct (Nat.le_gt_cases k (S (length π))) as [Hle|Hgt].
  - destruct (Hbr Hle) as (x & -> & Hx & Hgx). clear Hbr Hend.
    destruct (drop (k - 1) π) as [|i ρ] eqn:Hd.
    { assert (Hlen : length (drop (k - 1) π) = 0) by (by rewrite Hd). rewrite drop_length in Hlen.
      assert (k = S (length π)) as -> by lia.
      rewrite (rbind_val _ _ _ _ _ (points_parent _ _ _ I1 Hx)). cbn [fst snd]. split.
      - intros _. exists [n], s1. split; [by destruct fuel1|]. split; [by apply quiet_grows|]. split; [cbn; lia|].
        intros [|j] y; [|done]. intros [= <-]. cbn. eapply points_grows; [by apply quiet_grows|done].
      - intros H. exfalso. apply H. exists 1. lia. }
    assert (Hρ : ρ = drop k π).
    { replace k with (S (k - 1)) by lia. change ρ with (drop 1 (i :: ρ)). rewrite <- Hd, drop_drop. f_equal. lia. }
    assert (Hl : length (drop (k - 1) π) = S (length ρ)) by (by rewrite Hd). rewrite drop_length in Hl.
    destruct (parent_node s1 g i ρ I1 (points_element _ _ _ Hx) Hgx) as (y & s2 & E2 & Q2 & I2 & Hy).
    pose proof (points_parent _ _ _ I1 Hx) as Ep. cbn [fst snd] in Ep. rewrite E2 in Ep.
    rewrite (rbind_val _ _ _ _ _ Ep).
    destruct (IH ρ g y (l0 ++ [n])%list fuel1 s2) as [H1 H2].
    + lia.
    + done.
    + by apply shows_points, node_at_shows.
    + apply (outside_quiet _ _ _ I1 Q2). by eapply outside_parent.
    + lia.
    + lia.
    + rewrite app_length. cbn. lia.
    + assert (Hdv : (k | S (length π)) <-> (k | S (length ρ))).
      { replace (S (length π)) with (k + S (length ρ)) by lia. split.
        - intros H. apply (Nat.divide_add_cancel_r k k); [exists 1; lia|done].
        - intros H. apply Nat.divide_add_r; [exists 1; lia|done]. }
      split.
      * intros H%Hdv. destruct (H1 H) as (seen & s' & E3 & G3 & Hlen & Hseen).
        assert (G : grows s s') by (eapply grows_trans; [by apply quiet_grows|]; eapply grows_trans; [by apply quiet_grows|done]).
        exists (n :: seen), s'. split; [by rewrite E3, <- app_assoc|]. split; [done|]. split; [cbn [length]; lia|].
        intros [|j] u Hu; [injection Hu as <-; by eapply points_grows|]. cbn in Hu. apply Hseen in Hu.
        rewrite Hρ, drop_drop in Hu. by replace (S j * k) with (k + j * k) by lia.
      * intros H. apply H2. by rewrite <- Hdv.
  - rewrite (Hend Hgt). split.
    + intros H%Nat.divide_pos_le; lia.
    + intros _. by exists s1.
Qed.

(** If the outer loop never breaks, it ends, with the iterator used up, if [k] divides the number of
    elements of the hierarchy, and panics otherwise. *)
Theorem C73_nested_break s p n fuel k m :
  reachable s -> points_to s p n -> outside_groups s p -> length p.2 < fuel -> 0 < k ->
  S (length (containers p.1 p.2)) < m ->
  ((k | S (length (containers p.1 p.2))) ->
     exists seen s', range_over fuel (new_hierarchy n) [] (stepping fuel k m) s = (Ret (seen, None), s') /\
       length seen * k = S (length (containers p.1 p.2)) /\
       forall j y, seen !! j = Some y -> exists q, (p :: containers p.1 p.2) !! (j * k) = Some q /\ points_to s' q y) /\
  (~ (k | S (length (containers p.1 p.2))) ->
     exists s', range_over fuel (new_hierarchy n) [] (stepping fuel k m) s = (Panic "unsupported node type: <nil>", s')).
Proof.
  intros Hs Hn Hg Hf Hk Hm. pose proof (reachable_Inv _ Hs) as I. destruct p as [g π]. cbn [fst snd] in *.
  assert (Hlen : length (containers g π) = length π) by (clear; induction π; cbn; congruence). rewrite Hlen in *.
  destruct (nested_all fuel k m Hk (S (length π)) π g n [] fuel s) as [H1 H2]; try done; try lia. split; [|exact H2].
  intros H. destruct (H1 H) as (seen & s' & E & _ & Hl & Hseen). exists seen, s'. split; [exact E|]. split; [done|].
  intros j y Hy. exists (g, drop (j * k) π). split; [|by apply Hseen].
  apply containers_nth. apply lookup_lt_Some in Hy. nia.
Qed.
(** In the hierarchy of four nodes above: inner loops that break at the second element let the outer one
    see the first and the third; if it breaks then, a further range starts at the fourth.  Inner loops
    that break at the third make the outer one panic. *)
Definition nested_ranges (k m : nat) : R (list (list node)) :=
  o <~ node_by_full_name ".pb.Message.InnerMessage.field" ;;
  match o with
  | Some n =>
      '(l1, it1) <~ range_over 4 (new_hierarchy n) [] (stepping 4 k m) ;;
      '(l2, it2) <~ range_over 4 it1 [] (apart (taking 9)) ;;
      ret [l1; l2]
  | None => ret []
  end.
Example C73_nested_example :
  match (nested_ranges 2 2 demo_world).1 with
  | Ret l => map (map element_ptr) l = [[Some (1, [0; 11; 6]); Some (1, [6])]; [Some (1, [])]]
  | _ => False
  end /\
  match (nested_ranges 2 9 demo_world).1 with
  | Ret l => map (map element_ptr) l = [[Some (1, [0; 11; 6]); Some (1, [6])]; []]
  | _ => False
  end /\ (nested_ranges 3 9 demo_world).1 = Panic "unsupported node type: <nil>".
Proof. split; [vm_compute; reflexivity|]. split; vm_compute; reflexivity. Qed.

(** The other iterators over declarations can be ranged over any number of times: with any use of the
    registry in between the second range yields the very same nodes, also if the first one broke. *)
Theorem C73_others s p t sel sq k {A} (m : R A) :
  reachable s -> element_at s p t -> iterates p sel sq -> 0 < k -> client Loads m ->
  exists l s', take_first k sq s = (Ret l, s') /\
    exists l2 s2, collect sq (m s').2 = (Ret l2, s2) /\ take k l2 = l /\ length l2 = length (children sel p t).
Proof.
  intros Hs Ht%element_heap Hit Hk Hm. pose proof (reachable_Inv _ Hs) as I.
  destruct (take_first_ok k _ _ _ _ _ Hit I Ht Hk) as (l & s' & E & Q & I1 & Hl & _).
  exists l, s'. split; [done|]. destruct (client_inv_step _ _ Hm s' I1) as [I2 G2].
  assert (Ht2 : heap_at (m s').2 p = Some t).
  { eapply ext_heap_at; [exact G2|]. by rewrite (quiet_heap_at _ _ _ Q). }
  destruct (collect_ok _ _ _ _ _ Hit I2 Ht2) as (l2 & s2 & E2 & Q2 & I3 & Hl2 & _).
  exists l2, s2. split; [done|]. split; [|symmetry; by eapply Forall2_length].
  assert (G3 : grows s' s2) by (eapply grows_trans; [exact G2|by apply quiet_grows]).
  apply (Forall2_take _ _ _ k) in Hl2. revert Hl Hl2. generalize (take k (children sel p t)) as qs.
  generalize (take k l2) as l3. clear -G3. intros l3 qs Hl. revert l3.
  induction Hl as [|q n qs l Hn _ IH]; intros l3 Hl3.
  - by apply Forall2_nil_inv_l in Hl3.
  - apply Forall2_cons_inv_l in Hl3 as (n' & l4 & Hn' & H4 & ->). rewrite (IH _ H4). f_equal.
    apply (node_at_grows _ _ _ _ G3) in Hn. destruct Hn as (? & ? & -> & Hc), Hn' as (? & ? & -> & Hc'). congruence.
Qed.
Example C73_others_example :
  exists t, reachable demo_world /\ element_at demo_world (1, [6]) t /\
    iterates (1, [6]) a_field (message_fields (1, [6])) /\ length (children a_field (1, [6]) t) = 10.
Proof.
  eexists. split; [exact demo_reachable|]. split; [apply demo_element; vm_compute; reflexivity|].
  split; [exact (it_message_fields _)|vm_compute; reflexivity].
Qed.

(** Programs that keep iterators of NodeHierarchy, range over them repeatedly, or inside loops over them,
    are programs in the sense of [client]: whatever the theorems say of those holds of them. *)
Theorem C73_client md fuel : forall (it : iterator) C (c : C) body,
  (forall c it x, client md (body c it x)) -> client md (range_over fuel it c body).
Proof.
  induction fuel as [|fuel IH]; intros [n|] C c body Hb; try apply cl_ret.
  - exact (cl_loop md node (node_hierarchy 0 n) (C * iterator) (c, None) (fun c _ => ret (c, true))
      (seq_node_hierarchy 0 n) (fun c _ => cl_ret md _ _)).
  - cbn [range_over]. apply cl_bind; [apply Hb|]. intros [[c' it'] go]. cbn [fst snd].
    destruct go; [|apply cl_ret]. apply cl_bind; [|intros; by apply IH].
    destruct it' as [m|]; [apply cl_api; constructor|apply cl_panic].
Qed.
Example C73_client_example : client Queries (ranges ".pb.Message.InnerMessage.field").
Proof.
  unfold ranges. apply cl_bind; [apply cl_api; constructor|]. intros [n|]; [|apply cl_ret].
  assert (H : forall k it, client Queries (range_over 4 it [] (apart (taking k)))).
  { intros k it. apply C73_client. intros c it' x. unfold apart, taking.
    apply cl_bind; [apply cl_ret|]. intros [? ?]. apply cl_ret. }
  apply cl_bind; [apply H|]. intros [l1 it1]. apply cl_bind; [apply H|]. intros [l2 it2].
  apply cl_bind; [apply H|]. intros [l3 it3]. apply cl_ret.
Qed.
