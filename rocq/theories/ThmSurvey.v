(** * C78: a recursive walk reaches every declaration exactly once. *)
From Verif Require Export Survey ThmIterators.
From Verif Require Import Frame Iterate Enumerate Demo Identity Api.
Local Open Scope go_scope.

(** ** The loops *)

Lemma survey_loop sel pick (body : list node -> node -> R (list node * bool)) (own : ptr * tree -> list ptr) s0 kids :
  picks sel pick ->
  (forall (b : ptr * tree) k a all s, b ∈ kids -> Inv s -> quiet s0 s -> heap_at s b.1 = Some b.2 -> sel (t_data b.2) = true ->
     represented_by (t_data b.2) = Some k -> node_at s b.1 (NAst k a b.1) ->
     exists l s', body all (NAst k a b.1) s = (Ret ((all ++ l)%list, true), s') /\ Inv s' /\ quiet s s' /\
       Forall2 (node_at s') (own b) l) ->
  forall all s, Inv s -> quiet s0 s -> (forall b, b ∈ kids -> heap_at s0 b.1 = Some b.2) ->
  exists l s', iterate pick kids (list node) all body s = (Ret (all ++ l)%list, s') /\ Inv s' /\ quiet s s' /\
    Forall2 (node_at s') (concat (map own (List.filter (fun b => sel (t_data b.2)) kids))) l.
Proof.
  intros Hp. induction kids as [|b kids IH]; intros Hb all s I Q Hk; cbn [iterate List.filter].
  - exists [], s. rewrite app_nil_r. split; [done|]. split; [done|]. split; [apply quiet_refl|constructor].
  - assert (IH' := IH (fun b' k a all s Hb' => Hb b' k a all s (elem_of_list_further _ _ _ Hb'))). clear IH.
    assert (Hk' : forall b', b' ∈ kids -> heap_at s0 b'.1 = Some b'.2) by (intros; apply Hk; by constructor).
    assert (Hh : heap_at s b.1 = Some b.2) by (rewrite (quiet_heap_at _ _ _ Q); apply Hk; constructor).
    pose proof (Hp b s I Hh) as Hpb. destruct (sel (t_data b.2)) eqn:Hs.
    + destruct Hpb as (n & s1 & E1 & Q1 & I1 & Hn & (k & a & Hr & ->) & _).
      rewrite (rbind_val _ _ _ _ _ E1).
      destruct (Hb b k a all s1 (elem_of_list_here _ _) I1 (quiet_trans _ _ _ Q Q1)) as (l1 & s2 & E2 & I2 & Q2 & H2);
        [by rewrite (quiet_heap_at _ _ _ Q1)|done|done|done|].
      rewrite (rbind_val _ _ _ _ _ E2).
      destruct (IH' (all ++ l1)%list s2 I2 (quiet_trans _ _ _ Q (quiet_trans _ _ _ Q1 Q2)) Hk') as (l2 & s3 & E3 & I3 & Q3 & H3).
      exists (l1 ++ l2)%list, s3. rewrite app_assoc. split; [exact E3|]. split; [done|].
      split; [exact (quiet_trans _ _ _ Q1 (quiet_trans _ _ _ Q2 Q3))|]. cbn [map concat].
      apply Forall2_app; [|done]. eapply Forall2_impl; [exact H2|]. intros p n. apply node_at_grows, quiet_grows, Q3.
    + rewrite (rbind_val _ _ _ _ _ Hpb). by apply IH'.
Qed.

Lemma survey_iter p t sel sq (body : list node -> node -> R (list node * bool)) (own : ptr * tree -> list ptr) all s :
  iterates p sel sq -> Inv s -> heap_at s p = Some t ->
  (forall (b : ptr * tree) k a all s', b ∈ kids_at p t -> Inv s' -> quiet s s' -> heap_at s' b.1 = Some b.2 -> sel (t_data b.2) = true ->
     represented_by (t_data b.2) = Some k -> node_at s' b.1 (NAst k a b.1) ->
     exists l s'', body all (NAst k a b.1) s' = (Ret ((all ++ l)%list, true), s'') /\ Inv s'' /\ quiet s' s'' /\
       Forall2 (node_at s'') (own b) l) ->
  exists l s', sq (list node) all body s = (Ret (all ++ l)%list, s') /\ Inv s' /\ quiet s s' /\
    Forall2 (node_at s') (concat (map own (List.filter (fun b => sel (t_data b.2)) (kids_at p t)))) l.
Proof.
  intros Hit I Ht Hb. destruct (iterates_pick _ _ _ Hit) as (pick & -> & Hp).
  unfold iter_kids. rewrite (rbind_val _ _ _ _ _ (kids_of_ok _ _ _ Ht)).
  apply (survey_loop sel pick body own s); [done|exact Hb|done|apply quiet_refl|]. intros b. by apply kids_heap.
Qed.

Lemma concat_single {A B} (f : A -> B) l : concat (map (fun x => [f x]) l) = map f l.
Proof. induction l as [|x l IH]; [done|]. cbn. by rewrite IH. Qed.

Lemma append_iter p t sel sq all s :
  iterates p sel sq -> Inv s -> heap_at s p = Some t ->
  exists l s', sq (list node) all append_node s = (Ret (all ++ l)%list, s') /\ Inv s' /\ quiet s s' /\
    Forall2 (node_at s') (children sel p t) l.
Proof.
  intros Hit I Ht. destruct (survey_iter p t sel sq append_node (fun b => [b.1]) all s Hit I Ht) as (l & s' & E & I' & Q & H).
  - intros b k a all' s1 _ I1 Q1 _ _ _ Hn. exists [NAst k a b.1], s1. split; [done|]. split; [done|].
    split; [apply quiet_refl|]. by constructor.
  - exists l, s'. rewrite concat_single in H. done.
Qed.

(** the declarations below an element, as the program lists them *)
Definition kids_sel (sel : data -> bool) (p : ptr) (t : tree) : list (ptr * tree) :=
  List.filter (fun b => sel (t_data b.2)) (kids_at p t).
Fixpoint decls (depth : nat) (p : ptr) (t : tree) : list ptr :=
  match depth with
  | O => []
  | S d =>
      match t_data t with
      | DMessage _ false =>
          (children a_field p t ++ concat (map (fun b => b.1 :: decls d b.1 b.2) (kids_sel a_type p t)))%list
      | DEnum _ => children a_value p t
      | DService _ => children a_method p t
      | _ => []
      end
  end.
Fixpoint height (t : tree) : nat := S (list_max (map height (t_kids t))).

Lemma height_kid t i u : t_kids t !! i = Some u -> height u < height t.
Proof.
  destruct t as [d ps c kids]. cbn [t_kids height]. intros H.
  assert (Hm : height u <= list_max (map height kids)); [|lia].
  assert (Hf : Forall (fun k => k <= list_max (map height kids)) (map height kids)) by (by apply list_max_le).
  rewrite list.Forall_forall in Hf. apply Hf, elem_of_list_fmap. exists u. split; [done|]. by eapply elem_of_list_lookup_2.
Qed.
Lemma kid_of p t b : b ∈ kids_at p t -> exists i, b = (child p i, b.2) /\ t_kids t !! i = Some b.2.
Proof. intros [i Hi]%elem_of_list_lookup. apply kids_at_lookup in Hi as (k & -> & Hk). by exists i. Qed.
Lemma height_below p t b : b ∈ kids_at p t -> height b.2 < height t.
Proof. intros (i & _ & Hi)%kid_of. by eapply height_kid. Qed.

Lemma visit_ok depth : forall p t k a all s, height t <= depth -> Inv s -> heap_at s p = Some t ->
  represented_by (t_data t) = Some k -> (a_type (t_data t) || a_service (t_data t))%bool = true -> node_at s p (NAst k a p) ->
  exists l s', visit_node depth all (NAst k a p) s = (Ret ((all ++ l)%list, true), s') /\ Inv s' /\ quiet s s' /\
    Forall2 (node_at s') (p :: decls depth p t) l.
Proof.
  induction depth as [|d IH]; intros p t k a all s Hh I Ht Hr Hd Hn.
  { destruct t. cbn in Hh. lia. }
  cbn [visit_node decls].
  assert (Hsame : forall s', quiet s s' -> node_at s' p (NAst k a p))
    by (intros s' Q; eapply node_at_grows; [apply quiet_grows, Q|exact Hn]).
  destruct (t_data t) as [| | | | | |nm ext| | | |nm| |nm| | | | | |] eqn:Et; try discriminate Hd.
  - destruct ext; [discriminate Hd|]. injection Hr as <-.
    destruct (append_iter p t a_field (message_fields p) (all ++ [NAst KMessage a p])%list s) as (l1 & s1 & E1 & I1 & Q1 & H1);
      [constructor|done|done|].
    rewrite (rbind_val _ _ _ _ _ E1).
    pose proof Ht as Ht1. rewrite <- (quiet_heap_at _ _ _ Q1) in Ht1.
    destruct (survey_iter p t a_type (message_types p) (visit_node d) (fun b => b.1 :: decls d b.1 b.2)
      ((all ++ [NAst KMessage a p]) ++ l1)%list s1) as (l2 & s2 & E2 & I2 & Q2 & H2); [constructor|done|done| |].
    { intros b k' a' all' s' Hb I' Q' Hb' Hs Hr' Hn'. apply (IH b.1 b.2); try done.
      - apply height_below in Hb. lia.
      - by rewrite Hs. }
    rewrite (rbind_val _ _ _ _ _ E2). exists (NAst KMessage a p :: l1 ++ l2)%list, s2. split; [|split; [done|split; [by eapply quiet_trans|]]].
    + cbn. by rewrite <- !app_assoc.
    + constructor; [apply Hsame; by eapply quiet_trans|]. apply Forall2_app; [|done].
      eapply Forall2_impl; [exact H1|]. intros x n. apply node_at_grows, quiet_grows, Q2.
  - injection Hr as <-.
    destruct (append_iter p t a_value (enum_values p) (all ++ [NAst KEnum a p])%list s) as (l1 & s1 & E1 & I1 & Q1 & H1);
      [constructor|done|done|].
    rewrite (rbind_val _ _ _ _ _ E1). exists (NAst KEnum a p :: l1)%list, s1. split; [cbn; by rewrite <- app_assoc|].
    split; [done|]. split; [done|]. constructor; [by apply Hsame|done].
  - injection Hr as <-.
    destruct (append_iter p t a_method (service_methods p) (all ++ [NAst KService a p])%list s) as (l1 & s1 & E1 & I1 & Q1 & H1);
      [constructor|done|done|].
    rewrite (rbind_val _ _ _ _ _ E1). exists (NAst KService a p :: l1)%list, s1. split; [cbn; by rewrite <- app_assoc|].
    split; [done|]. split; [done|]. constructor; [by apply Hsame|done].
Qed.

(** ** What the list contains *)

Definition under (p q : ptr) : Prop := q.1 = p.1 /\ exists π, q.2 = (π ++ p.2)%list.
Lemma under_refl p : under p p.
Proof. split; [done|]. by exists []. Qed.
Lemma under_trans p q r : under p q -> under q r -> under p r.
Proof. intros [E1 [π1 H1]] [E2 [π2 H2]]. split; [congruence|]. exists (π2 ++ π1)%list. by rewrite H2, H1, app_assoc. Qed.
Lemma under_child p i : under p (child p i).
Proof. split; [done|]. by exists [i]. Qed.
Lemma under_same p i j q : under (child p i) q -> under (child p j) q -> i = j.
Proof.
  intros [_ [π1 H1]] [_ [π2 H2]]. cbn in H1, H2. rewrite H1 in H2. clear H1.
  assert (Hl : length π1 = length π2). { apply (f_equal length) in H2. rewrite !app_length in H2. cbn in H2. lia. }
  apply app_inj_1 in H2 as [_ H2]; [|done]. by injection H2.
Qed.
Lemma child_not_under p i q : under (child p i) q -> q <> p.
Proof.
  intros [_ [π H]] ->. apply (f_equal length) in H. cbn in H. rewrite app_length in H. cbn in H. lia.
Qed.

Lemma elem_children sel p t q : q ∈ children sel p t <->
  exists i u, q = child p i /\ t_kids t !! i = Some u /\ sel (t_data u) = true.
Proof.
  unfold children. rewrite elem_of_list_fmap. split.
  - intros (b & -> & Hb). apply elem_of_list_In, filter_In in Hb as [Hb Hs]. apply elem_of_list_In in Hb.
    destruct (kid_of _ _ _ Hb) as (i & E & Hi). exists i, b.2. split; [by rewrite E|done].
  - intros (i & u & -> & Hi & Hs). exists (child p i, u). split; [done|].
    apply elem_of_list_In, filter_In. split; [|done]. apply elem_of_list_In. apply elem_of_list_lookup_2 with i.
    unfold kids_at. by rewrite list_lookup_imap, Hi.
Qed.
Lemma elem_kids_sel sel p t b : b ∈ kids_sel sel p t <->
  exists i, b = (child p i, b.2) /\ t_kids t !! i = Some b.2 /\ sel (t_data b.2) = true.
Proof.
  unfold kids_sel. rewrite elem_of_list_In, filter_In, <- elem_of_list_In. split.
  - intros [Hb Hs]. destruct (kid_of _ _ _ Hb) as (i & E & Hi). by exists i.
  - intros (i & E & Hi & Hs). split; [|done]. rewrite E. apply elem_of_list_lookup_2 with i.
    unfold kids_at. by rewrite list_lookup_imap, Hi.
Qed.
Lemma elem_blocks {B} (own : B -> list ptr) l q : q ∈ concat (map own l) <-> exists b, b ∈ l /\ q ∈ own b.
Proof.
  induction l as [|b l IH]; cbn [map concat].
  - split; [by intros ?%elem_of_nil|]. by intros (b & ?%elem_of_nil & _).
  - rewrite elem_of_app, IH. split.
    + intros [H|(b' & H & H')]; [exists b; split; [constructor|done]|]. exists b'. split; [by constructor|done].
    + intros (b' & [->|H]%elem_of_cons & H'); [by left|]. right. by exists b'.
Qed.

Lemma decls_under depth : forall p t q, q ∈ decls depth p t -> exists i, under (child p i) q.
Proof.
  induction depth as [|d IH]; intros p t q; cbn [decls]; [by intros ?%elem_of_nil|].
  assert (Hc : forall sel, q ∈ children sel p t -> exists i, under (child p i) q).
  { intros sel (i & u & -> & _)%elem_children. exists i. apply under_refl. }
  destruct (t_data t) as [| | | | | |nm []| | | | | | | | | | | |]; try (by intros ?%elem_of_nil); try apply Hc.
  intros [H|(b & Hb & Hq)%elem_blocks]%elem_of_app; [by eapply Hc|].
  apply elem_kids_sel in Hb as (i & E & Hi & _). exists i. rewrite E in Hq. cbn [fst] in Hq.
  apply elem_of_cons in Hq as [->|Hq]; [apply under_refl|].
  destruct (IH _ _ _ Hq) as [j Hj]. eapply under_trans; [apply under_child|exact Hj].
Qed.

Lemma kids_fst_nodup p t : NoDup (map fst (kids_at p t)).
Proof.
  unfold kids_at. apply NoDup_alt. intros i j x Hi Hj.
  assert (H : forall k, map fst (imap (fun i k => (child p i, k)) (t_kids t)) !! k = Some x -> x = child p k).
  { intros k. rewrite list_lookup_fmap, list_lookup_imap. destruct (t_kids t !! k); cbn; congruence. }
  apply H in Hi. apply H in Hj. rewrite Hi in Hj. by injection Hj.
Qed.
Lemma filter_fst_nodup {B} (f : ptr * B -> bool) l : NoDup (map fst l) -> NoDup (map fst (List.filter f l)).
Proof.
  induction l as [|b l IH]; [done|]. cbn [map List.filter]. intros [Hb Hl]%list.NoDup_cons.
  destruct (f b); [|by apply IH]. cbn [map]. apply list.NoDup_cons. split; [|by apply IH].
  intros (b' & E & Hb')%elem_of_list_fmap. apply Hb, elem_of_list_fmap. exists b'. split; [done|].
  apply elem_of_list_In, filter_In in Hb' as [Hb' _]. by apply elem_of_list_In.
Qed.
Lemma children_nodup sel p t : NoDup (children sel p t).
Proof. apply filter_fst_nodup, kids_fst_nodup. Qed.

Lemma blocks_nodup p (own : ptr * tree -> list ptr) l :
  NoDup (map fst l) -> (forall b, b ∈ l -> exists i, b.1 = child p i) ->
  (forall b, b ∈ l -> NoDup (own b)) -> (forall b q, b ∈ l -> q ∈ own b -> under b.1 q) ->
  NoDup (concat (map own l)).
Proof.
  induction l as [|b l IH]; cbn [map concat]; [constructor|]. intros [Hn Hl]%list.NoDup_cons Hc Ho Hu.
  apply NoDup_app. split; [apply Ho; constructor|]. split.
  - intros q Hq (b' & Hb' & Hq')%elem_blocks. apply Hn.
    destruct (Hc b) as [i Hi]; [constructor|]. destruct (Hc b') as [j Hj]; [by constructor|].
    assert (H1 : under b.1 q) by (apply Hu; [constructor|done]).
    assert (H2 : under b'.1 q) by (apply Hu; [by constructor|done]).
    rewrite Hi in H1. rewrite Hj in H2. rewrite Hi, (under_same _ _ _ _ H1 H2), <- Hj.
    apply elem_of_list_fmap. by exists b'.
  - apply IH; [done| | |]; intros b' Hb'; [apply Hc|apply Ho|intros Hq; apply Hu]; by constructor.
Qed.
Lemma own_blocks_nodup depth sel p t :
  (forall q u, NoDup (decls depth q u)) ->
  NoDup (concat (map (fun b => b.1 :: decls depth b.1 b.2) (kids_sel sel p t))).
Proof.
  intros Hd. apply (blocks_nodup p).
  - apply filter_fst_nodup, kids_fst_nodup.
  - intros b (i & -> & _)%elem_kids_sel. by exists i.
  - intros b _. apply list.NoDup_cons. split; [|apply Hd]. intros H.
    apply decls_under in H as [i H]. by eapply child_not_under.
  - intros b q _ [->|H]%elem_of_cons; [apply under_refl|]. apply decls_under in H as [i H].
    eapply under_trans; [apply under_child|exact H].
Qed.
Lemma block_index depth sel p t q :
  q ∈ concat (map (fun b => b.1 :: decls depth b.1 b.2) (kids_sel sel p t)) ->
  exists i u, t_kids t !! i = Some u /\ sel (t_data u) = true /\ under (child p i) q.
Proof.
  intros (b & (i & E & Hi & Hs)%elem_kids_sel & Hq)%elem_blocks. exists i, b.2. split; [done|]. split; [done|].
  rewrite E in Hq. cbn [fst snd] in Hq. apply elem_of_cons in Hq as [->|Hq]; [apply under_refl|].
  apply decls_under in Hq as [j Hj]. eapply under_trans; [apply under_child|exact Hj].
Qed.
Lemma decls_nodup depth : forall p t, NoDup (decls depth p t).
Proof.
  induction depth as [|d IH]; intros p t; cbn [decls]; [constructor|].
  destruct (t_data t) as [| | | | | |nm []| | | | | | | | | | | |]; try (by constructor); try apply children_nodup.
  apply NoDup_app. split; [apply children_nodup|]. split; [|by apply own_blocks_nodup].
  intros q (i & u & -> & Hi & Hs)%elem_children (j & v & Hj & Hv & Hq)%block_index.
  rewrite (under_same p i j (child p i) (under_refl _) Hq) in Hi.
  rewrite Hi in Hj. injection Hj as ->. by destruct (t_data v) as [| | | | | |? []| | | | | | | | | | | |].
Qed.

(** the declarations inside an element, from the outside *)
Lemma below_head s p q : Inv s -> declared_below s p q <->
  exists t i u, heap_at s p = Some t /\ t_kids t !! i = Some u /\ declared_in (t_data t) (t_data u) = true /\
    (q = child p i \/ declared_below s (child p i) q).
Proof.
  intros I.
  assert (Hk : forall p t i u, element_at s p t -> element_at s (child p i) u -> heap_at s p = Some t /\ t_kids t !! i = Some u).
  { intros p' t i u Ht%element_heap Hu%element_heap. split; [done|]. revert Ht Hu. unfold heap_at. cbn.
    destruct (heap s !! p'.1) as [f|]; [|done]. by intros ->. }
  split.
  - induction 1 as [t i u Ht Hu Hd|q t i u _ IH Ht Hu Hd].
    + destruct (Hk _ _ _ _ Ht Hu). exists t, i, u. eauto.
    + destruct IH as (t' & j & u' & Ht' & Hu' & Hd' & [->|Hb]); exists t', j, u'; (split; [done|]; split; [done|]; split; [done|]); right.
      * by eapply db_child.
      * by eapply db_deeper.
  - intros (t & i & u & Ht & Hu & Hd & H). pose proof (heap_at_child _ _ _ _ _ Ht Hu) as Hc.
    apply heap_element in Ht; [|done]. apply heap_element in Hc; [|done].
    assert (H1 : declared_below s p (child p i)) by (by eapply db_child).
    destruct H as [->|H]; [done|]. clear -H1 H. induction H as [t i' u Ht Hu Hd|q t i' u _ IH Ht Hu Hd]; by eapply db_deeper.
Qed.

Lemma below_none s p t : Inv s -> heap_at s p = Some t -> (forall d, declared_in (t_data t) d = false) ->
  forall q, ~ declared_below s p q.
Proof. intros I Ht Hn q (t' & i & u & Ht' & _ & Hd & _)%below_head; [|done]. rewrite Ht in Ht'. injection Ht' as <-. by rewrite Hn in Hd. Qed.

Lemma decls_below depth : forall s p t q, Inv s -> heap_at s p = Some t -> height t <= depth ->
  (a_type (t_data t) || a_service (t_data t))%bool = true ->
  q ∈ decls depth p t <-> declared_below s p q.
Proof.
  induction depth as [|d IH]; intros s p t q I Ht Hh Hd; [destruct t; cbn in Hh; lia|].
  rewrite below_head by done. cbn [decls].
  assert (Hleaf : forall sel, (forall x, sel x = declared_in (t_data t) x) ->
    (forall x y, sel x = true -> declared_in x y = false) ->
    q ∈ children sel p t <-> exists t' i u, heap_at s p = Some t' /\ t_kids t' !! i = Some u /\
      declared_in (t_data t') (t_data u) = true /\ (q = child p i \/ declared_below s (child p i) q)).
  { intros sel Hs Hno. rewrite elem_children. split.
    - intros (i & u & -> & Hi & Hu). exists t, i, u. rewrite <- Hs. auto.
    - intros (t' & i & u & Ht' & Hi & Hu & H). rewrite Ht in Ht'. injection Ht' as <-. exists i, u.
      rewrite <- Hs in Hu. destruct H as [->|H]; [done|]. exfalso. revert H.
      eapply below_none; [done|by eapply heap_at_child|]. intros y. by apply Hno. }
  destruct (t_data t) as [| | | | | |nm ext| | | | | nm| |nm| | | | |] eqn:Et; try discriminate Hd.
  - destruct ext; [discriminate Hd|]. rewrite elem_of_app, elem_children, elem_blocks. split.
    + intros [(i & u & -> & Hi & Hu)|(b & (i & E & Hi & Hs)%elem_kids_sel & Hq)].
      * exists t, i, u. rewrite Et. split; [done|]. split; [done|]. split; [|by left]. by destruct (t_data u).
      * exists t, i, b.2. rewrite Et. split; [done|]. split; [done|].
        split; [by destruct (t_data b.2) as [| | | | | |? []| | | | | | | | | | | |]|].
        rewrite E in Hq. cbn [fst snd] in Hq. apply elem_of_cons in Hq as [->|Hq]; [by left|]. right.
        eapply (IH s (child p i) b.2 q); [done|by eapply heap_at_child|apply height_kid in Hi; lia|by rewrite Hs|done].
    + intros (t' & i & u & Ht' & Hi & Hu & H). rewrite Ht in Ht'. injection Ht' as <-. rewrite Et in Hu.
      destruct (a_type (t_data u)) eqn:Hty.
      * right. exists (child p i, u). split; [apply elem_kids_sel; by exists i|]. cbn [fst snd].
        apply elem_of_cons. destruct H as [->|H]; [by left|right].
        eapply (IH s (child p i) u q); [done|by eapply heap_at_child|apply height_kid in Hi; lia|by rewrite Hty|done].
      * left. exists i, u. assert (Hf : a_field (t_data u) = true) by (by destruct (t_data u) as [| | | | | |? []| | | | | | | | | | | |]).
        destruct H as [->|H]; [done|]. exfalso. revert H.
        eapply below_none; [done|by eapply heap_at_child|]. by destruct (t_data u).
  - rewrite <- Et in *. apply Hleaf; rewrite ?Et; intros x; by destruct x.
  - rewrite <- Et in *. apply Hleaf; rewrite ?Et; intros x; by destruct x.
Qed.

(** ** C78 *)

(** The walk returns, whatever the registry was used for before: with one node for every message, field,
    enum, value, service and method of the file that is not inside an extend block, and with nothing
    else, nothing twice. *)
Theorem C78_walk_sees_everything_once s p t path :
  reachable s -> element_at s p t -> t_data t = DProto path ->
  exists depth0, forall depth, depth0 <= depth ->
  exists l ps s', survey depth p s = (Ret l, s') /\ Forall2 (shows s') ps l /\ NoDup ps /\
    forall q, q ∈ ps <-> declared_below s p q.
Proof.
  intros Hs Ht%element_heap Hd. pose proof (reachable_Inv _ Hs) as I.
  exists (height t). intros depth Hdepth. unfold survey.
  set (own := fun b : ptr * tree => b.1 :: decls depth b.1 b.2).
  destruct (survey_iter p t a_type (file_types p) (visit_node depth) own [] s) as (l1 & s1 & E1 & I1 & Q1 & H1);
    [constructor|done|done| |].
  { intros b k a all s' Hb I' _ Hb' Hsel Hr Hn. apply visit_ok; try done; [apply height_below in Hb; lia|by rewrite Hsel]. }
  rewrite (rbind_val _ _ _ _ _ E1).
  pose proof Ht as Ht1. rewrite <- (quiet_heap_at _ _ _ Q1) in Ht1.
  destruct (survey_iter p t a_service (file_services p) (visit_node depth) own l1 s1) as (l2 & s2 & E2 & I2 & Q2 & H2);
    [constructor|done|done| |].
  { intros b k a all s' Hb I' _ Hb' Hsel Hr Hn. apply visit_ok; try done; [apply height_below in Hb; lia|by rewrite Hsel, orb_true_r]. }
  exists (l1 ++ l2)%list. eexists _, s2. split; [exact E2|]. split.
  - apply Forall2_app; [|by apply Forall2_shows; [|exact H2]]. apply Forall2_shows; [done|].
    eapply Forall2_impl; [exact H1|]. intros x n. apply node_at_grows, quiet_grows, Q2.
  - split.
    + apply NoDup_app. split; [apply own_blocks_nodup, decls_nodup|]. split; [|apply own_blocks_nodup, decls_nodup].
      intros q (i & u & Hi & Hu & Hq)%block_index (j & v & Hj & Hv & Hq')%block_index.
      rewrite (under_same _ _ _ _ Hq Hq') in Hi. rewrite Hi in Hj. injection Hj as ->.
      by destruct (t_data v) as [| | | | | |? []| | | | | | | | | | | |].
    + intros q. rewrite elem_of_app, !elem_blocks, (below_head _ _ _ I).
      assert (Hown : forall sel i u, (forall x, sel x = true -> (a_type x || a_service x)%bool = true) -> t_kids t !! i = Some u ->
        sel (t_data u) = true -> q ∈ own (child p i, u) <-> q = child p i \/ declared_below s (child p i) q).
      { intros sel i u Hsel Hi Hu. unfold own. cbn [fst snd]. rewrite elem_of_cons.
        rewrite (decls_below depth s (child p i) u q I); [done|by eapply heap_at_child|apply height_kid in Hi; lia|by apply Hsel]. }
      split.
      * intros [(b & (i & E & Hi & Hsel)%elem_kids_sel & Hq)|(b & (i & E & Hi & Hsel)%elem_kids_sel & Hq)]; rewrite E in Hq;
          exists t, i, b.2; rewrite Hd; (split; [done|]; split; [done|]; split; [|]).
        -- by destruct (t_data b.2) as [| | | | | |? []| | | | | | | | | | | |].
        -- eapply (Hown a_type); [by intros ? ->|done|done|done].
        -- by destruct (t_data b.2) as [| | | | | |? []| | | | | | | | | | | |].
        -- eapply (Hown a_service); [intros ? ->; apply orb_true_r|done|done|done].
      * intros (t' & i & u & Ht' & Hi & Hu & H). rewrite Ht in Ht'. injection Ht' as <-. rewrite Hd in Hu.
        destruct (a_type (t_data u)) eqn:Hty; [left|right]; exists (child p i, u).
        -- split; [apply elem_kids_sel; by exists i|]. apply (Hown a_type); [by intros ? ->|done|done|done].
        -- assert (Hsv : a_service (t_data u) = true) by (by destruct (t_data u) as [| | | | | |? []| | | | | | | | | | | |]).
           split; [apply elem_kids_sel; by exists i|]. apply (Hown a_service); [intros ? ->; apply orb_true_r|done|done|done].
Qed.

(** The file of the demonstration: 26 declarations, three levels deep. *)
Example C78_example :
  reachable demo_world /\ element_at demo_world (root 1) (file_tree dat_f data_elems) /\
  declared_below demo_world (root 1) (1, [1; 12; 6]) /\ declared_below demo_world (root 1) (1, [2; 7]) /\
  exists l s', survey 3 (root 1) demo_world = (Ret l, s') /\ length l = 26 /\
    NAst KEnumValue 16 (1, [1; 12; 6]) ∈ l.
Proof.
  split; [apply demo_reachable|]. split; [apply demo_element; vm_compute; reflexivity|].
  assert (He : forall p t, heap_at demo_world p = Some t -> element_at demo_world p t) by apply demo_element.
  split; [|split].
  - eapply (db_deeper _ _ (1, [12; 6])); [eapply (db_deeper _ _ (1, [6])); [eapply (db_child _ (root 1))| | |]| | |];
      try (apply He; vm_compute; reflexivity); reflexivity.
  - eapply (db_deeper _ _ (1, [7])); [eapply (db_child _ (root 1))| | |];
      try (apply He; vm_compute; reflexivity); reflexivity.
  - assert (H : exists l, (survey 3 (root 1) demo_world).1 = Ret l /\ length l = 26 /\ NAst KEnumValue 16 (1, [1; 12; 6]) ∈ l).
    { eexists. split; [vm_compute; reflexivity|]. split; [reflexivity|]. apply elem_of_list_In. repeat (try (left; reflexivity); right). }
    clear He. revert H. generalize (survey 3 (root 1) demo_world). intros [r s'] (l & E & H). cbn [fst] in E. subst r. by exists l, s'.
Qed.

(** The field of an extend block is declared, and has a name, but the walk does not see it. *)
Theorem C78_extensions_refuted : exists n l,
  reachable demo_world /\ (node_by_full_name ".pb.file_tag" demo_world).1 = Ret (Some n) /\
  (node_file n (node_by_full_name ".pb.file_tag" demo_world).2).1 <> Ret None /\
  (survey 9 (root 2) demo_world).1 = Ret l /\ l = [].
Proof.
  eexists _, _. split; [apply demo_reachable|]. split; [vm_compute; reflexivity|].
  split; [vm_compute; discriminate|]. split; [vm_compute; reflexivity|reflexivity].
Qed.
