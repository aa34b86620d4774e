(** * What Everything does at elements without a node (C31) *)
From Verif Require Export ThmEverything ThmTerminate ThmFiles.
Local Open Scope go_scope.

(** An element, other than an option statement, that no node represents: a comment, a group, an
    extension range or an edition. *)
Definition nodeless (d : data) : bool :=
  match d with DComment | DGroup _ | DExtensions | DEdition => true | _ => false end.

(** What the type switch of the registry says about an element it has no node for. *)
Definition no_node_for (d : data) : payload := PError (ENew ("unsupported type *proto." +:+ parser_name d)).

(** [m] is tried [n] times, panics are recovered. *)
Fixpoint attempts {A} (n : nat) (m : R A) : R unit :=
  match n with 0 => ret tt | S n => recover m ;;; attempts n m end.

(** ** Proofs *)

Lemma nodeless_kind d : nodeless d = true <-> is_option d = false /\ wrap_kind d = None.
Proof. destruct d; cbn; split; try done; intros [? ?]; done. Qed.

Lemma option_part_cache cn p s :
  cache ((cl <~ option_class cn ;; o <~ wrap_option p cl ;; ret (Some (Some (NOption o)))) s).2 = cache s.
Proof.
  set (Rl := fun s s' : registry => cache s' = cache s).
  assert (R1 : forall s, Rl s s) by done.
  assert (R2 : forall s1 s2 s3, Rl s1 s2 -> Rl s2 s3 -> Rl s1 s3) by (unfold Rl; congruence).
  assert (R3 : keeps Rl alloc) by done.
  assert (K : keeps Rl (cl <~ option_class cn ;; o <~ wrap_option p cl ;; ret (Some (Some (NOption o))))).
  { apply keeps_bind; [exact R2|by apply keeps_option_class|]. intros cl.
    apply keeps_bind; [exact R2|by apply keeps_wrap_option|]. intros o. by apply keeps_ret. }
  exact (K s).
Qed.

Lemma unsupported_text s p t : heap_at s p = Some t ->
  PError (ENew ("unsupported type " +:+ go_visitee s (VPtr p))) = no_node_for (t_data t).
Proof. intros H. unfold no_node_for, go_visitee. by rewrite H, parser_ok. Qed.

Lemma quiet_pick_any cn b : keeps quiet (pick_any cn b).
Proof. apply keeps_pick_any; [apply quiet_refl|apply quiet_trans|apply quiet_alloc|apply quiet_wrap]. Qed.

(** the elements of a list that will panic *)
Definition pending (s : registry) (kids : list (ptr * tree)) : list ptr :=
  map fst (List.filter (fun b => nodeless (t_data b.2) && bool_decide (cache s !! VPtr b.1 = None)) kids).

Section Runs.
Context (s0 : registry) (cn : string) (ca : N) (class : ptr).
Context (I0 : Inv s0).

Definition usable (b : ptr * tree) : Prop :=
  heap_at s0 b.1 = Some b.2 /\
  (an_option (t_data b.2) = true -> found s0 cn (NAst KMessage ca class) /\
     exists oname f, statement s0 b.1 oname /\ option_target s0 [] class oname f).

(** the cache at elements without a node *)
Definition same_marks (s s' : registry) (but : ptr -> Prop) : Prop :=
  forall q u, heap_at s0 q = Some u -> nodeless (t_data u) = true -> ~ but q ->
    cache s' !! VPtr q = cache s !! VPtr q.

Lemma one_pick b s : usable b -> Inv s -> quiet s0 s ->
  if nodeless (t_data b.2) && bool_decide (cache s !! VPtr b.1 = None)
  then exists s', pick_any cn b s = (Panic (no_node_for (t_data b.2)), s') /\ quiet s s' /\ Inv s' /\
    cache s' !! VPtr b.1 = Some None /\ same_marks s s' (eq b.1)
  else exists x s', pick_any cn b s = (Ret (Some x), s') /\ quiet s s' /\ Inv s' /\
    yields s0 class b.1 x /\ same_marks s s' (fun _ => False).
Proof.
  intros [Hb Hopt] I Q. pose proof (inv_pick_any cn b s I) as [I' _]. pose proof (quiet_pick_any cn b s) as Q'.
  assert (Hbs : heap_at s b.1 = Some b.2) by (by rewrite (quiet_heap_at _ _ _ Q)).
  destruct (nodeless (t_data b.2) && bool_decide (cache s !! VPtr b.1 = None)) eqn:Hp.
  - apply andb_true_iff in Hp as [Hn Hc]. apply bool_decide_eq_true in Hc. apply nodeless_kind in Hn as [Ho Hk].
    assert (E : wrap (VPtr b.1) s = (Panic (PError (ENew ("unsupported type " +:+ go_visitee s (VPtr b.1)))), set_cache (<[VPtr b.1 := None]> (cache s)) s))
      by (apply wrap_unsupported; [done|eauto]).
    unfold pick_any in *. rewrite Ho in *.
    eexists. unfold rbind in *. rewrite E in *. split; [by rewrite (unsupported_text _ _ _ Hbs)|].
    split; [exact Q'|]. split; [exact I'|]. split; [apply lookup_insert|].
    intros q u _ _ Hne. apply lookup_insert_ne. congruence.
  - assert (Hopt' : an_option (t_data b.2) = true -> found s0 cn (NAst KMessage ca class) /\ well_named s0 b.1).
    { intros Ho. destruct (Hopt Ho) as [Hf Hst]. split; [done|]. by eapply target_named. }
    assert (exists x s', pick_any cn b s = (Ret (Some x), s') /\ same_marks s s' (fun _ => False)) as (x & s' & E & Hm).
    { unfold pick_any. destruct (an_option (t_data b.2)) eqn:Ho.
      - replace (is_option (t_data b.2)) with true by (by destruct (t_data b.2)).
        destruct (Hopt eq_refl) as [Hf (oname & f & H1 & H2)]. destruct (Hopt' eq_refl) as [_ Hw].
        pose proof (option_part_cache cn b.1 s) as Hc.
        destruct ((cl <~ option_class cn ;; o <~ wrap_option b.1 cl ;; ret (Some (Some (NOption o)))) s) as [x s2] eqn:E.
        destruct (root_option s0 cn ca class b s x s2 (fun o => Some (NOption o)) I0 Hf Hb Ho Hw I Q E)
          as [(o & -> & _)|[Hno _]]; [|exfalso; by apply (Hno _ _ H1) in H2].
        eexists _, _. split; [reflexivity|]. intros q u _ _ _. cbn [snd] in Hc. by rewrite Hc.
      - replace (is_option (t_data b.2)) with false by (by destruct (t_data b.2)).
        destruct (wrap_kind (t_data b.2)) as [k|] eqn:Hk.
        + destruct (wrap_ok s b.1 b.2 k (proj2 I) Hbs Hk) as (a & s2 & E & _).
          rewrite (rbind_val _ _ _ _ _ E). eexists _, _. split; [reflexivity|].
          intros q u Hu Hn _. replace s2 with (wrap (VPtr b.1) s).2 by (by rewrite E).
          apply wrap_only. intros [= ->]. apply nodeless_kind in Hn as [_ Hn]. congruence.
        + assert (Hn : nodeless (t_data b.2) = true) by (apply nodeless_kind; split; [by destruct (t_data b.2)|done]).
          rewrite Hn in Hp. cbn [andb] in Hp. apply bool_decide_eq_false in Hp.
          destruct (cache s !! VPtr b.1) as [o|] eqn:Hc; [|done].
          rewrite (rbind_val _ _ _ _ _ (wrap_hit _ _ _ Hc)). eexists _, _. split; [reflexivity|]. done. }
    destruct (any_child s0 cn ca class b s _ s' I0 Hopt' Hb I Q E) as (y & [= <-] & Q2 & I2 & Hy).
    eauto 10.
Qed.

Lemma one_run kids : forall l0 s, Forall usable kids -> NoDup (map fst kids) -> Inv s -> quiet s0 s ->
  match pending s kids with
  | [] => exists l s', iterate (pick_any cn) kids (list (option node)) l0 (fun c x => ret ((c ++ [x])%list, true)) s
            = (Ret (l0 ++ l)%list, s') /\ quiet s s' /\ Inv s' /\
          Forall2 (yields s0 class) (map fst kids) l /\ same_marks s s' (fun _ => False)
  | q :: _ => exists u s', heap_at s0 q = Some u /\
          iterate (pick_any cn) kids (list (option node)) l0 (fun c x => ret ((c ++ [x])%list, true)) s
            = (Panic (no_node_for (t_data u)), s') /\ quiet s s' /\ Inv s' /\
          cache s' !! VPtr q = Some None /\ same_marks s s' (eq q)
  end.
Proof.
  induction kids as [|b kids IH]; intros l0 s Hu Hnd I Q.
  - cbn. exists [], s. rewrite app_nil_r. split; [done|]. split; [apply quiet_refl|]. split; [done|]. split; [constructor|done].
  - cbn [map] in Hnd. apply list.NoDup_cons in Hnd as [Hb Hnd]. apply Forall_cons_1 in Hu as [Hub Hu].
    unfold pending. cbn [List.filter]. pose proof (one_pick b s Hub I Q) as H1.
    destruct (nodeless (t_data b.2) && bool_decide (cache s !! VPtr b.1 = None)) eqn:Hp.
    + cbn [map]. destruct H1 as (s' & E & H). exists b.2, s'. split; [apply Hub|]. split; [|exact H].
      cbn [iterate]. unfold rbind at 1. by rewrite E.
    + destruct H1 as (x & s1 & E & Q1 & I1 & Hy & Hm).
      specialize (IH (l0 ++ [x])%list s1 Hu Hnd I1 (quiet_trans _ _ _ Q Q1)).
      assert (Hpe : pending s1 kids = pending s kids).
      { unfold pending. clear IH Hp. induction Hu as [|c kids [Hc _] Hu IH]; [done|].
        cbn [map] in Hb, Hnd. apply not_elem_of_cons in Hb as [_ Hb]. apply list.NoDup_cons in Hnd as [_ Hnd].
        cbn [List.filter]. destruct (nodeless (t_data c.2)) eqn:Hn; cbn [andb]; [|by apply IH].
        rewrite (Hm c.1 c.2 Hc Hn (fun H => H)). case_bool_decide; cbn [map]; [|by apply IH]. f_equal. by apply IH. }
      fold (pending s kids). rewrite Hpe in IH. cbn [iterate]. rewrite (rbind_val _ _ _ _ _ E), rbind_ret. cbn beta iota.
      destruct (pending s kids) as [|q rest].
      * destruct IH as (l & s' & El & Q2 & I2 & Hl & Hm2). exists (x :: l), s'. rewrite El, <- app_assoc.
        split; [done|]. split; [by eapply quiet_trans|]. split; [done|]. split; [by constructor|].
        intros q u Hq Hn Hne. by rewrite (Hm2 q u Hq Hn Hne), (Hm q u Hq Hn Hne).
      * destruct IH as (u0 & s' & Hu0 & El & Q2 & I2 & Hc & Hm2). exists u0, s'. rewrite El.
        split; [done|]. split; [done|]. split; [by eapply quiet_trans|]. split; [done|]. split; [done|].
        intros q' u Hq Hn Hne. by rewrite (Hm2 q' u Hq Hn Hne), (Hm q' u Hq Hn (fun H => H)).
Qed.
End Runs.

Lemma kids_nodup p t : NoDup (map fst (kids_at p t)).
Proof.
  apply NoDup_alt. intros i j q Hi Hj. change (map fst (kids_at p t)) with (fst <$> kids_at p t) in Hi, Hj.
  rewrite list_lookup_fmap in Hi, Hj.
  destruct (kids_at p t !! i) as [b|] eqn:Eb; [|discriminate Hi]. destruct (kids_at p t !! j) as [c|] eqn:Ec; [|discriminate Hj].
  unfold kids_at in Eb, Ec. rewrite list_lookup_imap in Eb, Ec.
  destruct (t_kids t !! i) as [u|]; [|discriminate Eb]. destruct (t_kids t !! j) as [w|]; [|discriminate Ec].
  cbn in Eb, Ec, Hi, Hj. injection Eb as <-. injection Ec as <-. cbn in Hi, Hj. unfold child in *. congruence.
Qed.
Lemma everyone_all p t : children everyone p t = map fst (kids_at p t).
Proof. unfold children. f_equal. induction (kids_at p t) as [|b l IH]; [done|]. cbn. by rewrite IH. Qed.

Lemma pending_after s s0 s' q rest kids : NoDup (map fst kids) -> Forall (fun b => heap_at s0 b.1 = Some b.2) kids ->
  pending s kids = q :: rest -> cache s' !! VPtr q = Some None -> same_marks s0 s s' (eq q) ->
  pending s' kids = rest.
Proof.
  intros Hnd Hk Hp Hc Hm. revert rest Hp. induction kids as [|b kids IH]; intros rest Hp; [discriminate Hp|].
  cbn [map] in Hnd. apply list.NoDup_cons in Hnd as [Hb Hnd]. apply Forall_cons_1 in Hk as [Hbk Hk].
  assert (Hrest : q ∉ map fst kids -> pending s' kids = pending s kids).
  { clear IH Hp Hb. intros Hq. unfold pending. induction Hk as [|c kids Hck Hk IH]; [done|].
    cbn [map] in Hq, Hnd. apply not_elem_of_cons in Hq as [Hqc Hq]. apply list.NoDup_cons in Hnd as [_ Hnd].
    cbn [List.filter]. destruct (nodeless (t_data c.2)) eqn:Hn; cbn [andb]; [|by apply IH].
    rewrite (Hm c.1 c.2 Hck Hn Hqc). case_bool_decide; cbn [map]; [|by apply IH]. f_equal. by apply IH. }
  unfold pending in Hp |- *. cbn [List.filter] in Hp |- *.
  destruct (nodeless (t_data b.2)) eqn:Hn; cbn [andb] in Hp |- *; [|by apply IH].
  destruct (decide (q = b.1)) as [->|Hne].
  - rewrite (bool_decide_eq_false_2 (cache s' !! VPtr b.1 = None)) by (rewrite Hc; done).
    fold (pending s' kids). rewrite (Hrest Hb). revert Hp. case_bool_decide as Hn1; cbn [map]; [by intros [= <-]|].
    intros Hp. exfalso. apply Hb. change (pending s kids = b.1 :: rest) in Hp.
    assert (b.1 ∈ pending s kids) as Hin by (rewrite Hp; constructor).
    unfold pending in Hin. change (b.1 ∈ fst <$> (List.filter (fun b => nodeless (t_data b.2) && bool_decide (cache s !! VPtr b.1 = None)) kids)) in Hin.
    apply elem_of_list_fmap in Hin as (c & -> & Hin). apply elem_of_list_In, filter_In in Hin as [Hin _].
    apply elem_of_list_fmap. exists c. split; [done|]. by apply elem_of_list_In.
  - rewrite (Hm b.1 b.2 Hbk Hn Hne). revert Hp. case_bool_decide; cbn [map]; [by intros [= <- _]|]. by apply IH.
Qed.

Lemma attempts_panic {A} (m : R A) i s e s' : m s = (Panic e, s') -> attempts (S i) m s = attempts i m s'.
Proof. intros E. cbn [attempts]. unfold rbind, recover. by rewrite E. Qed.
Lemma attempts_ret {A} (m : R A) i s x s' : m s = (Ret x, s') -> attempts (S i) m s = attempts i m s'.
Proof. intros E. cbn [attempts]. unfold rbind, recover. by rewrite E. Qed.
Lemma attempts_step {A B} (m : R A) (m' : R B) i s r s' : m s = (r, s') -> r <> Diverge ->
  (attempts (S i) m ;;; m') s = (attempts i m ;;; m') s'.
Proof.
  intros E Hr. unfold rbind. destruct r as [x|e|]; [|  |done].
  - by rewrite (attempts_ret _ _ _ _ _ E).
  - by rewrite (attempts_panic _ _ _ _ _ E).
Qed.

(** ** C31 *)

(** Every element without a node makes one run over Everything panic, provided the option statements
    have names that stand for fields in the root scope: of the runs in a row, the first ones panic,
    each about one of the elements without a node, in source order and no element twice, and all
    others give the whole list.  In a registry on which nothing but loads was done, every element
    without a node has its run. *)
Theorem C31_runs s p t cn ca class sq :
  reachable s -> everything_at s p cn sq -> element_at s p t ->
  (forall q u, q ∈ children everyone p t -> element_at s q u -> an_option (t_data u) = true ->
     found s cn (NAst KMessage ca class) /\ exists oname f, statement s q oname /\ option_target s [] class oname f) ->
  let nodeless_elements := List.filter (fun u => nodeless (t_data u)) (t_kids t) in
  exists us, us `sublist_of` nodeless_elements /\ (just_loaded s -> us = nodeless_elements) /\
    (forall i u, us !! i = Some u ->
       ((attempts i (collect sq) ;;; collect sq) s).1 = Panic (no_node_for (t_data u))) /\
    (forall i, length us <= i -> exists l, ((attempts i (collect sq) ;;; collect sq) s).1 = Ret l /\
       Forall2 (yields s class) (children everyone p t) l).
Proof.
  intros Hs Hsq Ht Hopt. cbn zeta. pose proof (reachable_Inv _ Hs) as I. apply element_heap in Ht as Ht'.
  set (kids := kids_at p t).
  assert (Hu : Forall (usable s cn ca class) kids).
  { apply list.Forall_forall. intros b Hb. pose proof (kids_heap _ _ _ _ Ht' Hb) as Hbt. split; [done|].
    intros Ho. apply (Hopt b.1 b.2); [by apply everything_child|by apply heap_element|done]. }
  pose proof (kids_nodup p t) as Hnd. fold kids in Hnd.
  assert (Hk : Forall (fun b => heap_at s b.1 = Some b.2) kids) by (eapply Forall_impl; [|exact Hu]; by intros b [? _]).
  assert (Hcol : forall s1, quiet s s1 ->
    collect sq s1 = iterate (pick_any cn) kids (list (option node)) [] (fun c x => ret ((c ++ [x])%list, true)) s1).
  { intros s1 Q1. unfold collect. rewrite (everything_iter _ _ _ _ Hsq). unfold iter_kids.
    rewrite (rbind_val _ _ _ _ _ (kids_of_ok s1 p t ltac:(by rewrite (quiet_heap_at _ _ _ Q1)))). done. }
  set (left := fun s1 => map snd (List.filter (fun b => nodeless (t_data b.2) && bool_decide (cache s1 !! VPtr b.1 = None)) kids)).
  assert (Hsub : left s `sublist_of` List.filter (fun u => nodeless (t_data u)) (t_kids t) /\
    (just_loaded s -> left s = List.filter (fun u => nodeless (t_data u)) (t_kids t))).
  { assert (He : just_loaded s -> forall v, cache s !! v = None)
      by (intros Hj v; by rewrite (proj1 (just_loaded_empty _ Hj)), lookup_empty).
    assert (H2 : forall (l : list (ptr * tree)),
      map snd (List.filter (fun b => nodeless (t_data b.2) && bool_decide (cache s !! VPtr b.1 = None)) l)
              `sublist_of` List.filter (fun u => nodeless (t_data u)) (map snd l) /\
      (just_loaded s -> map snd (List.filter (fun b => nodeless (t_data b.2) && bool_decide (cache s !! VPtr b.1 = None)) l)
              = List.filter (fun u => nodeless (t_data u)) (map snd l))).
    { induction l as [|b l [IH1 IH2]]; [done|]. cbn [List.filter map].
      destruct (nodeless (t_data b.2)); cbn [andb]; [|done].
      case_bool_decide as Hc; cbn [map].
      - split; [by constructor|]. intros Hj. by rewrite (IH2 Hj).
      - split; [by constructor|]. intros Hj. by rewrite He in Hc. }
    specialize (H2 kids). replace (map snd kids) with (t_kids t) in H2; [exact H2|].
    unfold kids, kids_at. clear. symmetry. apply list_eq. intros i.
    change (map snd (imap (fun i k => (child p i, k)) (t_kids t))) with (snd <$> imap (fun i k => (child p i, k)) (t_kids t)).
    rewrite list_lookup_fmap, list_lookup_imap. by destruct (t_kids t !! i). }
  exists (left s). split; [apply Hsub|]. split; [apply Hsub|]. clear Hsub.
  assert (Hboth : forall s1, length (left s1) = length (pending s1 kids)).
  { intros s1. unfold left, pending. by rewrite !map_length. }
  assert (Hpair : forall s1, exists m, pending s1 kids = map fst m /\ left s1 = map snd m /\
    Forall (fun b => heap_at s b.1 = Some b.2) m).
  { intros s1. eexists. split; [reflexivity|]. split; [reflexivity|]. apply list.Forall_forall. intros b Hb.
    apply elem_of_list_In, filter_In in Hb as [Hb _]. rewrite list.Forall_forall in Hk. apply Hk. by apply elem_of_list_In. }
  assert (Hrun : forall s1, Inv s1 -> quiet s s1 ->
    (forall i u, left s1 !! i = Some u -> ((attempts i (collect sq) ;;; collect sq) s1).1 = Panic (no_node_for (t_data u))) /\
    (forall i, length (left s1) <= i -> exists l, ((attempts i (collect sq) ;;; collect sq) s1).1 = Ret l /\
       Forall2 (yields s class) (children everyone p t) l)).
  { intros s1. rewrite Hboth. remember (length (pending s1 kids)) as n eqn:En. revert s1 En.
    induction n as [|n IHn]; intros s1 En I1 Q1.
    - split; [intros i u Hi; apply lookup_lt_Some in Hi; rewrite Hboth in Hi; lia|]. intros i _. revert s1 En I1 Q1.
      induction i as [|i IHi]; intros s1 En I1 Q1;
        pose proof (one_run s cn ca class I kids [] s1 Hu Hnd I1 Q1) as H1;
        (destruct (pending s1 kids) as [|q rest] eqn:Hp; [|discriminate En]);
        destruct H1 as (l & s' & El & Q2 & I2 & Hl & Hm); rewrite <- (Hcol s1 Q1) in El.
      + exists l. cbn [attempts]. rewrite rbind_ret, El. split; [done|]. by rewrite everyone_all.
      + rewrite (attempts_step _ _ _ _ _ _ El ltac:(done)). apply IHi; [|done|by eapply quiet_trans].
        enough (pending s' kids = []) as -> by done. rewrite <- Hp. unfold pending. clear - Hk Hm.
        f_equal. induction Hk as [|c kids Hck Hk IH]; [done|]. cbn [List.filter].
        destruct (nodeless (t_data c.2)) eqn:Hn; cbn [andb]; [|by apply IH].
        rewrite (Hm c.1 c.2 Hck Hn (fun H => H)). by rewrite IH.
    - pose proof (one_run s cn ca class I kids [] s1 Hu Hnd I1 Q1) as H1.
      destruct (pending s1 kids) as [|q rest] eqn:Hp; [discriminate En|].
      destruct H1 as (u0 & s' & Hu0 & El & Q2 & I2 & Hc & Hm). rewrite <- (Hcol s1 Q1) in El.
      pose proof (pending_after _ _ _ _ _ _ Hnd Hk Hp Hc Hm) as Hp'. cbn [length] in En.
      assert (Hleft : left s1 = u0 :: left s').
      { destruct (Hpair s1) as (m1 & Hm1 & -> & Hh1). destruct (Hpair s') as (m2 & Hm2 & -> & Hh2).
        rewrite Hp in Hm1. destruct m1 as [|[q0 u1] m1]; [discriminate Hm1|]. cbn [map fst] in Hm1. injection Hm1 as <- Hrest.
        cbn [map snd]. apply Forall_cons_1 in Hh1 as [Hq0 Hh1]. cbn [fst snd] in Hq0. f_equal; [congruence|].
        rewrite Hp', Hrest in Hm2. clear - Hm2 Hh1 Hh2. revert m2 Hm2 Hh2.
        induction m1 as [|a m1 IH]; intros [|b m2] Hm Hh2; try discriminate Hm; [done|]. cbn [map] in *.
        injection Hm as Hab Hm. apply Forall_cons_1 in Hh1 as [Ha Hh1]. apply Forall_cons_1 in Hh2 as [Hb Hh2].
        f_equal; [congruence|]. by apply IH. }
      destruct (IHn s' ltac:(rewrite Hp'; lia) I2 (quiet_trans _ _ _ Q1 Q2)) as [Ha Hb].
      split.
      + intros [|i] u Hi; rewrite Hleft in Hi; cbn [lookup list_lookup] in Hi.
        * injection Hi as <-. cbn [attempts]. by rewrite rbind_ret, El.
        * rewrite (attempts_step _ _ _ _ _ _ El ltac:(done)). by apply Ha.
      + intros [|i] Hi; [lia|]. rewrite (attempts_step _ _ _ _ _ _ El ltac:(done)). apply Hb. lia. }
  apply Hrun; [done|apply quiet_refl].
Qed.

(** no nil in the cache *)
Definition no_nils (s : registry) : Prop := forall v, cache s !! v <> Some None.

Lemma run_without_nils s0 cn kids : Forall (fun b => heap_at s0 b.1 = Some b.2) kids ->
  forall l0 s l s', no_nils s -> Inv s -> quiet s0 s ->
  iterate (pick_any cn) kids (list (option node)) l0 (fun c x => ret ((c ++ [x])%list, true)) s = (Ret l, s') ->
  Forall (fun b => nodeless (t_data b.2) = false) kids.
Proof.
  induction 1 as [|b kids Hb _ IH]; intros l0 s l s' Hn I Q E; [constructor|]. cbn [iterate] in E.
  apply rbind_Ret in E as (x & s1 & Ep & E).
  pose proof (inv_step_ret _ _ _ _ (inv_pick_any cn b) I Ep) as [I1 _].
  pose proof (quiet_pick_any cn b s) as Q1. rewrite Ep in Q1. cbn [snd] in Q1.
  assert (no_nils s1 /\ nodeless (t_data b.2) = false /\ exists y, x = Some y) as (Hn1 & Hbn & y & ->).
  { unfold pick_any in Ep. destruct (is_option (t_data b.2)) eqn:Ho.
    - pose proof (option_part_cache cn b.1 s) as Hc. rewrite Ep in Hc. cbn [snd] in Hc.
      split; [unfold no_nils; by rewrite Hc|]. split; [by destruct (t_data b.2)|].
      apply rbind_Ret in Ep as (c & s2 & _ & Ep). apply rbind_Ret in Ep as (o & s3 & _ & Ep).
      injection Ep as <- _. eauto.
    - apply rbind_Ret in Ep as (w & s2 & Ew & Ep). injection Ep as <- <-.
      split; [intros v Hv; by eapply (Hn v), wrap_no_new_none|]. split; [|eauto].
      destruct (nodeless (t_data b.2)) eqn:Hl; [|done]. exfalso. apply nodeless_kind in Hl as [_ Hk].
      destruct w as [n|].
      + destruct (wrap_ret _ _ _ _ (proj2 I) Ew) as (p & k & a & u & Hv & -> & Hu & Hk' & _).
        injection Hv as <-. rewrite (quiet_heap_at _ _ _ Q) in Hu. congruence.
      + apply wrap_none_hit in Ew as [Hc _]. by apply Hn in Hc. }
  rewrite rbind_ret in E. cbn beta iota in E. constructor; [done|].
  eapply IH; [exact Hn1|exact I1|by eapply quiet_trans|exact E].
Qed.

(** In a registry on which nothing but loads was done an element without a node makes Everything panic,
    whatever the other elements are. *)
Theorem C31_nodeless_panics s p t u cn sq :
  just_loaded s -> everything_at s p cn sq -> element_at s p t -> u ∈ t_kids t -> nodeless (t_data u) = true ->
  exists e, (collect sq s).1 = Panic e.
Proof.
  intros Hj Hsq Ht Hu Hn. pose proof (reachable_Inv _ (calm_reachable _ (just_loaded_calm _ Hj))) as I.
  apply element_heap in Ht as Ht'.
  assert (Hfin : (collect sq s).1 <> Diverge).
  { refine (proj1 (fin_everything_iterator sq _ _ _ _ _ s I)); [destruct Hsq; constructor|]. intros c x. apply fin_ret. }
  assert (Hcol : collect sq s =
    iterate (pick_any cn) (kids_at p t) (list (option node)) [] (fun c x => ret ((c ++ [x])%list, true)) s).
  { unfold collect. rewrite (everything_iter _ _ _ _ Hsq). unfold iter_kids.
    by rewrite (rbind_val _ _ _ _ _ (kids_of_ok s p t Ht')). }
  destruct (collect sq s) as [[l|e|] s'] eqn:E; [|by exists e|done]. exfalso.
  assert (Hall : Forall (fun b => nodeless (t_data b.2) = false) (kids_at p t)).
  { eapply (run_without_nils s cn (kids_at p t)).
    - apply list.Forall_forall. intros b Hb. by eapply kids_heap.
    - intros v. rewrite (proj1 (just_loaded_empty _ Hj)), lookup_empty. discriminate.
    - exact I.
    - apply quiet_refl.
    - symmetry. exact Hcol. }
  apply elem_of_list_lookup in Hu as [i Hi].
  assert ((child p i, u) ∈ kids_at p t) as Hin.
  { apply elem_of_list_lookup. exists i. unfold kids_at. by rewrite list_lookup_imap, Hi. }
  rewrite list.Forall_forall in Hall. specialize (Hall _ Hin). cbn in Hall. congruence.
Qed.

(** What is wrong with the element at [q], for Everything: it is an option statement whose name stands
    for no field in the root scope, or an element without a node. *)
Inductive element_fault (s : registry) (class : ptr) (q : ptr) : payload -> Prop :=
| ef_option oname msg :
    statement s q oname -> (forall f, ~ option_target s [] class oname f) -> option_complaint s [] oname msg ->
    element_fault s class q msg
| ef_node u :
    element_at s q u -> nodeless (t_data u) = true -> element_fault s class q (no_node_for (t_data u)).

Lemma first_fault_run s0 cn ca class kids : Inv s0 ->
  Forall (fun b => heap_at s0 b.1 = Some b.2) kids ->
  Forall (fun b => an_option (t_data b.2) = true -> found s0 cn (NAst KMessage ca class) /\ well_named s0 b.1) kids ->
  forall l0 s, no_nils s -> Inv s -> quiet s0 s ->
  (exists l s', iterate (pick_any cn) kids (list (option node)) l0 (fun c x => ret ((c ++ [x])%list, true)) s
      = (Ret (l0 ++ l)%list, s') /\ Forall2 (yields s0 class) (map fst kids) l /\
      Forall (fun b => forall m, ~ element_fault s0 class b.1 m) kids) \/
  (exists msg i b, (iterate (pick_any cn) kids (list (option node)) l0 (fun c x => ret ((c ++ [x])%list, true)) s).1 = Panic msg /\
      kids !! i = Some b /\ element_fault s0 class b.1 msg /\
      Forall (fun b => forall m, ~ element_fault s0 class b.1 m) (take i kids)).
Proof.
  intros I0. induction kids as [|b kids IH]; intros Hk Ho l0 s Hn I Q.
  - left. exists [], s. rewrite app_nil_r. split; [done|]. split; constructor.
  - apply Forall_cons_1 in Hk as [Hb Hk]. apply Forall_cons_1 in Ho as [Hbo Ho].
    pose proof (heap_element _ _ _ I0 Hb) as Hbe.
    assert (Hbs : heap_at s b.1 = Some b.2) by (by rewrite (quiet_heap_at _ _ _ Q)).
    cbn [iterate].
    assert ((exists msg, (pick_any cn b s).1 = Panic msg /\ element_fault s0 class b.1 msg) \/
      (exists x s1, pick_any cn b s = (Ret (Some x), s1) /\ quiet s s1 /\ Inv s1 /\ no_nils s1 /\
         yields s0 class b.1 x /\ forall m, ~ element_fault s0 class b.1 m)) as [(msg & Ep & Hf)|(x & s1 & Ep & Q1 & I1 & Hn1 & Hy & Hno)].
    { destruct (an_option (t_data b.2)) eqn:Hopt.
      - destruct (Hbo eq_refl) as [Hf Hw].
        destruct (pick_any cn b s) as [x s1] eqn:Ep. pose proof Ep as Ep0. unfold pick_any in Ep.
        replace (is_option (t_data b.2)) with true in Ep by (by destruct (t_data b.2)).
        pose proof (option_part_cache cn b.1 s) as Hc. rewrite Ep in Hc. cbn [snd] in Hc.
        destruct (root_option s0 cn ca class b s x s1 (fun o => Some (NOption o)) I0 Hf Hb Hopt Hw I Q Ep)
          as [(o & -> & Q1 & I1 & Ha)|[Hno (msg & -> & oname & Hst & Hoc)]].
        + right. eexists _, _. split; [reflexivity|]. split; [done|]. split; [done|].
          split; [unfold no_nils; by rewrite Hc|]. split.
          * exists b.2. split; [done|]. rewrite Hopt. eauto.
          * intros m [oname m' Hst Hnt _|u Hu Hnl].
            -- destruct Ha as (_ & _ & on & Hon & Hta). destruct Hst as (u1 & l1 & Hu1 & Hd1). destruct Hon as (u2 & l2 & Hu2 & Hd2).
               apply element_heap in Hu1, Hu2. assert (on = oname) as -> by congruence. exact (Hnt _ Hta).
            -- apply element_heap in Hu. assert (u = b.2) as -> by congruence. by destruct (t_data b.2).
        + left. exists msg. split; [done|]. eapply ef_option; [exact Hst| |exact Hoc]. intros f. by apply Hno.
      - destruct (nodeless (t_data b.2)) eqn:Hnl.
        + left. apply nodeless_kind in Hnl as Hnl'. destruct Hnl' as [Ho' Hwk].
          destruct (cache s !! VPtr b.1) as [[n|]|] eqn:Hc.
          * exfalso. destruct (wrap_ret _ _ _ _ (proj2 I) (wrap_hit _ _ _ Hc)) as (p & k & a & u & Hv & -> & Hu & Hk' & _).
            injection Hv as <-. congruence.
          * exfalso. exact (Hn _ Hc).
          * assert (E : wrap (VPtr b.1) s = (Panic (PError (ENew ("unsupported type " +:+ go_visitee s (VPtr b.1)))), set_cache (<[VPtr b.1 := None]> (cache s)) s))
              by (apply wrap_unsupported; [done|eauto]).
            exists (no_node_for (t_data b.2)). split; [|by apply ef_node].
            unfold pick_any. rewrite Ho'. unfold rbind. rewrite E. by rewrite (unsupported_text _ _ _ Hbs).
        + right. destruct (wrap_kind (t_data b.2)) as [k|] eqn:Hwk.
          2: { exfalso. assert (nodeless (t_data b.2) = true) by (apply nodeless_kind; split; [by destruct (t_data b.2)|done]). congruence. }
          destruct (wrap_ok s b.1 b.2 k (proj2 I) Hbs Hwk) as (a & s2 & E & _).
          assert (Ep : pick_any cn b s = (Ret (Some (Some (NAst k a b.1))), s2)).
          { unfold pick_any. replace (is_option (t_data b.2)) with false by (by destruct (t_data b.2)).
            by rewrite (rbind_val _ _ _ _ _ E). }
          destruct (any_child s0 cn ca class b s _ s2 I0 ltac:(intros; congruence) Hb I Q Ep) as (y & [= <-] & Q2 & I2 & Hy).
          eexists _, _. split; [exact Ep|]. split; [done|]. split; [done|].
          split; [intros v Hv; by eapply (Hn v), wrap_no_new_none|]. split; [done|].
          intros m [oname m' (u1 & l1 & Hu1 & Hd1) _ _|u Hu Hn2].
          * apply element_heap in Hu1. assert (u1 = b.2) as -> by congruence. rewrite Hd1 in Hopt. discriminate Hopt.
          * apply element_heap in Hu. assert (u = b.2) as -> by congruence. congruence. }
    + right. exists msg, 0, b. split; [|split; [done|split; [done|constructor]]].
      unfold rbind. destruct (pick_any cn b s) as [[]]; cbn [fst] in *; congruence.
    + rewrite (rbind_val _ _ _ _ _ Ep), rbind_ret. cbn beta iota.
      destruct (IH Hk Ho (l0 ++ [x])%list s1 Hn1 I1 (quiet_trans _ _ _ Q Q1)) as [(l & s' & El & Hl & Hfine)|(msg & i & b' & El & Hi & Hf & Hfine)].
      * left. exists (x :: l), s'. rewrite El, <- app_assoc. split; [done|]. split; [cbn [map]; by constructor|by constructor].
      * right. exists msg, (S i), b'. split; [done|]. split; [done|]. split; [done|]. cbn [take]. by constructor.
Qed.

(** In a registry on which nothing but loads was done, collecting Everything gives one entry per
    element if nothing is wrong with any of them, and otherwise panics with what is wrong with the
    first element something is wrong with. *)
Theorem C31_first_fault s p t cn ca class sq :
  just_loaded s -> everything_at s p cn sq -> element_at s p t ->
  (forall q, q ∈ children an_option p t -> found s cn (NAst KMessage ca class) /\ well_named s q) ->
  (exists l, (collect sq s).1 = Ret l /\ Forall2 (yields s class) (children everyone p t) l /\
     forall q msg, q ∈ children everyone p t -> ~ element_fault s class q msg) \/
  (exists msg i q, (collect sq s).1 = Panic msg /\ children everyone p t !! i = Some q /\ element_fault s class q msg /\
     forall j q' msg', j < i -> children everyone p t !! j = Some q' -> ~ element_fault s class q' msg').
Proof.
  intros Hj Hsq Ht Hopt. pose proof (reachable_Inv _ (calm_reachable _ (just_loaded_calm _ Hj))) as I.
  apply element_heap in Ht as Ht'.
  assert (Hcol : collect sq s =
    iterate (pick_any cn) (kids_at p t) (list (option node)) [] (fun c x => ret ((c ++ [x])%list, true)) s).
  { unfold collect. rewrite (everything_iter _ _ _ _ Hsq). unfold iter_kids.
    by rewrite (rbind_val _ _ _ _ _ (kids_of_ok s p t Ht')). }
  destruct (first_fault_run s cn ca class (kids_at p t) I) with (l0 := @nil (option node)) (s := s)
    as [(l & s' & El & Hl & Hfine)|(msg & i & b & El & Hi & Hf & Hfine)].
  - apply list.Forall_forall. intros b Hb. by eapply kids_heap.
  - apply list.Forall_forall. intros b Hb Ho. apply Hopt. exact (kid_statement _ _ _ _ I Ht' Hb Ho).
  - intros v. rewrite (proj1 (just_loaded_empty _ Hj)), lookup_empty. discriminate.
  - exact I.
  - apply quiet_refl.
  - left. exists l. rewrite Hcol, El. split; [done|]. rewrite everyone_all. split; [done|].
    intros q msg Hq. apply elem_of_list_fmap in Hq as (b & -> & Hb). rewrite list.Forall_forall in Hfine. by apply Hfine.
  - right. exists msg, i, b.1. rewrite Hcol. split; [done|]. rewrite everyone_all.
    split; [change (map fst (kids_at p t)) with (fst <$> kids_at p t); by rewrite list_lookup_fmap, Hi|]. split; [done|].
    intros j q' msg' Hji Hq'. change (map fst (kids_at p t)) with (fst <$> kids_at p t) in Hq'. rewrite list_lookup_fmap in Hq'.
    destruct (kids_at p t !! j) as [c|] eqn:Hc; [|discriminate Hq']. injection Hq' as <-.
    rewrite list.Forall_forall in Hfine. apply Hfine. apply elem_of_list_lookup. exists j. by rewrite lookup_take.
Qed.

(** Two comments and an option in a message: two runs panic, the third one gives all four elements.

      message M {
        // detached

        option deprecated = true;
        // detached too

        int32 a = 1;
      } *)
Definition nl_f := "two.proto".
Definition nl_elems : list tree :=
  [ el nl_f 1 (DSyntax "proto3") []; el nl_f 2 (DPackage "c") [];
    msg nl_f 4 "M" [ el nl_f 5 DComment []; opt nl_f 7 "deprecated" "true"; el nl_f 8 DComment [];
                     fld nl_f 10 "int32" "a" 1 ] ].
Definition nl_files := (std_files ++ [(nl_f, nl_elems)])%list.
Definition nl_world : registry := world nl_files [nl_f].

Lemma nl_starts : starts nl_files = true.
Proof. vm_compute. reflexivity. Qed.
Lemma nl_just : just_loaded nl_world.
Proof.
  apply (only_loads_just (table_env nl_files) [nl_f] (start nl_files)).
  - apply table_env_ok. vm_compute. reflexivity.
  - apply loads_fine_only. vm_compute. reflexivity.
  - apply (jl_new (table_env nl_files) 50); [apply table_env_ok; vm_compute; reflexivity|]. apply start_new, nl_starts.
Qed.

Example C31_runs_example :
  exists t, just_loaded nl_world /\ reachable nl_world /\
  everything_at nl_world (1, [2]) ".google.protobuf.MessageOptions" (message_everything (1, [2])) /\
  element_at nl_world (1, [2]) t /\ length (List.filter (fun u => nodeless (t_data u)) (t_kids t)) = 2 /\
  (forall q u, q ∈ children everyone (1, [2]) t -> element_at nl_world q u -> an_option (t_data u) = true ->
     found nl_world ".google.protobuf.MessageOptions" (NAst KMessage 1 (0, [3])) /\
     exists oname f, statement nl_world q oname /\ option_target nl_world [] (0, [3]) oname f) /\
  (forall i, i < 2 ->
    ((attempts i (collect (message_everything (1, [2]))) ;;; collect (message_everything (1, [2]))) nl_world).1
      = Panic (PError (ENew "unsupported type *proto.Comment"))) /\
  forall i, 2 <= i -> exists l,
    ((attempts i (collect (message_everything (1, [2]))) ;;; collect (message_everything (1, [2]))) nl_world).1 = Ret l.
Proof.
  pose proof nl_just as J. pose proof (calm_reachable _ (just_loaded_calm _ J)) as Hr.
  pose proof (reachable_Inv _ Hr) as I.
  set (t := msg nl_f 4 "M" [ el nl_f 5 DComment []; opt nl_f 7 "deprecated" "true"; el nl_f 8 DComment [];
                     fld nl_f 10 "int32" "a" 1 ]).
  assert (Ht : element_at nl_world (1, [2]) t) by (apply (heap_element _ _ _ I); vm_compute; reflexivity).
  assert (He : everything_at nl_world (1, [2]) ".google.protobuf.MessageOptions" (message_everything (1, [2])))
    by (eapply ev_message; [exact Ht|reflexivity|reflexivity]).
  assert (Hf : found nl_world ".google.protobuf.MessageOptions" (NAst KMessage 1 (0, [3])))
    by (unfold found; vm_compute; reflexivity).
  assert (Hn : forall d, ~ denotes nl_world [] "deprecated" d).
  { apply denotes_nothing; [exact I|reflexivity|vm_compute; reflexivity]. }
  assert (Hq : forall q u, q ∈ children everyone (1, [2]) t -> element_at nl_world q u -> an_option (t_data u) = true ->
     found nl_world ".google.protobuf.MessageOptions" (NAst KMessage 1 (0, [3])) /\
     exists oname f, statement nl_world q oname /\ option_target nl_world [] (0, [3]) oname f).
  { intros q u Hq Hu Ho. split; [exact Hf|].
    assert (Ho' : element_at nl_world (1, [1; 2]) (opt nl_f 7 "deprecated" "true"))
      by (apply (heap_element _ _ _ I); vm_compute; reflexivity).
    assert (q ∈ [(1, [0; 2]); (1, [1; 2]); (1, [2; 2]); (1, [3; 2])]) as Hq' by exact Hq.
    assert (q = (1, [1; 2])) as ->.
    { apply element_heap in Hu. clear - Hq' Hu Ho.
      repeat (apply elem_of_cons in Hq' as [->|Hq']); [|done| | |exfalso; exact (not_elem_of_nil _ Hq')];
      exfalso; vm_compute in Hu; injection Hu as <-; discriminate Ho. }
    exists "deprecated", (0, [0; 3]). split; [eexists _, _; split; [exact Ho'|reflexivity]|].
    assert (Hd : exists ct, element_at nl_world (0, [3]) ct /\
      head (children (plain_field_named "deprecated") (0, [3]) ct) = Some (0, [0; 3])).
    { eexists. split; [apply (heap_element _ _ _ I); vm_compute; reflexivity|vm_compute; reflexivity]. }
    destruct Hd as (ct & H1 & H2).
    eapply ot_predefined; [by apply ref_plain|exact Hn|exact H1|exact H2]. }
  destruct (C31_runs nl_world (1, [2]) t _ 1%N (0, [3]) _ Hr He Ht Hq) as (us & _ & Hus & H1 & H2).
  specialize (Hus J). change (us = [el nl_f 5 DComment []; el nl_f 8 DComment []]) in Hus. subst us.
  exists t. refine (conj J (conj Hr (conj He (conj Ht (conj eq_refl (conj Hq _)))))).
  revert H1 H2. clear. generalize nl_world. intros w H1 H2. split.
  - intros [|[|i]] Hi; [exact (H1 0 _ eq_refl)|exact (H1 1 _ eq_refl)|lia].
  - intros i Hi. destruct (H2 i Hi) as (l & Hl & _). by exists l.
Qed.

(** A message with a field, an option nobody declares, and a comment, and a method with the same option:
    both panics are about the option.

      message M { int32 a = 1;  option (nope) = true;
        // detached

      }
      service S { rpc R (M) returns (M) { option deprecated = true; option (nope) = true; } } *)
Definition ff_f := "fault.proto".
Definition ff_msg : tree :=
  msg ff_f 4 "M" [ fld ff_f 5 "int32" "a" 1; opt ff_f 6 "(nope)" "true"; el ff_f 7 DComment [] ].
Definition ff_rpc : tree :=
  el ff_f 10 (DRPC "R" "M" false "M" false) [ opt ff_f 11 "deprecated" "true"; opt ff_f 12 "(nope)" "true" ].
Definition ff_elems : list tree :=
  [ el ff_f 1 (DSyntax "proto3") []; el ff_f 2 (DPackage "c") []; ff_msg; el ff_f 9 (DService "S") [ ff_rpc ] ].
Definition ff_files := (std_files ++ [(ff_f, ff_elems)])%list.
Definition ff_world : registry := world ff_files [ff_f].
Lemma ff_starts : starts ff_files = true.
Proof. vm_compute. reflexivity. Qed.
Lemma ff_just : just_loaded ff_world.
Proof.
  apply (only_loads_just (table_env ff_files) [ff_f] (start ff_files)).
  - apply table_env_ok. vm_compute. reflexivity.
  - apply loads_fine_only. vm_compute. reflexivity.
  - apply (jl_new (table_env ff_files) 50); [apply table_env_ok; vm_compute; reflexivity|]. apply start_new, ff_starts.
Qed.

Lemma ff_not d : ~ denotes ff_world [] "nope" d.
Proof.
  revert d. apply denotes_nothing; [|reflexivity|vm_compute; reflexivity].
  exact (reachable_Inv _ (calm_reachable _ (just_loaded_calm _ ff_just))).
Qed.

Example C31_first_fault_example :
  just_loaded ff_world /\
  everything_at ff_world (1, [2]) ".google.protobuf.MessageOptions" (message_everything (1, [2])) /\
  element_at ff_world (1, [2]) ff_msg /\
  (forall q, q ∈ children an_option (1, [2]) ff_msg ->
     found ff_world ".google.protobuf.MessageOptions" (NAst KMessage 1 (0, [3])) /\ well_named ff_world q) /\
  (collect (message_everything (1, [2])) ff_world).1 = Panic (PText "option field not found") /\
  children everyone (1, [2]) ff_msg !! 1 = Some (1, [1; 2]) /\
  element_fault ff_world (0, [3]) (1, [1; 2]) (PText "option field not found") /\
  element_fault ff_world (0, [3]) (1, [2; 2]) (PError (ENew "unsupported type *proto.Comment")).
Proof.
  pose proof ff_just as J. pose proof (calm_reachable _ (just_loaded_calm _ J)) as Hr.
  pose proof (reachable_Inv _ Hr) as I. pose proof ff_not as Hno.
  assert (Ht : element_at ff_world (1, [2]) ff_msg) by (apply (heap_element _ _ _ I); vm_compute; reflexivity).
  assert (H1 : element_at ff_world (1, [1; 2]) (opt ff_f 6 "(nope)" "true")) by (apply (heap_element _ _ _ I); vm_compute; reflexivity).
  assert (H2 : element_at ff_world (1, [2; 2]) (el ff_f 7 DComment [])) by (apply (heap_element _ _ _ I); vm_compute; reflexivity).
  assert (Hf : found ff_world ".google.protobuf.MessageOptions" (NAst KMessage 1 (0, [3]))) by (unfold found; vm_compute; reflexivity).
  assert (Hr1 : refers_to "(nope)" "nope") by (by apply (ref_custom "nope")).
  assert (Hp : (collect (message_everything (1, [2])) ff_world).1 = Panic (PText "option field not found")) by (vm_compute; reflexivity).
  assert (Hc : exists ct, element_at ff_world (0, [3]) ct /\ head (children (plain_field_named "(nope)") (0, [3]) ct) = None).
  { eexists. split; [apply (heap_element _ _ _ I); vm_compute; reflexivity|]. vm_compute; reflexivity. }
  revert J I Hno Ht H1 H2 Hf Hp Hc. clear - Hr1. generalize ff_world. intros w J I Hno Ht H1 H2 Hf Hp (ct & Hct & Hh).
  split; [exact J|]. split; [eapply ev_message; [exact Ht|reflexivity|reflexivity]|]. split; [exact Ht|].
  assert (Hs : statement w (1, [1; 2]) "(nope)") by (eexists _, _; split; [exact H1|reflexivity]).
  split.
  { intros q Hq. change (q ∈ [((1, [1; 2]) : ptr)]) in Hq. apply elem_of_list_singleton in Hq as ->. split; [exact Hf|].
    exists "(nope)", "nope". split; [exact Hs|exact Hr1]. }
  split; [exact Hp|]. split; [reflexivity|]. split.
  - eapply ef_option; [exact Hs| |exact (oc_nothing _ _ _ _ Hr1 Hno)].
    intros f Hf1. inversion Hf1 as [y d a f' t' Hy Hd Hfd Hte Hpl Hfe|y ct' f' Hy Hnd Hc' Hh2 Hfe]; subst.
    + apply refers_strip in Hy. rewrite (refers_strip _ _ Hr1) in Hy. subst y. exact (Hno _ Hd).
    + apply refers_strip in Hy. rewrite (refers_strip _ _ Hr1) in Hy. subst y.
      apply element_heap in Hct, Hc'. assert (ct' = ct) as -> by congruence. congruence.
  - exact (ef_node _ _ _ _ H2 eq_refl).
Qed.

(** the method has a known option before the unknown one *)
Example C37_method_options_example :
  exists ca class, reachable ff_world /\ element_at ff_world (1, [0; 3]) ff_rpc /\
  found ff_world ".google.protobuf.MethodOptions" (NAst KMessage ca class) /\
  (forall q, q ∈ children an_option (1, [0; 3]) ff_rpc -> well_named ff_world q) /\
  (exists f, statement ff_world (1, [0; 0; 3]) "deprecated" /\ option_target ff_world [] class "deprecated" f) /\
  (forall oname f, statement ff_world (1, [1; 0; 3]) oname -> ~ option_target ff_world [] class oname f) /\
  (collect (method_options (1, [0; 3])) ff_world).1 = Panic (PText "option field not found").
Proof.
  pose proof (calm_reachable _ (just_loaded_calm _ ff_just)) as Hr.
  pose proof (reachable_Inv _ Hr) as I. pose proof ff_not as Hno.
  assert (Hno' : forall d, ~ denotes ff_world [] "deprecated" d).
  { apply denotes_nothing; [exact I|reflexivity|vm_compute; reflexivity]. }
  assert (Ht : element_at ff_world (1, [0; 3]) ff_rpc) by (apply (heap_element _ _ _ I); vm_compute; reflexivity).
  assert (H0 : element_at ff_world (1, [0; 0; 3]) (opt ff_f 11 "deprecated" "true")) by (apply (heap_element _ _ _ I); vm_compute; reflexivity).
  assert (H1 : element_at ff_world (1, [1; 0; 3]) (opt ff_f 12 "(nope)" "true")) by (apply (heap_element _ _ _ I); vm_compute; reflexivity).
  assert (Hf : exists ca class, found ff_world ".google.protobuf.MethodOptions" (NAst KMessage ca class) /\
    exists ct f, element_at ff_world class ct /\ head (children (plain_field_named "(nope)") class ct) = None /\
      head (children (plain_field_named "deprecated") class ct) = Some f).
  { eexists _, _. split; [unfold found; vm_compute; reflexivity|].
    eexists _, _. split; [apply (heap_element _ _ _ I); vm_compute; reflexivity|]. split; vm_compute; reflexivity. }
  assert (Hr1 : refers_to "(nope)" "nope") by (by apply (ref_custom "nope")).
  assert (Hr2 : refers_to "deprecated" "deprecated") by (by apply ref_plain).
  assert (Hp : (collect (method_options (1, [0; 3])) ff_world).1 = Panic (PText "option field not found")) by (vm_compute; reflexivity).
  revert Hr Hno Hno' Ht H0 H1 Hf Hp. clear - Hr1 Hr2. generalize ff_world.
  intros w Hr Hno Hno' Ht H0 H1 (ca & class & Hf & ct & f & Hct & Hh & Hh') Hp. exists ca, class.
  assert (Hs0 : statement w (1, [0; 0; 3]) "deprecated") by (eexists _, _; split; [exact H0|reflexivity]).
  assert (Hs1 : statement w (1, [1; 0; 3]) "(nope)") by (eexists _, _; split; [exact H1|reflexivity]).
  split; [exact Hr|]. split; [exact Ht|]. split; [exact Hf|]. split.
  { intros q Hq. change (q ∈ [((1, [0; 0; 3]) : ptr); (1, [1; 0; 3])]) in Hq.
    apply elem_of_cons in Hq as [->|Hq]; [eexists _, _; split; [exact Hs0|exact Hr2]|].
    apply elem_of_list_singleton in Hq as ->. eexists _, _; split; [exact Hs1|exact Hr1]. }
  split; [exists f; split; [exact Hs0|]; eapply ot_predefined; [exact Hr2|exact Hno'|exact Hct|exact Hh']|].
  split; [|exact Hp]. intros oname f0 Hs Hf1.
  assert (oname = "(nope)") as ->.
  { destruct Hs as (u1 & l1 & Hu1 & Hd1). apply element_heap in Hu1, H1. assert (u1 = opt ff_f 12 "(nope)" "true") as -> by congruence.
    cbn in Hd1. by injection Hd1 as <- _. }
  inversion Hf1 as [y d a f' t' Hy Hd Hfd Hte Hpl Hfe|y ct' f' Hy Hnd Hc' Hh2 Hfe]; subst;
    apply refers_strip in Hy; rewrite (refers_strip _ _ Hr1) in Hy; subst y.
  - exact (Hno _ Hd).
  - apply element_heap in Hct, Hc'. assert (ct' = ct) as -> by congruence. congruence.
Qed.
