(** * The governance linter of the README: C69. *)
From Verif Require Export Readme ThmSchema ThmEverything ThmDescr ThmMeta.
From Verif Require Import Identity Routes Api.

(** ** Specification *)

(** The field at [q] is singular and its declared type name denotes the declaration [sq]. *)
Definition has_type (s : registry) (sq : string) (q : ptr) : Prop :=
  exists t name typ num opt comps, element_at s q t /\ t_data t = DNormalField name typ num false opt /\
    in_scope s q comps /\ typ ∉ scalar_names /\ denotes s comps typ sq.

(** The element at [q] is a field with this name. *)
Definition field_named (s : registry) (name : string) (q : ptr) : Prop :=
  exists t typ num rep opt, element_at s q t /\ t_data t = DNormalField name typ num rep opt.

(** The message at [rp] is what the unary or streaming method at [m] returns. *)
Definition returns_message (s : registry) (m rp : ptr) : Prop :=
  exists t name req sreq rett sret comps rq ra,
    element_at s m t /\ t_data t = DRPC name req sreq rett sret /\ in_scope s m comps /\
    rett ∉ scalar_names /\ denotes s comps rett rq /\ found s rq (NAst KMessage ra rp).

(** What should be reported for a list of fields: one line per field of the type that is not called
    response_status, in source order. *)
Inductive field_findings (s : registry) (sq : string) : list ptr -> list finding -> Prop :=
| ff_nil : field_findings s sq [] []
| ff_wrong q qs t fs : has_type s sq q -> ~ field_named s "response_status" q -> element_at s q t ->
    field_findings s sq qs fs -> field_findings s sq (q :: qs) (WrongName (t_pos t) sq :: fs)
| ff_right q qs fs : has_type s sq q -> field_named s "response_status" q ->
    field_findings s sq qs fs -> field_findings s sq (q :: qs) fs
| ff_other q qs fs : ~ has_type s sq q ->
    field_findings s sq qs fs -> field_findings s sq (q :: qs) fs.

(** One of the fields has the type and the name response_status. *)
Definition has_status (s : registry) (sq : string) (qs : list ptr) : Prop :=
  exists q, q ∈ qs /\ has_type s sq q /\ field_named s "response_status" q.

(** What should be reported for a method: nothing if it streams its response; otherwise the lines for the
    fields of the response message and, if none of them is the status, one line for the method. *)
Inductive method_findings (s : registry) (sq : string) (m : ptr) : list finding -> Prop :=
| mf_stream t name req sreq rett :
    element_at s m t -> t_data t = DRPC name req sreq rett true -> method_findings s sq m []
| mf_with t name req sreq rett rp rt fs :
    element_at s m t -> t_data t = DRPC name req sreq rett false ->
    returns_message s m rp -> element_at s rp rt ->
    field_findings s sq (children a_field rp rt) fs -> has_status s sq (children a_field rp rt) ->
    method_findings s sq m fs
| mf_without t name req sreq rett rp rt fs a ix :
    element_at s m t -> t_data t = DRPC name req sreq rett false ->
    returns_message s m rp -> element_at s rp rt ->
    field_findings s sq (children a_field rp rt) fs -> ~ has_status s sq (children a_field rp rt) ->
    (node_index (NAst KMethod a m) s).1 = Ret ix ->
    method_findings s sq m (fs ++ [MissingStatus (t_pos t) sq ix]).

(** The type of the field can be found: whatever its type name denotes is a message or an enum. *)
Definition sound_field (s : registry) (q : ptr) : Prop :=
  forall t name typ num rep opt, element_at s q t -> t_data t = DNormalField name typ num rep opt ->
  typ ∈ scalar_names \/
  exists comps, in_scope s q comps /\ forall d n, denotes s comps typ d -> found s d n -> message_or_enum n.

(** The node is a message. *)
Definition a_message_node (n : node) : Prop := match n with NAst KMessage _ _ => True | _ => False end.

(** The method returns a message that exists, with fields whose types can be found. *)
Definition sound_method (s : registry) (m : ptr) : Prop :=
  exists rp rt, returns_message s m rp /\ element_at s rp rt /\
    forall q, q ∈ children a_field rp rt -> sound_field s q.

(** ** Proofs *)

(** a loop whose body never stops, with an invariant *)
Lemma fold_loop {C} sel k (P : list ptr -> C -> registry -> Prop) kids (body : C -> node -> R (C * bool)) :
  (forall d, sel d = true -> wrap_kind d = Some k) ->
  (forall dn c s s', P dn c s -> quiet s s' -> Inv s' -> ftcache s' = ftcache s -> P dn c s') ->
  (forall dn b c s a, b ∈ kids -> sel (t_data b.2) = true -> Inv s -> heap_at s b.1 = Some b.2 -> P dn c s ->
     exists c' s', body c (NAst k a b.1) s = (Ret (c', true), s') /\ quiet s s' /\ Inv s' /\
       P (dn ++ [b.1])%list c' s') ->
  forall dn c s, Inv s -> (forall b, b ∈ kids -> heap_at s b.1 = Some b.2) -> P dn c s ->
  exists c' s', iterate (pick_kind sel k) kids C c body s = (Ret c', s') /\ quiet s s' /\ Inv s' /\
    P (dn ++ map fst (List.filter (fun b => sel (t_data b.2)) kids))%list c' s'.
Proof.
  intros Hk Hq. induction kids as [|b kids IH]; intros Hb dn c s I Hh HP; cbn [iterate List.filter].
  - exists c, s. rewrite app_nil_r. split; [done|]. split; [apply quiet_refl|]. done.
  - assert (IH' := IH (fun dn b' c s a Hb' => Hb dn b' c s a (elem_of_list_further _ _ _ Hb'))). clear IH.
    destruct (sel (t_data b.2)) eqn:Hs.
    + destruct (wrap_as_ok k b.1 b.2 s I (Hh b (elem_of_list_here _ _)) (Hk _ Hs)) as (a & s1 & E & Q & I1 & Hc & _).
      assert (E1 : pick_kind sel k b s = (Ret (Some (NAst k a b.1)), s1)).
      { unfold pick_kind. rewrite Hs. by rewrite (rbind_val _ _ _ _ _ E). }
      assert (Hft : ftcache s1 = ftcache s).
      { assert (Hk' : keeps same_ft (wrap_as k b.1))
          by (apply keeps_wrap_as; unfold same_ft; try done; [congruence|apply same_ft_wrap]).
        specialize (Hk' s). by rewrite E in Hk'. }
      rewrite (rbind_val _ _ _ _ _ E1).
      destruct (Hb dn b c s1 a (elem_of_list_here _ _) Hs I1) as (c' & s2 & E2 & Q2 & I2 & HP2).
      { rewrite (quiet_heap_at _ _ _ Q). apply Hh, elem_of_list_here. }
      { by eapply Hq. }
      rewrite (rbind_val _ _ _ _ _ E2). cbn beta iota.
      assert (Q02 : quiet s s2) by (by eapply quiet_trans).
      destruct (IH' (dn ++ [b.1])%list c' s2 I2) as (c3 & s3 & E3 & Q3 & I3 & HP3); [|done|].
      { intros b' Hb'. rewrite (quiet_heap_at _ _ _ Q02). apply Hh. by constructor. }
      exists c3, s3. split; [done|]. split; [by eapply quiet_trans|]. split; [done|].
      cbn [map]. by rewrite <- app_assoc in HP3.
    + assert (E1 : pick_kind sel k b s = (Ret None, s)) by (unfold pick_kind; by rewrite Hs).
      rewrite (rbind_val _ _ _ _ _ E1). apply IH'; [done| |done].
      intros b' Hb'. apply Hh. by constructor.
Qed.
Lemma fold_iter {C} p t sel k (P : list ptr -> C -> registry -> Prop) (body : C -> node -> R (C * bool)) c s :
  (forall d, sel d = true -> wrap_kind d = Some k) ->
  (forall dn c s s', P dn c s -> quiet s s' -> Inv s' -> ftcache s' = ftcache s -> P dn c s') ->
  (forall dn q u c s a, q ∈ children sel p t -> Inv s -> heap_at s q = Some u -> sel (t_data u) = true -> P dn c s ->
     exists c' s', body c (NAst k a q) s = (Ret (c', true), s') /\ quiet s s' /\ Inv s' /\
       P (dn ++ [q])%list c' s') ->
  Inv s -> heap_at s p = Some t -> P [] c s ->
  exists c' s', iter_kids p (pick_kind sel k) C c body s = (Ret c', s') /\ quiet s s' /\ Inv s' /\
    P (children sel p t) c' s'.
Proof.
  intros Hk Hq Hb I Ht HP. unfold iter_kids. rewrite (rbind_val _ _ _ _ _ (kids_of_ok _ _ _ Ht)).
  apply (fold_loop sel k P (kids_at p t) body Hk Hq) with (dn := []); [|done| |done].
  - intros dn b c1 s1 a Hin Hs I1 Hh HP1. eapply Hb; try eassumption.
    unfold children. apply elem_of_list_fmap. exists b. split; [done|].
    apply elem_of_list_In, filter_In. split; [by apply elem_of_list_In|done].
  - intros b. by apply kids_heap.
Qed.

Lemma in_scope_quiet s s' p comps : quiet s s' -> in_scope s p comps -> in_scope s' p comps.
Proof.
  intros Q [(k & a & Hk & E) Hid]. split; [|done]. exists k, a. split; [done|].
  rewrite !elem_of_cons, elem_of_nil in Hk.
  destruct Hk as [->|[->|[->|[]]]]; unfold node_index in *; rewrite rbind_get in E |- *; cbn in *;
    unfold scope_of in *; by rewrite (q_scopes _ _ Q).
Qed.

(** ".a.b.c" has only one reading *)
Definition dot_start (r : string) : bool := match r with EmptyString => true | String c _ => Ascii.eqb c "." end.
Lemma cut_at_dot n : forall n' r r', no_dot n = true -> no_dot n' = true -> dot_start r = true -> dot_start r' = true ->
  n +:+ r = n' +:+ r' -> n = n' /\ r = r'.
Proof.
  induction n as [|c n IH]; intros [|c' n'] r r'; rewrite ?sapp_nil_l, ?sapp_cons.
  - done.
  - cbn. intros _ [H _]%andb_prop Hr _ ->. cbn in Hr. by rewrite Hr in H.
  - cbn. intros [H _]%andb_prop _ _ Hr <-. cbn in Hr. by rewrite Hr in H.
  - cbn. intros [_ H1]%andb_prop [_ H2]%andb_prop Hr Hr' [= -> E].
    by destruct (IH n' r r' H1 H2 Hr Hr' E) as [-> ->].
Qed.
Lemma dotted_start l : dot_start (dotted l) = true.
Proof. by destruct l. Qed.
Lemma dotted_inj l : forall l', Forall ident l -> Forall ident l' -> dotted l = dotted l' -> l = l'.
Proof.
  induction l as [|n l IH]; intros [|n' l'] H1 H2 E; try done.
  inversion_clear H1 as [|? ? [_ Hn] Hl]. inversion_clear H2 as [|? ? [_ Hn'] Hl'].
  cbn [dotted] in E. change ("." +:+ n +:+ dotted l) with (String "." (n +:+ dotted l)) in E.
  change ("." +:+ n' +:+ dotted l') with (String "." (n' +:+ dotted l')) in E. injection E as E.
  destruct (cut_at_dot n n' _ _ Hn Hn' (dotted_start _) (dotted_start _) E) as [-> E'].
  f_equal. by apply IH.
Qed.

Section status.
(** the registry before the linter runs, the node of the status message and its name *)
Context (s0 : registry) (sq : string) (b : N) (ps : ptr).
Notation st := (NAst KMessage b ps).
Hypothesis I0 : Inv s0.
Hypothesis Hst : cache s0 !! VPtr ps = Some (Some st).
Hypothesis Hfound : found s0 sq st.
Hypothesis Hname : scope_of s0 (VPtr ps) = sq.
Hypothesis Hpaths : forall path g f, loaded s0 path g f -> path <> "".

Definition ft_ok (s : registry) : Prop := forall a q res,
  ftcache s !! (a, q) = Some res ->
  (exists t, heap_at s0 q = Some t) /\ (is_node res st = true <-> has_type s0 sq q).

Lemma is_node_eq s n : Inv s -> stored s n -> stored s st -> is_node (Some n) st = true -> n = st.
Proof.
  intros [_ N] H1 H2 H. destruct n as [k a q| | | | |]; try discriminate H.
  cbn in H. apply andb_prop in H as [H H'].
  apply N.eqb_eq in H' as ->. apply (nd_inj _ N); [done|done|by eexists|done].
Qed.
Lemma st_is : is_node (Some st) st = true.
Proof. cbn. rewrite N.eqb_refl. done. Qed.

Lemma found_quiet s d n : Inv s -> quiet s0 s -> found s d n ->
  exists n', found s0 d n' /\ (message_or_enum n' -> message_or_enum n).
Proof.
  intros I Q H. destruct (found_kind _ _ _ I H) as (k & a & p & ->).
  destruct (found_at _ _ _ _ _ I H) as (Hn & t & Ht & Hk).
  rewrite (q_names _ _ Q) in Hn. rewrite (quiet_heap_at _ _ _ Q) in Ht.
  destruct (names_found _ _ _ _ _ I0 Hn Ht Hk) as [a' H']. exists (NAst k a' p). split; [done|]. done.
Qed.
Lemma st_found s : Inv s -> quiet s0 s -> found s sq st.
Proof.
  intros I Q. destruct (found_at _ _ _ _ _ I0 Hfound) as (Hn & t & Ht & Hk).
  unfold found, node_by_full_name. rewrite rbind_get, (q_names _ _ Q), Hn.
  by rewrite (wrap_hit _ _ _ (q_cache _ _ Q _ _ Hst)).
Qed.
Lemma st_declares s d : Inv s -> quiet s0 s -> found s d st -> d = sq.
Proof.
  intros I Q H. pose proof (st_found s I Q) as H'. unfold found in *.
  destruct (node_by_full_name d s) as [o1 s1] eqn:E1, (node_by_full_name sq s) as [o2 s2] eqn:E2.
  cbn [fst] in *. subst o1 o2.
  destruct (found_is_declared _ _ _ _ I E1) as (p1 & f1 & t1 & k1 & a1 & q1 & [= <- <- <-] & _ & L1 & _ & F1 & _).
  destruct (found_is_declared _ _ _ _ I E2) as (p2 & f2 & t2 & k2 & a2 & q2 & [= <- <- <-] & _ & L2 & _ & F2 & _).
  destruct L1 as (_ & L1 & _), L2 as (_ & L2 & _). congruence.
Qed.

Lemma field_type_status a q t s :
  Inv s -> quiet s0 s -> ft_ok s -> sound_field s0 q -> heap_at s q = Some t -> a_field (t_data t) = true ->
  exists res s', field_type a q s = (Ret res, s') /\ Inv s' /\ quiet s s' /\ ft_ok s' /\
    (is_node res st = true <-> has_type s0 sq q).
Proof.
  intros I Q Hft Hsound Ht Hd.
  destruct (ftcache s !! (a, q)) as [res|] eqn:Hc.
  { exists res, s. rewrite field_type_unfold, Hc. split; [done|]. split; [done|].
    split; [apply quiet_refl|]. split; [done|]. apply Hft in Hc. exact (proj2 Hc). }
  assert (Main : exists res, (field_type a q s).1 = Ret res /\
     forall s', field_type a q s = (Ret res, s') -> is_node res st = true <-> has_type s0 sq q).
  2: { destruct Main as (res & E & Hres). destruct (field_type a q s) as [o s'] eqn:E'. cbn in E. subst o.
    specialize (Hres s' eq_refl). exists res, s'. split; [done|].
    destruct (inv_step_ret _ _ _ _ (inv_step_field_type a q) I E') as [I' _].
    pose proof (quiet_field_type a q s) as Q'. rewrite E' in Q'. cbn in Q'.
    split; [done|]. split; [done|]. split; [|done].
    intros a' q' r' H'. rewrite field_type_unfold, Hc in E'.
    pose proof (field_type_body_ft q s) as Hsame.
    destruct (field_type_body q s) as [[r|m|] s1]; try discriminate E'. injection E' as <- <-. cbn in H', Hsame.
    unfold same_ft in Hsame. rewrite Hsame in H'.
    apply lookup_insert_Some in H' as [[[= <- <-] ->]|[_ H']]; [|by eapply Hft]. split; [|done].
    exists t. by rewrite <- (quiet_heap_at _ _ _ Q). }
  assert (Hno : forall u, heap_at s q = Some u -> (forall name typ num opt, t_data u <> DNormalField name typ num false opt) ->
            ~ has_type s0 sq q).
  { intros u Hu Hne (t' & name & typ & num & opt & comps & Ht' & Hd' & _). apply element_heap in Ht'.
    rewrite (quiet_heap_at _ _ _ Q) in Hu. assert (t' = u) as -> by congruence. by apply (Hne name typ num opt). }
  assert (Hel : element_at s q t) by (by apply heap_element).
  assert (Hel0 : element_at s0 q t) by (by eapply element_quiet).
  destruct (t_data t) as [| | | | | | |name typ num rep op|oname| |mname kt vt mnum| | | | | | | |] eqn:Hdt; try discriminate Hd.
  - (* a normal field *)
    pose proof (Hsound t name typ num rep op Hel0 Hdt) as Hok.
    assert (Ho : exists o, (get_type_body q typ s).1 = Ret o).
    { destruct Hok as [Hb|(comps & Hsc & Hall)].
      - destruct (builtin_some _ Hb) as (bb & Hbb & _). unfold get_type_body. rewrite Hbb. by eexists.
      - destruct (decide (typ ∈ scalar_names)) as [Hb|Hb].
        { destruct (builtin_some _ Hb) as (bb & Hbb & _). unfold get_type_body. rewrite Hbb. by eexists. }
        apply (in_scope_quiet s0 s) in Hsc; [|done]. apply in_scope_of in Hsc as [Hsc Hid].
        destruct (get_type_body_spec s q typ comps I Hsc Hid Hb) as [(d & n & s1 & Hden & E & G)|[_ G]]; rewrite G; [|by eexists].
        assert (Hf : found s d n) by (unfold found; by rewrite E).
        destruct (found_quiet s d n I Q Hf) as (n' & Hf' & Himp).
        assert (Hden0 : denotes s0 comps typ d) by (eapply (names_denotes s s0); [done|done|symmetry; apply (q_names _ _ Q)|done]).
        specialize (Himp (Hall d n' Hden0 Hf')). destruct n as [[]| | | | |]; try done; by eexists. }
    destruct Ho as [o Ho]. destruct rep.
    + pose proof (field_type_new a q t name typ num true op s Ht Hdt Hc) as E.
      pose proof (get_type_repeated s q t typ Ht ltac:(by rewrite Hdt)) as H.
      destruct (get_type_body q typ s) as [o' s1] eqn:Eg. cbn in Ho. subst o'. destruct H as (ra & s' & H).
      rewrite H in E. exists (Some (NRepeated ra o)). split; [done|]. intros _ _. cbn. split; [done|].
      intros H'. exfalso. revert H'. apply (Hno t Ht). intros ????. rewrite Hdt. discriminate.
    + assert (E : (field_type a q s).1 = Ret o).
      { rewrite (field_type_new a q t name typ num false op s Ht Hdt Hc).
        rewrite (get_type_plain s q t); [done|done|by rewrite Hdt]. }
      exists o. split; [done|]. intros s' Es.
      assert (Ha : asks s q typ (field_type a q)) by (by eapply asks_field).
      destruct (decide (typ ∈ scalar_names)) as [Hb|Hb].
      { destruct (C16_scalars_not_shadowed s q typ _ Ha Hb) as (bb & E2 & _). rewrite E in E2. injection E2 as ->.
        cbn. split; [done|]. intros (t' & name' & typ' & num' & opt' & comps & Ht' & Hd' & _ & Hb' & _).
        apply element_heap in Ht', Hel0. assert (t' = t) as -> by congruence. rewrite Hdt in Hd'. by injection Hd' as _ <- _. }
      destruct Hok as [?|(comps & Hsc & Hall)]; [done|].
      pose proof (in_scope_quiet s0 s q comps Q Hsc) as Hsc'.
      assert (Hden : forall comps' d, in_scope s0 q comps' -> denotes s0 comps' typ d -> denotes s comps typ d).
      { intros comps' d H1 H2. apply in_scope_of in H1 as [H1 H1'], Hsc as [Hsc Hid].
        unfold denotes. assert (H2' : denotes s comps' typ d) by (eapply (names_denotes s0 s); [done|done|apply (q_names _ _ Q)|done]).
        assert (Hdd : dotted comps' = dotted comps) by congruence.
        assert (comps' = comps) as ->; [|exact H2']. by eapply dotted_inj. }
      destruct (asks_spec _ _ _ _ _ I Ha Hsc' Hb) as [(d & n & Hdn & Hfd & E2)|[Hnone E2]]; rewrite E in E2.
      * destruct (implements_type n) eqn:Hi; [|discriminate E2]. injection E2 as ->.
        split.
        -- intros Hn. destruct (inv_step_ret _ _ _ _ (inv_step_field_type a q) I Es) as [I' _].
           pose proof (quiet_field_type a q s) as Q'. rewrite Es in Q'. cbn in Q'.
           assert (n = st) as ->.
           { apply (is_node_eq s'); [done|right; exists (a, q); by apply field_type_ret in Es|
               left; exists (VPtr ps); apply (q_cache _ _ Q'), (q_cache _ _ Q), Hst|done]. }
           pose proof (st_declares s d I Q Hfd) as ->.
           exists t, name, typ, num, op, comps. split; [done|]. split; [done|]. split; [done|]. split; [done|].
           eapply (names_denotes s s0); [done|done|symmetry; apply (q_names _ _ Q)|done].
        -- intros (t' & name' & typ' & num' & opt' & comps' & Ht' & Hd' & Hsc2 & _ & Hden').
           apply element_heap in Ht', Hel0. assert (t' = t) as -> by congruence. rewrite Hdt in Hd'. injection Hd' as <- <- <- <-.
           pose proof (Hden _ _ Hsc2 Hden') as H2. pose proof (denotes_fun _ _ _ _ _ Hdn H2) as <-.
           rewrite (found_fun _ _ _ _ (st_found s I Q) Hfd). apply st_is.
      * injection E2 as ->. split; [done|].
        intros (t' & name' & typ' & num' & opt' & comps' & Ht' & Hd' & Hsc2 & _ & Hden').
        apply element_heap in Ht', Hel0. assert (t' = t) as -> by congruence. rewrite Hdt in Hd'. injection Hd' as <- <- <- <-.
        exfalso. exact (Hnone _ (Hden _ _ Hsc2 Hden')).
  - (* a oneof *)
    eexists. split.
    + rewrite field_type_unfold, Hc. unfold field_type_body.
      rewrite (rbind_val _ _ _ _ _ (deref_ok _ _ _ Ht)), Hdt, rbind_alloc. cbn. reflexivity.
    + intros _ _. cbn. split; [done|]. intros H. exfalso. revert H. apply (Hno t Ht). intros ????. rewrite Hdt. discriminate.
  - eexists. split.
    + rewrite field_type_unfold, Hc. unfold field_type_body.
      rewrite (rbind_val _ _ _ _ _ (deref_ok _ _ _ Ht)), Hdt, rbind_alloc. cbn. reflexivity.
    + intros _ _. cbn. split; [done|]. intros H. exfalso. revert H. apply (Hno t Ht). intros ????. rewrite Hdt. discriminate.
Qed.


Lemma pos_now s path k a p t :
  Inv s -> element_of s path p t -> p.2 <> [] -> path <> "" -> represented_by (t_data t) = Some k ->
  pos (NAst k a p) s = (Ret (t_pos t), s).
Proof.
  intros I Ht Hne Hpath Hk.
  assert (Hp : points_to s p (NAst k a p)).
  { apply shows_points. exists t, k, a. split; [by exists path|]. done. }
  assert (E : pos_body (NAst k a p) s = node_pos (NAst k a p) s) by done.
  unfold pos. rewrite E, (points_pos _ _ _ _ _ I Hp Ht). unfold pos_deferred.
  pose proof (element_stamp _ _ _ _ I Ht Hne) as Hf.
  destruct p as [g [|i π]]; [done|]. cbn [snd]. rewrite Hf. by destruct (String.eqb_spec path "").
Qed.
Lemma pos_quiet s k a p t :
  Inv s -> quiet s0 s -> element_at s0 p t -> t_data t <> DProto "" -> k <> KFile ->
  represented_by (t_data t) = Some k -> pos (NAst k a p) s = (Ret (t_pos t), s).
Proof.
  intros I Q Ht _ Hk Hr. pose proof (quiet_element _ _ _ _ Q Ht) as (path & Hp).
  assert (path <> "").
  { destruct Ht as (path' & f' & Hl' & _). pose proof (Hpaths _ _ _ Hl') as Hn.
    pose proof (loaded_grows _ _ _ _ _ (quiet_grows _ _ Q) Hl') as Hl2.
    destruct Hp as (f & Hl & _). destruct Hl as (_ & H1 & H2), Hl2 as (_ & H3 & H4). congruence. }
  assert (p.2 <> []).
  { intros Hnil. destruct p as [g π]. cbn in Hnil. subst π. destruct (element_root s g t) as [x Hx]; [by exists path|].
    rewrite Hx in Hr. cbn in Hr. congruence. }
  by eapply pos_now.
Qed.

Lemma ff_snoc qs fs q fs' : field_findings s0 sq qs fs -> field_findings s0 sq [q] fs' ->
  field_findings s0 sq (qs ++ [q])%list (fs ++ fs')%list.
Proof.
  intros H H'. induction H as [|x qs t fs H1 H2 H3 H4 IH|x qs fs H1 H2 H3 IH|x qs fs H1 H2 IH]; cbn [app].
  - done.
  - by apply ff_wrong.
  - by apply ff_right.
  - by apply ff_other.
Qed.

Definition field_inv (fs0 : list finding) (dn : list ptr) (c : bool * list finding) (s : registry) : Prop :=
  quiet s0 s /\ ft_ok s /\
  exists fs1, c.2 = (fs0 ++ fs1)%list /\ field_findings s0 sq dn fs1 /\ (c.1 = true <-> has_status s0 sq dn).

Lemma status_snoc dn q : has_status s0 sq (dn ++ [q])%list <->
  has_status s0 sq dn \/ (has_type s0 sq q /\ field_named s0 "response_status" q).
Proof.
  unfold has_status. split.
  - intros (x & Hx & H). apply elem_of_app in Hx as [Hx|Hx]; [left; eauto|].
    apply elem_of_list_singleton in Hx as ->. by right.
  - intros [(x & Hx & H)|H]; [exists x|exists q]; (split; [|done]); apply elem_of_app; [by left|].
    right. by apply elem_of_list_singleton.
Qed.

Lemma lint_field_ok fs0 dn c s a q u :
  Inv s -> heap_at s q = Some u -> a_field (t_data u) = true -> sound_field s0 q -> field_inv fs0 dn c s ->
  exists c' s', lint_field st c (NAst KField a q) s = (Ret (c', true), s') /\ quiet s s' /\ Inv s' /\
    field_inv fs0 (dn ++ [q])%list c' s'.
Proof.
  intros I Hu Hd Hso (Q & Hft & fs1 & Hc & Hff & Hst').
  destruct (field_type_status a q u s I Q Hft Hso Hu Hd) as (res & s1 & E & I1 & Q1 & Hft1 & Hres).
  pose proof (quiet_trans _ _ _ Q Q1) as Q01.
  assert (Hu1 : heap_at s1 q = Some u) by (by rewrite (quiet_heap_at _ _ _ Q1)).
  assert (Hel0 : element_at s0 q u) by (apply heap_element; [done|by rewrite (quiet_heap_at _ _ _ Q) in Hu]).
  unfold lint_field. rewrite (rbind_val _ _ _ _ _ E).
  destruct (is_node res st) eqn:Hn.
  - assert (Ht : has_type s0 sq q) by (by apply Hres). unfold node_name.
    rewrite (rbind_val _ _ _ (data_name (t_data u)) s1) by (by rewrite (rbind_val _ _ _ _ _ (deref_ok _ _ _ Hu1))).
    assert (Hnf : exists name typ num opt, t_data u = DNormalField name typ num false opt).
    { destruct Ht as (t' & name & typ & num & opt & comps & Ht' & Hd' & _). apply element_heap in Ht', Hel0.
      assert (t' = u) as -> by congruence. eauto. }
    destruct Hnf as (name & typ & num & opt & Hdu). rewrite Hdu. cbn [data_name].
    assert (Hnm : field_named s0 "response_status" q <-> name = "response_status").
    { split.
      - intros (t' & typ' & num' & rep' & opt' & Ht' & Hd'). apply element_heap in Ht', Hel0.
        assert (t' = u) as -> by congruence. congruence.
      - intros ->. exists u, typ, num, false, opt. done. }
    destruct (String.eqb_spec name "response_status") as [->|Hne]; cbn [negb].
    + exists (true, c.2), s1. split; [done|]. split; [done|]. split; [done|]. split; [done|]. split; [done|].
      exists fs1. split; [done|]. split.
      * rewrite <- (app_nil_r fs1). apply ff_snoc; [done|]. apply ff_right; [done|by apply Hnm|constructor].
      * cbn. split; [|done]. intros _. apply status_snoc. right. split; [done|by apply Hnm].
    + rewrite (rbind_val _ _ _ (t_pos u) s1).
      2: { apply pos_quiet; [done|done|done|by rewrite Hdu|done|by rewrite Hdu]. }
      rewrite (rbind_val _ _ _ sq s1).
      2: { cbn [type_name]. rewrite rbind_get. unfold scope_of. rewrite (q_scopes _ _ Q01). unfold scope_of in Hname. by rewrite Hname. }
      eexists _, s1. split; [reflexivity|]. split; [done|]. split; [done|]. split; [done|]. split; [done|].
      exists (fs1 ++ [WrongName (t_pos u) sq])%list. cbn [fst snd]. split; [by rewrite Hc, app_assoc|]. split.
      * apply ff_snoc; [done|]. apply ff_wrong; [done| |done|constructor]. intros H. apply Hnm in H. done.
      * rewrite status_snoc. split; [intros H; left; by apply Hst'|].
        intros [H|[_ H]]; [by apply Hst'|]. apply Hnm in H. done.
  - assert (Hno : ~ has_type s0 sq q) by (intros H; by apply Hres in H).
    exists c, s1. split; [done|]. split; [done|]. split; [done|]. split; [done|]. split; [done|].
    exists fs1. split; [done|]. split.
    + rewrite <- (app_nil_r fs1). apply ff_snoc; [done|]. apply ff_other; [done|constructor].
    + rewrite status_snoc. split; [intros H; left; by apply Hst'|]. intros [H|[H _]]; [by apply Hst'|done].
Qed.

Lemma field_inv_step fs0 dn c s s' : field_inv fs0 dn c s -> quiet s s' -> Inv s' -> ftcache s' = ftcache s ->
  field_inv fs0 dn c s'.
Proof.
  intros (Q & Hft & H) Q' I' E. split; [by eapply quiet_trans|]. split; [|done].
  intros a q res. rewrite E. apply Hft.
Qed.

Lemma method_output_ok m t name req sreq rett sret rp s :
  Inv s -> quiet s0 s -> element_at s0 m t -> t_data t = DRPC name req sreq rett sret -> returns_message s0 m rp ->
  exists a s', method_output m s = (Ret (sret, NAst KMessage a rp), s') /\ quiet s s' /\ Inv s' /\ ftcache s' = ftcache s.
Proof.
  intros I Q Ht Hd (t' & name' & req' & sreq' & rett' & sret' & comps & rq & ra & Ht' & Hd' & Hsc & Hb & Hden & Hf).
  apply element_heap in Ht, Ht'. assert (t' = t) as -> by congruence. rewrite Hd in Hd'. injection Hd' as <- <- <- <- <-.
  apply (in_scope_quiet s0 s) in Hsc; [|done]. apply in_scope_of in Hsc as [Hsc Hid].
  assert (Hden' : denotes s comps rett rq) by (eapply (names_denotes s0 s); [done|done|apply (q_names _ _ Q)|done]).
  assert (Hts : heap_at s m = Some t) by (by rewrite (quiet_heap_at _ _ _ Q)).
  destruct (get_type_body_spec s m rett comps I Hsc Hid Hb) as [(d & n & s1 & Hdn & E & G)|[Hnone _]];
    [|exfalso; exact (Hnone _ Hden')].
  assert (d = rq) as -> by (pose proof (denotes_fun _ _ _ _ _ Hdn Hden'); congruence).
  assert (Hfd : found s rq n) by (unfold found; by rewrite E).
  destruct (found_kind _ _ _ I Hfd) as (k & a & p' & ->).
  destruct (found_at _ _ _ _ _ I Hfd) as (Hn1 & u & Hu & Hk). destruct (found_at _ _ _ _ _ I0 Hf) as (Hn2 & u' & Hu' & Hk').
  rewrite (q_names _ _ Q) in Hn1. assert (p' = rp) as -> by congruence.
  rewrite (quiet_heap_at _ _ _ Q) in Hu. assert (u' = u) as -> by congruence. assert (k = KMessage) as -> by congruence.
  cbn in G. exists a, s1.
  assert (Gt : get_type_by_name m rett s = (Ret (Some (NAst KMessage a rp)), s1)).
  { rewrite (get_type_plain s m t); [done|done|by rewrite Hd]. }
  split.
  { unfold method_output. rewrite (rbind_val _ _ _ _ _ (deref_ok _ _ _ Hts)), Hd.
    by rewrite (rbind_val _ _ _ _ _ Gt). }
  pose proof (get_type_body_quiet m rett s) as Q1. rewrite G in Q1. cbn in Q1.
  split; [done|]. split.
  - assert (Hk1 : keeps inv_step (get_type_by_name m rett)) by (kinv keeps_get_type_by_name).
    by destruct (inv_step_ret _ _ _ _ Hk1 I Gt).
  - pose proof (get_type_by_name_ft m rett s) as H. by rewrite Gt in H.
Qed.

Lemma named_none s m t a ca class :
  Inv s -> quiet s0 s -> element_at s0 m t -> found s0 opts_method (NAst KMessage ca class) ->
  (forall q oname, q ∈ children an_option m t -> statement s0 q oname -> oname <> bypass_option) ->
  option_named (NAst KMethod a m) bypass_option s = (Ret None, s).
Proof.
  intros I Q Ht Hf Hno. apply element_heap in Ht as Hh.
  assert (Hs : heap_at s m = Some t) by (by rewrite (quiet_heap_at _ _ _ Q)).
  unfold option_named. rewrite rbind_get. unfold named_option.
  rewrite (rbind_val _ _ _ _ _ (class_quiet _ _ _ _ _ I0 I Q Hf)).
  rewrite (rbind_val _ _ _ _ _ (kids_of_ok _ _ _ Hs)).
  assert (Hn : forall kids, (forall b, b ∈ kids -> heap_at s0 b.1 = Some b.2 /\ b ∈ kids_at m t) ->
    find_kid (fun d => match d with DOption n _ => String.eqb n bypass_option | _ => false end) kids = None).
  { induction kids as [|[q u] kids IH]; intros H; [done|]. cbn [find_kid].
    destruct (H _ (elem_of_list_here _ _)) as [Hu Hin]. cbn [fst snd] in *.
    assert (Hk : match t_data u with DOption n _ => String.eqb n bypass_option | _ => false end = false).
    { destruct (t_data u) as [| | | | |on lit| | | | | | | | | | | | |] eqn:Hdu; try done.
      destruct (String.eqb_spec on bypass_option) as [->|]; [|done]. exfalso.
      apply (Hno q bypass_option); [|exists u, lit; split; [by apply heap_element|done]|done].
      unfold children. apply elem_of_list_fmap. exists (q, u). split; [done|].
      apply elem_of_list_In, filter_In. split; [by apply elem_of_list_In|]. cbn. by rewrite Hdu. }
    rewrite Hk. apply IH. intros b' Hb'. apply H. by constructor. }
  rewrite Hn; [done|]. intros b' Hb'. split; [|done]. by eapply kids_heap.
Qed.

Lemma lint_method_ok fs m t a s ca class :
  Inv s -> quiet s0 s -> ft_ok s -> element_at s0 m t -> a_method (t_data t) = true ->
  found s0 opts_method (NAst KMessage ca class) ->
  (forall q oname, q ∈ children an_option m t -> statement s0 q oname -> oname <> bypass_option) ->
  sound_method s0 m ->
  exists fs1 s', lint_method st fs (NAst KMethod a m) s = (Ret ((fs ++ fs1)%list, true), s') /\
    quiet s s' /\ Inv s' /\ ft_ok s' /\ method_findings s0 sq m fs1.
Proof.
  intros I Q Hft Ht Hd Hcl Hno (rp & rt & Hret & Hrt & Hso).
  destruct (t_data t) as [| | | | | | | | | | | | | |name req sreq rett sret| | | |] eqn:Hdt; try discriminate Hd.
  destruct (method_output_ok m t name req sreq rett sret rp s I Q Ht Hdt Hret) as (ra & s1 & E & Q1 & I1 & Hc1).
  assert (Hft1 : ft_ok s1) by (intros x y z; rewrite Hc1; apply Hft).
  pose proof (quiet_trans _ _ _ Q Q1) as Q01.
  unfold lint_method. rewrite (rbind_val _ _ _ _ _ E). cbn beta iota. destruct sret.
  { exists [], s1. rewrite app_nil_r. split; [done|]. split; [done|]. split; [done|]. split; [done|].
    by eapply mf_stream. }
  rewrite (rbind_val _ _ _ _ _ (named_none s1 m t a ca class I1 Q01 Ht Hcl Hno)). cbn beta iota.
  apply element_heap in Hrt as Hrh. assert (Hr1 : heap_at s1 rp = Some rt) by (by rewrite (quiet_heap_at _ _ _ Q01)).
  destruct (fold_iter rp rt is_field KField (field_inv fs) (lint_field st) (false, fs) s1) as (c' & s2 & E2 & Q2 & I2 & HP).
  - intros d. by destruct d.
  - intros. by eapply field_inv_step.
  - intros dn q u c s2 x Hq I2 Hu Hdu HP. eapply lint_field_ok; [done|done|by destruct (t_data u)| |done].
    apply Hso. revert Hq. unfold children. intros Hq. apply elem_of_list_fmap in Hq as (b' & -> & Hb').
    apply elem_of_list_fmap. exists b'. split; [done|]. apply elem_of_list_In, filter_In in Hb' as [H1 H2].
    apply elem_of_list_In, filter_In. split; [done|]. by destruct (t_data b'.2).
  - done.
  - done.
  - split; [done|]. split; [done|]. exists []. split; [by rewrite app_nil_r|]. split; [constructor|].
    cbn. split; [done|]. intros (x & Hx & _). by apply elem_of_nil in Hx.
  - destruct c' as [det fs']. destruct HP as (Q02 & Hft2 & fs1 & Hfs & Hff & Hdet). cbn [fst snd] in *. subst fs'.
    unfold message_fields. rewrite (rbind_val _ _ _ _ _ E2). cbn beta iota.
    assert (Hsel : children is_field rp rt = children a_field rp rt).
    { reflexivity. }
    rewrite Hsel in *. pose proof (quiet_trans _ _ _ Q1 Q2) as Q12.
    destruct det.
    + exists fs1, s2. split; [done|]. split; [done|]. split; [done|]. split; [done|].
      eapply mf_with; try eassumption. by apply Hdet.
    + rewrite (rbind_val _ _ _ (t_pos t) s2) by (apply pos_quiet; [done|done|done|by rewrite Hdt|done|by rewrite Hdt]).
      rewrite (rbind_val _ _ _ sq s2).
      2: { cbn [type_name]. rewrite rbind_get. unfold scope_of. rewrite (q_scopes _ _ Q02). unfold scope_of in Hname. by rewrite Hname. }
      rewrite (rbind_val _ _ _ (scope_of s2 (VPtr m)) s2) by (unfold node_index; by rewrite rbind_get).
      eexists _, s2. split; [by rewrite <- app_assoc|]. split; [done|]. split; [done|]. split; [done|].
      eapply mf_without with (a := 0%N); try eassumption.
      * intros H. by apply Hdet in H.
      * unfold node_index. rewrite rbind_get. cbn. unfold scope_of. by rewrite (q_scopes _ _ Q02).
Qed.

Lemma lint_service_ok fs0 p t s ca class :
  Inv s -> quiet s0 s -> ft_ok s -> element_at s0 p t ->
  found s0 opts_method (NAst KMessage ca class) ->
  (forall m, m ∈ children a_method p t -> sound_method s0 m) ->
  (forall m mt q oname, m ∈ children a_method p t -> element_at s0 m mt -> q ∈ children an_option m mt ->
     statement s0 q oname -> oname <> bypass_option) ->
  exists fss s', lint_service st p fs0 s = (Ret (fs0 ++ concat fss)%list, s') /\
    quiet s s' /\ Inv s' /\ ft_ok s' /\ Forall2 (method_findings s0 sq) (children a_method p t) fss.
Proof.
  intros I Q Hft Ht Hcl Hso Hno.
  destruct (fold_iter p t is_rpc KMethod
     (fun dn fs s' => quiet s s' /\ ft_ok s' /\ exists fss, fs = (fs0 ++ concat fss)%list /\ Forall2 (method_findings s0 sq) dn fss)
     (lint_method st) fs0 s) as (fs & s' & E' & _ & I' & (Q' & Hft' & fss & -> & H)).
  - intros d. by destruct d.
  - intros dn c s1 s2 (Q1 & Hok & H) Q' I' Hc. split; [by eapply quiet_trans|]. split; [|done].
    intros x y z. rewrite Hc. apply Hok.
  - intros dn m mt c s1 a Hin I1 Hmt Hdm (Q1 & Hok & fss & -> & H).
    assert (Hin' : m ∈ children a_method p t).
    { revert Hin. unfold children. intros Hq. apply elem_of_list_fmap in Hq as (b' & -> & Hb').
      apply elem_of_list_fmap. exists b'. split; [done|]. apply elem_of_list_In, filter_In in Hb' as [H1 H2].
      apply elem_of_list_In, filter_In. split; [done|]. by destruct (t_data b'.2). }
    pose proof (quiet_trans _ _ _ Q Q1) as Q01.
    assert (Hel : element_at s0 m mt) by (apply heap_element; [done|by rewrite (quiet_heap_at _ _ _ Q01) in Hmt]).
    destruct (lint_method_ok (fs0 ++ concat fss)%list m mt a s1 ca class) as (fs1 & s2 & E2 & Q2 & I2 & Hok2 & H2); try done.
    + intros q oname. by apply Hno.
    + by apply Hso.
    + exists ((fs0 ++ concat fss) ++ fs1)%list, s2. split; [done|]. split; [done|]. split; [done|].
      split; [by eapply quiet_trans|]. split; [done|]. exists (fss ++ [fs1])%list.
      split; [by rewrite concat_app, concat_cons, app_nil_r, app_assoc|]. apply Forall2_app; [done|]. by constructor.
  - done.
  - rewrite (quiet_heap_at _ _ _ Q). by apply element_heap.
  - split; [apply quiet_refl|]. split; [done|]. exists []. split; [by rewrite app_nil_r|constructor].
  - exists fss, s'. split; [exact E'|]. split; [done|]. split; [done|]. split; [done|exact H].
Qed.

End status.


(** ** C69 *)

(** The linter of the README, run over one service: for every method, in source order, it reports exactly
    what it should, and nothing else.  [sq] is the full name of the status message.  The conditions: the
    status message has been found, no type of a field has been asked for, no option statement of a method
    is literally spelled like the argument of OptionNamed (the grammar cannot spell it). *)
Theorem C69_linter_exact s sq st p t ca class :
  calm s -> node_by_full_name sq s = (Ret (Some st), s) -> a_message_node st ->
  (forall path g f, loaded s path g f -> path <> "") ->
  (forall k, ftcache s !! k = None) ->
  element_at s p t -> a_service (t_data t) = true ->
  found s ".google.protobuf.MethodOptions" (NAst KMessage ca class) ->
  (forall m, m ∈ children a_method p t -> sound_method s m) ->
  (forall m mt q oname, m ∈ children a_method p t -> element_at s m mt -> q ∈ children an_option m mt ->
     statement s q oname -> oname <> ".meta.v1.non_standard_method") ->
  exists fss s', lint_service st p [] s = (Ret (concat fss), s') /\
    Forall2 (method_findings s sq) (children a_method p t) fss.
Proof.
  intros Hs E Hm Hpaths Hft Ht Hd Hcl Hso Hno.
  pose proof (reachable_Inv _ (calm_reachable _ Hs)) as I0.
  assert (Hf : found s sq st) by (unfold found; by rewrite E).
  assert (Hme : message_or_enum st) by (destruct st as [[]| | | | |]; done).
  destruct (found_index _ _ _ Hs Hf Hme) as (k & b & ps & pt & -> & Hpt & Hname).
  assert (k = KMessage) as -> by (destruct k; done).
  assert (Hst : cache s !! VPtr ps = Some (Some (NAst KMessage b ps))).
  { destruct (found_is_declared _ _ _ _ I0 E) as (p1 & f1 & t1 & k1 & a1 & q1 & [= <- <- <-] & Hn & _).
    unfold node_by_full_name in E. rewrite rbind_get, Hn in E. destruct (wrap_ret _ _ _ _ (proj2 I0) E) as (p' & k' & a' & t' & _ & _ & _ & _ & H). done. }
  destruct (lint_service_ok s sq b ps I0 Hst Hf Hname Hpaths [] p t s ca class) as (fss & s' & E' & _ & _ & _ & H); try done.
  { intros a q res H. by rewrite Hft in H. }
  by exists fss, s'.
Qed.

(** The rules of the README for one method: a unary method returns a message with a field response_status
    of the status type, and no other singular field of that message has the status type. *)
Definition compliant (s : registry) (sq : string) (m : ptr) : Prop :=
  forall t name req sreq rett rp rt,
    element_at s m t -> t_data t = DRPC name req sreq rett false -> returns_message s m rp -> element_at s rp rt ->
    has_status s sq (children a_field rp rt) /\
    forall q, q ∈ children a_field rp rt -> has_type s sq q -> field_named s "response_status" q.

Lemma element_fun s p t t' : element_at s p t -> element_at s p t' -> t' = t.
Proof. intros H1%element_heap H2%element_heap. congruence. Qed.
Lemma in_scope_fun s p comps comps' : in_scope s p comps -> in_scope s p comps' -> comps' = comps.
Proof. intros [H1 I1]%in_scope_of [H2 I2]%in_scope_of. apply dotted_inj; congruence. Qed.
Lemma returns_fun s m rp rp' : returns_message s m rp -> returns_message s m rp' -> rp' = rp.
Proof.
  intros (t & n & r1 & b1 & r2 & b2 & comps & rq & ra & Ht & Hd & Hsc & _ & Hden & Hf)
    (t' & n' & r1' & b1' & r2' & b2' & comps' & rq' & ra' & Ht' & Hd' & Hsc' & _ & Hden' & Hf').
  rewrite (element_fun _ _ _ _ Ht Ht') in Hd'. rewrite Hd in Hd'. injection Hd' as <- <- <- <- <-.
  rewrite (in_scope_fun _ _ _ _ Hsc Hsc') in Hden'. assert (rq' = rq) as -> by (pose proof (denotes_fun _ _ _ _ _ Hden Hden'); congruence).
  pose proof (found_fun _ _ _ _ Hf Hf'). congruence.
Qed.
Lemma no_field_findings s sq qs fs : field_findings s sq qs fs ->
  fs = [] <-> forall q, q ∈ qs -> has_type s sq q -> field_named s "response_status" q.
Proof.
  induction 1 as [|q qs t fs H1 H2 H3 _ IH|q qs fs H1 H2 _ IH|q qs fs H1 _ IH].
  - split; [|done]. intros _ q Hq. by apply elem_of_nil in Hq.
  - split; [done|]. intros H. exfalso. apply H2, H; [constructor|done].
  - rewrite IH. split; intros H x Hx; [apply elem_of_cons in Hx as [->|Hx]; [done|by apply H]|].
    apply H. by constructor.
  - rewrite IH. split; intros H x Hx; [apply elem_of_cons in Hx as [->|Hx]; [done|by apply H]|].
    apply H. by constructor.
Qed.
Lemma no_findings s sq m fs : method_findings s sq m fs -> fs = [] <-> compliant s sq m.
Proof.
  destruct 1 as [t n r1 b1 r2 Ht Hd|t n r1 b1 r2 rp rt fs Ht Hd Hr Hrt Hff Hst|t n r1 b1 r2 rp rt fs a ix Ht Hd Hr Hrt Hff Hst _].
  - split; [|done]. intros _ t' n' r1' b1' r2' rp rt Ht' Hd'. rewrite (element_fun _ _ _ _ Ht Ht') in Hd'. congruence.
  - rewrite (no_field_findings _ _ _ _ Hff). split.
    + intros H t' n' r1' b1' r2' rp' rt' Ht' Hd' Hr' Hrt'. rewrite (returns_fun _ _ _ _ Hr Hr') in *.
      by rewrite (element_fun _ _ _ _ Hrt Hrt').
    + intros H. by apply (H _ _ _ _ _ _ _ Ht Hd Hr Hrt).
  - split; [intros [_ H]%app_eq_nil; discriminate H|]. intros H. exfalso. apply Hst. by apply (H _ _ _ _ _ _ _ Ht Hd Hr Hrt).
Qed.

(** So the linter accepts a service exactly when all its methods follow the rules. *)
Theorem C69_linter_accepts s sq st p t ca class fs s' :
  calm s -> node_by_full_name sq s = (Ret (Some st), s) -> a_message_node st ->
  (forall path g f, loaded s path g f -> path <> "") ->
  (forall k, ftcache s !! k = None) ->
  element_at s p t -> a_service (t_data t) = true ->
  found s ".google.protobuf.MethodOptions" (NAst KMessage ca class) ->
  (forall m, m ∈ children a_method p t -> sound_method s m) ->
  (forall m mt q oname, m ∈ children a_method p t -> element_at s m mt -> q ∈ children an_option m mt ->
     statement s q oname -> oname <> ".meta.v1.non_standard_method") ->
  lint_service st p [] s = (Ret fs, s') ->
  fs = [] <-> forall m, m ∈ children a_method p t -> compliant s sq m.
Proof.
  intros H1 H2 H3 H4 H5 H6 H7 H8 H9 H10 E.
  destruct (C69_linter_exact s sq st p t ca class H1 H2 H3 H4 H5 H6 H7 H8 H9 H10) as (fss & s1 & E' & H).
  rewrite E in E'. injection E' as -> _. clear -H.
  induction H as [|m fs ms fss Hm H IH]; cbn [concat].
  - split; [|done]. intros _ m Hm. by apply elem_of_nil in Hm.
  - apply no_findings in Hm. split.
    + intros [-> E]%app_eq_nil x [->|Hx]%elem_of_cons; [by apply Hm|]. by apply IH.
    + intros Hall. rewrite (proj2 Hm), (proj2 IH); [done| |]; [intros x Hx|]; apply Hall; by constructor.
Qed.

(** *** An example

      meta/v1/status.proto: package meta.v1; message ResponseStatus { int32 code = 1; }
      meta/v1/options.proto: package meta.v1; extend google.protobuf.MethodOptions {
                               google.protobuf.Any non_standard_method = 12345; }
      service/storage/v1/service.proto: the service Storage below *)
Definition st_f := "meta/v1/status.proto".
Definition mo_f := "meta/v1/options.proto".
Definition sv_f := "service/storage/v1/service.proto".
Definition st_elems : list tree :=
  [ el st_f 1 (DSyntax "proto3") []; el st_f 2 (DPackage "meta.v1") [];
    msg st_f 3 "ResponseStatus" [ fld st_f 4 "int32" "code" 1 ] ].
Definition mo_elems : list tree :=
  [ el mo_f 1 (DSyntax "proto3") []; el mo_f 2 (DPackage "meta.v1") []; el mo_f 3 (DImport desc_f) [];
    el mo_f 4 (DImport any_f) [];
    extb mo_f 5 "google.protobuf.MethodOptions" [ fld mo_f 6 "google.protobuf.Any" "non_standard_method" 12345 ] ].
Definition sv_elems : list tree :=
  [ el sv_f 1 (DSyntax "proto3") []; el sv_f 2 (DPackage "service.storage.v1") [];
    el sv_f 3 (DImport st_f) []; el sv_f 4 (DImport mo_f) [];
    msg sv_f 5 "Req" [];
    msg sv_f 10 "Good" [ fld sv_f 11 "meta.v1.ResponseStatus" "response_status" 1; fld sv_f 12 "string" "data" 2 ];
    msg sv_f 20 "Bad" [ fld sv_f 21 "meta.v1.ResponseStatus" "status" 1 ];
    msg sv_f 30 "Hidden" [ fld sv_f 31 "meta.v1.ResponseStatus" "response_status" 1;
                           rfld sv_f 32 "meta.v1.ResponseStatus" "others" 2;
                           el sv_f 33 (DMapField "by_name" "string" "meta.v1.ResponseStatus" 3) [];
                           el sv_f 34 (DOneof "one")
                             [ el sv_f 35 (DOneOfField "alt" "meta.v1.ResponseStatus" 4) [] ] ];
    el sv_f 40 (DService "Storage")
      [ el sv_f 41 (DRPC "Get" "Req" false "Good" false) [];
        el sv_f 42 (DRPC "Put" "Req" false "Bad" false) [];
        el sv_f 43 (DRPC "List" "Req" false "Hidden" false) [];
        el sv_f 44 (DRPC "Watch" "Req" false "Req" true) [];
        el sv_f 45 (DRPC "Raw" "Req" false "Req" false) [ opt sv_f 46 "(meta.v1.non_standard_method)" "" ] ] ].
Definition lint_files : list (string * list tree) :=
  (std_files ++ [(st_f, st_elems); (mo_f, mo_elems); (sv_f, sv_elems)])%list.
Definition lint_world : registry := (node_by_full_name ".meta.v1.ResponseStatus" (world lint_files [sv_f])).2.

Lemma lint_calm : calm lint_world.
Proof.
  unfold lint_world. apply (hist_client CalmLoads _ (node_by_full_name ".meta.v1.ResponseStatus"));
    [apply world_calm; vm_compute; reflexivity|apply cl_api; constructor].
Qed.
Lemma lint_Inv : Inv lint_world.
Proof. apply reachable_Inv, calm_reachable, lint_calm. Qed.
Lemma lint_element p t : heap_at lint_world p = Some t -> element_at lint_world p t.
Proof. apply heap_element, lint_Inv. Qed.

Lemma lint_returns i name rett rp a t req sreq sret :
  heap_at lint_world (1, [i; 8]) = Some t -> t_data t = DRPC name req sreq rett sret ->
  (node_index (NAst KMethod 0 (1, [i; 8])) lint_world).1 = Ret (dotted ["service"; "storage"; "v1"; "Storage"; name]) ->
  Forall ident ["service"; "storage"; "v1"; "Storage"; name] -> bool_decide (rett ∉ scalar_names) = true ->
  has_prefix rett "." = false ->
  defined (names lint_world) (".service.storage.v1" +:+ "." +:+ rett) = true ->
  forallb (fun j => negb (defined (names lint_world)
    (dotted (take j ["service"; "storage"; "v1"; "Storage"; name]) +:+ "." +:+ rett))) [4; 5] = true ->
  (node_by_full_name (".service.storage.v1" +:+ "." +:+ rett) lint_world).1 = Ret (Some (NAst KMessage a rp)) ->
  returns_message lint_world (1, [i; 8]) rp.
Proof.
  intros Ht Hd Hix Hid Hb Hp Hdef Hun Hf.
  exists t, name, req, sreq, rett, sret, ["service"; "storage"; "v1"; "Storage"; name], (".service.storage.v1" +:+ "." +:+ rett), a.
  split; [by apply lint_element|]. split; [done|].
  split; [split; [exists KMethod, 0%N; split; [repeat constructor|exact Hix]|done]|].
  split; [by apply bool_decide_eq_true in Hb|]. split; [|exact Hf].
  apply (denotes_at lint_world ["service"; "storage"; "v1"; "Storage"; name] rett 3 lint_Inv); [done|cbn; lia|exact Hdef|exact Hun].
Qed.

Lemma lint_status_field q comps t name num rep opt :
  heap_at lint_world q = Some t -> t_data t = DNormalField name "meta.v1.ResponseStatus" num rep opt ->
  (node_index (NAst KField 0 q) lint_world).1 = Ret (dotted comps) -> Forall ident comps ->
  forallb (fun j => negb (defined (names lint_world)
    (dotted (take j comps) +:+ "." +:+ "meta.v1.ResponseStatus"))) (List.seq 1 (length comps - 0)) = true ->
  in_scope lint_world q comps /\ denotes lint_world comps "meta.v1.ResponseStatus" ".meta.v1.ResponseStatus".
Proof.
  intros Ht Hd Hix Hid Hun.
  assert (Hden : denotes lint_world comps "meta.v1.ResponseStatus" ".meta.v1.ResponseStatus").
  { apply (denotes_at lint_world comps "meta.v1.ResponseStatus" 0 lint_Inv); [done|lia|vm_compute; reflexivity|exact Hun]. }
  split; [|exact Hden]. split; [exists KField, 0%N; split; [constructor|exact Hix]|done].
Qed.
Lemma lint_sound_status q comps t name num rep opt :
  heap_at lint_world q = Some t -> t_data t = DNormalField name "meta.v1.ResponseStatus" num rep opt ->
  in_scope lint_world q comps /\ denotes lint_world comps "meta.v1.ResponseStatus" ".meta.v1.ResponseStatus" ->
  sound_field lint_world q.
Proof.
  intros Ht Hd [Hsc Hden] t' name' typ' num' rep' opt' Ht' Hd'. apply element_heap in Ht'.
  assert (t' = t) as -> by congruence. rewrite Hd in Hd'. injection Hd' as <- <- <- <- <-. right.
  exists comps. split; [exact Hsc|]. intros d n H1 H2.
  assert (d = ".meta.v1.ResponseStatus") as -> by (pose proof (denotes_fun _ _ _ _ _ Hden H1); congruence).
  assert (H3 : found lint_world ".meta.v1.ResponseStatus" (NAst KMessage 1 (2, [2]))) by (unfold found; vm_compute; reflexivity).
  by rewrite (found_fun _ _ _ _ H3 H2).
Qed.
Lemma lint_sound_other q t :
  heap_at lint_world q = Some t ->
  (match t_data t with DNormalField _ typ _ _ _ => bool_decide (typ ∈ scalar_names) | _ => true end = true) ->
  sound_field lint_world q.
Proof.
  intros Ht Hd t' name' typ' num' rep' opt' Ht' Hd'. apply element_heap in Ht'.
  assert (t' = t) as -> by congruence. rewrite Hd' in Hd. left. by apply bool_decide_eq_true in Hd.
Qed.

Example C69_example : exists st t ca class,
  calm lint_world /\ node_by_full_name ".meta.v1.ResponseStatus" lint_world = (Ret (Some st), lint_world) /\
  a_message_node st /\ (forall path g f, loaded lint_world path g f -> path <> "") /\
  (forall k, ftcache lint_world !! k = None) /\
  element_at lint_world (1, [8]) t /\ a_service (t_data t) = true /\
  found lint_world ".google.protobuf.MethodOptions" (NAst KMessage ca class) /\
  (forall m, m ∈ children a_method (1, [8]) t -> sound_method lint_world m) /\
  (forall m mt q oname, m ∈ children a_method (1, [8]) t -> element_at lint_world m mt ->
     q ∈ children an_option m mt -> statement lint_world q oname -> oname <> ".meta.v1.non_standard_method") /\
  (lint_service st (1, [8]) [] lint_world).1 =
    Ret [ WrongName (at_line sv_f 21) ".meta.v1.ResponseStatus";
          MissingStatus (at_line sv_f 42) ".meta.v1.ResponseStatus" ".service.storage.v1.Storage.Put";
          MissingStatus (at_line sv_f 45) ".meta.v1.ResponseStatus" ".service.storage.v1.Storage.Raw" ].
Proof.
  eexists (NAst KMessage 1 (2, [2])), _, _, _. split; [exact lint_calm|].
  split. { assert (H : (node_by_full_name ".meta.v1.ResponseStatus" (world lint_files [sv_f])).1 = Ret (Some (NAst KMessage 1 (2, [2]))))
             by (vm_compute; reflexivity).
    assert (Hw : reachable (world lint_files [sv_f])) by (apply world_reachable; vm_compute; reflexivity).
    unfold lint_world. revert H Hw. generalize (world lint_files [sv_f]). intros w H Hw.
    destruct (node_by_full_name ".meta.v1.ResponseStatus" w) as [o w'] eqn:E. cbn [fst snd] in H |- *. subst o.
    destruct (found_is_declared _ _ _ _ (reachable_Inv _ Hw) E) as (p1 & f1 & t1 & k1 & a1 & q1 & [= <- <- <-] & Hn & _).
    pose proof (quiet_wrap (VPtr (2, [2])) w) as Q.
    unfold node_by_full_name in E |- *. rewrite rbind_get, Hn in E. rewrite E in Q. cbn in Q.
    destruct (wrap_ret _ _ _ _ (proj2 (reachable_Inv _ Hw)) E) as (p' & k' & a' & t' & _ & _ & _ & _ & H).
    rewrite rbind_get, (q_names _ _ Q), Hn. by apply wrap_hit. }
  split; [done|].
  split. { intros path g f (H & _) ->. revert H.
    assert (H : protos lint_world !! "" = None) by (vm_compute; reflexivity). by rewrite H. }
  split. { assert (H : ftcache lint_world = ∅) by (vm_compute; reflexivity). intros k. rewrite H. apply lookup_empty. }
  split; [apply lint_element; vm_compute; reflexivity|]. split; [reflexivity|].
  split; [unfold found; vm_compute; reflexivity|].
  split; [|split; [|vm_compute; reflexivity]].
  - intros m Hm. change (m ∈ [(1, [0; 8]); (1, [1; 8]); (1, [2; 8]); (1, [3; 8]); (1, [4; 8])]) in Hm.
    assert (Hreq : forall i rp rt, returns_message lint_world (1, [i; 8]) rp -> heap_at lint_world rp = Some rt ->
      (forall q, q ∈ children a_field rp rt -> sound_field lint_world q) -> sound_method lint_world (1, [i; 8])).
    { intros i rp rt H1 H2 H3. exists rp, rt. split; [done|]. split; [by apply lint_element|done]. }
    rewrite !elem_of_cons, elem_of_nil in Hm. destruct Hm as [->|[->|[->|[->|[->|[]]]]]].
    + eapply (Hreq 0 (1, [5])); [eapply (lint_returns 0 "Get" "Good" (1, [5])); try (vm_compute; reflexivity); apply idents; reflexivity|vm_compute; reflexivity|].
      intros q Hq. change (q ∈ [(1, [0; 5]); (1, [1; 5])]) in Hq. rewrite !elem_of_cons, elem_of_nil in Hq. destruct Hq as [->|[->|[]]].
      * eapply lint_sound_status; [vm_compute; reflexivity|reflexivity|].
        eapply (lint_status_field (1, [0; 5]) ["service"; "storage"; "v1"; "Good"; "response_status"]);
          [vm_compute; reflexivity|reflexivity|vm_compute; reflexivity|apply idents; reflexivity|vm_compute; reflexivity].
      * eapply lint_sound_other; [vm_compute; reflexivity|vm_compute; reflexivity].
    + eapply (Hreq 1 (1, [6])); [eapply (lint_returns 1 "Put" "Bad" (1, [6])); try (vm_compute; reflexivity); apply idents; reflexivity|vm_compute; reflexivity|].
      intros q Hq. change (q ∈ [(1, [0; 6])]) in Hq. rewrite !elem_of_cons, elem_of_nil in Hq. destruct Hq as [->|[]].
      eapply lint_sound_status; [vm_compute; reflexivity|reflexivity|].
      eapply (lint_status_field (1, [0; 6]) ["service"; "storage"; "v1"; "Bad"; "status"]);
          [vm_compute; reflexivity|reflexivity|vm_compute; reflexivity|apply idents; reflexivity|vm_compute; reflexivity].
    + eapply (Hreq 2 (1, [7])); [eapply (lint_returns 2 "List" "Hidden" (1, [7])); try (vm_compute; reflexivity); apply idents; reflexivity|vm_compute; reflexivity|].
      intros q Hq. change (q ∈ [(1, [0; 7]); (1, [1; 7]); (1, [2; 7]); (1, [3; 7])]) in Hq.
      rewrite !elem_of_cons, elem_of_nil in Hq. destruct Hq as [->|[->|[->|[->|[]]]]].
      * eapply lint_sound_status; [vm_compute; reflexivity|reflexivity|].
        eapply (lint_status_field (1, [0; 7]) ["service"; "storage"; "v1"; "Hidden"; "response_status"]);
          [vm_compute; reflexivity|reflexivity|vm_compute; reflexivity|apply idents; reflexivity|vm_compute; reflexivity].
      * eapply lint_sound_status; [vm_compute; reflexivity|reflexivity|].
        eapply (lint_status_field (1, [1; 7]) ["service"; "storage"; "v1"; "Hidden"; "others"]);
          [vm_compute; reflexivity|reflexivity|vm_compute; reflexivity|apply idents; reflexivity|vm_compute; reflexivity].
      * eapply lint_sound_other; [vm_compute; reflexivity|vm_compute; reflexivity].
      * eapply lint_sound_other; [vm_compute; reflexivity|vm_compute; reflexivity].
    + eapply (Hreq 3 (1, [4])); [eapply (lint_returns 3 "Watch" "Req" (1, [4])); try (vm_compute; reflexivity); apply idents; reflexivity|vm_compute; reflexivity|].
      intros q Hq. change (q ∈ ([] : list ptr)) in Hq. by apply elem_of_nil in Hq.
    + eapply (Hreq 4 (1, [4])); [eapply (lint_returns 4 "Raw" "Req" (1, [4])); try (vm_compute; reflexivity); apply idents; reflexivity|vm_compute; reflexivity|].
      intros q Hq. change (q ∈ ([] : list ptr)) in Hq. by apply elem_of_nil in Hq.
  - intros m mt q oname Hm Hmt Hq (qt & lit & Hqt & Hdq).
    change (m ∈ [(1, [0; 8]); (1, [1; 8]); (1, [2; 8]); (1, [3; 8]); (1, [4; 8])]) in Hm.
    apply element_heap in Hmt, Hqt.
    rewrite !elem_of_cons, elem_of_nil in Hm. destruct Hm as [->|[->|[->|[->|[->|[]]]]]].
    all: vm_compute in Hmt; injection Hmt as <-.
    1-4: clear Hqt; change (q ∈ ([] : list ptr)) in Hq; exfalso; exact (proj1 (elem_of_nil q) Hq).
    change (q ∈ [(1, [0; 4; 8])]) in Hq. apply elem_of_list_singleton in Hq as ->.
    assert (H : heap_at lint_world (1, [0; 4; 8]) = Some (opt sv_f 46 "(meta.v1.non_standard_method)" "")) by (vm_compute; reflexivity).
    rewrite H in Hqt. clear H. injection Hqt as <-. cbn in Hdq. injection Hdq as <- _. discriminate.
Qed.

(** The README promises more. A method annotated with the option is not exempt: OptionNamed compares its
    argument with the name as it is written in the statement, parentheses included. *)
Theorem C69_bypass_refuted : exists o fs,
  calm lint_world /\
  ((sq <~ options (NAst KMethod 0 (1, [4; 8])) ;; collect sq) lint_world).1 = Ret [o] /\
  (option_is o ".meta.v1.non_standard_method" lint_world).1 = Ret true /\
  (option_named (NAst KMethod 0 (1, [4; 8])) ".meta.v1.non_standard_method" lint_world).1 = Ret None /\
  (lint_service (NAst KMessage 1 (2, [2])) (1, [8]) [] lint_world).1 = Ret fs /\
  MissingStatus (at_line sv_f 45) ".meta.v1.ResponseStatus" ".service.storage.v1.Storage.Raw" ∈ fs.
Proof.
  eexists _, _. split; [exact lint_calm|]. split; [vm_compute; reflexivity|]. split; [vm_compute; reflexivity|].
  split; [vm_compute; reflexivity|]. split; [vm_compute; reflexivity|]. right. right. left.
Qed.
(** Repeated fields, map fields and oneof branches may use the type freely. *)
Theorem C69_no_other_field_refuted : exists st a b fs,
  calm lint_world /\ (node_by_full_name ".meta.v1.ResponseStatus" lint_world).1 = Ret (Some st) /\
  (method_output (1, [2; 8]) lint_world).1 = Ret (false, NAst KMessage b (1, [7])) /\
  (field_type 0 (1, [1; 7]) lint_world).1 = Ret (Some (NRepeated a (Some st))) /\
  (map_value (1, [2; 7]) lint_world).1 = Ret st /\
  (branch_type (1, [0; 3; 7]) lint_world).1 = Ret (Some st) /\
  (lint_method st [] (NAst KMethod 0 (1, [2; 8])) lint_world).1 = Ret (fs, true) /\ fs = [].
Proof.
  eexists _, _, _, _. split; [exact lint_calm|]. split; [vm_compute; reflexivity|]. split; [vm_compute; reflexivity|].
  split; [vm_compute; reflexivity|]. split; [vm_compute; reflexivity|]. split; [vm_compute; reflexivity|].
  split; [vm_compute; reflexivity|reflexivity].
Qed.
