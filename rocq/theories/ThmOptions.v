(** * Theorems on options: C33 - C37, C31. *)
From Verif Require Export ThmTypes ThmNavigation OptionUse.

(** The option [o] is about the statement at [q], the options message being [class]: it belongs to
    that statement and class, and its field is what the statement's name stands for. *)
Definition about (s : registry) (comps : list string) (class q : ptr) (o : optn) : Prop :=
  o_proto o = q /\ o_class o = class /\
  exists oname, statement s q oname /\ option_target s comps class oname (o_field o).

(** The name in the statement has the form of an option name: balanced parentheses, not nested. *)
Definition well_named (s : registry) (q : ptr) : Prop :=
  exists oname x, statement s q oname /\ refers_to oname x.

Lemma option_pick s0 sc comps class ct b s x s' :
  Inv s0 -> Forall ident comps -> scope_text comps sc -> heap_at s0 class = Some ct ->
  heap_at s0 b.1 = Some b.2 -> an_option (t_data b.2) = true -> well_named s0 b.1 ->
  Inv s -> quiet s0 s -> pick_option sc class b s = (x, s') ->
  (exists o, x = Ret (Some o) /\ quiet s s' /\ Inv s' /\ about s0 comps class b.1 o) \/
  ((forall oname f, statement s0 b.1 oname -> ~ option_target s0 comps class oname f) /\
   exists msg oname, x = Panic msg /\ statement s0 b.1 oname /\ option_complaint s0 comps oname msg).
Proof.
  intros I0 Hid Hsc Hct Hb Ho (oname & y & Hst & Hy) I Q0 E.
  destruct Hst as (t & lit & Ht & Hd). pose proof (element_heap _ _ _ Ht) as Ht'.
  assert (t = b.2) as -> by congruence.
  unfold pick_option in E. replace (is_option (t_data b.2)) with true in E by (by rewrite Hd).
  destruct (new_option_spec s sc comps class ct b.1 b.2 oname lit y I Hid Hsc) as [(f & a & s1 & Hf & E1 & Q1 & I1)|[Hno (msg & E1 & Hsay)]].
  - by rewrite (quiet_heap_at _ _ _ Q0).
  - by rewrite (quiet_heap_at _ _ _ Q0).
  - done.
  - done.
  - left. rewrite (rbind_val _ _ _ _ _ E1) in E. injection E as <- <-. eexists. split; [reflexivity|].
    split; [done|]. split; [done|]. split; [done|]. split; [done|]. exists oname.
    split; [by exists b.2, lit|]. cbn. 
    destruct Hf as [z q' a' f u Hx Hq Hf Hu Hp|z cu f Hx Hq Hc Hh].
    + destruct (found_at _ _ _ _ _ I Hf) as (Hn' & v & Hv & Hk). rewrite (q_names _ _ Q0) in Hn'.
      rewrite (quiet_heap_at _ _ f Q0) in Hv. destruct (names_found _ _ _ _ _ I0 Hn' Hv Hk) as [a'' Hf'].
      eapply ot_denoted; [exact Hx| |exact Hf'|by eapply element_quiet|done].
      eapply (names_denotes s s0); [done|done|by rewrite (q_names _ _ Q0)|done].
    + eapply ot_predefined; [exact Hx| |by eapply element_quiet|exact Hh].
      intros q' H. apply (Hq q'). eapply (names_denotes s0 s); [done|done|by rewrite (q_names _ _ Q0)|done].
  - right. split.
    + intros oname' f (u & l & Hu & Hdu) Hf. apply element_heap in Hu. assert (u = b.2) as -> by congruence.
      assert (oname' = oname) as -> by congruence.
      apply (Hno f). exact (option_target_quiet s0 s _ _ _ _ I0 I Q0 Hf).
    + exists msg, oname. split.
      { unfold rbind in E. destruct (new_option sc class b.1 s) as [r s2]. cbn in E1. subst r. congruence. }
      split; [exists b.2, lit; split; [by apply heap_element|done]|].
      exact (option_complaint_quiet s0 s _ _ _ I0 I Q0 Hsay).
Qed.

Lemma kid_statement s p t b : Inv s -> heap_at s p = Some t -> b ∈ kids_at p t -> an_option (t_data b.2) = true ->
  b.1 ∈ children an_option p t.
Proof.
  intros I Ht Hb Ho. unfold children. apply elem_of_list_fmap. exists b. split; [done|].
  apply elem_of_list_In, filter_In. split; [by apply elem_of_list_In|done].
Qed.
Lemma child_kid s p t q : heap_at s p = Some t -> q ∈ children an_option p t ->
  exists b, b.1 = q /\ b ∈ kids_at p t /\ an_option (t_data b.2) = true.
Proof.
  intros Ht. unfold children. intros (b & -> & Hb)%elem_of_list_fmap.
  apply elem_of_list_In, filter_In in Hb as [Hb Ho]. exists b. split; [done|]. split; [by apply elem_of_list_In|done].
Qed.
Lemma target_named s comps class q : (exists oname f, statement s q oname /\ option_target s comps class oname f) ->
  well_named s q.
Proof. intros (oname & f & Hst & []); exists oname, x; done. Qed.
Lemma skip_option sc class b s : an_option (t_data b.2) = false -> pick_option sc class b s = (Ret None, s).
Proof. intros H. unfold pick_option. by replace (is_option (t_data b.2)) with false by (by destruct (t_data b.2)). Qed.

(** ** C33 *)

(** Collecting the options of a node gives exactly one option per option statement, in the order of
    the statements, each about its statement, if every statement's name stands for a field. *)
Theorem C33_options s n k a p t cn ca class comps :
  reachable s -> n = NAst k a p -> points_to s p n -> element_at s p t -> options_message (t_data t) = Some cn ->
  found s cn (NAst KMessage ca class) -> options_scope s n comps ->
  (forall q, q ∈ children an_option p t ->
     exists oname f, statement s q oname /\ option_target s comps class oname f) ->
  exists l, ((sq <~ options n ;; collect sq) s).1 = Ret l /\
    Forall2 (about s comps class) (children an_option p t) l.
Proof.
  intros Hs Hn Hp Ht Hcn Hf Hsc Hall. pose proof (reachable_Inv _ Hs) as I.
  destruct (options_setup _ _ _ _ _ _ _ _ _ _ I Hn Hp Ht Hcn Hf Hsc) as (sc & Hid & Htx & E).
  destruct (option_class_found _ _ _ _ I Hf) as [_ [ct Hct]]. apply element_heap in Ht as Ht'.
  destruct (collect_all an_option (about s comps class) (pick_option sc class) s (kids_at p t)
    (skip_option sc class)) with (l0 := @nil optn) (s := s) as (l & s' & El & _ & _ & Hl); [|done|apply quiet_refl|].
  - intros b s1 Hb I1 Q1 Ho. destruct (pick_option sc class b s1) as [x s'] eqn:Ep.
    pose proof (Hall b.1 (kid_statement _ _ _ _ I Ht' Hb Ho)) as Hst.
    destruct (option_pick s sc comps class ct b s1 x s' I Hid Htx Hct (kids_heap _ _ _ _ Ht' Hb) Ho
      (target_named _ _ _ _ Hst) I1 Q1 Ep) as [(o & -> & Q2 & I2 & Ha)|[Hno _]].
    + exists o, s'. done.
    + destruct Hst as (oname & f & H1 & H2). by apply (Hno _ _ H1) in H2.
  - exists l. split; [|exact Hl]. rewrite (rbind_val _ _ _ _ _ E). unfold collect, iter_kids.
    rewrite (rbind_val _ _ _ _ _ (kids_of_ok _ _ _ Ht')). by rewrite El.
Qed.

(** A loop over the options whose body only queries the registry (and may stop early): it sees the
    options of the first statements, of all of them if it never stops. *)
Theorem C33_options_loop {C} s n k a p t cn ca class comps (c : C) body c' l s' :
  reachable s -> n = NAst k a p -> points_to s p n -> element_at s p t -> options_message (t_data t) = Some cn ->
  found s cn (NAst KMessage ca class) -> options_scope s n comps ->
  (forall q, q ∈ children an_option p t -> well_named s q) ->
  (forall c x, client Queries (body c x)) ->
  (sq <~ options n ;; sq (C * list optn)%type (c, []) (recording body)) s = (Ret (c', l), s') ->
  Forall2 (about s comps class) (take (length l) (children an_option p t)) l /\
  ((forall c x s c' s', body c x s <> (Ret (c', false), s')) -> length l = length (children an_option p t)).
Proof.
  intros Hs Hn Hp Ht Hcn Hf Hsc Hall Hb El. pose proof (reachable_Inv _ Hs) as I.
  destruct (options_setup _ _ _ _ _ _ _ _ _ _ I Hn Hp Ht Hcn Hf Hsc) as (sc & Hid & Htx & E).
  destruct (option_class_found _ _ _ _ I Hf) as [_ [ct Hct]]. apply element_heap in Ht as Ht'.
  rewrite (rbind_val _ _ _ _ _ E) in El. unfold iter_kids in El.
  rewrite (rbind_val _ _ _ _ _ (kids_of_ok _ _ _ Ht')) in El.
  destruct (query_loop an_option (about s comps class) (pick_option sc class) s (kids_at p t) body
    (skip_option sc class)) with (c := c) (l0 := @nil optn) (s := s) (c' := c') (l := l) (s' := s')
    as (l1 & -> & H1 & H2); [|exact Hb|done|apply quiet_refl|exact El|].
  - intros b s1 x s2 Hbk I1 Q1 Ho Ep.
    destruct (option_pick s sc comps class ct b s1 (Ret x) s2 I Hid Htx Hct (kids_heap _ _ _ _ Ht' Hbk) Ho
      (Hall _ (kid_statement _ _ _ _ I Ht' Hbk Ho)) I1 Q1 Ep) as [(o & [= ->] & Q2 & I2 & Ha)|[_ (msg & oname & Hm & _)]]; [|done].
    exists o. done.
  - cbn [app]. split; [exact H1|]. intros H. unfold children. rewrite map_length. by apply H2.
Qed.

(** If the name of some statement stands for no field, collecting the options panics, with what
    [option_complaint] says about the first such statement. *)
Theorem C33_unknown_option_panics s n k a p t cn ca class comps q :
  reachable s -> n = NAst k a p -> points_to s p n -> element_at s p t -> options_message (t_data t) = Some cn ->
  found s cn (NAst KMessage ca class) -> options_scope s n comps ->
  (forall q, q ∈ children an_option p t -> well_named s q) ->
  q ∈ children an_option p t -> (forall oname f, statement s q oname -> ~ option_target s comps class oname f) ->
  exists msg i q0 oname, ((sq <~ options n ;; collect sq) s).1 = Panic msg /\
    children an_option p t !! i = Some q0 /\ statement s q0 oname /\ (forall f, ~ option_target s comps class oname f) /\
    option_complaint s comps oname msg /\
    forall j q1, j < i -> children an_option p t !! j = Some q1 ->
      exists oname1 f1, statement s q1 oname1 /\ option_target s comps class oname1 f1.
Proof.
  intros Hs Hn Hp Ht Hcn Hf Hsc Hall Hq Hno. pose proof (reachable_Inv _ Hs) as I.
  destruct (options_setup _ _ _ _ _ _ _ _ _ _ I Hn Hp Ht Hcn Hf Hsc) as (sc & Hid & Htx & E).
  destruct (option_class_found _ _ _ _ I Hf) as [_ [ct Hct]]. apply element_heap in Ht as Ht'.
  destruct (collect_bad an_option
    (fun q1 => exists oname1 f1, statement s q1 oname1 /\ option_target s comps class oname1 f1)
    (fun q0 msg => exists oname, statement s q0 oname /\ (forall f, ~ option_target s comps class oname f) /\ option_complaint s comps oname msg)
    (pick_option sc class) s (kids_at p t) (skip_option sc class))
    with (l0 := @nil optn) (s := s) as (msg & i & q0 & El & Hi & (oname & H1 & H2 & H3) & Hg); [| |done|apply quiet_refl|].
  - intros b s1 Hb I1 Q1 Ho. destruct (pick_option sc class b s1) as [x s'] eqn:Ep.
    destruct (option_pick s sc comps class ct b s1 x s' I Hid Htx Hct (kids_heap _ _ _ _ Ht' Hb) Ho
      (Hall _ (kid_statement _ _ _ _ I Ht' Hb Ho)) I1 Q1 Ep) as [(o & -> & Q2 & I2 & Ha)|[Hn2 (msg & oname & -> & Hst & Hoc)]].
    + left. exists o, s'. split; [done|]. split; [done|]. split; [done|]. destruct Ha as (_ & _ & oname & H1 & H2). eauto.
    + right. exists msg. split; [done|]. exists oname. split; [done|]. split; [|done]. intros f. by apply Hn2.
  - destruct (child_kid _ _ _ _ Ht' Hq) as (b & <- & Hb & Ho). exists b. split; [done|]. split; [done|].
    intros (oname & f & H1 & H2). exact (Hno _ _ H1 H2).
  - exists msg, i, q0, oname. split.
    { rewrite (rbind_val _ _ _ _ _ E). unfold collect, iter_kids.
      by rewrite (rbind_val _ _ _ _ _ (kids_of_ok _ _ _ Ht')). }
    split; [exact Hi|]. split; [done|]. split; [done|]. split; [done|].
    intros j q1 Hj Hq1. rewrite list.Forall_forall in Hg. apply Hg. apply elem_of_list_lookup. exists j.
    rewrite lookup_take by done. exact Hq1.
Qed.

(** *** Names of option fields *)

Lemma calm_reachable s : calm s -> reachable s.
Proof.
  induction 1 as [e fuel s He E|A m s _ IH Hm]; [by eapply hist_new|].
  apply hist_client; [done|]. by eapply client_loads.
Qed.
Lemma field_scope s q k a f : calm s -> found s q (NAst k a f) -> k <> KEnumValue -> scope_of s (VPtr f) = q.
Proof.
  intros Hs Hf Hk. pose proof (reachable_Inv _ (calm_reachable _ Hs)) as I.
  unfold found in Hf. destruct (node_by_full_name q s) as [o s1] eqn:E. cbn in Hf. subst o.
  destruct (found_is_declared _ _ _ _ I E) as (path & fl & t & k' & a' & p & [= <- <- <-] & Hn & Hl & Hw & Hq & Hk').
  destruct f as [g π]. cbn [fst snd] in *.
  assert (Hks : keeps_scope (t_data t) = true).
  { unfold fqn_here in Hq. rewrite Hw in Hq. destruct (t_data t) as [| | | | | |? []| | | | | | | | | | | |]; try done.
    cbn in Hk'. congruence. }
  pose proof (index_scope s path g fl π q t k a Hs Hl Hq Hw Hks (or_introl Hk')) as Hi.
  unfold node_index in Hi. rewrite rbind_get in Hi. unfold fqn_here in Hq. rewrite Hw in Hq.
  destruct k; try (injection Hi as ->; done); exfalso;
    destruct (t_data t); try discriminate Hk'; discriminate Hq.
Qed.
Lemma class_field_scope s cn a class ct oname f : calm s -> found s cn (NAst KMessage a class) ->
  heap_at s class = Some ct -> head (children (plain_field_named oname) class ct) = Some f ->
  scope_of s (VPtr f) = cn +:+ "." +:+ oname /\ exists i, f = child class i.
Proof.
  intros Hs Hf Hct Hh. pose proof (reachable_Inv _ (calm_reachable _ Hs)) as I.
  unfold found in Hf. destruct (node_by_full_name cn s) as [o s1] eqn:E. cbn in Hf. subst o.
  destruct (found_is_declared _ _ _ _ I E) as (path & fl & t & k' & a' & p & [= <- <- <-] & Hn & Hl & Hw & Hq & Hk').
  assert (t = ct) as ->.
  { destruct Hl as (_ & Hfl & _). unfold heap_at in Hct. rewrite Hfl in Hct. congruence. }
  assert (Hin : f ∈ children (plain_field_named oname) class ct).
  { destruct (children _ class ct); [done|]. injection Hh as ->. constructor. }
  unfold children in Hin. apply elem_of_list_fmap in Hin as (b & -> & Hb).
  apply elem_of_list_In, filter_In in Hb as [Hb Hsel]. apply elem_of_list_In, elem_of_list_lookup in Hb as [i Hb].
  apply kids_at_lookup in Hb as (u & -> & Hu). cbn [fst snd] in *. split; [|by exists i].
  destruct class as [g π]. cbn [fst snd child] in *.
  unfold fqn_here in Hq. rewrite Hw in Hq.
  destruct (t_data ct) as [| | | | | |cnm ext| | | | | | | | | | | |] eqn:Hd; try discriminate Hk'.
  destruct ext; [discriminate Hq|]. cbn [own_name] in Hq.
  destruct (visible fl π) eqn:Hv; [|discriminate Hq]. injection Hq as Hq.
  assert (Hne : π <> []).
  { intros ->. destruct Hl as (_ & _ & Hdf). injection Hw as ->. congruence. }
  assert (Hwu : walk fl (i :: π) = Some u) by (cbn [walk]; by rewrite Hw).
  assert (Hfu : fqn_here fl (i :: π) = Some (cn +:+ "." +:+ oname)).
  { rewrite (fqn_here_self _ _ _ Hwu) by (by rewrite (visible_tail _ _ _ _ Hw), Hv, Hd).
    rewrite (scope_at_cons _ _ _ _ Hne Hw), Hd. cbn [scope_name].
    destruct (t_data u); try discriminate Hsel. cbn in Hsel. apply String.eqb_eq in Hsel as ->. cbn [own_name].
    by rewrite <- Hq. }
  assert (Hi : node_index (NAst KField 0 (g, i :: π)) s = (Ret (cn +:+ "." +:+ oname), s)).
  { eapply index_scope; [done|exact Hl|exact Hfu|exact Hwu| |left]; by destruct (t_data u). }
  unfold node_index in Hi. rewrite rbind_get in Hi. injection Hi. done.
Qed.
Lemma scope_later s s2 p t : grows s s2 -> heap_at s p = Some t -> scope_of s2 (VPtr p) = scope_of s (VPtr p).
Proof.
  intros G Ht. unfold scope_of. rewrite (ext_scopes _ _ _ G p); [done|].
  unfold heap_at in Ht. destruct (heap s !! p.1) eqn:H; [|done]. by apply lookup_lt_Some in H.
Qed.
(** Option.Is compares with the scope of the field *)
Lemma option_is_spec s o t q : Inv s -> heap_at s (o_field o) = Some t -> plain_field (t_data t) ->
  (option_is o q s).1 = Ret (String.eqb (scope_of s (VPtr (o_field o))) q).
Proof.
  intros [S N] Ht Hp. unfold option_is.
  destruct (wrap_ok s (o_field o) t KField N Ht) as (a & s' & E & Q & _); [by destruct (t_data t)|].
  rewrite (rbind_val _ _ _ _ _ E). unfold node_index. unfold rbind at 1. rewrite rbind_get. cbn.
  unfold scope_of. by rewrite (q_scopes _ _ Q).
Qed.
Lemma target_element s comps class oname f : Inv s -> option_target s comps class oname f ->
  exists t, heap_at s f = Some t /\ plain_field (t_data t).
Proof.
  intros I [x q a f' t Hx Hq Hf Ht Hp|x ct f' Hx Hq Hc Hh].
  - exists t. split; [by apply element_heap|done].
  - apply element_heap in Hc.
    assert (Hin : f' ∈ children (plain_field_named oname) class ct).
    { destruct (children _ class ct); [done|]. injection Hh as ->. constructor. }
    unfold children in Hin. apply elem_of_list_fmap in Hin as (b & -> & Hb).
    apply elem_of_list_In, filter_In in Hb as [Hb Hsel]. exists b.2.
    split; [apply (kids_heap _ class ct); [done|by apply elem_of_list_In]|].
    by destruct (t_data b.2).
Qed.

(** *** Option.Name *)

(** An option whose field is not one of the fields of the options message has, for ever, the name
    written in the statement. *)
Theorem C33_name_custom s comps class q o oname {A} (c : R A) :
  reachable s -> about s comps class q o -> statement s q oname -> (forall i, o_field o <> child class i) ->
  client Loads c -> (option_name o (c s).2).1 = Ret oname.
Proof.
  intros Hs (Hq & Hcl & _) (t & lit & Ht & Hd) Hi Hc. pose proof (reachable_Inv _ Hs) as I.
  destruct (client_step _ _ Hc I) as [I2 G].
  unfold option_name. rewrite bool_decide_false.
  - rewrite Hq. rewrite (rbind_val _ _ _ _ _ (deref_ok _ _ _ (ext_heap_at _ _ _ _ _ G (element_heap _ _ _ Ht)))).
    by rewrite Hd.
  - rewrite Hcl. destruct (o_field o) as [g [|i π]]; cbn; [done|]. intros [= <-]. by apply (Hi i).
Qed.

(** An option of the options message has the name "(message).field". *)
Theorem C33_name_predefined s comps class cn ca q o i t name typ num rep opt {A} (c : R A) :
  calm s -> about s comps class q o -> found s cn (NAst KMessage ca class) -> o_field o = child class i ->
  element_at s (o_field o) t -> t_data t = DNormalField name typ num rep opt ->
  client Loads c -> (option_name o (c s).2).1 = Ret ("(" +:+ cn +:+ ")." +:+ name).
Proof.
  intros Hs (Hq & Hcl & _) Hf Hi Ht Hd Hc. pose proof (reachable_Inv _ (calm_reachable _ Hs)) as I.
  destruct (client_step _ _ Hc I) as [I2 G].
  destruct (option_class_found _ _ _ _ I Hf) as [_ [ct Hct]].
  unfold option_name. rewrite bool_decide_true by (rewrite Hcl, Hi; by destruct class).
  rewrite rbind_get.
  rewrite (rbind_val _ _ _ _ _ (deref_ok _ _ _ (ext_heap_at _ _ _ _ _ G (element_heap _ _ _ Ht)))).
  rewrite Hd, Hcl, (scope_later _ _ _ _ G Hct), (field_scope _ _ _ _ _ Hs Hf) by done. done.
Qed.

(** ** C34 *)

(** For the option of a statement whose name refers to [x], and [x] denotes the declaration [d] in the
    scope of the annotated node: Is(q) holds for q = [d] and for nothing else, for ever. *)
Theorem C34_custom_option s comps class q o oname x d q' {A} (c : R A) :
  calm s -> about s comps class q o -> statement s q oname -> refers_to oname x -> denotes s comps x d ->
  client Loads c ->
  (option_is o q' (c s).2).1 = Ret (bool_decide (q' = d)).
Proof.
  intros Hs (Hq & Hcl & oname' & Hst' & Hot) Hst Hx Hd Hc. pose proof (reachable_Inv _ (calm_reachable _ Hs)) as I.
  destruct (client_step _ _ Hc I) as [I2 G].
  destruct (target_element _ _ _ _ _ I Hot) as (t & Ht & Hp).
  assert (oname' = oname) as ->.
  { destruct Hst as (u & l & Hu & Hdu), Hst' as (u' & l' & Hu' & Hdu'). apply element_heap in Hu, Hu'. congruence. }
  rewrite (option_is_spec _ _ t q' I2 (ext_heap_at _ _ _ _ _ G Ht) Hp), (scope_later _ _ _ _ G Ht).
  inversion Hot as [x' d' a f u Hx' Hd' Hf Hu Hpu Hfe|x' ct f Hx' Hno]; subst; apply refers_strip in Hx';
    rewrite (refers_strip _ _ Hx) in Hx'; subst x'; [|by apply Hno in Hd].
  rewrite (denotes_fun _ _ _ _ _ Hd Hd') in *. rewrite (field_scope _ _ _ _ _ Hs Hf) by done.
  f_equal. destruct (String.eqb_spec d q') as [->|H]; [by rewrite bool_decide_true|rewrite bool_decide_false; congruence].
Qed.

(** ** C35 *)

(** If the name denotes nothing in the scope of the annotated node, the option is the field of the
    options message with that name. *)
Theorem C35_predefined_option s comps class cn ca q o oname x q' {A} (c : R A) :
  calm s -> found s cn (NAst KMessage ca class) -> about s comps class q o -> statement s q oname ->
  refers_to oname x -> (forall d, ~ denotes s comps x d) -> client Loads c ->
  (option_is o q' (c s).2).1 = Ret (bool_decide (q' = cn +:+ "." +:+ oname)) /\
  (option_name o (c s).2).1 = Ret ("(" +:+ cn +:+ ")." +:+ oname).
Proof.
  intros Hs Hf Ha Hst Hx Hno Hc. pose proof (reachable_Inv _ (calm_reachable _ Hs)) as I.
  pose proof Ha as (Hq & Hcl & oname' & Hst' & Hot).
  destruct (client_step _ _ Hc I) as [I2 G].
  destruct (target_element _ _ _ _ _ I Hot) as (t & Ht & Hp).
  assert (oname' = oname) as ->.
  { destruct Hst as (u & l & Hu & Hdu), Hst' as (u' & l' & Hu' & Hdu'). apply element_heap in Hu, Hu'. congruence. }
  inversion Hot as [x' d' a f u Hx' Hd' Hff Hu Hpu Hfe|x' ct f Hx' Hno' Hct Hh Hfe];
    apply refers_strip in Hx'; rewrite (refers_strip _ _ Hx) in Hx'; subst x'; [by apply Hno in Hd'|].
  destruct (class_field_scope _ _ _ _ _ _ _ Hs Hf (element_heap _ _ _ Hct) Hh) as [Hsc [i Hi]].
  split.
  - rewrite (option_is_spec _ _ t q' I2 (ext_heap_at _ _ _ _ _ G Ht) Hp), (scope_later _ _ _ _ G Ht), Hsc.
    f_equal. destruct (String.eqb_spec (cn +:+ "." +:+ oname) q') as [->|H];
      [by rewrite bool_decide_true|rewrite bool_decide_false; congruence].
  - assert (exists typ num rep opt, t_data t = DNormalField oname typ num rep opt) as (typ & num & rep & opt & Hd).
    { assert (Hin : o_field o ∈ children (plain_field_named oname) class ct).
      { destruct (children _ class ct); [done|]. injection Hh as ->. constructor. }
      unfold children in Hin. apply elem_of_list_fmap in Hin as (b & Hb1 & Hb).
      apply elem_of_list_In, filter_In in Hb as [Hb Hsel].
      assert (b.2 = t) as Hbt.
      { pose proof (kids_heap s class ct b (element_heap _ _ _ Hct) (proj2 (elem_of_list_In _ _) Hb)). congruence. }
      rewrite Hbt in Hsel. destruct (t_data t); try done. cbn in Hsel. apply String.eqb_eq in Hsel as ->. eauto. }
    eapply C33_name_predefined; [exact Hs|exact Ha|exact Hf|exact Hi|by apply heap_element|exact Hd|exact Hc].
Qed.

(** *** Examples and refutations for C33 - C35 *)

Lemma denotes_nothing s comps x : Inv s -> has_prefix x "." = false ->
  forallb (fun j => negb (defined (names s) (dotted (take j comps) +:+ "." +:+ x))) (List.seq 0 (S (length comps))) = true ->
  forall d, ~ denotes s comps x d.
Proof.
  intros I Hp H d [Hf [[Ha _]|(_ & k & Hk & -> & _)]].
  - by apply prefix_dot_false in Hp.
  - rewrite List.forallb_forall in H. specialize (H k).
    apply (found_names _ _ I), defined_names in Hf. rewrite Hf in H. cbn [negb] in H.
    assert (false = true); [|done]. apply H, in_seq. lia.
Qed.
Lemma denotes_at s comps x k : Inv s -> has_prefix x "." = false -> k <= length comps ->
  defined (names s) (dotted (take k comps) +:+ "." +:+ x) = true ->
  forallb (fun j => negb (defined (names s) (dotted (take j comps) +:+ "." +:+ x))) (List.seq (S k) (length comps - k)) = true ->
  denotes s comps x (dotted (take k comps) +:+ "." +:+ x).
Proof.
  intros I Hp Hk Hd H. split; [by apply (found_names _ _ I), defined_names|]. right.
  split; [by apply prefix_dot_false|]. exists k. split; [done|]. split; [done|]. intros j H1 H2.
  apply (unknown_names _ _ I), defined_names_false. rewrite List.forallb_forall in H. specialize (H j).
  apply negb_true_iff, H, in_seq. lia.
Qed.

(** the two options of data.proto: go_package and (pb.file_tag) *)
Example C33_example :
  exists t, let n := NAst KFile 0 (1, []) in
  calm demo_world /\ points_to demo_world (1, []) n /\ element_at demo_world (1, []) t /\
  options_message (t_data t) = Some ".google.protobuf.FileOptions" /\
  found demo_world ".google.protobuf.FileOptions" (NAst KMessage 1 (0, [2])) /\
  options_scope demo_world n ["pb"] /\
  children an_option (1, []) t = [(1, [2]); (1, [5])] /\
  statement demo_world (1, [2]) "go_package" /\ statement demo_world (1, [5]) "(pb.file_tag)" /\
  option_target demo_world ["pb"] (0, [2]) "go_package" (0, [1; 2]) /\
  option_target demo_world ["pb"] (0, [2]) "(pb.file_tag)" (2, [0; 5]) /\
  denotes demo_world ["pb"] "pb.file_tag" ".pb.file_tag" /\
  (forall d, ~ denotes demo_world ["pb"] "go_package" d).
Proof.
  assert (I : Inv demo_world) by (apply reachable_Inv, demo_reachable).
  assert (Hd : denotes demo_world ["pb"] "pb.file_tag" ".pb.file_tag").
  { apply (denotes_at demo_world ["pb"] "pb.file_tag" 0 I); [reflexivity|cbn; lia| |]; vm_compute; reflexivity. }
  assert (Hn : forall d, ~ denotes demo_world ["pb"] "go_package" d).
  { apply denotes_nothing; [done|reflexivity|vm_compute; reflexivity]. }
  exists (file_tree dat_f data_elems).
  assert (Ht : element_at demo_world (1, []) (file_tree dat_f data_elems)) by (apply demo_element; vm_compute; reflexivity).
  split; [apply demo_calm|]. split; [split; [done|]; exists (file_tree dat_f data_elems); done|]. split; [done|].
  split; [reflexivity|]. split; [unfold found; vm_compute; reflexivity|].
  split; [split; [apply idents; reflexivity|]; exists "pb"; split; [vm_compute; reflexivity|right; reflexivity]|].
  split; [reflexivity|].
  split; [eexists _, _; split; [apply demo_element; vm_compute; reflexivity|reflexivity]|].
  split; [eexists _, _; split; [apply demo_element; vm_compute; reflexivity|reflexivity]|].
  split; [eapply ot_predefined; [apply ref_plain; reflexivity|done|apply demo_element; vm_compute; reflexivity|vm_compute; reflexivity]|].
  split; [|done].
  eapply ot_denoted; [apply (ref_custom "pb.file_tag"); reflexivity|exact Hd|unfold found; vm_compute; reflexivity| |].
  - apply demo_element; vm_compute; reflexivity.
  - exact Logic.I.
Qed.

(** The options of an enum value are looked up from the root scope, because NodeIndex of an enum value
    is empty: an extension of the same package, used without the package name, is not found.

      package p; extend google.protobuf.EnumValueOptions { bool flag = 50000; }
      enum E { A = 0 [(flag) = true]; B = 1 [(p.flag) = true]; } *)
Definition ev_f := "ev.proto".
Definition ev_elems : list tree :=
  [ el ev_f 1 (DSyntax "proto3") []; el ev_f 2 (DPackage "p") []; el ev_f 3 (DImport desc_f) [];
    extb ev_f 4 "google.protobuf.EnumValueOptions" [ fld ev_f 5 "bool" "flag" 50000 ];
    el ev_f 6 (DEnum "E")
      [ el ev_f 7 (DEnumField "A" 0) [ opt ev_f 7 "(flag)" "true" ];
        el ev_f 8 (DEnumField "B" 1) [ opt ev_f 8 "(p.flag)" "true" ] ];
    extb ev_f 10 "google.protobuf.MessageOptions" [ fld ev_f 11 "bool" "flag2" 50000 ];
    msg ev_f 12 "M" [ opt ev_f 13 "(flag2)" "true" ] ].
Definition ev_files := (std_files ++ [(ev_f, ev_elems)])%list.
Definition ev_world : registry := world ev_files [ev_f].

Theorem C34_enum_value_scope_refuted :
  calm ev_world /\ unique_names ev_world /\
  denotes ev_world ["p"; "E"; "A"] "flag" ".p.flag" /\
  statement ev_world (1, [0; 0; 4]) "(flag)" /\
  (exists msg, ((sq <~ options (NAst KEnumValue 0 (1, [0; 4])) ;; collect sq) ev_world).1 = Panic msg) /\
  (exists o, ((sq <~ options (NAst KEnumValue 0 (1, [1; 4])) ;; collect sq) ev_world).1 = Ret [o] /\
     (option_is o ".p.flag" ev_world).1 = Ret true) /\
  (** the same use of a name is fine in a message *)
  (exists o, ((sq <~ options (NAst KMessage 0 (1, [6])) ;; collect sq) ev_world).1 = Ret [o] /\
     (option_is o ".p.flag2" ev_world).1 = Ret true).
Proof.
  assert (Hc : calm ev_world) by (apply world_calm; vm_compute; reflexivity).
  assert (I : Inv ev_world) by (apply reachable_Inv, world_reachable; vm_compute; reflexivity).
  split; [done|]. split; [apply check_unique_ok; vm_compute; reflexivity|].
  split. { apply (denotes_at ev_world ["p"; "E"; "A"] "flag" 1 I); [reflexivity|cbn; lia| |]; vm_compute; reflexivity. }
  split. { eexists _, _. split; [apply heap_element; [done|vm_compute; reflexivity]|reflexivity]. }
  split; [eexists; vm_compute; reflexivity|].
  split; eexists; (split; [vm_compute; reflexivity|vm_compute; reflexivity]).
Qed.

(** A predefined option is shadowed by a declaration of the schema: the names of options without
    parentheses are looked up in the scope of the annotated node, too.

      package p;
      message M { option deprecated = true; bool deprecated = 1; string s = 2 [deprecated = true]; }
      message N { option deprecated = true; message deprecated {} } *)
Definition sh_f := "shadow.proto".
Definition sh_elems : list tree :=
  [ el sh_f 1 (DSyntax "proto3") []; el sh_f 2 (DPackage "p") [];
    msg sh_f 4 "M" [ opt sh_f 5 "deprecated" "true"; fld sh_f 6 "bool" "deprecated" 1;
                     el sh_f 7 (DNormalField "s" "string" 2 false false) [ opt sh_f 7 "deprecated" "true" ] ];
    msg sh_f 9 "N" [ opt sh_f 10 "deprecated" "true"; msg sh_f 11 "deprecated" [] ] ].
Definition sh_world : registry := world (std_files ++ [(sh_f, sh_elems)])%list [sh_f].

Theorem C35_shadowed_refuted :
  calm sh_world /\ unique_names sh_world /\ packages_first sh_world /\
  statement sh_world (1, [0; 2]) "deprecated" /\
  (exists o, ((sq <~ options (NAst KMessage 0 (1, [2])) ;; collect sq) sh_world).1 = Ret [o] /\
     (option_is o ".google.protobuf.MessageOptions.deprecated" sh_world).1 = Ret false /\
     (option_is o ".p.M.deprecated" sh_world).1 = Ret true) /\
  (exists o, ((sq <~ options (NAst KField 0 (1, [2; 2])) ;; collect sq) sh_world).1 = Ret [o] /\
     (option_is o ".google.protobuf.FieldOptions.deprecated" sh_world).1 = Ret false /\
     (option_is o ".p.M.deprecated" sh_world).1 = Ret true) /\
  (exists msg, ((sq <~ options (NAst KMessage 0 (1, [3])) ;; collect sq) sh_world).1 = Panic msg).
Proof.
  assert (Hc : calm sh_world) by (apply world_calm; vm_compute; reflexivity).
  assert (I : Inv sh_world) by (apply reachable_Inv, world_reachable; vm_compute; reflexivity).
  split; [done|]. split; [apply check_unique_ok; vm_compute; reflexivity|].
  split; [apply check_packages_ok; vm_compute; reflexivity|].
  split. { eexists _, _. split; [apply heap_element; [done|vm_compute; reflexivity]|reflexivity]. }
  split; [eexists; split; [vm_compute; reflexivity|split; [vm_compute; reflexivity|vm_compute; reflexivity]]|].
  split; [eexists; split; [vm_compute; reflexivity|split; [vm_compute; reflexivity|vm_compute; reflexivity]]|].
  eexists; vm_compute; reflexivity.
Qed.

(** ** C36 *)

(** The statements with exactly this name. *)
Definition option_statement (name : string) (d : data) : bool :=
  match d with DOption n _ => String.eqb n name | _ => false end.

(** OptionNamed on every optionable node but a plain message field: the option of the first statement
    with exactly that name (about it in the sense of C33), nil if there is none, a panic if its name
    stands for no field, with the value [option_complaint] says. *)
Theorem C36_option_named s n k a p t cn ca class comps name x :
  reachable s -> n = NAst k a p -> points_to s p n -> element_at s p t -> options_message (t_data t) = Some cn ->
  found s cn (NAst KMessage ca class) -> options_scope s n comps -> ~ plain_field (t_data t) -> refers_to name x ->
  match head (children (option_statement name) p t) with
  | None => (option_named n name s).1 = Ret None
  | Some q =>
      (exists o, (option_named n name s).1 = Ret (Some o) /\ about s comps class q o) \/
      ((forall f, ~ option_target s comps class name f) /\
       exists msg, (option_named n name s).1 = Panic msg /\ option_complaint s comps name msg)
  end.
Proof.
  intros Hs Hn Hp Ht Hcn Hf Hsc Hpl Hx. pose proof (reachable_Inv _ Hs) as I.
  destruct (option_class_found _ _ _ _ I Hf) as [Hcl [ct Hct]]. apply element_heap in Ht as Ht'.
  assert (exists sc, Forall ident comps /\ scope_text comps sc /\ option_named n name s = named_option name sc cn p s)
    as (sc & Hid & Htx & ->).
  { subst n. apply points_ast in Hp as (_ & u & Hu%element_heap & Hk). assert (u = t) as -> by congruence.
    destruct k.
    all: try (exfalso; destruct Hk as [Hk|(Hk & nm & Hd)];
      [destruct (t_data t); try discriminate Hk; discriminate Hcn|discriminate Hk]; fail).
    { exists (package_of (t_kids t)).
      assert (Hfp : file_package p s = (Ret (package_of (t_kids t)), s)).
      { unfold file_package. by rewrite (rbind_val _ _ _ _ _ (deref_ok _ _ _ Ht')). }
      destruct (options_scope_text s (NAst KFile a p) comps (package_of (t_kids t)) Hsc) as [H1 H2];
        [by rewrite Hfp|done|]. split; [done|]. split; [done|].
      unfold option_named. rewrite rbind_get, (rbind_val _ _ _ _ _ Hfp).
      destruct Hk as [Hk|[? _]]; [|done]. destruct (t_data t); try discriminate Hk. by injection Hcn as <-. }
    all: exists (scope_of s (VPtr p));
      destruct (options_scope_text s _ comps (scope_of s (VPtr p)) Hsc) as [H1 H2]; [done|done|];
      split; [done|]; split; [done|]; unfold option_named; rewrite rbind_get;
      try (rewrite (rbind_val _ _ _ _ _ (deref_ok _ _ _ Ht')));
      destruct Hk as [Hk|(? & nm & Hd)]; try done;
      try (rewrite Hd in Hcn; by injection Hcn as <-);
      destruct (t_data t); try discriminate Hk; try done; by injection Hcn as <-. }
  unfold named_option. rewrite (rbind_val _ _ _ _ _ Hcl), (rbind_val _ _ _ _ _ (kids_of_ok _ _ _ Ht')).
  pose proof (find_kid_head (option_statement name) (kids_at p t)) as Hfk.
  change (map fst (List.filter (fun b => option_statement name (t_data b.2)) (kids_at p t)))
    with (children (option_statement name) p t) in Hfk.
  change (find_kid (fun d => match d with DOption n0 _ => String.eqb n0 name | _ => false end) (kids_at p t))
    with (find_kid (option_statement name) (kids_at p t)).
  rewrite Hfk. destruct (head (children (option_statement name) p t)) as [q|] eqn:Hh; [|done].
  assert (Hin : q ∈ children (option_statement name) p t).
  { destruct (children _ p t); [done|]. injection Hh as ->. constructor. }
  unfold children in Hin. apply elem_of_list_fmap in Hin as (b & -> & Hb).
  apply elem_of_list_In, filter_In in Hb as [Hb Hsel].
  assert (Hbt : heap_at s b.1 = Some b.2) by (apply (kids_heap _ p t); [done|by apply elem_of_list_In]).
  destruct (t_data b.2) as [| | | | |nm lit| | | | | | | | | | | | |] eqn:Hd; try discriminate Hsel.
  cbn in Hsel. apply String.eqb_eq in Hsel as ->.
  destruct (new_option_spec s sc comps class ct b.1 b.2 name lit x I Hid Htx Hct Hbt Hd Hx)
    as [(f & o & s' & Hot & E & _)|[Hno (msg & E & Hsay)]].
  - left. rewrite (rbind_val _ _ _ _ _ E). eexists. split; [reflexivity|]. split; [done|]. split; [done|].
    exists name. split; [|done]. exists b.2, lit. split; [by apply heap_element|done].
  - right. split; [done|]. exists msg. split; [|done]. unfold rbind.
    destruct (new_option sc class b.1 s) as [r s2]. cbn in E. by subst r.
Qed.

(** On a plain message field OptionNamed always panics. *)
Theorem C36_plain_field_panics s a p t name :
  reachable s -> element_at s p t -> plain_field (t_data t) ->
  exists msg, (option_named (NAst KField a p) name s).1 = Panic msg.
Proof.
  intros Hs Ht%element_heap Hp. unfold option_named. rewrite rbind_get, (rbind_val _ _ _ _ _ (deref_ok _ _ _ Ht)).
  destruct (t_data t); try done. eexists. reflexivity.
Qed.

(** In particular: a field with an option, which Options sees and OptionNamed does not. *)
Theorem C36_fields_refuted :
  calm demo_world /\ statement demo_world (1, [0; 1; 6]) "(pb.field_tag)" /\
  (exists o, ((sq <~ options (NAst KField 0 (1, [1; 6])) ;; collect sq) demo_world).1 = Ret [o] /\
     (option_name o demo_world).1 = Ret "(pb.field_tag)") /\
  exists msg, (option_named (NAst KField 0 (1, [1; 6])) "(pb.field_tag)" demo_world).1 = Panic msg.
Proof.
  split; [apply demo_calm|].
  split. { eexists _, _. split; [apply demo_element; vm_compute; reflexivity|reflexivity]. }
  split; [eexists; split; [vm_compute; reflexivity|]; vm_compute; reflexivity|]. eexists; vm_compute; reflexivity.
Qed.

(** The name is that of the statement, not Option.Name: an option of the options message is not found
    by its Name(). *)
Theorem C36_by_own_name_refuted :
  calm demo_world /\
  exists o l nm, ((sq <~ options (NAst KFile 0 (1, [])) ;; collect sq) demo_world).1 = Ret (o :: l) /\
    (option_name o demo_world).1 = Ret nm /\
    (option_named (NAst KFile 0 (1, [])) nm demo_world).1 = Ret None /\
    exists o', (option_named (NAst KFile 0 (1, [])) "go_package" demo_world).1 = Ret (Some o') /\ o_proto o' = o_proto o.
Proof.
  split; [apply demo_calm|]. eexists _, _, _. split; [vm_compute; reflexivity|]. split; [vm_compute; reflexivity|].
  split; [vm_compute; reflexivity|]. eexists. split; [vm_compute; reflexivity|vm_compute; reflexivity].
Qed.

Example C36_example :
  exists t, let n := NAst KFile 0 (1, []) in
  reachable demo_world /\ points_to demo_world (1, []) n /\ element_at demo_world (1, []) t /\
  options_message (t_data t) = Some ".google.protobuf.FileOptions" /\ ~ plain_field (t_data t) /\
  head (children (option_statement "(pb.file_tag)") (1, []) t) = Some (1, [5]) /\
  head (children (option_statement "nope") (1, []) t) = None /\
  refers_to "(pb.file_tag)" "pb.file_tag".
Proof.
  exists (file_tree dat_f data_elems). split; [apply demo_reachable|].
  assert (Ht : element_at demo_world (1, []) (file_tree dat_f data_elems)) by (apply demo_element; vm_compute; reflexivity).
  split; [split; [done|]; exists (file_tree dat_f data_elems); done|]. split; [done|]. split; [done|].
  split; [exact (fun x => x)|]. split; [reflexivity|]. split; [reflexivity|]. by apply (ref_custom "pb.file_tag").
Qed.

