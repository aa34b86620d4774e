(** * Theorems on Everything and Method.Options: C31, C37. *)
From Verif Require Export ThmOptions.

(** What Everything yields for the child at [q]: an Option for an option statement, its name looked up
    in the root scope, the node representing other elements, and nil for elements without a node. *)
Definition yields (s : registry) (class q : ptr) (x : option node) : Prop :=
  exists t, element_at s q t /\
    if an_option (t_data t) then exists o, x = Some (NOption o) /\ about s [] class q o
    else match represented_by (t_data t) with
         | Some k => exists a, x = Some (NAst k a q)
         | None => x = None
         end.
(** The descriptor message of the options among the elements of a file, message, enum or service. *)
Inductive everything_at (s : registry) (p : ptr) (cn : string) : seq (option node) -> Prop :=
| ev_file t path : element_at s p t -> t_data t = DProto path ->
    cn = ".google.protobuf.FileOptions" -> everything_at s p cn (file_everything p)
| ev_message t name ext : element_at s p t -> t_data t = DMessage name ext ->
    cn = ".google.protobuf.MessageOptions" -> everything_at s p cn (message_everything p)
| ev_enum t name : element_at s p t -> t_data t = DEnum name ->
    cn = ".google.protobuf.EnumOptions" -> everything_at s p cn (enum_everything p)
| ev_service t name : element_at s p t -> t_data t = DService name ->
    cn = ".google.protobuf.ServiceOptions" -> everything_at s p cn (service_everything p).
Definition everyone (d : data) : bool := true.

(** ** Proofs *)

Lemma option_scope_empty s q t : Inv s -> heap_at s q = Some t -> an_option (t_data t) = true ->
  scope_of s (VPtr q) = "".
Proof.
  intros [S _] Ht Ho. unfold scope_of. destruct (scopes s !! VPtr q) as [sc|] eqn:Hs; [|done].
  exfalso. unfold heap_at in Ht. destruct (sc_scopes _ S _ _ Hs) as (f & Hf & Hg). rewrite Hf in Ht.
  destruct Hg as [[Hnil _]|(Hq & _)].
  - rewrite Hnil in Ht. injection Ht as <-. destruct (sc_heap _ S _ _ Hf) as (path & els & -> & _). discriminate Ho.
  - unfold fqn_here in Hq. rewrite Ht in Hq. by destruct (t_data t).
Qed.
Lemma wrap_option_root s q t class : Inv s -> heap_at s q = Some t -> an_option (t_data t) = true ->
  wrap_option q class s = new_option "" class q s.
Proof. intros I Ht Ho. unfold wrap_option. by rewrite rbind_get, (option_scope_empty _ _ _ I Ht Ho). Qed.

Lemma root_scope : Forall ident [] /\ scope_text [] "".
Proof. split; [constructor|by left]. Qed.

Lemma class_quiet s s' cn ca class : Inv s -> Inv s' -> quiet s s' -> found s cn (NAst KMessage ca class) ->
  option_class cn s' = (Ret class, s').
Proof.
  intros I I' Q Hf. destruct (found_at _ _ _ _ _ I Hf) as (Hn & ct & Hct & Hk).
  unfold option_class. rewrite rbind_get, (q_names _ _ Q), Hn.
  rewrite <- (quiet_heap_at _ _ class Q) in Hct. rewrite (rbind_val _ _ _ _ _ (deref_ok _ _ _ Hct)).
  by destruct (t_data ct).
Qed.

Lemma root_option {A} s0 cn ca class b s x s' (k : optn -> A) :
  Inv s0 -> found s0 cn (NAst KMessage ca class) -> heap_at s0 b.1 = Some b.2 -> an_option (t_data b.2) = true ->
  well_named s0 b.1 -> Inv s -> quiet s0 s ->
  (cl <~ option_class cn ;; o <~ wrap_option b.1 cl ;; ret (Some (k o))) s = (x, s') ->
  (exists o, x = Ret (Some (k o)) /\ quiet s s' /\ Inv s' /\ about s0 [] class b.1 o) \/
  ((forall oname f, statement s0 b.1 oname -> ~ option_target s0 [] class oname f) /\
   exists msg, x = Panic msg /\ exists oname, statement s0 b.1 oname /\ option_complaint s0 [] oname msg).
Proof.
  intros I0 Hf Hb Ho Hw I Q E. rewrite (rbind_val _ _ _ _ _ (class_quiet _ _ _ _ _ I0 I Q Hf)) in E.
  destruct root_scope as [Hid Htx]. destruct (option_class_found _ _ _ _ I0 Hf) as [_ [ct Hct]].
  destruct (pick_option "" class b s) as [y s1] eqn:Ep.
  assert (Hbs : heap_at s b.1 = Some b.2) by (by rewrite (quiet_heap_at _ _ _ Q)).
  unfold pick_option in Ep. replace (is_option (t_data b.2)) with true in Ep by (by destruct (t_data b.2)).
  assert (Ep' : pick_option "" class b s = (y, s1)).
  { unfold pick_option. by replace (is_option (t_data b.2)) with true by (by destruct (t_data b.2)). }
  unfold rbind at 1 in E. rewrite (wrap_option_root _ _ _ _ I Hbs Ho) in E. unfold rbind in Ep.
  destruct (option_pick s0 "" [] class ct b s y s1 I0 Hid Htx Hct Hb Ho Hw I Q Ep') as [(o & -> & Q1 & I1 & Ha)|[Hno (msg & onm & -> & Hst & Hoc)]].
  - left. exists o. destruct (new_option "" class b.1 s) as [[o'|m|] s2]; try discriminate Ep.
    injection Ep as -> <-. injection E as <- <-. done.
  - right. split; [done|]. exists msg. split; [|by exists onm].
    destruct (new_option "" class b.1 s) as [[o'|m|] s2]; try discriminate Ep. congruence.
Qed.

Lemma any_child s0 cn ca class b s x s' :
  Inv s0 -> (an_option (t_data b.2) = true -> found s0 cn (NAst KMessage ca class) /\ well_named s0 b.1) ->
  heap_at s0 b.1 = Some b.2 -> Inv s -> quiet s0 s -> pick_any cn b s = (Ret x, s') ->
  exists y, x = Some y /\ quiet s s' /\ Inv s' /\ yields s0 class b.1 y.
Proof.
  intros I0 Hopt Hb I Q E. unfold pick_any in E.
  pose proof (inv_step_ret _ _ _ _ (inv_pick_any cn b) I E) as Hs'.
  destruct (an_option (t_data b.2)) eqn:Ho.
  - replace (is_option (t_data b.2)) with true in E by (by destruct (t_data b.2)).
    destruct (Hopt eq_refl) as [Hf Hw].
    destruct (root_option s0 cn ca class b s (Ret x) s' (fun o => Some (NOption o)) I0 Hf Hb Ho Hw I Q E)
      as [(o & [= ->] & Q1 & I1 & Ha)|[_ (msg & ? & _)]]; [|done].
    eexists. split; [reflexivity|]. split; [done|]. split; [done|].
    exists b.2. split; [by apply heap_element|]. rewrite Ho. eauto.
  - replace (is_option (t_data b.2)) with false in E by (by destruct (t_data b.2)).
    apply rbind_Ret in E as (w & s1 & E1 & E2). injection E2 as <- <-. exists w. split; [done|].
    pose proof (quiet_wrap (VPtr b.1) s) as Qw. rewrite E1 in Qw. cbn in Qw. split; [done|].
    split; [apply Hs'; unfold pick_any; replace (is_option (t_data b.2)) with false by (by destruct (t_data b.2));
      by rewrite (rbind_val _ _ _ _ _ E1)|].
    exists b.2. split; [by apply heap_element|]. rewrite Ho, represented_wrap.
    assert (Hbs : heap_at s b.1 = Some b.2) by (by rewrite (quiet_heap_at _ _ _ Q)).
    destruct I as [S N]. destruct (wrap_kind (t_data b.2)) as [k|] eqn:Hk.
    + destruct (wrap_ok s b.1 b.2 k N Hbs Hk) as (a & s2 & E & _). rewrite E in E1. injection E1 as <- _. eauto.
    + destruct w as [n|]; [|done]. exfalso.
      destruct (wrap_ret _ _ _ _ N E1) as (p & k & a & u & Hv & -> & Hu & Hk' & _).
      injection Hv as <-. assert (u = b.2) as -> by congruence. congruence.
Qed.
Lemma everything_iter s p cn sq : everything_at s p cn sq -> sq = iter_kids p (pick_any cn).
Proof. by destruct 1; subst. Qed.
Lemma everything_child p t b : b ∈ kids_at p t -> b.1 ∈ children everyone p t.
Proof.
  intros H. unfold children. apply elem_of_list_fmap. exists b. split; [done|].
  apply elem_of_list_In, filter_In. split; [by apply elem_of_list_In|done].
Qed.

(** ** C31 *)

(** A loop over Everything (with a body that only queries) sees, for the children in source order:
    for an option statement an Option, for every other element the node that represents it, nil if
    none does.  If it never stops early it sees all children. *)
Theorem C31_everything_loop {C} s p t cn ca class sq (c : C) body c' l s' :
  reachable s -> everything_at s p cn sq -> element_at s p t ->
  (forall q, q ∈ children an_option p t -> found s cn (NAst KMessage ca class) /\ well_named s q) ->
  (forall c x, client Queries (body c x)) ->
  sq (C * list (option node))%type (c, []) (recording body) s = (Ret (c', l), s') ->
  Forall2 (yields s class) (take (length l) (children everyone p t)) l /\
  ((forall c x s c' s', body c x s <> (Ret (c', false), s')) -> length l = length (children everyone p t)).
Proof.
  intros Hs Hsq Ht Hopt Hb El. pose proof (reachable_Inv _ Hs) as I. apply element_heap in Ht as Ht'.
  rewrite (everything_iter _ _ _ _ Hsq) in El. unfold iter_kids in El.
  rewrite (rbind_val _ _ _ _ _ (kids_of_ok _ _ _ Ht')) in El.
  destruct (query_loop everyone (yields s class) (pick_any cn) s (kids_at p t) body) with (c := c)
    (l0 := @nil (option node)) (s := s) (c' := c') (l := l) (s' := s')
    as (l1 & -> & H1 & H2); [done| |exact Hb|done|apply quiet_refl|exact El|].
  - intros b s1 x s2 Hbk I1 Q1 _ Ep. eapply any_child; [exact I| |by eapply kids_heap|exact I1|exact Q1|exact Ep].
    intros Ho. apply Hopt. exact (kid_statement _ _ _ _ I Ht' Hbk Ho).
  - cbn [app]. split; [exact H1|]. intros H. unfold children. rewrite map_length. by apply H2.
Qed.

(** If every element is represented by a node or is an option statement whose name stands for a field
    in the root scope, collecting Everything succeeds and gives one non-nil node per element. *)
Theorem C31_everything s p t cn ca class sq :
  reachable s -> everything_at s p cn sq -> element_at s p t ->
  (forall q u, q ∈ children everyone p t -> element_at s q u ->
     if an_option (t_data u)
     then found s cn (NAst KMessage ca class) /\ exists oname f, statement s q oname /\ option_target s [] class oname f
     else represented_by (t_data u) <> None) ->
  exists l, (collect sq s).1 = Ret (map Some l) /\
    Forall2 (yields s class) (children everyone p t) (map Some l).
Proof.
  intros Hs Hsq Ht Hall. pose proof (reachable_Inv _ Hs) as I. apply element_heap in Ht as Ht'.
  destruct (collect_all everyone (fun q x => yields s class q x /\ is_Some x) (pick_any cn) s (kids_at p t))
    with (l0 := @nil (option node)) (s := s) as (l & s' & El & _ & _ & Hl); [done| |done|apply quiet_refl|].
  - intros b s1 Hb I1 Q1 _. pose proof (kids_heap _ _ _ _ Ht' Hb) as Hbt.
    specialize (Hall b.1 b.2 (everything_child _ _ _ Hb) (heap_element _ _ _ I Hbt)).
    assert (Hopt : an_option (t_data b.2) = true -> found s cn (NAst KMessage ca class) /\ well_named s b.1).
    { intros Ho. rewrite Ho in Hall. destruct Hall as [Hf Hst]. split; [done|]. by eapply target_named. }
    assert (exists x s', pick_any cn b s1 = (Ret (Some (Some x)), s')) as (x & s2 & E).
    { unfold pick_any. destruct (an_option (t_data b.2)) eqn:Ho.
      - replace (is_option (t_data b.2)) with true by (by destruct (t_data b.2)).
        destruct (Hopt eq_refl) as [Hf Hw].
        destruct ((cl <~ option_class cn ;; o <~ wrap_option b.1 cl ;; ret (Some (Some (NOption o)))) s1) as [x s2] eqn:E.
        destruct (root_option s cn ca class b s1 x s2 (fun o => Some (NOption o)) I Hf Hbt Ho Hw I1 Q1 E)
          as [(o & -> & _)|[Hno _]]; [eauto|].
        destruct Hall as (_ & oname & f & H1 & H2). by apply (Hno _ _ H1) in H2.
      - replace (is_option (t_data b.2)) with false by (by destruct (t_data b.2)).
        rewrite represented_wrap in Hall. destruct (wrap_kind (t_data b.2)) as [k|] eqn:Hk; [|done].
        destruct (wrap_ok s1 b.1 b.2 k (proj2 I1)) as (a & s2 & E & _); [by rewrite (quiet_heap_at _ _ _ Q1)|done|].
        rewrite (rbind_val _ _ _ _ _ E). eauto. }
    exists (Some x), s2. split; [done|].
    destruct (any_child s cn ca class b s1 _ s2 I Hopt Hbt I1 Q1 E) as (y & [= <-] & Q2 & I2 & Hy). eauto.
  - assert (exists l', l = map Some l') as [l' ->].
    { clear El. induction Hl as [|q x qs xs [_ [y ->]] _ [l' ->]]; [by exists []|]. by exists (y :: l'). }
    exists l'. split.
    + unfold collect. rewrite (everything_iter _ _ _ _ Hsq). unfold iter_kids.
      by rewrite (rbind_val _ _ _ _ _ (kids_of_ok _ _ _ Ht')), El.
    + eapply Forall2_impl; [exact Hl|]. by intros q x [H _].
Qed.

(** pb.Enum has one option, with its full name, and three values *)
Example C31_example :
  exists t, reachable demo_world /\
  everything_at demo_world (1, [9]) ".google.protobuf.EnumOptions" (enum_everything (1, [9])) /\
  element_at demo_world (1, [9]) t /\ length (children everyone (1, [9]) t) = 4 /\
  (forall q u, q ∈ children everyone (1, [9]) t -> element_at demo_world q u ->
     if an_option (t_data u)
     then found demo_world ".google.protobuf.EnumOptions" (NAst KMessage 1 (0, [6])) /\
       exists oname f, statement demo_world q oname /\ option_target demo_world [] (0, [6]) oname f
     else represented_by (t_data u) <> None) /\
  exists l, (collect (enum_everything (1, [9])) demo_world).1 = Ret (map Some l) /\ length l = 4.
Proof.
  assert (I : Inv demo_world) by (apply reachable_Inv, demo_reachable).
  eexists. split; [apply demo_reachable|].
  assert (Ht : element_at demo_world (1, [9]) (default (file_tree "" []) (heap_at demo_world (1, [9]))))
    by (apply demo_element; vm_compute; reflexivity).
  split; [eapply ev_enum; [exact Ht|vm_compute; reflexivity|reflexivity]|]. split; [exact Ht|].
  split; [vm_compute; reflexivity|]. split.
  - intros q u Hq Hu.
    assert (q ∈ [(1, [0; 9]); (1, [1; 9]); (1, [2; 9]); (1, [3; 9])]) as Hq'.
    { revert Hq. generalize q. clear. intros q. vm_compute. exact (fun x => x). }
    clear Hq. apply element_heap in Hu as Hu'.
    apply elem_of_cons in Hq' as [->|Hq'].
    2: { clear Hu.
      repeat (apply elem_of_cons in Hq' as [->|Hq']); [| | |exfalso; exact (not_elem_of_nil _ Hq')];
      vm_compute in Hu'; injection Hu' as <-; cbn [t_data an_option represented_by]; discriminate. }
    vm_compute in Hu'; injection Hu' as <-; cbn [t_data an_option represented_by].
    split; [unfold found; vm_compute; reflexivity|]. eexists _, (2, [0; 8]). split; [eexists _, _; split; [exact Hu|reflexivity]|].
    assert (Hd : denotes demo_world [] "pb.enum_tag" ".pb.enum_tag").
    { apply (denotes_at demo_world [] "pb.enum_tag" 0 I); [reflexivity|cbn; lia| |]; vm_compute; reflexivity. }
    eapply ot_denoted; [apply (ref_custom "pb.enum_tag"); reflexivity|exact Hd|unfold found; vm_compute; reflexivity| |].
    + apply demo_element; vm_compute; reflexivity.
    + exact Logic.I.
  - assert (exists l, (collect (enum_everything (1, [9])) demo_world).1 = Ret l /\ length l = 4 /\
      forallb (fun x => match x with Some _ => true | None => false end) l = true) as (l & H1 & H2 & H3).
    { eexists. split; [vm_compute; reflexivity|]. split; reflexivity. }
    assert (exists l', l = map Some l') as [l' ->].
    { clear H1 H2. induction l as [|[x|] l IH]; [by exists []| |done]. destruct (IH H3) as [l' ->]. by exists (x :: l'). }
    exists l'. split; [done|]. by rewrite map_length in H2.
Qed.

(** A comment among the elements makes Everything panic; if the panic is recovered the next run
    yields a nil node for it.

      syntax = "proto3"; package c;
      // about M, detached by an empty line

      message M {} *)
Definition cm_f := "comment.proto".
Definition cm_elems : list tree :=
  [ el cm_f 1 (DSyntax "proto3") []; el cm_f 2 (DPackage "c") []; el cm_f 3 DComment []; msg cm_f 5 "M" [] ].
Definition cm_world : registry := world (std_files ++ [(cm_f, cm_elems)])%list [cm_f].

Theorem C31_comment_refuted :
  calm cm_world /\ loaded cm_world cm_f 1 (file_tree cm_f cm_elems) /\
  (exists msg, (collect (file_everything (1, [])) cm_world).1 = Panic msg) /\
  exists l, ((rbind (recover (collect (file_everything (1, [])))) (fun _ => collect (file_everything (1, [])))) cm_world).1
    = Ret l /\ length l = 4 /\ None ∈ l.
Proof.
  split; [apply world_calm; vm_compute; reflexivity|]. split; [split; [|split]; vm_compute; reflexivity|].
  split; [eexists; vm_compute; reflexivity|]. eexists. split; [vm_compute; reflexivity|]. split; [reflexivity|].
  do 2 constructor. constructor.
Qed.

(** ** C37 *)

(** The options Method.Options yields: names looked up in the root scope. *)
Theorem C37_method_options {C} s p t name req sreq ret sret ca class (c : C) body c' l s' :
  reachable s -> element_at s p t -> t_data t = DRPC name req sreq ret sret ->
  (forall q, q ∈ children an_option p t ->
     found s ".google.protobuf.MethodOptions" (NAst KMessage ca class) /\ well_named s q) ->
  (forall c x, client Queries (body c x)) ->
  method_options p (C * list optn)%type (c, []) (recording body) s = (Ret (c', l), s') ->
  Forall2 (about s [] class) (take (length l) (children an_option p t)) l /\
  ((forall c x s c' s', body c x s <> (Ret (c', false), s')) -> length l = length (children an_option p t)).
Proof.
  intros Hs Ht Hd Hopt Hb El. pose proof (reachable_Inv _ Hs) as I. apply element_heap in Ht as Ht'.
  unfold method_options, iter_kids in El. rewrite (rbind_val _ _ _ _ _ (kids_of_ok _ _ _ Ht')) in El.
  destruct (query_loop an_option (about s [] class) pick_method_option s (kids_at p t) body) with (c := c)
    (l0 := @nil optn) (s := s) (c' := c') (l := l) (s' := s')
    as (l1 & -> & H1 & H2); [| |exact Hb|done|apply quiet_refl|exact El|].
  - intros b s1 Ho. unfold pick_method_option. by replace (is_option (t_data b.2)) with false by (by destruct (t_data b.2)).
  - intros b s1 x s2 Hbk I1 Q1 Ho Ep. unfold pick_method_option in Ep.
    replace (is_option (t_data b.2)) with true in Ep by (by destruct (t_data b.2)).
    destruct (Hopt b.1 (kid_statement _ _ _ _ I Ht' Hbk Ho)) as [Hf Hw].
    destruct (root_option s _ ca class b s1 (Ret x) s2 (fun o => o) I Hf (kids_heap _ _ _ _ Ht' Hbk) Ho Hw I1 Q1 Ep)
      as [(o & [= ->] & Q2 & I2 & Ha)|[_ (msg & ? & _)]]; [|done]. exists o. done.
  - cbn [app]. split; [exact H1|]. intros H. unfold children. rewrite map_length. by apply H2.
Qed.

(** If the names of all statements stand for fields in the root scope, collecting Method.Options gives
    one option per statement, in source order. *)
Theorem C37_method_options_all s p t name req sreq ret sret ca class :
  reachable s -> element_at s p t -> t_data t = DRPC name req sreq ret sret ->
  found s ".google.protobuf.MethodOptions" (NAst KMessage ca class) ->
  (forall q, q ∈ children an_option p t -> exists oname f, statement s q oname /\ option_target s [] class oname f) ->
  exists l, (collect (method_options p) s).1 = Ret l /\ Forall2 (about s [] class) (children an_option p t) l.
Proof.
  intros Hs Ht Hd Hf Hall. pose proof (reachable_Inv _ Hs) as I. apply element_heap in Ht as Ht'.
  destruct (collect_all an_option (about s [] class) pick_method_option s (kids_at p t))
    with (l0 := @nil optn) (s := s) as (l & s' & El & _ & _ & Hl); [| |done|apply quiet_refl|].
  - intros b s1 Ho. unfold pick_method_option. by replace (is_option (t_data b.2)) with false by (by destruct (t_data b.2)).
  - intros b s1 Hb I1 Q1 Ho. destruct (Hall _ (kid_statement _ _ _ _ I Ht' Hb Ho)) as (oname & f & H1 & H2).
    destruct (pick_method_option b s1) as [x s2] eqn:Ep. unfold pick_method_option in Ep.
    replace (is_option (t_data b.2)) with true in Ep by (by destruct (t_data b.2)).
    assert (Hw : well_named s b.1) by (eapply target_named; eauto).
    destruct (root_option s _ ca class b s1 x s2 (fun o => o) I Hf (kids_heap _ _ _ _ Ht' Hb) Ho Hw I1 Q1 Ep)
      as [(o & -> & Q2 & I2 & Ha)|[Hno _]]; [by exists o, s2|]. by apply (Hno _ _ H1) in H2.
  - exists l. split; [|exact Hl]. unfold collect, method_options, iter_kids.
    by rewrite (rbind_val _ _ _ _ _ (kids_of_ok _ _ _ Ht')), El.
Qed.

(** If the name of some statement stands for no field in the root scope, it panics, with what
    [option_complaint] says about the first such statement. *)
Theorem C37_method_options_panic s p t name req sreq ret sret ca class q :
  reachable s -> element_at s p t -> t_data t = DRPC name req sreq ret sret ->
  found s ".google.protobuf.MethodOptions" (NAst KMessage ca class) ->
  (forall q, q ∈ children an_option p t -> well_named s q) ->
  q ∈ children an_option p t -> (forall oname f, statement s q oname -> ~ option_target s [] class oname f) ->
  exists msg i q0 oname, (collect (method_options p) s).1 = Panic msg /\
    children an_option p t !! i = Some q0 /\ statement s q0 oname /\ (forall f, ~ option_target s [] class oname f) /\
    option_complaint s [] oname msg /\
    forall j q1, j < i -> children an_option p t !! j = Some q1 ->
      exists oname1 f1, statement s q1 oname1 /\ option_target s [] class oname1 f1.
Proof.
  intros Hs Ht Hd Hf Hall Hq Hno. pose proof (reachable_Inv _ Hs) as I. apply element_heap in Ht as Ht'.
  destruct (collect_bad an_option
    (fun q1 => exists oname1 f1, statement s q1 oname1 /\ option_target s [] class oname1 f1)
    (fun q0 msg => exists oname, statement s q0 oname /\ (forall f, ~ option_target s [] class oname f) /\ option_complaint s [] oname msg)
    pick_method_option s (kids_at p t))
    with (l0 := @nil optn) (s := s) as (msg & i & q0 & El & Hi & (oname & H1 & H2 & H3) & Hg); [| | |done|apply quiet_refl|].
  - intros b s1 Ho. unfold pick_method_option. by replace (is_option (t_data b.2)) with false by (by destruct (t_data b.2)).
  - intros b s1 Hb I1 Q1 Ho. destruct (pick_method_option b s1) as [x s2] eqn:Ep. unfold pick_method_option in Ep.
    replace (is_option (t_data b.2)) with true in Ep by (by destruct (t_data b.2)).
    destruct (root_option s _ ca class b s1 x s2 (fun o => o) I Hf (kids_heap _ _ _ _ Ht' Hb) Ho
      (Hall _ (kid_statement _ _ _ _ I Ht' Hb Ho)) I1 Q1 Ep)
      as [(o & -> & Q2 & I2 & Ha)|[Hn2 (msg & -> & oname & Hst & Hoc)]].
    + left. exists o, s2. split; [done|]. split; [done|]. split; [done|]. destruct Ha as (_ & _ & oname & H1 & H2). eauto.
    + right. exists msg. split; [done|]. exists oname. split; [done|]. split; [|done]. intros f. by apply Hn2.
  - destruct (child_kid _ _ _ _ Ht' Hq) as (b & <- & Hb & Ho). exists b. split; [done|]. split; [done|].
    intros (oname & f & H1 & H2). exact (Hno _ _ H1 H2).
  - exists msg, i, q0, oname. split.
    { unfold collect, method_options, iter_kids. by rewrite (rbind_val _ _ _ _ _ (kids_of_ok _ _ _ Ht')). }
    split; [exact Hi|]. split; [done|]. split; [done|]. split; [done|].
    intros j q1 Hj Hq1. rewrite list.Forall_forall in Hg. apply Hg. apply elem_of_list_lookup. exists j.
    rewrite lookup_take by done. exact Hq1.
Qed.

(** Two options about the same statement, one looked up in the scope of the node (Options, OptionNamed)
    and one in the root scope (Everything, Method.Options), agree on class and field if the name
    denotes the same in both scopes: in particular if it is absolute, or denotes nothing in both. *)
Theorem C37_routes_agree s comps class q oname x o1 o2 :
  reachable s -> about s comps class q o1 -> about s [] class q o2 -> statement s q oname -> refers_to oname x ->
  (absolute x \/ (forall d, denotes s comps x d <-> denotes s [] x d)) ->
  o_proto o1 = o_proto o2 /\ o_class o1 = o_class o2 /\ o_field o1 = o_field o2.
Proof.
  intros Hs (H1 & H2 & n1 & Hn1 & H3) (H4 & H5 & n2 & Hn2 & H6) Hn Hx Hsame.
  split; [congruence|]. split; [congruence|]. pose proof (reachable_Inv _ Hs) as I.
  assert (Hu : forall n', statement s q n' -> n' = oname).
  { intros n' (u & l & Hu & Hd). destruct Hn as (u' & l' & Hu' & Hd'). apply element_heap in Hu, Hu'. congruence. }
  rewrite (Hu _ Hn1) in H3. rewrite (Hu _ Hn2) in H6.
  assert (Hiff : forall d, denotes s comps x d <-> denotes s [] x d).
  { destruct Hsame as [Ha|Hs']; [|done]. intros d. split; intros [Hf [H|[Hna _]]]; try done; split; auto. }
  symmetry. eapply (option_target_fun s []); [exact I| |exact H6].
  inversion H3 as [y d a f t Hy Hd Hf Ht Hp Hfe|y ct f Hy Hno Hc Hh Hfe]; apply refers_strip in Hy as Hy';
    rewrite (refers_strip _ _ Hx) in Hy'; subst y.
  - eapply ot_denoted; [exact Hy|by apply Hiff|exact Hf|exact Ht|exact Hp].
  - eapply ot_predefined; [exact Hy| |exact Hc|exact Hh]. intros d Hd. by apply (Hno d), Hiff.
Qed.

(** Otherwise they can be about different fields, or panic:

      a.proto: extend google.protobuf.MethodOptions { bool flag = 50001; }       (no package)
      b.proto: package p; import "a.proto"; extend google.protobuf.MethodOptions { bool flag = 50002; }
               service S { rpc R (M) returns (M) { option (flag) = true; } }  message M {} *)
Definition ra_elems : list tree :=
  [ el "a.proto" 1 (DSyntax "proto3") []; el "a.proto" 2 (DImport desc_f) [];
    extb "a.proto" 3 "google.protobuf.MethodOptions" [ fld "a.proto" 4 "bool" "flag" 50001 ] ].
Definition rb_elems : list tree :=
  [ el "b.proto" 1 (DSyntax "proto3") []; el "b.proto" 2 (DPackage "p") [];
    el "b.proto" 3 (DImport "a.proto") []; el "b.proto" 4 (DImport desc_f) [];
    extb "b.proto" 5 "google.protobuf.MethodOptions" [ fld "b.proto" 6 "bool" "flag" 50002 ];
    el "b.proto" 8 (DService "S")
      [ el "b.proto" 9 (DRPC "R" "M" false "M" false) [ opt "b.proto" 10 "(flag)" "true" ] ];
    msg "b.proto" 12 "M" [] ].
Definition r_world : registry :=
  world (std_files ++ [("a.proto", ra_elems); ("b.proto", rb_elems)])%list ["b.proto"].

Theorem C37_relative_names_refuted :
  calm r_world /\ unique_names r_world /\ packages_first r_world /\
  exists o1 o2 q,
    ((sq <~ options (NAst KMethod 0 (1, [0; 5])) ;; collect sq) r_world).1 = Ret [o1] /\
    (collect (method_options (1, [0; 5])) r_world).1 = Ret [o2] /\
    o_proto o1 = q /\ o_proto o2 = q /\ statement r_world q "(flag)" /\
    (option_is o1 ".p.flag" r_world).1 = Ret true /\ (option_is o2 ".p.flag" r_world).1 = Ret false /\
    (option_is o2 ".flag" r_world).1 = Ret true.
Proof.
  assert (I : Inv r_world) by (apply reachable_Inv, world_reachable; vm_compute; reflexivity).
  split; [apply world_calm; vm_compute; reflexivity|]. split; [apply check_unique_ok; vm_compute; reflexivity|].
  split; [apply check_packages_ok; vm_compute; reflexivity|].
  eexists _, _, _. split; [vm_compute; reflexivity|]. split; [vm_compute; reflexivity|]. split; [reflexivity|].
  split; [reflexivity|].
  split. { eexists _, _. split; [apply heap_element; [exact I|vm_compute; reflexivity]|reflexivity]. }
  split; [vm_compute; reflexivity|]. split; [vm_compute; reflexivity|vm_compute; reflexivity].
Qed.

Theorem C37_everything_panics_refuted :
  calm ev_world /\
  (exists o, ((sq <~ options (NAst KMessage 0 (1, [6])) ;; collect sq) ev_world).1 = Ret [o]) /\
  exists msg, (collect (message_everything (1, [6])) ev_world).1 = Panic msg.
Proof.
  split; [apply world_calm; vm_compute; reflexivity|].
  split; eexists; vm_compute; reflexivity.
Qed.

(** the option of MethodUU, "(pb.method_tag)", denotes .pb.method_tag in both scopes *)
Example C37_example :
  exists t ca class, reachable demo_world /\ element_at demo_world (1, [1; 7]) t /\
  (exists name req sreq ret sret, t_data t = DRPC name req sreq ret sret) /\
  found demo_world ".google.protobuf.MethodOptions" (NAst KMessage ca class) /\
  children an_option (1, [1; 7]) t = [(1, [0; 1; 7])] /\
  statement demo_world (1, [0; 1; 7]) "(pb.method_tag)" /\ refers_to "(pb.method_tag)" "pb.method_tag" /\
  (forall d, denotes demo_world ["pb"; "Service"; "MethodUU"] "pb.method_tag" d <-> denotes demo_world [] "pb.method_tag" d) /\
  (exists o, (collect (method_options (1, [1; 7])) demo_world).1 = Ret [o] /\ o_proto o = (1, [0; 1; 7])).
Proof.
  assert (I : Inv demo_world) by (apply reachable_Inv, demo_reachable).
  eexists _, _, _. split; [apply demo_reachable|].
  split; [apply demo_element; vm_compute; reflexivity|]. split; [eexists _, _, _, _, _; reflexivity|].
  split; [unfold found; vm_compute; reflexivity|]. split; [reflexivity|].
  split. { eexists _, _. split; [apply demo_element; vm_compute; reflexivity|reflexivity]. }
  split; [by apply (ref_custom "pb.method_tag")|].
  split.
  - assert (H1 : denotes demo_world ["pb"; "Service"; "MethodUU"] "pb.method_tag" ".pb.method_tag").
    { apply (denotes_at demo_world ["pb"; "Service"; "MethodUU"] "pb.method_tag" 0 I); [reflexivity|cbn; lia| |]; vm_compute; reflexivity. }
    assert (H2 : denotes demo_world [] "pb.method_tag" ".pb.method_tag").
    { apply (denotes_at demo_world [] "pb.method_tag" 0 I); [reflexivity|cbn; lia| |]; vm_compute; reflexivity. }
    intros d. split; intros H.
    + by rewrite (denotes_fun _ _ _ _ _ H1 H).
    + by rewrite (denotes_fun _ _ _ _ _ H2 H).
  - eexists. split; [vm_compute; reflexivity|]. reflexivity.
Qed.
