(** * Simulation between two registries with the same schema.

    [st s1 s2]: both satisfy the invariant, [s2] holds the files of [s1] up to the numbering [G] of
    the parses, it knows the names [s1] knows and resolves the references of [s1] alike, and
    everything for which [s1] remembers nil, so does [s2].  Every function of the API that returns
    in [s1] returns the same in [s2]. *)
From Verif Require Export Same ThmSchema.
From Verif Require Import Frame Navigate Identity Api.

Section mirror.
Context (G : nat -> nat -> Prop) (D : ptr -> Prop).
Context (Gfun : forall g h h', G g h -> G g h' -> h = h').
Context (Ginj : forall g g' h, G g h -> G g' h -> g = g').
Context (Dchild : forall p i, D (child p i)).
(** the references the two registries resolve alike *)
Context (N : string -> Prop).
(** the paths for which they have corresponding files, or both none *)
Context (F : string -> Prop) (Fzero : F "").
(** the elements for which nil may be remembered on the first side *)
Context (K : visitee -> Prop).
(** any further invariant of the two registries *)
Context (X : registry -> registry -> Prop).
Context (Xalloc : forall s1 s2, X s1 s2 -> X (alloc s1).2 (alloc s2).2).
Context (Xwrap : forall v v' s1 s2, X s1 s2 -> X (wrap v s1).2 (wrap v' s2).2).

(** corresponding pointers *)
Definition pts (p p' : ptr) : Prop := G p.1 p'.1 /\ p.2 = p'.2.

Lemma pts_fun p q q' : pts p q -> pts p q' -> q = q'.
Proof. destruct p, q, q'. intros [A B] [A' B']; cbn in *. subst. by rewrite (Gfun _ _ _ A A'). Qed.
Lemma pts_inj p p' q : pts p q -> pts p' q -> p = p'.
Proof. destruct p, p', q. intros [A B] [A' B']; cbn in *. subst. by rewrite (Ginj _ _ _ A A'). Qed.
Lemma pts_eq p p' q q' : pts p p' -> pts q q' -> (p = q <-> p' = q').
Proof.
  intros H H'. split; intros ->; [by eapply pts_fun|by eapply pts_inj].
Qed.
Lemma pts_child p p' i : pts p p' -> pts (child p i) (child p' i).
Proof. intros [A B]. split; [done|]. cbn. by rewrite B. Qed.
Lemma pts_parent p p' : pts p p' -> same_ptro pts (parent_ptr p) (parent_ptr p').
Proof.
  intros [A B]. unfold parent_ptr. rewrite <- B. destruct p.2 as [|i π]; constructor. done.
Qed.

Inductive vs : visitee -> visitee -> Prop :=
| vs_nil : vs VNil VNil
| vs_nil_proto : vs VNilProto VNilProto
| vs_nil_option : vs VNilOption VNilOption
| vs_ptr p p' : pts p p' -> vs (VPtr p) (VPtr p').

Lemma vs_inj v w u : vs v u -> vs w u -> v = w.
Proof.
  intros [| | |p p' H] H'; inversion H'; subst; try done. f_equal. by eapply pts_inj.
Qed.
Lemma vs_fun v w u : vs v w -> vs v u -> w = u.
Proof.
  intros [| | |p p' H] H'; inversion H'; subst; try done. f_equal. by eapply pts_fun.
Qed.

Record alike (s1 s2 : registry) : Prop := mkAlike {
  al_heap : forall g g', G g g' -> heap s1 !! g = heap s2 !! g';
  al_names : forall q p, names s1 !! q = Some p -> exists p', names s2 !! q = Some p' /\ pts p p';
  al_back : forall q p p', pts p p' -> names s2 !! q = Some p' -> names s1 !! q = Some p;
  al_new : K VNil -> forall q, names s1 !! q = None -> names s2 !! q = None;
  al_resolve : forall n sc, N n ->
    resolve_name_raw (names s1) sc n = resolve_name_raw (names s2) sc n;
  al_refs : forall p t n, heap_at s1 p = Some t -> refers (t_data t) n -> N n;
  al_protos : forall path, F path -> option_Forall2 G (protos s1 !! path) (protos s2 !! path);
  al_pos : forall p t, heap_at s1 p = Some t ->
    F (p_file (t_pos t)) /\ forall f, t_data t = DProto f -> F f;
  al_scopes : forall p p', pts p p' -> D p -> scope_of s1 (VPtr p) = scope_of s2 (VPtr p');
  al_deep : forall p t, heap_at s1 p = Some t -> (forall f, t_data t <> DProto f) -> D p
}.

Record st (s1 s2 : registry) : Prop := mkSt {
  st_inv1 : Inv s1;
  st_inv2 : Inv s2;
  st_alike : alike s1 s2;
  st_known : forall v, cache s1 !! v = Some None -> K v;
  st_none : forall v v', vs v v' -> K v -> cache s2 !! v' = Some None;
  st_extra : X s1 s2
}.

Lemma alike_at s1 s2 p p' : alike s1 s2 -> pts p p' -> heap_at s1 p = heap_at s2 p'.
Proof. intros A [H1 H2]. unfold heap_at. by rewrite (al_heap _ _ A _ _ H1), H2. Qed.

Inductive names_case (s1 s2 : registry) (q : string) : Prop :=
| nc_new : names s1 !! q = None -> names_case s1 s2 q
| nc_same p p' : names s1 !! q = Some p -> names s2 !! q = Some p' -> pts p p' ->
    names_case s1 s2 q.
Lemma alike_name s1 s2 q : alike s1 s2 -> names_case s1 s2 q.
Proof.
  intros Al. destruct (names s1 !! q) as [p|] eqn:H; [|by apply nc_new].
  destruct (al_names _ _ Al _ _ H) as (p' & H' & Hp). by eapply nc_same.
Qed.
(** what a reference resolves to is declared *)
Lemma resolved_defined reg sc n q : resolve_name_raw reg sc n = Some (q, true) -> is_Some (reg !! q).
Proof.
  assert (Hd : forall c, defined reg c = true -> is_Some (reg !! c)).
  { intros c. unfold defined. destruct (reg !! c); [by eexists|done]. }
  unfold resolve_name_raw. destruct (has_prefix n "."); [intros [= <- H]; auto|].
  generalize (if negb (String.eqb sc "") && negb (has_prefix sc ".") then "." +:+ sc else sc).
  intros sc1. generalize (S (String.length sc1)) as fuel. intros fuel. revert sc1.
  induction fuel as [|fuel IH]; intros sc1; cbn [resolve_loop]; [done|].
  destruct (defined reg _) eqn:E1; [intros [= <-]; auto|].
  destruct (String.eqb sc1 ""); [intros [= <- H]; auto|]. apply IH.
Qed.
(** the state changes only in the caches *)
Lemma alike_quiet s1 s1' s2 s2' : quiet s1 s1' -> quiet s2 s2' -> alike s1 s2 -> alike s1' s2'.
Proof.
  intros [H1 P1 N1 S1 _ _ _] [H2 P2 N2 S2 _ _ _] [A1 A2 A3 A10 A4 A5 A6 A7 A8 A9]. constructor.
  - by rewrite H1, H2.
  - by rewrite N1, N2.
  - by rewrite N1, N2.
  - by rewrite N1, N2.
  - by rewrite N1, N2.
  - unfold heap_at. rewrite H1. exact A5.
  - by rewrite P1, P2.
  - unfold heap_at. rewrite H1. exact A7.
  - unfold scope_of. rewrite S1, S2. exact A8.
  - unfold heap_at. rewrite H1. exact A9.
Qed.

Definition sim {A} (RA : A -> A -> Prop) (m1 m2 : R A) : Prop :=
  forall s1 s2 x1 s1', st s1 s2 -> m1 s1 = (Ret x1, s1') ->
  exists x2 s2', m2 s2 = (Ret x2, s2') /\ RA x1 x2 /\ st s1' s2'.

Section rules.
Context {A B : Type}.

Lemma sim_mono (RA RB : A -> A -> Prop) m1 m2 :
  (forall x y, RA x y -> RB x y) -> sim RA m1 m2 -> sim RB m1 m2.
Proof.
  intros H S s1 s2 x1 s1' T E. destruct (S _ _ _ _ T E) as (x2 & s2' & E2 & Hx & T'). eauto 10.
Qed.
Lemma sim_ret (RA : A -> A -> Prop) x y : RA x y -> sim RA (ret x) (ret y).
Proof. intros H s1 s2 x1 s1' T [= <- <-]. exists y, s2. done. Qed.
Lemma sim_panic (RA : A -> A -> Prop) msg m2 : sim RA (panic msg) m2.
Proof. intros s1 s2 x1 s1' T E. discriminate E. Qed.
Lemma sim_forged (RA : A -> A -> Prop) m2 : sim RA forged m2.
Proof. intros s1 s2 x1 s1' T E. discriminate E. Qed.
Lemma sim_diverge (RA : A -> A -> Prop) m2 : sim RA diverge m2.
Proof. intros s1 s2 x1 s1' T E. discriminate E. Qed.

Lemma sim_bind (RA : A -> A -> Prop) (RB : B -> B -> Prop) m1 m2 k1 k2 :
  sim RA m1 m2 -> (forall x1 x2, RA x1 x2 -> sim RB (k1 x1) (k2 x2)) ->
  sim RB (rbind m1 k1) (rbind m2 k2).
Proof.
  intros Sm Sk s1 s2 y s1'' T E. apply rbind_Ret in E as (x1 & s1' & E1 & E2).
  destruct (Sm _ _ _ _ T E1) as (x2 & s2' & F1 & Hx & T').
  destruct (Sk _ _ Hx _ _ _ _ T' E2) as (y2 & s2'' & F2 & Hy & T'').
  exists y2, s2''. rewrite (rbind_val _ _ _ _ _ F1). done.
Qed.
(** reading the state *)
Lemma sim_get (RB : B -> B -> Prop) (k1 k2 : registry -> R B) :
  (forall s1 s2, alike s1 s2 -> sim RB (k1 s1) (k2 s2)) ->
  sim RB (rbind get k1) (rbind get k2).
Proof. intros H s1 s2 y s1' T E. exact (H s1 s2 (st_alike _ _ T) _ _ _ _ T E). Qed.
End rules.

(** elements other than files are where names are known to be the same *)
Definition same_tree (p : ptr) (t t' : tree) : Prop :=
  t = t' /\ ((forall f, t_data t <> DProto f) -> D p) /\ (forall n, refers (t_data t) n -> N n) /\
  F (p_file (t_pos t)) /\ (forall f, t_data t = DProto f -> F f).

Lemma sim_deref p p' : pts p p' -> sim (same_tree p) (deref p) (deref p').
Proof.
  intros H. unfold deref. apply sim_get. intros s1 s2 Al. pose proof (alike_at _ _ _ _ Al H) as E.
  rewrite <- E. destruct (heap_at s1 p) as [t|] eqn:Ht; [|apply sim_panic].
  apply sim_ret. split; [done|]. split; [by apply (al_deep _ _ Al)|].
  split; [intros n; by apply (al_refs _ _ Al _ _ _ Ht)|by apply (al_pos _ _ Al _ _ Ht)].
Qed.

(** children with their pointers *)
Definition same_kid (x y : ptr * tree) : Prop := pts x.1 y.1 /\ x.2 = y.2 /\ D x.1.
Lemma same_kids p p' t : pts p p' -> Forall2 same_kid (kids_at p t) (kids_at p' t).
Proof.
  intros H. unfold kids_at. apply Forall2_same_length_lookup_2; [by rewrite !imap_length|].
  intros i x y. rewrite !list_lookup_imap. destruct (t_kids t !! i) as [k|]; [|done].
  cbn. intros [= <-] [= <-]. split; [by apply pts_child|]. split; [done|apply Dchild].
Qed.
Lemma sim_kids_of p p' : pts p p' -> sim (Forall2 same_kid) (kids_of p) (kids_of p').
Proof.
  intros H. eapply sim_bind; [by apply sim_deref|]. intros t ? [<- _]. apply sim_ret.
  by apply same_kids.
Qed.
(** pointers found below an element *)
Inductive deep_ptro : option ptr -> option ptr -> Prop :=
| dp_none : deep_ptro None None
| dp_some p p' : pts p p' -> D p -> deep_ptro (Some p) (Some p').
Lemma find_kid_same sel l l' :
  Forall2 same_kid l l' -> deep_ptro (find_kid sel l) (find_kid sel l').
Proof.
  induction 1 as [|[p t] [p' t'] l l' (Hp & Ht & Hd) _ IH]; cbn [find_kid]; [constructor|].
  cbn in Hp, Ht, Hd. subst t'. destruct (sel (t_data t)); [by constructor|exact IH].
Qed.

Lemma sim_resolve sc n : N n -> sim eq (resolve sc n) (resolve sc n).
Proof.
  intros HN. unfold resolve. apply sim_get. intros s1 s2 Al. rewrite (al_resolve _ _ Al _ _ HN).
  destruct (resolve_name_raw (names s2) sc n); [by apply sim_ret|apply sim_diverge].
Qed.
Lemma sim_alloc : sim (fun _ _ => True) alloc alloc.
Proof.
  intros s1 s2 x s1' T E. exists (next s2), (set_next (next s2 + 1)%N s2).
  split; [done|]. split; [done|].
  destruct (inv_step_ret _ _ _ _ inv_step_alloc (st_inv1 _ _ T) E) as [I1 _].
  destruct (inv_step_ret _ s2 _ _ inv_step_alloc (st_inv2 _ _ T) eq_refl) as [I2 _].
  pose proof (Xalloc _ _ (st_extra _ _ T)) as HX. injection E as <- <-. destruct T as [_ _ Al Hkn M _].
  constructor; [done|done| |exact Hkn|exact M|exact HX].
  eapply alike_quiet; [apply (quiet_alloc s1)|apply (quiet_alloc s2)|done].
Qed.

(** nodes that come out of a registry *)
Notation Sn := (same_node pts D anyid).
Notation So := (same_nodeo pts D anyid).
Notation Sopt := (same_opt pts D).
Notation Sopto := (same_opto pts D).

Lemma wrap_none_hit s v s' : wrap v s = (Ret None, s') -> cache s !! v = Some None /\ s' = s.
Proof.
  intros E. destruct (cache s !! v) as [o|] eqn:Hc.
  - rewrite (wrap_hit _ _ _ Hc) in E. injection E as -> <-. done.
  - exfalso. destruct v as [| | |p]; try (rewrite (wrap_unsupported _ _ Hc I) in E; discriminate E).
    destruct (heap_at s p) as [t|] eqn:Ht;
      [|rewrite (wrap_dangling _ _ Hc Ht) in E; discriminate E].
    destruct (wrap_kind (t_data t)) as [k|] eqn:Hk.
    { rewrite (wrap_miss _ _ _ _ Hc Ht Hk) in E. discriminate E. }
    rewrite (wrap_unsupported s (VPtr p)) in E; [discriminate E|done|eauto].
Qed.
Lemma wrap_no_new_none s v o s' v' :
  wrap v s = (Ret o, s') -> cache s' !! v' = Some None -> cache s !! v' = Some None.
Proof.
  intros E. destruct (cache s !! v) as [o1|] eqn:Hc.
  - rewrite (wrap_hit _ _ _ Hc) in E. injection E as <- <-. done.
  - revert E. unfold wrap. rewrite rbind_get, Hc.
    destruct v as [| | |p]; try (intros E; discriminate E).
    destruct (heap_at s p) as [t|]; [|intros E; discriminate E].
    destruct (wrap_kind (t_data t)) as [k|]; [|intros E; discriminate E].
    intros [= <- <-]. cbn. destruct (decide (VPtr p = v')) as [<-|Hne].
    + by rewrite lookup_insert.
    + by rewrite lookup_insert_ne by done.
Qed.

Lemma sim_wrap v v' : vs v v' -> sim So (wrap v) (wrap v').
Proof.
  intros Hv s1 s2 o s1' T E. pose proof T as [I1 I2 Al Hk1 Hn HX]. pose proof (Xwrap v v' _ _ HX) as HX'.
  destruct (inv_step_ret _ _ _ _ (inv_step_wrap v) I1 E) as [I1' _].
  pose proof (quiet_wrap v s1) as Q1. rewrite E in Q1. cbn [snd] in Q1.
  destruct o as [n|].
  - destruct (wrap_ret _ _ _ _ (proj2 I1) E) as (p & k & a & t & -> & -> & Ht & Hk & _).
    inversion Hv as [| | |q p' Hp]; subst. pose proof Ht as Ht1.
    rewrite (alike_at _ _ _ _ Al Hp) in Ht.
    destruct (wrap_ok s2 p' t k (proj2 I2) Ht Hk) as (a' & s2' & E2 & Q2 & N2 & _).
    exists (Some (NAst k a' p')), s2'. split; [done|]. split.
    + constructor. constructor; [done| |done]. assert (k = KFile \/ k <> KFile) as [->|Hne] by (destruct k; auto); [by left|right].
      apply (al_deep _ _ Al _ _ Ht1). intros f Hf. rewrite Hf in Hk. by injection Hk as <-.
    + rewrite E, E2 in HX'.
      constructor; [done|exact (quiet_Inv _ _ Q2 N2 I2)|by eapply alike_quiet| | |exact HX'].
      * intros w Hw. apply Hk1. by eapply wrap_no_new_none.
      * intros w w' Hw H'. apply (q_cache _ _ Q2). by apply (Hn _ _ Hw).
  - apply wrap_none_hit in E as [Hc ->].
    exists None, s2. rewrite (wrap_hit _ _ _ (Hn _ _ Hv (Hk1 _ Hc))). split; [done|]. split; [constructor|done].
Qed.

Lemma sim_assert_kind i k o o' :
  So o o' -> sim (fun n n' => Sn n n' /\ exists a p, n = NAst k a p)
    (assert_kind i k o) (assert_kind i k o').
Proof.
  intros H. destruct H as [|n n' H]; [apply sim_panic|].
  destruct H as [k' a a' p p' Hp Hd _| | | | | |]; try apply sim_panic.
  destruct k, k'; cbn; first [apply sim_panic|apply sim_ret]; (split; [|by do 2 eexists]);
    (constructor; [exact Hp|exact Hd|done]).
Qed.
Lemma sim_wrap_as k p p' : pts p p' -> sim Sn (wrap_as k p) (wrap_as k p').
Proof.
  intros H. unfold wrap_as. eapply sim_bind; [by apply sim_wrap, vs_ptr|]. intros o o' Ho.
  eapply sim_mono; [|by apply sim_assert_kind]. by intros ? ? [].
Qed.

(** ** The functions of the API *)

Lemma sim_get_type_body p p' n :
  pts p p' -> D p -> N n -> sim So (get_type_body p n) (get_type_body p' n).
Proof.
  intros Hp Hd HN. unfold get_type_body.
  destruct (builtin_type n); [apply sim_ret; by repeat constructor|].
  assert (Hk : forall s1 s2 q ok, alike s1 s2 -> (ok = true -> is_Some (names s1 !! q)) ->
    sim So
      (if negb ok then ret None else match names s1 !! q with
        | None => ret None
        | Some obj => w <~ wrap (VPtr obj) ;; match w with
          | Some n => if implements_type n then ret (Some n) else panic (not_a_type s1 obj)
          | None => panic (not_a_type s1 obj) end end)
      (if negb ok then ret None else match names s2 !! q with
        | None => ret None
        | Some obj => w <~ wrap (VPtr obj) ;; match w with
          | Some n => if implements_type n then ret (Some n) else panic (not_a_type s2 obj)
          | None => panic (not_a_type s2 obj) end end)).
  2: { intros s1 s2 x s1' T E. rewrite rbind_get in E. rewrite rbind_get.
    pose proof (st_alike _ _ T) as Al. rewrite (al_scopes _ _ Al _ _ Hp Hd) in E.
    unfold resolve in E |- *. rewrite rbind_assoc, rbind_get in E. rewrite rbind_assoc, rbind_get.
    rewrite <- (al_resolve _ _ Al _ _ HN).
    destruct (resolve_name_raw (names s1) _ n) as [[q ok]|] eqn:Hr; [|discriminate E].
    rewrite rbind_ret in E. rewrite rbind_ret.
    refine (Hk s1 s2 q ok Al _ s1 s2 x s1' T E). intros ->. by eapply resolved_defined. }
  intros s1 s2 q ok Al Hdef. destruct ok; cbn [negb]; [|apply sim_ret; constructor].
  destruct (alike_name _ _ q Al) as [Hn|o o' E1 E2 Ho]; [destruct (Hdef eq_refl); congruence|].
  rewrite E1, E2.
  eapply sim_bind; [by apply sim_wrap, vs_ptr|]. intros w w' Hw.
  destruct Hw as [|m m' Hm]; [apply sim_panic|].
  assert (implements_type m = implements_type m') as -> by (destruct Hm; done).
  destruct (implements_type m'); [apply sim_ret; by constructor|apply sim_panic].
Qed.
Lemma sim_get_type_by_name p p' n :
  pts p p' -> D p -> N n -> sim So (get_type_by_name p n) (get_type_by_name p' n).
Proof.
  intros Hp Hd HN. unfold get_type_by_name.
  eapply sim_bind; [by apply sim_get_type_body|]. intros r r' Hr.
  eapply sim_bind; [by apply sim_deref|]. intros t ? [<- _].
  destruct (t_data t); try (by apply sim_ret). destruct repeated; [|by apply sim_ret].
  eapply sim_bind; [apply sim_alloc|]. intros a a' _. apply sim_ret. constructor.
  destruct Hr; repeat constructor; done.
Qed.

(** use the known data of an element *)
Ltac deep := match goal with
  | H : (forall f, _ <> DProto f) -> D ?p |- D ?p => apply H; intros ?; congruence
  end.
(** and that its references are resolved alike *)
Ltac known := match goal with
  | H : forall n, refers _ n -> N n |- N _ => apply H; first [constructor|
      match goal with E : t_data _ = _ |- _ => rewrite E; constructor end]
  end.
Ltac der Hp := eapply sim_bind; [apply (sim_deref _ _ Hp)|];
  let t := fresh "t" in let Hd := fresh "Hd" in let HN := fresh "HN" in
  let Hz := fresh "Hz" in let Hfile := fresh "Hfile" in intros t ? (<- & Hd & HN & Hz & Hfile);
  let E := fresh "Ed" in destruct (t_data t) eqn:E; try apply sim_forged; try apply sim_panic.

Lemma sim_field_type_body p p' : pts p p' -> sim So (field_type_body p) (field_type_body p').
Proof.
  intros Hp. unfold field_type_body. der Hp.
  - apply sim_get_type_by_name; [done|deep|known].
  - eapply sim_bind; [apply sim_alloc|]. intros a a' _. apply sim_ret. constructor.
    constructor; [done| |done]. right. deep.
  - eapply sim_bind; [apply sim_alloc|]. intros a a' _. apply sim_ret. constructor.
    constructor; [done| |done]. right. deep.
Qed.
Lemma sim_branch_type p p' : pts p p' -> sim So (branch_type p) (branch_type p').
Proof. intros Hp. unfold branch_type. der Hp. apply sim_get_type_by_name; [done|deep|known]. Qed.
Lemma sim_method_input p p' : pts p p' -> sim (same_pair pts D anyid) (method_input p) (method_input p').
Proof.
  intros Hp. unfold method_input. der Hp.
  eapply sim_bind; [apply sim_get_type_by_name; [done|deep|known]|]. intros.
  eapply sim_bind; [by apply sim_assert_kind|]. intros ? ? [? _]. apply sim_ret. by constructor.
Qed.
Lemma sim_method_output p p' : pts p p' -> sim (same_pair pts D anyid) (method_output p) (method_output p').
Proof.
  intros Hp. unfold method_output. der Hp.
  eapply sim_bind; [apply sim_get_type_by_name; [done|deep|known]|]. intros.
  eapply sim_bind; [by apply sim_assert_kind|]. intros ? ? [? _]. apply sim_ret. by constructor.
Qed.
Lemma sim_map_key p p' : pts p p' -> sim eq (map_key p) (map_key p').
Proof.
  intros Hp. unfold map_key. der Hp.
  destruct (builtin_comparable _); [by apply sim_ret|apply sim_panic].
Qed.
Lemma sim_map_value p p' : pts p p' -> sim Sn (map_value p) (map_value p').
Proof.
  intros Hp. unfold map_value. der Hp.
  destruct (builtin_type _); [apply sim_ret; by repeat constructor|].
  apply sim_get. intros s1 s2 Al.
  destruct (alike_name _ _ (if negb (has_prefix typ ".") then "." +:+ typ else "") Al)
    as [->|o o' -> -> Ho]; [apply sim_panic|].
  der Ho; by apply sim_wrap_as.
Qed.
Lemma sim_lookup_kid p p' sel k : pts p p' -> sim So (lookup_kid p sel k) (lookup_kid p' sel k).
Proof.
  intros Hp. unfold lookup_kid. eapply sim_bind; [by apply sim_kids_of|]. intros l l' Hl.
  destruct (find_kid_same sel _ _ Hl) as [|q q' Hq _]; [apply sim_ret; constructor|].
  eapply sim_bind; [by apply sim_wrap_as|]. intros. apply sim_ret. by constructor.
Qed.
Lemma sim_lookup_type p p' sel : pts p p' -> sim So (lookup_type p sel) (lookup_type p' sel).
Proof.
  intros Hp. unfold lookup_type. eapply sim_bind; [by apply sim_kids_of|]. intros l l' Hl.
  destruct (find_kid_same sel _ _ Hl) as [|q q' Hq _]; [apply sim_ret; constructor|].
  eapply sim_bind; [by apply sim_deref|]. intros t ? [<- _].
  destruct (t_data t); (eapply sim_bind; [by apply sim_wrap_as|]); intros;
    apply sim_ret; by constructor.
Qed.

(** plain accessors *)
Lemma sim_read {A} p p' (k : data -> list tree -> R A) :
  pts p p' -> (forall d l, sim eq (k d l) (k d l)) ->
  sim eq (t <~ deref p ;; k (t_data t) (t_kids t)) (t <~ deref p' ;; k (t_data t) (t_kids t)).
Proof. intros Hp Hk. eapply sim_bind; [by apply sim_deref|]. intros t ? [<- _]. apply Hk. Qed.
Ltac plain := intros Hp;
  eapply sim_bind; [apply (sim_deref _ _ Hp)|];
  let t := fresh "t" in intros t ? [<- _];
  repeat (match goal with |- sim _ (match ?x with _ => _ end) _ => destruct x end);
  first [by apply sim_ret|apply sim_forged|apply sim_panic].
Lemma sim_node_name p p' : pts p p' -> sim eq (node_name p) (node_name p').
Proof. unfold node_name. plain. Qed.
Lemma sim_file_package p p' : pts p p' -> sim eq (file_package p) (file_package p').
Proof. unfold file_package. plain. Qed.
Lemma sim_message_is_extension p p' :
  pts p p' -> sim eq (message_is_extension p) (message_is_extension p').
Proof. unfold message_is_extension. plain. Qed.
Lemma sim_field_value p p' : pts p p' -> sim eq (field_value p) (field_value p').
Proof. unfold field_value. plain. Qed.
Lemma sim_enum_value_value p p' : pts p p' -> sim eq (enum_value_value p) (enum_value_value p').
Proof. unfold enum_value_value. plain. Qed.
Lemma sim_branch_value p p' : pts p p' -> sim eq (branch_value p) (branch_value p').
Proof. unfold branch_value. plain. Qed.
Lemma sim_field_optional p p' : pts p p' -> sim eq (field_optional p) (field_optional p').
Proof. unfold field_optional. plain. Qed.

Lemma sim_node_by_full_name q : sim So (node_by_full_name q) (node_by_full_name q).
Proof.
  unfold node_by_full_name. intros s1 s2 x s1' T E. rewrite rbind_get in E. rewrite rbind_get.
  pose proof (st_alike _ _ T) as Al.
  destruct (alike_name _ _ q Al) as [Hn|p p' E1 E2 Hp].
  - rewrite Hn in E. assert (x = None) as ->.
    { destruct x as [n|]; [|done].
      destruct (wrap_ret _ _ _ _ (proj2 (st_inv1 _ _ T)) E) as (? & ? & ? & ? & [=] & _). }
    destruct (wrap_none_hit _ _ _ E) as [Hc _]. pose proof (st_known _ _ T _ Hc) as HK.
    rewrite (al_new _ _ Al HK _ Hn). by eapply sim_wrap; [constructor|exact T|exact E].
  - rewrite E1 in E. rewrite E2. by eapply sim_wrap; [constructor; exact Hp|exact T|exact E].
Qed.
Lemma sim_node_index n n' :
  Sn n n' -> (forall a p, n = NAst KFile a p -> D p) ->
  sim eq (node_index n) (node_index n').
Proof.
  intros Hn Hf. unfold node_index. apply sim_get. intros s1 s2 Al.
  destruct Hn as [k a a' p p' Hp Hd _| | | | | |]; try (by apply sim_ret).
  destruct k; try (by apply sim_ret);
    (rewrite (al_scopes _ _ Al _ _ Hp); [by apply sim_ret|]);
    first [by eapply Hf|destruct Hd as [Hd|Hd]; [discriminate Hd|exact Hd]].
Qed.
Lemma sim_flat_description n n' :
  Sn n n' -> sim eq (flat_description n) (flat_description n').
Proof.
  intros Hn. unfold flat_description.
  destruct Hn as [k a a' p p' Hp Hd _| | | | | |]; try (by apply sim_ret); try apply sim_panic.
  destruct k; first [by apply sim_ret|apply sim_panic].
Qed.
Lemma sim_node_description n n' :
  Sn n n' -> sim eq (node_description n) (node_description n').
Proof.
  intros H. induction H as [k a a' p p' Hp Hd _|b|a a' t t' H IH|a a'|o o' H|v v' H|k v v' H];
    try (apply sim_flat_description; by constructor).
  - destruct k; try (apply (sim_flat_description (NAst _ a p) (NAst _ a' p')); by constructor).
    cbn [node_description].
    eapply sim_bind; [by apply sim_map_key|]. intros ? ? <-.
    eapply sim_bind; [apply sim_flat_description; constructor|]. intros ? ? <-.
    eapply sim_bind; [by apply sim_map_value|]. intros ? ? ?.
    eapply sim_bind; [by apply sim_flat_description|]. intros ? ? <-. by apply sim_ret.
  - cbn [node_description]. eapply sim_bind; [apply IH|]. intros ? ? <-. by apply sim_ret.
  - cbn [node_description]. apply sim_panic.
Qed.
Lemma sim_comment n n' : Sn n n' -> sim eq (comment n) (comment n').
Proof.
  intros Hn. unfold comment.
  destruct Hn as [k a a' p p' Hp Hd _| | | | | |]; try (by apply sim_ret).
  destruct k; try (by apply sim_ret);
    (eapply sim_bind; [by apply sim_deref|]); intros t ? [<- _]; by apply sim_ret.
Qed.
Lemma sim_type_name n n' :
  Sn n n' -> sim eq (type_name n) (type_name n').
Proof.
  intros H. induction H as [k a a' p p' Hp Hd _|b|a a' t t' H IH|a a'|o o' H|v v' H|k v v' H];
    cbn [type_name]; try apply sim_panic; try (by apply sim_ret).
  - destruct k; try apply sim_panic; try (by apply sim_ret);
      (destruct Hd as [Hd|Hd]; [discriminate Hd|]);
      apply sim_get; intros s1 s2 Al; rewrite (al_scopes _ _ Al _ _ Hp) by exact Hd; by apply sim_ret.
  - eapply sim_bind; [by apply IH|]. intros ? ? <-. by apply sim_ret.
Qed.
Lemma same_val_hdr v v' : same_val pts v v' -> same_hdr pts (ov_hdr v) (ov_hdr v').
Proof. by intros []. Qed.
Lemma sim_wrap_parent p p' :
  pts p p' -> sim So (wrap (parent_visitee p)) (wrap (parent_visitee p')).
Proof.
  intros Hp. apply sim_wrap. unfold parent_visitee. destruct (pts_parent _ _ Hp); by constructor.
Qed.
Lemma sim_node_parent n n' :
  Sn n n' -> sim So (node_parent n) (node_parent n').
Proof.
  intros H. induction H as [k a a' p p' Hp Hd _|b|a a' t t' H IH|a a'|o o' H|v v' H|k v v' H];
    cbn [node_parent]; try apply sim_panic.
  - destruct k; try apply sim_panic; try (by apply sim_wrap_parent). apply sim_ret. constructor.
  - apply IH.
  - destruct H. cbn [o_proto]. by apply sim_wrap_parent.
  - destruct (same_val_hdr _ _ H) as [a a' q q' l Hq]. cbn [ov_option]. apply sim_wrap.
    destruct Hq; by constructor.
Qed.
Definition same_pos (r r' : position) : Prop := r = r' /\ F (p_file r).
Lemma sim_node_pos n n' : Sn n n' -> sim same_pos (node_pos n) (node_pos n').
Proof.
  intros H. induction H as [k a a' p p' Hp Hd _|b|a a' t t' H IH|a a'|o o' H|v v' H|k v v' H];
    cbn [node_pos]; try apply sim_panic.
  - assert (Hother : sim same_pos (t <~ deref p;; ret (t_pos t)) (t <~ deref p';; ret (t_pos t))).
    { eapply sim_bind; [by apply sim_deref|]. intros t ? (<- & _ & _ & Hz & _). by apply sim_ret. }
    destruct k; try exact Hother. der Hp. apply sim_ret. split; [done|]. by apply Hfile.
  - by apply sim_ret.
  - apply IH.
  - destruct H as [? ? p p' ? ? ? ? Hp _ _ _ _]. cbn [o_proto].
    eapply sim_bind; [by apply sim_deref|]. intros t ? (<- & _ & _ & Hz & _). by apply sim_ret.
  - destruct (same_val_hdr _ _ H) as [a a' q q' l Hq]. cbn [ov_option].
    destruct Hq as [|q q' Hq]; [apply sim_panic|].
    eapply sim_bind; [by apply sim_deref|]. intros t ? (<- & _ & _ & Hz & _). by apply sim_ret.
Qed.
Lemma sim_node_file n n' : Sn n n' -> sim So (node_file n) (node_file n').
Proof.
  intros H. unfold node_file. eapply sim_bind; [by apply sim_node_pos|]. intros ps ? [<- HF].
  apply sim_get. intros s1 s2 Al. destruct (al_protos _ _ Al (p_file ps) HF) as [g g' Hg|];
    [|apply sim_ret; constructor].
  eapply sim_bind; [by apply (sim_wrap_as KFile (root g) (root g'))|]. intros. apply sim_ret.
  by constructor.
Qed.

(** loops *)
Lemma sim_hierarchy fuel C (RC : C -> C -> Prop) y1 y2 :
  (forall c c' n n', RC c c' -> Sn n n' ->
     sim (fun x y => RC x.1 y.1 /\ x.2 = y.2) (y1 c n) (y2 c' n')) ->
  forall o o' c c', So o o' -> RC c c' ->
  sim RC (hierarchy_from fuel o C c y1) (hierarchy_from fuel o' C c' y2).
Proof.
  intros Hy. induction fuel as [|fuel IH]; intros o o' c c' Ho Hc;
    destruct Ho as [|n n' Hn]; cbn [hierarchy_from]; try (by apply sim_ret).
  - apply sim_diverge.
  - eapply sim_bind; [by apply Hy|]. intros [x b] [x' b'] [Hx Hb]. cbn in Hx, Hb. subst b'.
    destruct b; [|by apply sim_ret].
    eapply sim_bind; [by apply sim_node_parent|]. intros. by apply IH.
Qed.
Lemma sim_iterate {B B' E} (RB : B -> B' -> Prop) (RE : E -> E -> Prop)
    (pick : B -> R (option E)) (pick' : B' -> R (option E)) C
    (RC : C -> C -> Prop) y1 y2 l l' :
  (forall b b', RB b b' -> sim (fun x y => option_Forall2 RE x y) (pick b) (pick' b')) ->
  (forall c c' n n', RC c c' -> RE n n' ->
     sim (fun x y => RC x.1 y.1 /\ x.2 = y.2) (y1 c n) (y2 c' n')) ->
  Forall2 RB l l' ->
  forall c c', RC c c' -> sim RC (iterate pick l C c y1) (iterate pick' l' C c' y2).
Proof.
  intros Hp Hy Hl. induction Hl as [|b b' l l' Hb _ IH]; intros c c' Hc; cbn [iterate];
    [by apply sim_ret|].
  eapply sim_bind; [by apply Hp|]. intros x x' Hx. destruct Hx as [x x' Hx|]; [|by apply IH].
  eapply sim_bind; [by apply Hy|]. intros [d g] [d' g'] [Hd Hg]. cbn in Hd, Hg. subst g'.
  destruct g; [by apply IH|by apply sim_ret].
Qed.
Ltac kid := let p := fresh "p" in let Hp := fresh "Hp" in let Hd := fresh "Hd" in
  intros [p ?] [? ?] (Hp & Ht & Hd); cbn [fst snd] in *; subst.
Lemma sim_pick_kind sel k b b' : same_kid b b' ->
  sim (fun x y => option_Forall2 Sn x y) (pick_kind sel k b) (pick_kind sel k b').
Proof.
  revert b b'. kid. unfold pick_kind. cbn [fst snd]. destruct (sel _); [|apply sim_ret; constructor].
  eapply sim_bind; [by apply sim_wrap_as|]. intros. apply sim_ret. by constructor.
Qed.
Lemma sim_pick_type b b' : same_kid b b' ->
  sim (fun x y => option_Forall2 Sn x y) (pick_type b) (pick_type b').
Proof.
  revert b b'. kid. unfold pick_type. cbn [fst snd].
  match goal with |- context [t_data ?t] => destruct (t_data t) end;
    try (apply sim_ret; by constructor); try (match goal with |- context [if ?x then _ else _] => destruct x end);
    try (apply sim_ret; by constructor);
    (eapply sim_bind; [by apply sim_wrap_as|]; intros; apply sim_ret; by constructor).
Qed.

Lemma sim_option_class c : sim (fun p p' => pts p p' /\ D p) (option_class c) (option_class c).
Proof.
  unfold option_class. apply sim_get. intros s1 s2 Al.
  destruct (alike_name _ _ c Al) as [->|p p' -> -> Hp]; [apply sim_panic|].
  der Hp. apply sim_ret. split; [done|deep].
Qed.
Lemma sim_new_option sc c c' o o' :
  pts c c' -> D c -> pts o o' -> sim Sopt (new_option sc c o) (new_option sc c' o').
Proof.
  intros Hc Hdc Ho. unfold new_option. der Ho.
  eapply sim_bind; [apply sim_resolve; known|]. intros [q ok] ? <-.
  apply (sim_bind deep_ptro).
  - destruct ok.
    + apply sim_get. intros s1 s2 Al. destruct (alike_name _ _ q Al) as [->|f f' -> -> Hf]; [apply sim_panic|].
      der Hf. apply sim_ret. constructor; [done|deep].
    + unfold builtin_option_field. eapply sim_bind; [by apply sim_kids_of|]. intros l l' Hl.
      apply sim_ret. by apply find_kid_same.
  - intros f f' Hf. destruct Hf as [|f f' Hf Hdf]; [apply sim_panic|].
    eapply sim_bind; [apply sim_alloc|]. intros. apply sim_ret. by constructor.
Qed.
Lemma sim_wrap_option o o' c c' :
  pts o o' -> D o -> pts c c' -> D c -> sim Sopt (wrap_option o c) (wrap_option o' c').
Proof.
  intros Ho Hd Hc Hdc. unfold wrap_option. apply sim_get. intros s1 s2 Al.
  rewrite (al_scopes _ _ Al _ _ Ho Hd). by apply sim_new_option.
Qed.
Lemma sim_pick_any cn b b' : same_kid b b' ->
  sim (fun x y => option_Forall2 So x y) (pick_any cn b) (pick_any cn b').
Proof.
  revert b b'. kid. unfold pick_any. cbn [fst snd]. destruct (is_option _).
  - eapply sim_bind; [apply sim_option_class|]. intros c c' [Hc Hdc].
    eapply sim_bind; [by apply sim_wrap_option|]. intros o o' Ho. apply sim_ret.
    by do 3 constructor.
  - eapply sim_bind; [by apply sim_wrap, vs_ptr|]. intros. apply sim_ret. by constructor.
Qed.
Lemma sim_pick_option sc c c' b b' : pts c c' -> D c -> same_kid b b' ->
  sim (fun x y => option_Forall2 Sopt x y) (pick_option sc c b) (pick_option sc c' b').
Proof.
  intros Hc Hdc. revert b b'. kid. unfold pick_option. cbn [fst snd].
  destruct (is_option _); [|apply sim_ret; constructor].
  eapply sim_bind; [by apply sim_new_option|]. intros. apply sim_ret. by constructor.
Qed.
Lemma sim_pick_method_option b b' : same_kid b b' ->
  sim (fun x y => option_Forall2 Sopt x y) (pick_method_option b) (pick_method_option b').
Proof.
  revert b b'. kid. unfold pick_method_option. cbn [fst snd].
  destruct (is_option _); [|apply sim_ret; constructor].
  eapply sim_bind; [apply sim_option_class|]. intros c c' [Hc Hdc].
  eapply sim_bind; [by apply sim_wrap_option|]. intros. apply sim_ret. by constructor.
Qed.
Lemma sim_named_option n sc c p p' : pts p p' ->
  sim Sopto (named_option n sc c p) (named_option n sc c p').
Proof.
  intros Hp. unfold named_option. eapply sim_bind; [apply sim_option_class|]. intros cl cl' [Hc Hdc].
  eapply sim_bind; [by apply sim_kids_of|]. intros l l' Hl.
  match goal with |- context [find_kid ?sel l] => destruct (find_kid_same sel _ _ Hl) as [|q q' Hq _] end;
    [apply sim_ret; constructor|].
  eapply sim_bind; [by apply sim_new_option|]. intros. apply sim_ret. by constructor.
Qed.
Lemma sim_option_named n n' name :
  Sn n n' -> sim Sopto (option_named n name) (option_named n' name).
Proof.
  intros Hn. unfold option_named. apply sim_get. intros s1 s2 Al.
  destruct Hn as [k a a' p p' Hp Hd _| | | | | |]; try apply sim_panic.
  destruct k; try apply sim_panic;
    try (destruct Hd as [Hd|Hd]; [discriminate Hd|]; rewrite (al_scopes _ _ Al _ _ Hp) by exact Hd;
         by apply sim_named_option).
  - eapply sim_bind; [by apply sim_file_package|]. intros ? ? <-. by apply sim_named_option.
  - destruct Hd as [Hd|Hd]; [discriminate Hd|].
    eapply sim_bind; [by apply sim_deref|]. intros t ? [<- _].
    rewrite (al_scopes _ _ Al _ _ Hp) by exact Hd.
    destruct (t_data t); try apply sim_panic; by apply sim_named_option.
Qed.
Lemma sim_option_name o o' :
  Sopt o o' -> sim eq (option_name o) (option_name o').
Proof.
  intros [a a' p p' c c' f f' Hp Hc Hdc Hf Hdf]. unfold option_name. cbn [o_field o_class o_proto] in *.
  assert (Hb : bool_decide (parent_ptr f = Some c) = bool_decide (parent_ptr f' = Some c')).
  { apply bool_decide_ext. destruct (pts_parent _ _ Hf) as [|q q' Hq]; [done|].
    pose proof (pts_eq _ _ _ _ Hq Hc). split; intros [= H']; f_equal; naive_solver. }
  rewrite <- Hb. clear Hb. destruct (bool_decide (parent_ptr f = Some c)).
  - apply sim_get. intros s1 s2 Al.
    eapply sim_bind; [by apply sim_deref|]. intros t ? [<- _].
    rewrite (al_scopes _ _ Al _ _ Hc Hdc). by apply sim_ret.
  - der Hp. by apply sim_ret.
Qed.
Lemma sim_option_is o o' name :
  Sopt o o' -> sim eq (option_is o name) (option_is o' name).
Proof.
  intros [a a' p p' c c' f f' Hp Hc Hdc Hf Hdf]. unfold option_is. cbn [o_field] in *.
  intros s1 s2 x s1' T E. revert E. 
  apply (sim_bind (fun w w' => So w w' /\ forall k a q, w = Some (NAst k a q) -> q = f)); [| |done].
  - clear T s1 s2 x s1'. intros s1 s2 w s1' T E.
    destruct (sim_wrap _ _ (vs_ptr _ _ Hf) _ _ _ _ T E) as (w' & s2' & E' & Hw & T').
    exists w', s2'. split; [done|]. split; [|done]. split; [done|]. intros k b q ->.
    destruct (wrap_ret _ _ _ _ (proj2 (st_inv1 _ _ T)) E) as (? & ? & ? & ? & [= <-] & [= -> -> ->] & _).
    done.
  - intros w w' [Hw Hq]. apply (sim_bind eq).
    + destruct Hw as [|n n' Hn]; [by apply sim_ret|]. apply sim_node_index; [done|].
      intros b q ->. by rewrite (Hq _ _ _ eq_refl).
    + intros ? ? <-. by apply sim_ret.
Qed.
Lemma sim_go_package_option n n' :
  Sn n n' -> sim eq (go_package_option n) (go_package_option n').
Proof.
  intros Hn. destruct Hn as [| | | |? ? [a a' p p' c c' f f' Hp Hc Hdc Hf Hdf]| |]; unfold go_package_option;
    try (by apply sim_ret). cbn [o_field o_proto].
  apply sim_get. intros s1 s2 Al.
  destruct (alike_name _ _ ".google.protobuf.FileOptions.go_package" Al) as [->|q q' -> -> Hq];
    [apply sim_panic|].
  assert (Hb : bool_decide (f = q) = bool_decide (f' = q')).
  { apply bool_decide_ext. by apply pts_eq. }
  rewrite Hb. destruct (negb _); [by apply sim_ret|]. der Hp.
  destruct (index_byte _ _); by apply sim_ret.
Qed.
Lemma sim_type_is_defined n n' ref :
  Sn n n' -> sim eq (type_is_defined n ref) (type_is_defined n' ref).
Proof.
  intros Hn. unfold type_is_defined. apply sim_get. intros s1 s2 Al.
  destruct Hn as [k a a' p p' Hp Hd _| | | | | |]; try (by apply sim_ret).
  assert (Hb : bool_decide (names s1 !! ref = Some p) = bool_decide (names s2 !! ref = Some p')).
  { apply bool_decide_ext. split; intros H; [|by eapply (al_back _ _ Al)].
    destruct (al_names _ _ Al _ _ H) as (q' & -> & Hq). f_equal. by eapply pts_fun. }
  destruct k; try (by apply sim_ret); rewrite Hb; by apply sim_ret.
Qed.

Lemma sim_go_package n n' : Sn n n' -> sim eq (go_package n) (go_package n').
Proof.
  intros Hn. unfold go_package. eapply sim_bind; [by apply sim_node_file|]. intros f f' Hf.
  destruct Hf as [|f f' Hf]; [by apply sim_ret|].
  destruct Hf as [k a a' p p' Hp Hd _| | | | | |]; try apply sim_forged.
  destruct k; try apply sim_forged.
  unfold file_everything, iter_kids. eapply sim_bind; [by apply sim_kids_of|]. intros l l' Hl.
  eapply sim_iterate; [apply sim_pick_any| |exact Hl|reflexivity].
  intros c ? o o' <- Ho. destruct Ho as [|m m' Hm]; [by apply sim_ret|].
  destruct Hm as [| | | |q q' Hq| |]; try (by apply sim_ret).
  eapply sim_bind; [by apply sim_option_name|]. intros nm ? <-.
  destruct (negb _); [by apply sim_ret|].
  eapply sim_bind; [apply sim_go_package_option; by constructor|]. intros ? ? <-. by apply sim_ret.
Qed.

Lemma node_fuel_same n n' : Sn n n' -> node_fuel n = node_fuel n'.
Proof.
  intros H. induction H as [k a a' p p' [_ Hp] Hd _|b|a a' t t' H IH|a a'|o o' H|v v' H|k v v' H];
    cbn [node_fuel]; try done.
  - by rewrite Hp.
  - by rewrite IH.
  - destruct H as [? ? p p' ? ? ? ? [_ Hp] _ _ _ _]. cbn. by rewrite Hp.
  - destruct (same_val_hdr _ _ H) as [a a' q q' l [|p p' [_ Hp]]]; cbn; [done|]. by rewrite Hp.
Qed.

Lemma sim_collect_hierarchy fuel n n' : Sn n n' ->
  sim (Forall2 Sn) (collect (node_hierarchy fuel n)) (collect (node_hierarchy fuel n')).
Proof.
  intros Hn. unfold collect, node_hierarchy. apply sim_hierarchy.
  - intros c c' m m' Hc Hm. apply sim_ret. split; [|done]. apply Forall2_app; [done|].
    by repeat constructor.
  - by constructor.
  - constructor.
Qed.

Lemma sim_pos n n' : Sn n n' -> sim eq (pos n) (pos n').
Proof.
  intros Hn.
  assert (Hb : sim eq (pos_body n) (pos_body n')).
  { unfold pos_body. destruct Hn as [k a a' p p' Hp Hd _| | | |? ? [a a' p p' c c' f f' Hp Hc Hdc Hf Hdf]|v v' Hv|];
      try apply sim_panic.
    - assert (Hother : sim eq (t <~ deref p;; ret (t_pos t)) (t <~ deref p';; ret (t_pos t))).
      { eapply sim_bind; [by apply sim_deref|]. intros t ? [<- _]. by apply sim_ret. }
      destruct k; try exact Hother. der Hp. by apply sim_ret.
    - eapply sim_bind; [by apply sim_deref|]. intros t ? [<- _]. by apply sim_ret.
    - destruct (same_val_hdr _ _ Hv) as [a a' q q' l Hq]. cbn [ov_lit].
      destruct l; [by apply sim_ret|apply sim_panic]. }
  assert (Hd : forall r, sim eq (pos_deferred n r) (pos_deferred n' r)).
  { intros r. unfold pos_deferred. destruct (negb _); [by apply sim_ret|].
    rewrite <- (node_fuel_same _ _ Hn).
    eapply sim_bind; [by apply sim_collect_hierarchy|].
    intros l l' Hl.
    assert (Hlast : So (list.last l) (list.last l')).
    { clear -Hl. induction Hl as [|x y l l' Hx Hl IH]; [constructor|].
      destruct Hl; cbn; [by constructor|exact IH]. }
    destruct Hlast as [|m m' Hm]; [apply sim_panic|].
    destruct Hm as [k a a' p p' Hp Hd _| | | | | |]; try apply sim_panic.
    destruct k; try apply sim_panic. der Hp. by apply sim_ret. }
  intros s1 s2 x1 s1' T E. unfold pos in E |- *.
  destruct (pos_body n s1) as [[r|e|] s1b] eqn:Eb; [| |discriminate E].
  - destruct (Hb _ _ _ _ T Eb) as (r2 & s2b & Eb2 & <- & T2). rewrite Eb2.
    exact (Hd r _ _ _ _ T2 E).
  - destruct (pos_deferred n zero_pos s1b) as [[?|?|] ?]; discriminate E.
Qed.

Lemma sim_build fl lit : forall opt opt' field field' ignore,
  same_ptro pts opt opt' -> pts field field' ->
  sim (same_val pts) (build fl opt field lit ignore) (build fl opt' field' lit ignore).
Proof.
  induction lit as [lp src arr omap IHa IHm] using literal_nested_ind.
  intros opt opt' field field' ignore Hopt Hfield. rewrite !build_unfold.
  assert (Ha : sim (same_vals pts) (build_array fl field arr) (build_array fl field' arr)).
  { induction IHa as [|x l Hx _ IH]; cbn [build_array]; [apply sim_ret; constructor|].
    eapply sim_bind; [apply Hx; [constructor|done]|]. intros.
    eapply sim_bind; [apply IH|]. intros. apply sim_ret. by constructor. }
  assert (Hm : forall mp mp', pts mp mp' ->
    sim (same_items pts) (build_items fl mp omap) (build_items fl mp' omap)).
  { intros mp mp' Hmp.
    induction IHm as [|[k x] l Hx _ IH]; cbn [build_items]; [apply sim_ret; constructor|].
    eapply sim_bind; [by apply sim_lookup_kid|]. intros f f' Hf.
    destruct Hf as [|f f' Hf].
    { eapply sim_bind; [by apply sim_node_name|]. intros ? ? <-. apply sim_panic. }
    destruct Hf as [kd a a' p p' Hp Hd _| | | | | |]; try apply sim_forged.
    destruct kd; try apply sim_forged. der Hp.
    eapply sim_bind; [apply Hx; [constructor|done]|]. intros.
    eapply sim_bind; [apply IH|]. intros. apply sim_ret. by constructor. }
  assert (Hleaf : forall (mk : ovhdr -> oval),
    (forall h h', same_hdr pts h h' -> same_val pts (mk h) (mk h')) ->
    sim (same_val pts) (a <~ alloc ;; ret (mk (mkHdr a opt (Some (Lit lp src arr omap)))))
      (a <~ alloc ;; ret (mk (mkHdr a opt' (Some (Lit lp src arr omap)))))).
  { intros mk Hmk. eapply sim_bind; [apply sim_alloc|]. intros a a' _. apply sim_ret.
    apply Hmk. by constructor. }
  cbn [lit_array lit_map lit_source]. der Hfield.
  destruct (repeated && negb ignore).
  { eapply sim_bind; [apply Ha|]. intros. eapply sim_bind; [apply sim_alloc|]. intros.
    apply sim_ret. constructor; [by constructor|done]. }
  destruct (String.eqb typ "bool").
  { destruct (parse_bool src) as [x|]; [|apply sim_panic]. apply (Hleaf (fun h => OVBool h x)). by constructor. }
  destruct (is_signed_type typ).
  { destruct (atoi src) as [x|]; [|apply sim_panic]. apply (Hleaf (fun h => OVInt h x)). by constructor. }
  destruct (is_unsigned_type typ).
  { destruct (parse_uint src) as [x|]; [|apply sim_panic]. apply (Hleaf (fun h => OVUint h x)). by constructor. }
  destruct (is_float_type typ).
  { destruct (fl_parse fl src) as [x|]; [|apply sim_panic]. apply (Hleaf (fun h => OVFloat h x)). by constructor. }
  destruct (String.eqb typ "string").
  { apply (Hleaf (fun h => OVString h src)). by constructor. }
  destruct (String.eqb typ "bytes").
  { apply (Hleaf (fun h => OVBytes h (String.list_ascii_of_string src))). by constructor. }
  eapply sim_bind; [apply sim_get_type_by_name; [done|deep|known]|]. intros f f' Hf.
  destruct Hf as [|f f' Hf]; [apply sim_panic|].
  destruct Hf as [kd a a' p p' Hp Hdp _| | | | | |]; try apply sim_panic.
  destruct kd; try apply sim_panic.
  - eapply sim_bind; [by apply Hm|]. intros. eapply sim_bind; [apply sim_alloc|]. intros.
    apply sim_ret. constructor; [by constructor|done].
  - eapply sim_bind; [by apply sim_lookup_kid|]. intros v v' Hv.
    destruct Hv as [|v v' Hv]; [apply sim_panic|].
    destruct Hv as [kd b b' q q' Hq Hdq _| | | | | |]; try apply sim_forged.
    destruct kd; try apply sim_forged.
    eapply sim_bind; [apply sim_alloc|]. intros. apply sim_ret. constructor; [by constructor|done].
Qed.
Lemma sim_option_value fl o o' :
  Sopt o o' -> sim (same_val pts) (option_value fl o) (option_value fl o').
Proof.
  intros [a a' p p' c c' f f' Hp Hc Hdc Hf Hdf]. unfold option_value. cbn [o_proto o_field]. der Hp.
  apply sim_build; [by constructor|done].
Qed.

Lemma sim_render fl v v' : same_val pts v v' -> sim eq (render fl v) (render fl v').
Proof.
  revert v'. induction v as [| | | | | | |h l IH|h l IH] using oval_nested_ind; intros v' Hv;
    inversion Hv; subst; try (by apply sim_ret).
  - cbn [render]. match goal with H : pts _ _ |- _ => rename H into Hp end.
    destruct (pts_parent _ _ Hp) as [|e e' He]; [apply sim_panic|]. der He.
    eapply sim_bind; [by apply sim_deref|]. intros t0 ? [<- _]. by apply sim_ret.
  - rewrite !render_array. apply (sim_bind eq); [|intros ? ? <-; by apply sim_ret].
    match goal with H : same_vals pts _ _ |- _ => rename H into Hl end. clear Hv. revert l' Hl.
    induction IH as [|x l Hx _ IH]; intros l' Hl; inversion Hl; subst; cbn [render_list]; [by apply sim_ret|].
    eapply sim_bind; [by apply Hx|]. intros ? ? <-. eapply sim_bind; [by apply IH|]. intros ? ? <-.
    by apply sim_ret.
  - rewrite !render_map. apply (sim_bind eq); [|intros ? ? <-; by apply sim_ret].
    match goal with H : same_items pts _ _ |- _ => rename H into Hl end. clear Hv. revert l' Hl.
    induction IH as [|[k x] l Hx _ IH]; intros l' Hl; inversion Hl; subst; cbn [render_items]; [by apply sim_ret|].
    eapply sim_bind; [by apply Hx|]. intros ? ? <-. eapply sim_bind; [by apply IH|]. intros ? ? <-.
    by apply sim_ret.
Qed.

(** ** Calls, loops, programs *)

Lemma sim_call {A} E (RA : rel A) c c' : same_call pts D E RA c c' -> sim (RA anyid) c c'.
Proof.
  intros H. apply (same_call_more _ _ _ anyid) in H; [|done]. unfold always. destruct H; first
    [ by apply sim_branch_type | by apply sim_method_input | by apply sim_method_output
    | by apply sim_map_key | by apply sim_map_value | by apply sim_node_name
    | by apply sim_file_package | by apply sim_message_is_extension | by apply sim_field_value
    | by apply sim_enum_value_value | by apply sim_branch_value | by apply sim_field_optional
    | by apply sim_lookup_kid | by apply sim_lookup_type | by apply sim_node_by_full_name
    | by apply sim_node_description | by apply sim_comment | by apply sim_node_parent
    | by apply sim_node_file | by apply sim_pos | by apply sim_go_package_option
    | by apply sim_go_package | by apply sim_type_name | by apply sim_type_is_defined
    | by apply sim_node_index | by apply sim_option_named | by apply sim_option_name
    | by apply sim_option_is | by apply sim_option_value | by apply sim_render ].
Qed.

(** the body of a loop *)
Definition sim_body {E C} (RE : E -> E -> Prop) (RC : C -> C -> Prop)
    (y y' : C -> E -> R (C * bool)) : Prop :=
  forall c c' x x', RC c c' -> RE x x' ->
    sim (fun r r' => RC r.1 r'.1 /\ r.2 = r'.2) (y c x) (y' c' x').

Lemma sim_iter_kids {E} (RE : E -> E -> Prop) p p' (pick pick' : ptr * tree -> R (option E))
    C (RC : C -> C -> Prop) y y' :
  pts p p' ->
  (forall b b', same_kid b b' -> sim (fun x y => option_Forall2 RE x y) (pick b) (pick' b')) ->
  sim_body RE RC y y' -> forall c c', RC c c' ->
  sim RC (iter_kids p pick C c y) (iter_kids p' pick' C c' y').
Proof.
  intros Hp Hpick Hy c c' Hc. unfold iter_kids.
  eapply sim_bind; [by apply sim_kids_of|]. intros l l' Hl.
  eapply sim_iterate; [exact Hpick|exact Hy|exact Hl|exact Hc].
Qed.

Lemma sim_loop {A C} E (RA : rel A) (RC : C -> C -> Prop) q q' c c' y y' :
  same_loop pts D E RA q q' -> RC c c' -> sim_body (RA anyid) RC y y' -> sim RC (q C c y) (q' C c' y').
Proof.
  intros H. apply (same_loop_more _ _ _ anyid) in H; [|done]. intros Hc Hy. unfold always in Hy. destruct H;
    try (eapply sim_iter_kids; [done| |exact Hy|exact Hc]; intros; first
      [by apply sim_pick_kind|by apply sim_pick_type|by apply sim_pick_any
      |by apply sim_pick_method_option|by apply sim_pick_option]).
  - unfold reserved_values. eapply sim_bind; [by apply sim_deref|]. intros t ? [<- _].
    destruct (t_data t); try apply sim_forged.
    eapply (sim_iterate eq); [|exact Hy| |exact Hc].
    + intros b ? <-. apply sim_ret. by constructor.
    + apply Forall2_same_length_lookup_2; [done|]. intros; congruence.
  - unfold node_hierarchy. apply sim_hierarchy; [exact Hy|by constructor|done].
Qed.

Lemma sim_seq_options sc cn p p' C (RC : C -> C -> Prop) y y' c c' :
  pts p p' -> sim_body Sopt RC y y' -> RC c c' ->
  sim RC (sq <~ seq_options sc cn p ;; sq C c y) (sq <~ seq_options sc cn p' ;; sq C c' y').
Proof.
  intros Hp Hy Hc. unfold seq_options.
  intros t1 t2 z t1' T Ey. rewrite rbind_assoc in Ey. rewrite rbind_assoc. revert t1 t2 z t1' T Ey.
  eapply sim_bind; [apply sim_option_class|]. intros cl cl' [Hcl Hd].
  intros t1 t2 z t1' T Ey. rewrite rbind_ret in Ey. rewrite rbind_ret. revert t1 t2 z t1' T Ey.
  eapply sim_iter_kids; [done| |exact Hy|exact Hc]. intros. by apply sim_pick_option.
Qed.
Lemma sim_options n n' C (RC : C -> C -> Prop) y y' c c' :
  Sn n n' -> sim_body Sopt RC y y' -> RC c c' ->
  sim RC (sq <~ options n ;; sq C c y) (sq <~ options n' ;; sq C c' y').
Proof.
  intros Hn Hy Hc t1 t2 z t1' T Ey. unfold options in Ey |- *.
  rewrite rbind_assoc, rbind_get in Ey. rewrite rbind_assoc, rbind_get.
  pose proof (st_alike _ _ T) as Al.
  destruct Hn as [k a a' p p' Hp Hd _| | | | | |]; try discriminate Ey.
  destruct k; try discriminate Ey;
    try (destruct Hd as [Hd|Hd]; [discriminate Hd|]; rewrite (al_scopes _ _ Al _ _ Hp Hd) in Ey;
         exact (sim_seq_options _ _ _ _ _ _ _ _ _ _ Hp Hy Hc _ _ _ _ T Ey)).
  - rewrite rbind_assoc in Ey. rewrite rbind_assoc.
    apply rbind_Ret in Ey as (pk & t3 & Ed & Ey).
    destruct (sim_file_package _ _ Hp _ _ _ _ T Ed) as (? & t4 & Ed' & <- & T').
    rewrite (rbind_val _ _ _ _ _ Ed').
    exact (sim_seq_options _ _ _ _ _ _ _ _ _ _ Hp Hy Hc _ _ _ _ T' Ey).
  - destruct Hd as [Hd|Hd]; [discriminate Hd|]. rewrite (al_scopes _ _ Al _ _ Hp Hd) in Ey.
    rewrite rbind_assoc in Ey. rewrite rbind_assoc.
    apply rbind_Ret in Ey as (t & t3 & Ed & Ey).
    destruct (sim_deref _ _ Hp _ _ _ _ T Ed) as (? & t4 & Ed' & [<- _] & T').
    rewrite (rbind_val _ _ _ _ _ Ed').
    destruct (t_data t); try discriminate Ey;
      exact (sim_seq_options _ _ _ _ _ _ _ _ _ _ Hp Hy Hc _ _ _ _ T' Ey).
Qed.

(*KRIPKE*)
(** ** Programs that compare nodes

    The node of a declaration or file is remembered under its pointer, so that the identities of
    such nodes on the two sides correspond. *)
Definition ids_of (s1 s2 : registry) : ids := fun a a' =>
  exists k p p', pts p p' /\ cache s1 !! VPtr p = Some (Some (NAst k a p)) /\
    cache s2 !! VPtr p' = Some (Some (NAst k a' p')).
Lemma ids_of_one s1 s2 : Inv s1 -> Inv s2 -> one_to_one (ids_of s1 s2).
Proof.
  intros [_ N1] [_ N2] a a' b b' (k & p & p' & Hp & C1 & C2) (l & q & q' & Hq & D1 & D2).
  split; intros <-.
  - assert (NAst k a p = NAst l a q) as [= <- <-].
    { apply (nd_inj _ N1); [left; eauto|left; eauto|by eexists|done]. }
    rewrite (pts_fun _ _ _ Hp Hq) in C2. congruence.
  - assert (NAst k a' p' = NAst l a' q') as [= <- <-].
    { apply (nd_inj _ N2); [left; eauto|left; eauto|by eexists|done]. }
    rewrite (pts_inj _ _ _ Hp Hq) in C1. congruence.
Qed.
Lemma ids_of_more s1 s1' s2 s2' :
  grows s1 s1' -> grows s2 s2' -> more (ids_of s1 s2) (ids_of s1' s2').
Proof.
  intros G1 G2 a a' (k & p & p' & Hp & C1 & C2). exists k, p, p'.
  split; [done|]. split; by eapply ext_cache.
Qed.

(** what the API hands out is remembered *)
Fixpoint good (s : registry) (n : node) : Prop :=
  match n with
  | NAst k a p => a_group k = false -> cache s !! VPtr p = Some (Some (NAst k a p))
  | NRepeated _ (Some t) => good s t
  | _ => True
  end.
Definition goodo (s : registry) (o : option node) : Prop := forall n, o = Some n -> good s n.
Lemma good_up s1 s2 n n' :
  Sn n n' -> good s1 n -> good s2 n' -> same_node pts D (ids_of s1 s2) n n'.
Proof.
  intros H. induction H; cbn [good]; intros G1 G2; constructor; auto. intros Hk.
  exists k, p, p'. auto.
Qed.
Lemma goodo_up s1 s2 o o' :
  So o o' -> goodo s1 o -> goodo s2 o' -> same_nodeo pts D (ids_of s1 s2) o o'.
Proof. intros [] G1 G2; constructor. apply good_up; auto. Qed.
Lemma canonical_good s n : canonical s n -> good s n.
Proof. intros (k & a & p & -> & H) _. exact H. Qed.
Lemma elem_good s n : elem_node s n -> good s n.
Proof. intros [[b ->]|[H _]]; [done|by apply canonical_good]. Qed.
Lemma goodo_some s n : good s n -> goodo s (Some n).
Proof. by intros H ? [= <-]. Qed.
Lemma goodo_none s : goodo s None.
Proof. by intros ? [=]. Qed.

Lemma wrap_good v s o s' : Inv s -> wrap v s = (Ret o, s') -> goodo s' o.
Proof. intros I E n ->. apply canonical_good. by eapply wrap_canonical. Qed.
Lemma wrap_as_good k p s n s' : Inv s -> wrap_as k p s = (Ret n, s') -> good s' n.
Proof. intros I E. apply canonical_good. by eapply wrap_as_canonical. Qed.
Lemma lookup_kid_good p sel k s o s' : Inv s -> lookup_kid p sel k s = (Ret o, s') -> goodo s' o.
Proof. intros I E n ->. apply canonical_good. by eapply lookup_kid_canonical. Qed.
Lemma lookup_type_good p sel s o s' : Inv s -> lookup_type p sel s = (Ret o, s') -> goodo s' o.
Proof. intros I E n ->. apply canonical_good. by eapply lookup_type_canonical. Qed.
Lemma parent_good m s o s' : Inv s -> node_parent m s = (Ret o, s') -> goodo s' o.
Proof. intros I E n ->. apply canonical_good. exact (parent_canonical _ _ _ _ I E). Qed.
Lemma node_file_good m s o s' : Inv s -> node_file m s = (Ret o, s') -> goodo s' o.
Proof. intros I E n ->. apply canonical_good. by eapply node_file_canonical. Qed.
Lemma by_name_good q s o s' : Inv s -> node_by_full_name q s = (Ret o, s') -> goodo s' o.
Proof.
  intros I E. unfold node_by_full_name in E. rewrite rbind_get in E. by eapply wrap_good.
Qed.
Lemma branch_type_good p s o s' : Inv s -> branch_type p s = (Ret o, s') -> goodo s' o.
Proof.
  intros I E n ->. unfold branch_type in E. apply rbind_Ret in E as (t & s1 & E1 & E2).
  apply deref_Ret in E1 as [-> Ht]. destruct (t_data t) eqn:Hd; try discriminate E2.
  apply elem_good. eapply get_type_handed; [exact I|exact Ht| |exact E2]. by rewrite Hd.
Qed.
Lemma method_input_good p s r s' : Inv s -> method_input p s = (Ret r, s') -> good s' r.2.
Proof.
  intros I E1. unfold method_input in E1. apply rbind_Ret in E1 as (t & s2 & E1 & E2).
  apply deref_Ret in E1 as [-> Ht]. destruct (t_data t) eqn:Hd; try discriminate E2.
  apply rbind_Ret in E2 as (ty & s3 & E2 & E3). apply rbind_Ret in E3 as (x & s4 & E3 & E4).
  injection E4 as <- <-. cbn [snd]. apply canonical_good.
  eapply method_type_handed; [exact I|exact Ht|eauto 10|].
  rewrite (rbind_val _ _ _ _ _ E2), (rbind_val _ _ _ _ _ E3). done.
Qed.
Lemma method_output_good p s r s' : Inv s -> method_output p s = (Ret r, s') -> good s' r.2.
Proof.
  intros I E1. unfold method_output in E1. apply rbind_Ret in E1 as (t & s2 & E1 & E2).
  apply deref_Ret in E1 as [-> Ht]. destruct (t_data t) eqn:Hd; try discriminate E2.
  apply rbind_Ret in E2 as (ty & s3 & E2 & E3). apply rbind_Ret in E3 as (x & s4 & E3 & E4).
  injection E4 as <- <-. cbn [snd]. apply canonical_good.
  eapply method_type_handed; [exact I|exact Ht|eauto 10|].
  rewrite (rbind_val _ _ _ _ _ E2), (rbind_val _ _ _ _ _ E3). done.
Qed.
Lemma map_value_good p s n s' : Inv s -> map_value p s = (Ret n, s') -> good s' n.
Proof.
  intros I E. unfold map_value in E. apply rbind_Ret in E as (t & s1 & E1 & E2).
  apply deref_Ret in E1 as [-> _]. destruct (t_data t); try discriminate E2.
  destruct (builtin_type typ) as [b|]; [by injection E2 as <- <-|].
  rewrite rbind_get in E2. destruct (names s !! _) as [obj|]; [|discriminate E2].
  apply rbind_Ret in E2 as (u & s2 & E2 & E3). apply deref_Ret in E2 as [-> _].
  destruct (t_data u); try discriminate E3; by eapply wrap_as_good.
Qed.
Lemma field_type_good a p s o s' : Inv s -> field_type a p s = (Ret o, s') -> goodo s' o.
Proof.
  intros I E n ->. destruct (inv_step_ret _ _ _ _ (inv_step_field_type a p) I E) as [[S' N'] _].
  pose proof (field_type_ret _ _ _ _ _ E) as Hc.
  destruct (nd_ftcache _ N' _ _ _ Hc) as (t & Ht & Hsh).
  destruct (t_data t) as [| | | | | | |nm ty sq [] op| | | | | | | | | | |]; try done.
  - destruct Hsh as (b & r & -> & Hr). destruct r as [r|]; [|done]. cbn. by apply elem_good, Hr.
  - by apply elem_good.
  - destruct Hsh as [b ->]. by intros [=].
  - destruct Hsh as [b ->]. by intros [=].
Qed.
Lemma pick_kind_good sel k b s o s' :
  Inv s -> pick_kind sel k b s = (Ret o, s') -> goodo s' o.
Proof. intros I E n ->. apply canonical_good. by eapply pick_kind_canonical. Qed.
Lemma pick_type_good b s o s' : Inv s -> pick_type b s = (Ret o, s') -> goodo s' o.
Proof. intros I E n ->. apply canonical_good. by eapply pick_type_canonical. Qed.
Lemma pick_any_good cn b s o s' :
  Inv s -> pick_any cn b s = (Ret (Some o), s') -> goodo s' o.
Proof.
  intros I E n ->. unfold pick_any in E. destruct (is_option (t_data b.2)).
  - apply rbind_Ret in E as (cl & s1 & _ & E). apply rbind_Ret in E as (op & s2 & _ & E).
    by injection E as <- <-.
  - apply rbind_Ret in E as (w & s1 & E1 & E2). injection E2 as -> <-. by eapply wrap_good.
Qed.

(** [ksim E RA m1 m2]: when [E] relates nodes the registries remember, [m1] and [m2] return the
    same up to the nodes the registries remember then. *)
Definition ksim {A} (E : ids) (RA : rel A) (m1 m2 : R A) : Prop :=
  forall s1 s2 x1 s1', st s1 s2 -> more E (ids_of s1 s2) -> m1 s1 = (Ret x1, s1') ->
  exists x2 s2', m2 s2 = (Ret x2, s2') /\ RA (ids_of s1' s2') x1 x2 /\ st s1' s2' /\
    more (ids_of s1 s2) (ids_of s1' s2').

Lemma more_trans (E1 E2 E3 : ids) : more E1 E2 -> more E2 E3 -> more E1 E3.
Proof. intros H1 H2 a a' H. auto. Qed.
Lemma ksim_ret {A} E (RA : rel A) x x' :
  (forall E', more E E' -> one_to_one E' -> RA E' x x') -> ksim E RA (ret x) (ret x').
Proof.
  intros H s1 s2 x1 s1' T HE [= <- <-]. exists x', s2. split; [done|].
  split; [apply H; [done|]|split; [done|by intros ? ?]].
  by apply ids_of_one; [apply (st_inv1 _ _ T)|apply (st_inv2 _ _ T)].
Qed.
Lemma ksim_panic {A} E (RA : rel A) msg m2 : ksim E RA (panic msg) m2.
Proof. intros s1 s2 x1 s1' T _ Em. discriminate Em. Qed.
Lemma ksim_bind {A B} E (RA : rel A) (RB : rel B) m1 m2 k1 k2 :
  ksim E RA m1 m2 ->
  (forall E' x1 x2, more E E' -> one_to_one E' -> RA E' x1 x2 -> ksim E' RB (k1 x1) (k2 x2)) ->
  ksim E RB (rbind m1 k1) (rbind m2 k2).
Proof.
  intros Sm Sk s1 s2 y s1'' T HE Em. apply rbind_Ret in Em as (x1 & s1' & E1 & E2).
  destruct (Sm _ _ _ _ T HE E1) as (x2 & s2' & F1 & Hx & T' & HE').
  assert (HE1 : more E (ids_of s1' s2')) by (by eapply more_trans).
  assert (H1 : one_to_one (ids_of s1' s2')) by (by apply ids_of_one; [apply (st_inv1 _ _ T')|apply (st_inv2 _ _ T')]).
  destruct (Sk _ _ _ HE1 H1 Hx _ _ _ _ T' ltac:(by intros ? ?) E2) as (y2 & s2'' & F2 & Hy & T'' & HE'').
  exists y2, s2''. rewrite (rbind_val _ _ _ _ _ F1). do 3 (split; [done|]). by eapply more_trans.
Qed.
(** a function of the API *)
Lemma ksim_sim {A} E (R1 : A -> A -> Prop) (RA : rel A) m1 m2 :
  sim R1 m1 m2 -> keeps inv_step m1 -> keeps inv_step m2 ->
  (forall s1 s2 x1 x2 s1' s2', Inv s1 -> Inv s2 -> m1 s1 = (Ret x1, s1') -> m2 s2 = (Ret x2, s2') ->
     R1 x1 x2 -> RA (ids_of s1' s2') x1 x2) ->
  ksim E RA m1 m2.
Proof.
  intros HS K1 K2 HR s1 s2 x1 s1' T HE E1.
  destruct (HS _ _ _ _ T E1) as (x2 & s2' & E2 & Hx & T'). exists x2, s2'.
  pose proof (st_inv1 _ _ T) as I1. pose proof (st_inv2 _ _ T) as I2.
  destruct (inv_step_ret _ _ _ _ K1 I1 E1) as [_ G1].
  destruct (inv_step_ret _ _ _ _ K2 I2 E2) as [_ G2].
  split; [done|]. split; [exact (HR _ _ _ _ _ _ I1 I2 E1 E2 Hx)|]. split; [done|]. by apply ids_of_more.
Qed.
Lemma ksim_plain {A} E (RA : A -> A -> Prop) m1 m2 :
  sim RA m1 m2 -> keeps inv_step m1 -> keeps inv_step m2 -> ksim E (always RA) m1 m2.
Proof. intros HS K1 K2. by eapply ksim_sim. Qed.

Lemma api_inv_step {A} (m : R A) : api m -> keeps inv_step m.
Proof. intros H. apply (client_inv_step Loads). by apply cl_api. Qed.
Lemma call_api {A} E (RA : rel A) c c' : same_call pts D E RA c c' -> api c /\ api c'.
Proof. intros []; split; constructor. Qed.

Lemma ksim_call {A} E (RA : rel A) c c' : same_call pts D E RA c c' -> ksim E RA c c'.
Proof.
  intros H. destruct (call_api _ _ _ _ H) as [A1 A2].
  eapply ksim_sim; [exact (sim_call _ _ _ _ H)|by apply api_inv_step|by apply api_inv_step|].
  intros s1 s2 x1 x2 s1' s2' I1 I2 E1 E2 Hx. clear A1 A2.
  destruct H; try exact Hx; try (apply goodo_up; [exact Hx| |]; first
    [ (eapply lookup_kid_good; [|eassumption]; assumption) | (eapply lookup_type_good; [|eassumption]; assumption) | (eapply branch_type_good; [|eassumption]; assumption)
    | (eapply by_name_good; [|eassumption]; assumption) | (eapply parent_good; [|eassumption]; assumption) | (eapply node_file_good; [|eassumption]; assumption) ]).
  - pose proof (method_input_good _ _ _ _ I1 E1). pose proof (method_input_good _ _ _ _ I2 E2).
    destruct Hx. constructor. by apply good_up.
  - pose proof (method_output_good _ _ _ _ I1 E1). pose proof (method_output_good _ _ _ _ I2 E2).
    destruct Hx. constructor. by apply good_up.
  - apply good_up; [exact Hx| |]; (eapply map_value_good; [|eassumption]; assumption).
Qed.
Lemma ksim_field_type E a a' p p' :
  sim So (field_type a p) (field_type a' p') ->
  ksim E (same_nodeo pts D) (field_type a p) (field_type a' p').
Proof.
  intros HS. eapply ksim_sim; [exact HS|apply inv_step_field_type|apply inv_step_field_type|].
  intros s1 s2 x1 x2 s1' s2' I1 I2 E1 E2 Hx. apply goodo_up; [exact Hx| |]; (eapply field_type_good; [|eassumption]; assumption).
Qed.

(** the body of a loop *)
Definition mono_rel {C} (RC : rel C) : Prop := forall E1 E2 c c', more E1 E2 -> RC E1 c c' -> RC E2 c c'.
Definition ksim_body {B C} (E : ids) (RE : rel B) (RC : rel C) (y y' : C -> B -> R (C * bool)) : Prop :=
  forall E' c c' x x', more E E' -> one_to_one E' -> RC E' c c' -> RE E' x x' ->
    ksim E' (fun E r r' => RC E r.1 r'.1 /\ r.2 = r'.2) (y c x) (y' c' x').
Lemma ksim_body_more {B C} E E' (RE : rel B) (RC : rel C) y y' :
  more E E' -> ksim_body E RE RC y y' -> ksim_body E' RE RC y y'.
Proof. intros HE H E1 c c' x x' H1. apply H. by eapply more_trans. Qed.

Lemma ksim_hierarchy fuel C (RC : rel C) y1 y2 : mono_rel RC -> forall E o o' c c',
  ksim_body E (same_node pts D) RC y1 y2 -> one_to_one E ->
  same_nodeo pts D E o o' -> RC E c c' ->
  ksim E RC (hierarchy_from fuel o C c y1) (hierarchy_from fuel o' C c' y2).
Proof.
  intros HRC. induction fuel as [|fuel IH]; intros E o o' c c' Hy HE Ho Hc;
    destruct Ho as [|n n' Hn]; cbn [hierarchy_from]; try (apply ksim_ret; intros; by eapply HRC).
  - intros s1 s2 x1 s1' T _ Em. discriminate Em.
  - eapply ksim_bind; [apply Hy; [by intros ? ?|done|done|done]|]. intros E1 [x b] [x' b'] HE1 HO1 [Hx Hb]. cbn in Hx, Hb. subst b'.
    destruct b; [|apply ksim_ret; intros; by eapply HRC].
    eapply ksim_bind; [apply ksim_call, sc_node_parent; by eapply same_node_more|].
    intros E2 p p' HE2 HO2 Hp. apply IH; [|done|done|by eapply HRC].
    eapply ksim_body_more; [|exact Hy]. by eapply more_trans.
Qed.
Lemma ksim_iterate {B B' V} (RB : B -> B' -> Prop) (RE : rel V)
    (pick : B -> R (option V)) (pick' : B' -> R (option V)) C (RC : rel C) y1 y2 l l' :
  mono_rel RC ->
  (forall E b b', RB b b' -> ksim E (fun E => option_Forall2 (RE E)) (pick b) (pick' b')) ->
  Forall2 RB l l' ->
  forall E c c', ksim_body E RE RC y1 y2 -> RC E c c' ->
  ksim E RC (iterate pick l C c y1) (iterate pick' l' C c' y2).
Proof.
  intros HRC Hp Hl. induction Hl as [|b b' l l' Hb _ IH]; intros E c c' Hy Hc; cbn [iterate];
    [apply ksim_ret; intros; by eapply HRC|].
  eapply ksim_bind; [by apply Hp|]. intros E1 x x' HE1 HO1 Hx.
  destruct Hx as [x x' Hx|]; [|apply IH; [by eapply ksim_body_more|by eapply HRC]].
  eapply ksim_bind; [apply Hy; [done|done|by eapply HRC|done]|].
  intros E2 [d g] [d' g'] HE2 HO2 [Hd Hg]. cbn in Hd, Hg. subst g'.
  assert (HE : more E E2) by (by eapply more_trans).
  destruct g; [apply IH; [by eapply ksim_body_more|done]|apply ksim_ret; intros; by eapply HRC].
Qed.
Lemma ksim_iter_kids {V} (RE : rel V) p p' (pick pick' : ptr * tree -> R (option V))
    C (RC : rel C) y y' E c c' :
  pts p p' -> mono_rel RC ->
  (forall E b b', same_kid b b' -> ksim E (fun E => option_Forall2 (RE E)) (pick b) (pick' b')) ->
  ksim_body E RE RC y y' -> RC E c c' ->
  ksim E RC (iter_kids p pick C c y) (iter_kids p' pick' C c' y').
Proof.
  intros Hp HRC Hpick Hy Hc. unfold iter_kids.
  eapply (ksim_bind _ (always (Forall2 same_kid))).
  { apply ksim_plain; [by apply sim_kids_of|kinv keeps_kids_of|kinv keeps_kids_of]. }
  intros E1 l l' HE1 HO1 Hl. eapply ksim_iterate; [done|exact Hpick|exact Hl| |by eapply HRC].
  by eapply ksim_body_more.
Qed.
Lemma goodo_opt s1 s2 x x' :
  option_Forall2 Sn x x' -> goodo s1 x -> goodo s2 x' ->
  option_Forall2 (same_node pts D (ids_of s1 s2)) x x'.
Proof. intros [] G1 G2; constructor. apply good_up; auto. Qed.
Lemma ksim_pick_kind E sel k b b' : same_kid b b' ->
  ksim E (fun E => option_Forall2 (same_node pts D E)) (pick_kind sel k b) (pick_kind sel k b').
Proof.
  intros Hb. eapply ksim_sim; [by apply sim_pick_kind|kinv keeps_pick_kind|kinv keeps_pick_kind|].
  intros s1 s2 x1 x2 s1' s2' I1 I2 E1 E2 Hx. apply goodo_opt; [done| |]; (eapply pick_kind_good; [|eassumption]; assumption).
Qed.
Lemma ksim_pick_type E b b' : same_kid b b' ->
  ksim E (fun E => option_Forall2 (same_node pts D E)) (pick_type b) (pick_type b').
Proof.
  intros Hb. eapply ksim_sim; [by apply sim_pick_type|kinv keeps_pick_type|kinv keeps_pick_type|].
  intros s1 s2 x1 x2 s1' s2' I1 I2 E1 E2 Hx. apply goodo_opt; [done| |]; (eapply pick_type_good; [|eassumption]; assumption).
Qed.
Lemma ksim_pick_any E cn b b' : same_kid b b' ->
  ksim E (fun E => option_Forall2 (same_nodeo pts D E)) (pick_any cn b) (pick_any cn b').
Proof.
  intros Hb. eapply ksim_sim; [by apply sim_pick_any|kinv keeps_pick_any|kinv keeps_pick_any|].
  intros s1 s2 x1 x2 s1' s2' I1 I2 E1 E2 Hx. destruct Hx as [x x' Hx|]; constructor.
  apply goodo_up; [done| |]; (eapply pick_any_good; [|eassumption]; assumption).
Qed.
Lemma ksim_pick_method_option E b b' : same_kid b b' ->
  ksim E (fun _ => option_Forall2 Sopt) (pick_method_option b) (pick_method_option b').
Proof.
  intros Hb. apply (ksim_plain E (option_Forall2 Sopt));
    [by apply sim_pick_method_option|kinv keeps_pick_method_option|kinv keeps_pick_method_option].
Qed.
Lemma ksim_pick_option E sc c c' b b' : pts c c' -> D c -> same_kid b b' ->
  ksim E (fun _ => option_Forall2 Sopt) (pick_option sc c b) (pick_option sc c' b').
Proof.
  intros Hc Hd Hb. apply (ksim_plain E (option_Forall2 Sopt));
    [by apply sim_pick_option|kinv keeps_pick_option|kinv keeps_pick_option].
Qed.

Lemma ksim_loop {A C} E (RA : rel A) (RC : rel C) q q' c c' y y' :
  one_to_one E -> same_loop pts D E RA q q' -> RC E c c' -> mono_rel RC ->
  ksim_body E RA RC y y' -> ksim E RC (q C c y) (q' C c' y').
Proof.
  intros HO H Hc HRC Hy. destruct H;
    try (eapply ksim_iter_kids; [done|done| |exact Hy|exact Hc]; intros; first
      [by apply ksim_pick_kind|by apply ksim_pick_type|by apply ksim_pick_any
      |by apply ksim_pick_method_option|by apply ksim_pick_option]).
  - unfold reserved_values.
    eapply (ksim_bind _ (always (same_tree p))).
    { apply ksim_plain; [by apply sim_deref|kinv keeps_deref|kinv keeps_deref]. }
    intros E1 t ? HE1 HO1 [<- _].
    destruct (t_data t); try (intros s1 s2 x1 s1' T _ Em; discriminate Em).
    eapply (ksim_iterate eq (always eq)); [done| | |by eapply ksim_body_more|by eapply HRC].
    + intros E2 b ? <-. apply ksim_ret. intros. by constructor.
    + apply Forall2_same_length_lookup_2; [done|]. intros; congruence.
  - unfold node_hierarchy. apply ksim_hierarchy; [done|done|done|by constructor|done].
Qed.

(** the continuation of a call of Registry.Options *)
Definition ksim_cont {A} (E : ids) (RA : rel A) (k k' : Api.seq optn -> R A) : Prop :=
  forall E' sc cl cl' p p', more E E' -> one_to_one E' -> pts cl cl' -> D cl -> pts p p' ->
    ksim E' RA (k (kept_options sc cl p)) (k' (kept_options sc cl' p')).
Lemma ksim_seq_options E sc cn p p' A (RA : rel A) k k' :
  pts p p' -> ksim_cont E RA k k' ->
  ksim E RA (sq <~ seq_options sc cn p ;; k sq) (sq <~ seq_options sc cn p' ;; k' sq).
Proof.
  intros Hp Hk. unfold seq_options.
  intros t1 t2 z t1' T HE Ey. rewrite rbind_assoc in Ey. rewrite rbind_assoc. revert t1 t2 z t1' T HE Ey.
  eapply (ksim_bind _ (always (fun q q' => pts q q' /\ D q))).
  { apply ksim_plain; [apply sim_option_class|kinv keeps_option_class|kinv keeps_option_class]. }
  intros E1 cl cl' HE1 HO1 [Hcl Hd].
  intros t1 t2 z t1' T HE Ey. rewrite rbind_ret in Ey. rewrite rbind_ret. revert t1 t2 z t1' T HE Ey.
  by apply Hk.
Qed.
Lemma ksim_options E n n' A (RA : rel A) k k' :
  same_node pts D E n n' -> ksim_cont E RA k k' ->
  ksim E RA (sq <~ options n ;; k sq) (sq <~ options n' ;; k' sq).
Proof.
  intros Hn Hk t1 t2 z t1' T HE Ey. unfold options in Ey |- *.
  rewrite rbind_assoc, rbind_get in Ey. rewrite rbind_assoc, rbind_get.
  pose proof (st_alike _ _ T) as Al.
  destruct Hn as [kd a a' p p' Hp Hd _| | | | | |]; try discriminate Ey.
  destruct kd; try discriminate Ey;
    try (destruct Hd as [Hd|Hd]; [discriminate Hd|]; rewrite (al_scopes _ _ Al _ _ Hp Hd) in Ey;
         exact (ksim_seq_options _ _ _ _ _ _ _ _ _ Hp Hk _ _ _ _ T HE Ey)).
  - rewrite rbind_assoc in Ey. rewrite rbind_assoc.
    apply rbind_Ret in Ey as (pk & t3 & Ed & Ey).
    destruct (ksim_call E _ _ _ (sc_file_package pts D E _ _ Hp) _ _ _ _ T HE Ed)
      as (? & t4 & Ed' & Heq & T' & HE'). unfold always in Heq. subst.
    rewrite (rbind_val _ _ _ _ _ Ed').
    destruct (ksim_seq_options _ _ _ _ _ _ _ _ _ Hp Hk _ _ _ _ T' ltac:(by eapply more_trans) Ey)
      as (x2 & t5 & H1 & H2 & H3 & H4). exists x2, t5. do 3 (split; [done|]). by eapply more_trans.
  - destruct Hd as [Hd|Hd]; [discriminate Hd|]. rewrite (al_scopes _ _ Al _ _ Hp Hd) in Ey.
    rewrite rbind_assoc in Ey. rewrite rbind_assoc.
    apply rbind_Ret in Ey as (t & t3 & Ed & Ey).
    apply deref_Ret in Ed as [-> Ht]. pose proof Ht as Ht'. rewrite (alike_at _ _ _ _ Al Hp) in Ht'.
    rewrite (rbind_val _ _ _ _ _ (deref_ok _ _ _ Ht')).
    destruct (t_data t); try discriminate Ey;
      exact (ksim_seq_options _ _ _ _ _ _ _ _ _ Hp Hk _ _ _ _ T HE Ey).
Qed.

Lemma ksim_program {A} E (RA : rel A) m m' :
  (forall a a' p p', pts p p' -> sim So (field_type a p) (field_type a' p')) ->
  same_program pts D E RA m m' -> one_to_one E -> ksim E RA m m'.
Proof.
  intros Hft H.
  induction H as [E A RA x x' H|E A RA msg|E A B RA RB m m' k k' _ IHm _ IHk|E A RA c c' H|E a a' p p' Hp
    |E A C RA RC q q' c c' y y' Hq Hc HRC _ IHy|E A RA n n' k k' Hn _ IHk]; intros HO.
  - by apply ksim_ret.
  - apply ksim_panic.
  - eapply ksim_bind; [by apply IHm|]. intros. by apply IHk.
  - by apply ksim_call.
  - by apply ksim_field_type, Hft.
  - eapply ksim_loop; [done|exact Hq|exact Hc|exact HRC|]. intros ? ? ? ? ? ? ? ? ?. by apply IHy.
  - apply ksim_options; [done|]. intros ? ? ? ? ? ? ? ? ? ? ?. by apply IHk.
Qed.

(** a field node whose type nobody asked for *)
Lemma field_type_first a p s o s' :
  ftcache s !! (a, p) = None -> field_type a p s = (Ret o, s') ->
  exists s0, field_type_body p s = (Ret o, s0).
Proof.
  intros Hn E. unfold field_type in E. rewrite rbind_get, Hn in E.
  destruct (field_type_body p s) as [[r|e|] s0]; try discriminate E. injection E as <- _. eauto.
Qed.

End mirror.
