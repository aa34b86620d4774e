(** * What a failed import leaves behind: C84. *)
From Verif Require Export ThmLoading ThmSchema ThmErrors ThmMainFails Statements.
From Verif Require Import Worlds Frame Iterate Demo Identity Nodes LoadFacts Loading Loader Visit Api.
Local Open Scope go_scope.

(** ** The specification *)

(** The element [p] is the [j]-th top level statement of the file [g], or inside it. *)
Definition in_statement (g j : nat) (p : ptr) : Prop := exists δ, p = (g, (δ ++ [j])%list).

(** Loading the imports of [path], one gets from [q] to [q'] by following import statements of files that
    are readable and not loaded yet. *)
Inductive leads_to (s : registry) (e : env) (path q : string) : string -> Prop :=
| leads_self : q <> path -> leads_to s e path q q
| leads_step q1 q2 els :
    leads_to s e path q q1 -> (forall n, ~ available s q1 n) -> readable e q1 els ->
    q2 ∈ import_paths els -> q2 <> path -> leads_to s e path q q2.
(** It leads to a file that is neither loaded nor readable. *)
Definition breaks (s : registry) (e : env) (path q : string) : Prop :=
  exists missing, leads_to s e path q missing /\ (forall n, ~ available s missing n) /\
    forall els, ~ readable e missing els.

(** ** Proofs: which elements get a name or a scope *)

Section names.
  Variable okp : nat -> tree -> list nat -> Prop.    (* the elements that may get a name *)
  Variable n : nat.                                  (* at least so many files are there *)
  Variable prot : gmap string nat -> Prop.           (* about the paths that are loaded *)

  Definition new_ok (s : registry) (p : ptr) : Prop :=
    exists f, heap s !! p.1 = Some f /\ (p.2 = [] \/ okp p.1 f p.2).
  Definition pre (s : registry) : Prop := n <= length (heap s) /\ prot (protos s).
  Record news (s s' : registry) : Prop := mkNews {
    nw_heap : exists l, heap s' = (heap s ++ l)%list;
    nw_pre : pre s';
    nw_names : forall q p, names s' !! q = Some p -> names s !! q = Some p \/ new_ok s' p;
    nw_scopes : forall p x, scopes s' !! VPtr p = Some x -> scopes s !! VPtr p = Some x \/ new_ok s' p
  }.
  Definition named (s s' : registry) : Prop := pre s -> news s s'.

  Lemma new_ok_heap s s' p : (exists l, heap s' = (heap s ++ l)%list) -> new_ok s p -> new_ok s' p.
  Proof. intros [l E] (f & H2 & H3). exists f. split; [|done]. rewrite E. by apply lookup_app_l_Some. Qed.
  Lemma named_refl s : named s s.
  Proof. intros P. constructor; [exists []; by rewrite app_nil_r|done|by left|by left]. Qed.
  Lemma named_trans s1 s2 s3 : named s1 s2 -> named s2 s3 -> named s1 s3.
  Proof.
    intros A B P. destruct (A P) as [A1 A2 A3 A4]. destruct (B A2) as [B1 B2 B3 B4]. constructor.
    - destruct A1 as [l1 E1], B1 as [l2 E2]. exists (l1 ++ l2)%list. by rewrite E2, E1, app_assoc.
    - done.
    - intros q p Hq. destruct (B3 q p Hq) as [Hq'|H]; [|by right].
      destruct (A3 q p Hq') as [|H]; [by left|]. right. by eapply new_ok_heap.
    - intros p x Hq. destruct (B4 p x Hq) as [Hq'|H]; [|by right].
      destruct (A4 p x Hq') as [|H]; [by left|]. right. by eapply new_ok_heap.
  Qed.
  Lemma named_quiet s s' : quiet s s' -> named s s'.
  Proof.
    intros Q [P1 P2]. constructor.
    - exists []. rewrite app_nil_r. apply (q_heap _ _ Q).
    - split; [by rewrite (q_heap _ _ Q)|by rewrite (q_protos _ _ Q)].
    - intros q p. rewrite (q_names _ _ Q). by left.
    - intros p x. rewrite (q_scopes _ _ Q). by left.
  Qed.

  Section file.
    Variable g : nat.
    Variable f : tree.
    Definition in_file (s s' : registry) : Prop := heap s !! g = Some f -> named s s'.
    Lemma in_file_refl s : in_file s s.
    Proof. intros _. apply named_refl. Qed.
    Lemma in_file_trans s1 s2 s3 : in_file s1 s2 -> in_file s2 s3 -> in_file s1 s3.
    Proof.
      intros A B H P. pose proof (A H P) as N. destruct (nw_heap _ _ N) as [l E].
      assert (H2 : heap s2 !! g = Some f) by (rewrite E; by apply lookup_app_l_Some).
      exact (named_trans _ _ _ (A H) (B H2) P).
    Qed.
    Lemma keeps_name q p : p.1 = g -> p.2 = [] \/ okp g f p.2 -> keeps in_file (put_name q p).
    Proof.
      intros Hp Hb s H P. unfold put_name, modify. cbn [snd]. constructor; cbn.
      - exists []. by rewrite app_nil_r.
      - exact P.
      - intros q' p' [[<- <-]|[_ Hq]]%lookup_insert_Some; [|by left]. right. exists f. rewrite Hp. done.
      - intros p' x Hq. by left.
    Qed.
    Lemma keeps_scope k q : (forall p, k = VPtr p -> p.1 = g /\ (p.2 = [] \/ okp g f p.2)) -> keeps in_file (put_scope k q).
    Proof.
      intros Hk s H P. unfold put_scope, modify. cbn [snd]. constructor; cbn.
      - exists []. by rewrite app_nil_r.
      - exact P.
      - intros q' p' Hq. by left.
      - intros p' x [[Hk' _]|[_ Hq]]%lookup_insert_Some; [|by left]. right. destruct (Hk _ Hk') as [H1 H2].
        exists f. rewrite H1. done.
    Qed.

    Definition good_v (v : visitor) : Prop := v_file v = None \/ v_file v = Some (root g).
    Definition vkeeps (m : R visitor) : Prop :=
      keeps in_file m /\ forall s v s', m s = (Ret v, s') -> good_v v.
    Lemma vkeeps_ret v : good_v v -> vkeeps (ret v).
    Proof. intros H. split; [intros s; apply in_file_refl|]. intros s v' s' E. by injection E as <- _. Qed.
    Lemma vkeeps_bind m k : vkeeps m -> (forall v, good_v v -> vkeeps (k v)) -> vkeeps (rbind m k).
    Proof.
      intros [H1 H2] Hk. split.
      - intros s. unfold rbind. specialize (H1 s). destruct (m s) as [[v|msg|] s1] eqn:E; try exact H1.
        eapply in_file_trans; [exact H1|]. apply (Hk v (H2 _ _ _ E)).
      - intros s v s' E. unfold rbind in E. destruct (m s) as [[w|msg|] s1] eqn:E1; try discriminate E.
        exact (proj2 (Hk w (H2 _ _ _ E1)) _ _ _ E).
    Qed.
    Lemma vkeeps_seq (m : R unit) k : keeps in_file m -> vkeeps k -> vkeeps (m ;;; k).
    Proof.
      intros H1 [Hk1 Hk2]. split.
      - intros s. unfold rbind. specialize (H1 s). destruct (m s) as [[v|msg|] s1] eqn:E; try exact H1.
        eapply in_file_trans; [exact H1|]. apply Hk1.
      - intros s v s' E. unfold rbind in E. destruct (m s) as [[w|msg|] s1] eqn:E1; try discriminate E.
        exact (Hk2 _ _ _ E).
    Qed.

    Lemma keeps_in_file imp t : (forall path, keeps named (imp path)) ->
      forall v π, good_v v -> (forall δ, okp g f (δ ++ π)) -> vkeeps (visit imp v (g, π) t).
    Proof.
      intros Himp. induction t as [d ps c kids IH] using tree_nested_ind. intros v π Hv Hb.
      assert (Hk : forall v i, good_v v -> vkeeps (visit_list imp (g, π) v i kids)).
      { induction IH as [|k l Hk _ IHl]; intros w i Hw; cbn [visit_list]; [by apply vkeeps_ret|].
        apply vkeeps_bind; [|intros w' Hw'; by apply IHl]. apply (Hk w (i :: π) Hw).
        intros δ. specialize (Hb (δ ++ [i])%list). by rewrite <- app_assoc in Hb. }
      assert (Hb0 : okp g f π) by (apply (Hb [])).
      assert (Hn : forall q, keeps in_file (put_name q (g, π))) by (intros q; apply keeps_name; [done|by right]).
      assert (Hs : forall q, keeps in_file (put_scope (VPtr (g, π)) q)).
      { intros q. apply keeps_scope. intros p [= <-]. split; [done|by right]. }
      assert (Hi : forall path, keeps in_file (imp path)) by (intros path s _; apply Himp).
      assert (Hsc : forall sc w, good_v w -> good_v (set_scope sc w)) by (intros sc [? ? ?] H; exact H).
      assert (Hex : forall b w, good_v w -> good_v (set_is_extend b w)) by (intros b [? ? ?] H; exact H).
      destruct d; try (by apply vkeeps_ret); cbn [visit].
      - by apply Hk.
      - match goal with |- context [put_scope (match v_file ?w with _ => _ end)] => assert (Hw : good_v w) end.
        { destruct (has_prefix _ _); [by apply Hsc|]. destruct (negb _); [by apply Hsc|done]. }
        apply vkeeps_seq; [|by apply vkeeps_ret]. apply keeps_scope. intros p.
        destruct Hw as [-> | ->]; [done|]. intros [= <-]. split; [done|by left].
      - apply vkeeps_seq; [apply Hi|by apply vkeeps_ret].
      - apply vkeeps_bind.
        + destruct is_extend; [by apply vkeeps_ret, Hex|]. apply vkeeps_seq; [apply Hn|].
          apply vkeeps_seq; [apply Hs|]. by apply vkeeps_ret, Hsc.
        + intros w Hw. apply vkeeps_bind; [by apply (Hk w 0)|]. intros w2 Hw2. by apply vkeeps_ret, Hsc, Hex.
      - apply vkeeps_seq; [apply Hn|]. apply vkeeps_seq; [apply Hs|by apply vkeeps_ret].
      - apply vkeeps_seq; [apply Hn|]. apply vkeeps_seq; [apply Hs|].
        apply vkeeps_bind; [by apply (Hk v 0)|]. intros w2 Hw2. by apply vkeeps_ret, Hsc.
      - apply vkeeps_seq; [apply Hn|]. apply vkeeps_seq; [apply Hs|by apply vkeeps_ret].
      - apply vkeeps_seq; [apply Hn|]. apply vkeeps_seq; [apply Hs|by apply vkeeps_ret].
      - apply vkeeps_seq; [apply Hn|]. apply vkeeps_seq; [apply Hs|]. by apply (Hk v 0).
      - apply vkeeps_seq; [apply Hn|by apply vkeeps_ret].
      - apply vkeeps_seq; [apply Hn|]. apply vkeeps_seq; [apply Hn|]. apply vkeeps_seq; [apply Hs|].
        apply vkeeps_bind; [by apply (Hk (set_scope (scoped_name v name) v) 0), Hsc|]. intros w2 Hw2. by apply vkeeps_ret, Hsc.
      - apply vkeeps_seq; [apply Hn|]. apply vkeeps_seq; [apply Hs|by apply vkeeps_ret].
    Qed.

  End file.
End names.

Section bad.
  Variable bad : string -> Prop.      (* the files that cannot be had *)
  Variable n : nat.                   (* the number of files before the call *)

  (** all bad imports of the file come after the statement that contains the element *)
  Definition before_bad (g : nat) (f : tree) (π : list nat) : Prop :=
    n <= g /\ exists j, (exists δ, π = (δ ++ [j])%list) /\
      forall i t path, t_kids f !! i = Some t -> t_data t = DImport path -> bad path -> j < i.
  Definition bad_away (m : gmap string nat) : Prop := forall path, bad path -> m !! path = None.
  Notation named := (named before_bad n bad_away).

  Section bad_file.
    Variable g : nat.
    Variable f : tree.
    Hypothesis Hg : n <= g.
    Notation in_file := (in_file before_bad n bad_away g f).
    Notation good_v := (good_v g).

    (** the statements of the file, until one that imports a bad file *)
    Lemma keeps_statements imp (bad_dec : forall x, bad x \/ ~ bad x) :
      (forall path, keeps named (imp path)) ->
      (forall path s, bad path -> protos s !! path = None -> (imp path s).2 = s /\ forall x, (imp path s).1 <> Ret x) ->
      forall l i v s, drop i (t_kids f) = l ->
      (forall j t path, j < i -> t_kids f !! j = Some t -> t_data t = DImport path -> ~ bad path) ->
      good_v v -> in_file s (visit_list imp (root g) v i l s).2.
    Proof.
      intros Himp Hbad l. induction l as [|t l IH]; intros i v s Hl Hno Hv; cbn [visit_list]; [apply in_file_refl|].
      assert (Hi : t_kids f !! i = Some t) by (rewrite <- (Nat.add_0_r i), <- lookup_drop, Hl; done).
      assert (Hl' : drop (S i) (t_kids f) = l) by (rewrite <- Nat.add_1_r, <- drop_drop, Hl; done).
      assert (Hc : (exists path, t_data t = DImport path /\ bad path) \/ forall path, t_data t = DImport path -> ~ bad path).
      { destruct (t_data t) as [] eqn:Hd; try (right; congruence).
        match goal with H : t_data _ = DImport ?x |- _ => rename x into path end.
        destruct (bad_dec path) as [Hb|Hb]; [left; eauto|right]. intros path' [= <-]. done. }
      destruct Hc as [(path & Hd & Hb)|Hok].
      - intros Hh P. destruct t as [d ps c kids]. cbn in Hd. subst d. cbn [visit].
        destruct (Hbad path s Hb (proj2 P path Hb)) as [E1 E2].
        unfold rbind. destruct (imp path s) as [[x|m|] s1]; cbn in *; subst; [by edestruct E2| |]; by apply named_refl.
      - assert (Hno' : forall j t path, j < S i -> t_kids f !! j = Some t -> t_data t = DImport path -> ~ bad path).
        { intros j t' path Hj Hj' Hd. destruct (decide (j = i)) as [->|Hne].
          - apply Hok. congruence.
          - eapply Hno; [|done..]. lia. }
        destruct (keeps_in_file before_bad n bad_away g f imp t Himp v [i] Hv) as [K1 K2].
        { intros δ. split; [done|]. exists i. split; [by exists δ|]. intros j t' path Hj Hd Hb.
          destruct (decide (i < j)) as [|Hge]; [done|]. exfalso. eapply Hno'; [|done..]. lia. }
        specialize (K1 s). specialize (K2 s).
        change (child (root g) i) with ((g, [i]) : ptr).
        unfold rbind. destruct (visit imp v (g, [i]) t s) as [[w|m|] s1]; try exact K1.
        eapply in_file_trans; [exact K1|]. apply IH; [done|done|]. by eapply K2.
    Qed.
  End bad_file.

  (** ** Loading *)

  Section loading.
    Variable e : env.
    Hypothesis bad_dec : forall x, bad x \/ ~ bad x.
    Hypothesis Hbad : forall path els, bad path -> ~ reads e path els.

    Lemma named_visit_file imp path els s v :
      (forall path, keeps named (imp path)) ->
      (forall path s, bad path -> protos s !! path = None -> (imp path s).2 = s /\ forall x, (imp path s).1 <> Ret x) ->
      reads e path els -> v_file v = None \/ v_file v = Some (root (length (heap s))) ->
      named s (visit imp v (root (length (heap s))) (file_tree path els) (add_file path els s)).2.
    Proof.
      intros Himp Hib Hr Hv P.
      assert (N : named s (add_file path els s)).
      { intros _. destruct P as [P1 P2]. constructor; cbn.
        - eexists. reflexivity.
        - split; cbn; [rewrite app_length; cbn; lia|]. intros path' Hb.
          rewrite lookup_insert_ne; [by apply P2|]. intros <-. by eapply Hbad.
        - intros q p Hq. by left.
        - intros p x Hq. by left. }
      refine (named_trans _ _ _ _ _ _ N _ P).
      change (visit imp v (root (length (heap s))) (file_tree path els))
        with (visit_list imp (root (length (heap s))) v 0 els).
      apply (keeps_statements (length (heap s)) (file_tree path els) (proj1 P) imp bad_dec Himp Hib els 0 v); [done| |done|].
      - intros j t p Hj. lia.
      - apply heap_add_file.
    Qed.

    Lemma bad_import fuel path s : bad path -> protos s !! path = None ->
      (import_file e fuel path s).2 = s /\ forall x, (import_file e fuel path s).1 <> Ret x.
    Proof.
      intros Hb Hp. destruct fuel as [|fuel]; cbn [import_file]; [done|]. rewrite rbind_get, Hp.
      destruct (proto_file_cases e path s) as [(g & Hg & _)|(_ & [(err & Ep & _)|(els & Hr & Ep)])];
        [congruence| |].
      - rewrite (rbind_val _ _ _ _ _ Ep). done.
      - by edestruct Hbad.
    Qed.
    Lemma named_import fuel : forall path, keeps named (import_file e fuel path).
    Proof.
      induction fuel as [|fuel IH]; intros path s; cbn [import_file]; [apply named_refl|].
      rewrite rbind_get. destruct (protos s !! path) as [g|] eqn:Hp; [apply named_refl|].
      destruct (proto_file_cases e path s) as [(g & Hg & _)|(_ & [(err & Ep & _)|(els & Hr & Ep)])];
        [congruence| |]; rewrite (rbind_val _ _ _ _ _ Ep); [apply named_refl|].
      rewrite (rbind_val _ _ _ _ _ (deref_ret _ _ _ (heap_at_root _ _ _ (heap_add_file path els s)))).
      pose proof (named_visit_file (import_file e fuel) path els s (mkVisitor None "" false) IH (bad_import fuel) Hr
        (or_introl eq_refl)) as N.
      unfold rbind. destruct (visit _ _ _ _ _) as [[]]; exact N.
    Qed.
    Lemma named_demark fuel path s : protos s !! path = None -> named s (demark_file e fuel path s).2.
    Proof.
      intros Hp. unfold demark_file.
      destruct (proto_file_cases e path s) as [(g & Hg & Ep)|(_ & [(err & Ep & _)|(els & Hr & Ep)])];
        [congruence| |]; rewrite (rbind_val _ _ _ _ _ Ep); [apply named_refl|].
      rewrite (rbind_val _ _ _ _ _ (deref_ret _ _ _ (heap_at_root _ _ _ (heap_add_file path els s)))).
      pose proof (named_visit_file (import_file e fuel) path els s (mkVisitor (Some (root (length (heap s)))) "" false)
        (named_import fuel) (bad_import fuel) Hr (or_intror eq_refl)) as N.
      unfold rbind. destruct (visit _ _ _ _ _) as [[]]; exact N.
    Qed.
    Lemma named_proto fuel path : keeps named (proto e fuel path).
    Proof.
      intros s. unfold proto. rewrite rbind_get.
      assert (Hnew : forall g s, named s ((f <~ new_file g ;; ret (inr f) : R (error + node)) s).2).
      { intros g s'. apply named_quiet. apply quiet_set_next. lia. }
      destruct (protos s !! path) as [g|] eqn:Hp; [apply Hnew|].
      pose proof (named_demark fuel path s Hp) as N.
      unfold rbind at 1. destruct (demark_file e fuel path s) as [[[err|]|m|] s1]; try exact N.
      rewrite rbind_get. destruct (protos s1 !! path); [|exact N].
      eapply named_trans; [exact N|apply Hnew].
    Qed.
  End loading.
End bad.

Definition none_bad : string -> Prop := fun _ => False.
Lemma later_named n {A} (m : R A) :
  client Loads m -> keeps (named (before_bad none_bad n) n (bad_away none_bad)) m.
Proof.
  assert (Hp : forall e fuel path, keeps (named (before_bad none_bad n) n (bad_away none_bad)) (proto e fuel path)).
  { intros e fuel path. apply named_proto; [right; intros []|intros x els []]. }
  apply keeps_client; eauto using named_refl, named_trans.
  - intros s. apply named_quiet, quiet_alloc.
  - intros v s. apply named_quiet, quiet_wrap.
  - intros a p s. apply named_quiet, quiet_field_type.
  - intros _ e fuel path _. apply keeps_proto_or_exit; [apply named_refl|apply Hp].
Qed.

(** later programs give no names to the elements of a file that is loaded *)
Lemma later_nothing {A} (m : R A) s1 o2 s2 g δ j :
  client Loads m -> m s1 = (o2, s2) -> g < length (heap s1) ->
  (forall q, names s2 !! q = Some (g, (δ ++ [j])%list) -> names s1 !! q = Some (g, (δ ++ [j])%list)) /\
  (forall x, scopes s2 !! VPtr (g, (δ ++ [j])%list) = Some x -> scopes s1 !! VPtr (g, (δ ++ [j])%list) = Some x).
Proof.
  intros Hm Em Hg. pose proof (later_named (length (heap s1)) m Hm s1) as M. rewrite Em in M. cbn [snd] in M.
  assert (P1 : pre (length (heap s1)) (bad_away none_bad) s1) by (split; [done|intros ? []]).
  destruct (M P1) as [M1 M2 M3 M4].
  assert (Hno : ~ new_ok (before_bad none_bad (length (heap s1))) s2 (g, (δ ++ [j])%list)).
  { intros (f & _ & [H|[H _]]); cbn in *; [by destruct δ|lia]. }
  split; [intros q Hq; by destruct (M3 _ _ Hq)|intros x Hq; by destruct (M4 _ _ Hq)].
Qed.

Lemma never_named s e fuel path o s1 path1 g1 els i t p' {A} (m : R A) o2 s2 j p :
  reachable s -> env_ok e -> proto e fuel path s = (o, s1) ->
  loaded s1 path1 g1 (file_tree path1 els) -> ~ is_loaded s path1 ->
  els !! i = Some t -> t_data t = DImport p' -> ~ is_loaded s p' -> (forall els', ~ readable e p' els') ->
  client Loads m -> m s1 = (o2, s2) -> i < j -> in_statement g1 j p ->
  (forall q, names s2 !! q <> Some p) /\ (forall x, scopes s2 !! VPtr p <> Some x).
Proof.
  intros Hs He E (L1 & L2 & _) Hnew Hi Hd Hnp Hnr Hm Em Hj [δ ->].
  pose proof (proj1 (reachable_Inv s Hs)) as Sc.
  assert (Hpr : forall x, ~ is_loaded s x -> protos s !! x = None).
  { intros x Hx. destruct (protos s !! x) as [g|] eqn:Hx'; [|done]. exfalso. apply Hx.
    destruct (proj1 (sc_protos _ Sc x g) Hx') as [els' H']. by exists g, (file_tree x els'). }
  pose proof (named_proto (fun x => x = p') (length (heap s)) e) as N.
  assert (Hdec : forall x, x = p' \/ x <> p') by (intros x; destruct (decide (x = p')); auto).
  assert (Hbad : forall x els, x = p' -> ~ reads e x els).
  { intros x els' ->. rewrite reads_readable. apply Hnr. }
  specialize (N Hdec Hbad fuel path s). rewrite E in N. cbn [snd] in N.
  assert (P : pre (length (heap s)) (bad_away (fun x => x = p')) s) by (split; [done|]; intros x ->; by apply Hpr).
  destruct (N P) as [N1 N2 N3 N4].
  assert (Hg : ~ g1 < length (heap s)).
  { intros Hlt. destruct (lookup_lt_is_Some_2 _ _ Hlt) as [f Hf]. destruct N1 as [l El].
    assert (f = file_tree path1 els).
    { rewrite El in L2. erewrite lookup_app_l_Some in L2 by done. congruence. }
    subst f. apply Hnew. exists g1, (file_tree path1 els). split; [|done].
    apply (sc_protos _ Sc). by eexists. }
  assert (Hg1 : g1 < length (heap s1)) by (by eapply lookup_lt_Some).
  destruct (later_nothing m s1 o2 s2 g1 δ j Hm Em Hg1) as [M3 M4].
  assert (Hno1 : ~ new_ok (before_bad (fun x => x = p') (length (heap s))) s1 (g1, (δ ++ [j])%list)).
  { intros (f & H & [H1|(_ & j' & [δ' H1] & H2)]); cbn in *; [by destruct δ|].
    apply app_inj_tail in H1 as [_ <-]. rewrite L2 in H. injection H as <-.
    specialize (H2 i t p' Hi Hd eq_refl). lia. }
  split.
  - intros q Hq. pose proof (M3 _ Hq) as Hq1.
    destruct (N3 _ _ Hq1) as [Hq2|H]; [|done].
    destruct (sc_names _ Sc _ _ Hq2) as (f & Hf & _). apply Hg. by eapply lookup_lt_Some.
  - intros q Hq. pose proof (M4 _ Hq) as Hq1.
    destruct (N4 _ _ Hq1) as [Hq2|H]; [|done].
    destruct (sc_scopes _ Sc _ _ Hq2) as (f & Hf & _). apply Hg. by eapply lookup_lt_Some.
Qed.

(** ** C84 *)

(** A file first loaded by a Proto call has an import statement, the [i]-th statement, of a file that
    is neither loaded nor readable. Then, whatever the program does afterwards, and even if the missing
    file appears, Proto still gives the file, but nothing declared by the statements after the import is
    ever found by a name, and its NodeIndex is empty. *)
Theorem C84_after_a_failed_import s e fuel path o s1 path1 g els i t missing {A} (m : R A) o2 s2 :
  reachable s -> env_ok e -> proto e fuel path s = (o, s1) ->
  loaded s1 path1 g (file_tree path1 els) -> (forall n, ~ available s path1 n) ->
  els !! i = Some t -> t_data t = DImport missing ->
  (forall n, ~ available s missing n) -> (forall els', ~ readable e missing els') ->
  client Loads m -> m s1 = (o2, s2) ->
  (exists a, available s2 path1 (NAst KFile a (root g))) /\
  forall j p, i < j -> in_statement g j p ->
    (forall q k a, ~ found s2 q (NAst k a p)) /\
    (forall k a, node_index (NAst k a p) s2 = (Ret "", s2)).
Proof.
  intros Hs He E Hl Hnew Hi Hd Hnp Hnr Hm Em.
  assert (Hav : forall x, (forall n, ~ available s x n) -> ~ is_loaded s x).
  { intros x Hx (g' & f & H). eapply Hx. by eapply loaded_available. }
  assert (Hs1 : reachable s1).
  { assert (H : reachable (recover (proto e fuel path) s).2).
    { apply (hist_client Loads _ _ s); [exact Hs|]. apply cl_recover, cl_proto; [done|exact He]. }
    assert (E1 : (recover (proto e fuel path) s).2 = s1) by (unfold recover; rewrite E; by destruct o).
    by rewrite E1 in H. }
  assert (Hs2 : reachable s2).
  { assert (H : reachable (m s1).2) by (apply (hist_client Loads _ _ s1); [exact Hs1|exact Hm]). by rewrite Em in H. }
  split.
  { destruct Hl as (L1 & L2 & L3).
    pose proof (later_named (length (heap s1)) m Hm s1) as M. rewrite Em in M. cbn [snd] in M.
    assert (P1 : pre (length (heap s1)) (bad_away none_bad) s1) by (split; [done|intros ? []]).
    destruct (nw_heap _ _ _ _ _ (M P1)) as [l El].
    exists (next s2). apply (loaded_available _ _ _ (file_tree path1 els)). split; [|split; [|done]].
    - apply (sc_protos _ (proj1 (reachable_Inv _ Hs2))). exists els. rewrite El. by apply lookup_app_l_Some.
    - rewrite El. by apply lookup_app_l_Some. }
  intros j p Hj Hp.
  destruct (never_named s e fuel path o s1 path1 g els i t missing m o2 s2 j p Hs He E Hl (Hav _ Hnew) Hi Hd
    (Hav _ Hnp) Hnr Hm Em Hj Hp) as [H1 H2].
  split.
  - intros q k a F. unfold found in F. destruct (node_by_full_name q s2) as [o3 s3] eqn:E3. cbn in F. subst o3.
    destruct (found_is_declared _ _ _ _ (reachable_Inv _ Hs2) E3) as (path' & f & t' & k' & a' & p' & [= -> -> ->] & Hq & _).
    by eapply H1.
  - intros k a. unfold node_index. rewrite rbind_get. unfold scope_of.
    destruct (scopes s2 !! VPtr p) as [x|] eqn:Ex; [by destruct (H2 x)|]. by destruct k.
Qed.

(** The file of C04_after_panic_refuted, and a disk on which the missing file is there when the program
    asks again. *)
Definition repaired_env := table_env (broken_files ++ [("missing.proto", [el "missing.proto" 1 (DPackage "mi") []])]).
Lemma repaired_env_ok : env_ok repaired_env.
Proof. apply table_env_ok. vm_compute. reflexivity. Qed.
Definition again : R (error + node) := _ <~ proto repaired_env 50 "missing.proto" ;; proto repaired_env 50 broken_f.
Definition later : registry := (again after_panic).2.
Example C84_example : exists v s1 f g t,
  reachable (start broken_files) /\ env_ok broken_env /\
  proto broken_env 50 broken_f (start broken_files) = (Panic v, s1) /\
  loaded s1 broken_f g (file_tree broken_f broken_elems) /\
  (forall n, ~ available (start broken_files) broken_f n) /\
  broken_elems !! 1 = Some t /\ t_data t = DImport "missing.proto" /\
  (forall n, ~ available (start broken_files) "missing.proto" n) /\
  (forall els', ~ readable broken_env "missing.proto" els') /\
  client Loads again /\ again s1 = (Ret (inr f), later) /\ (exists n, available later "missing.proto" n) /\
  in_statement g 2 (g, [2]) /\ fqn (file_tree broken_f broken_elems) [2] = Some ".br.M".
Proof.
  assert (E1 : exists v, proto broken_env 50 broken_f (start broken_files) = (Panic v, after_panic)).
  { assert (H : forall {B} (mm : R B) x, (match (mm x).1 with Panic _ => true | _ => false end) = true ->
      exists v, mm x = (Panic v, (recover mm x).2)).
    { intros B mm x. unfold recover. destruct (mm x) as [[]]; cbn; try discriminate. by eexists. }
    apply H. vm_compute. reflexivity. }
  assert (E2 : exists f, again after_panic = (Ret (inr f), later)).
  { assert (H : forall (mm : R (error + node)) x, (match (mm x).1 with Ret (inr _) => true | _ => false end) = true ->
      exists f, mm x = (Ret (inr f), (mm x).2)).
    { intros mm x. destruct (mm x) as [[[]| |]]; cbn; try discriminate. by eexists. }
    apply H. vm_compute. reflexivity. }
  destruct E1 as [v E1], E2 as [f E2].
  exists v, after_panic, f, 1, (el broken_f 2 (DImport "missing.proto") []).
  split; [apply start_history, broken_starts|]. split; [apply broken_env_ok|]. split; [exact E1|].
  split; [split; [|split]; vm_compute; reflexivity|].
  split; [intros n; apply (refused_ok (mkEnv [] (fun _ _ => inl not_exist))); vm_compute; reflexivity|].
  split; [reflexivity|]. split; [reflexivity|].
  split; [intros n; apply (refused_ok broken_env); vm_compute; reflexivity|].
  split; [intros els'; apply unreadable_ok; vm_compute; reflexivity|].
  split; [apply cl_bind; [by apply cl_proto, repaired_env_ok|intros _; by apply cl_proto, repaired_env_ok]|].
  split; [exact E2|].
  split.
  { eexists. apply (loaded_available _ _ 2 (file_tree "missing.proto" [el "missing.proto" 1 (DPackage "mi") []])).
    split; [|split]; vm_compute; reflexivity. }
  split; [by exists []|]. vm_compute. reflexivity.
Qed.

(** ** The file that was asked for *)

Section asked.
  Variable g i : nat.
  Definition until (g' : nat) (f : tree) (π : list nat) : Prop :=
    g' = g -> exists j δ, π = (δ ++ [j])%list /\ j < i.
  Notation upto := (named until (S g) (fun _ => True)).
  Lemma upto_import e fuel : forall path, keeps upto (import_file e fuel path).
  Proof.
    induction fuel as [|fuel IH]; intros path s; cbn [import_file]; [apply named_refl|].
    rewrite rbind_get. destruct (protos s !! path) as [h|] eqn:Hp; [apply named_refl|].
    destruct (proto_file_cases e path s) as [(h & Hh & _)|(_ & [(err & Ep & _)|(els & Hr & Ep)])];
      [congruence| |]; rewrite (rbind_val _ _ _ _ _ Ep); [apply named_refl|].
    rewrite (rbind_val _ _ _ _ _ (deref_ret _ _ _ (heap_at_root _ _ _ (heap_add_file path els s)))).
    intros P.
    assert (N : upto s (add_file path els s)).
    { intros _. constructor; cbn.
      - eexists. reflexivity.
      - split; [|done]. cbn. rewrite app_length. cbn. destruct P. lia.
      - intros q p Hq. by left.
      - intros p x Hq. by left. }
    assert (V : upto (add_file path els s) (visit (import_file e fuel) (mkVisitor None "" false) (root (length (heap s)))
      (file_tree path els) (add_file path els s)).2).
    { apply (keeps_in_file until (S g) (fun _ => True) (length (heap s)) (file_tree path els)
        (import_file e fuel) (file_tree path els) IH (mkVisitor None "" false) []); [by left| |apply heap_add_file].
      intros δ Hg. exfalso. destruct P as [P _]. lia. }
    pose proof (named_trans _ _ _ _ _ _ N V P) as X.
    unfold rbind. destruct (visit _ _ _ _ _) as [[]]; exact X.
  Qed.
End asked.

Lemma available_protos s x : schema s -> (forall n, ~ available s x n) <-> protos s !! x = None.
Proof.
  intros S. split.
  - intros H. destruct (protos s !! x) as [g|] eqn:E; [|done]. exfalso.
    destruct (loaded_protos _ _ _ S E) as [f Hf]. eapply H. by eapply loaded_available.
  - intros H n Hn. destruct (available_loaded _ _ _ S Hn) as (g & f & (H1 & _) & _). congruence.
Qed.
Lemma leads_not_path s e path q q' : leads_to s e path q q' -> q' <> path.
Proof. by destruct 1. Qed.
Lemma chain_leads s e path els q q' :
  schema s -> import_chain (add_file path els s) e q q' -> q' <> path -> leads_to s e path q q'.
Proof.
  intros S. induction 1 as [q|q q1 q2 els' H1 IH Hn Hr Hin]; intros Hne; [by constructor|].
  cbn in Hn. assert (q1 <> path) by (intros ->; by rewrite lookup_insert in Hn).
  rewrite lookup_insert_ne in Hn by done.
  eapply leads_step; [by apply IH|by apply available_protos|done..].
Qed.

(** what the imports lead to is loaded when they have been visited *)
Lemma leads_loaded s e path els sb q q' :
  let sa := add_file path els s in
  schema s -> schema sa -> schema sb -> ext (length (heap s)) sa sb -> news_done sa sb -> from_env e sa sb ->
  is_Some (protos sb !! q) -> leads_to s e path q q' -> is_Some (protos sb !! q').
Proof.
  intros sa S Sa Sb X D F Hq. induction 1 as [|q1 q2 els' H1 IH Hav Hr Hin Hne]; [done|].
  destruct IH as [g1 Hg1]. apply available_protos in Hav; [|done].
  pose proof (leads_not_path _ _ _ _ _ H1) as Hn1.
  assert (Hsa : protos sa !! q1 = None) by (cbn; by rewrite lookup_insert_ne).
  destruct (proj1 (sc_protos _ Sb q1 g1) Hg1) as [els1 H2].
  assert (Hnot : heap sa !! g1 <> Some (file_tree q1 els1)).
  { intros H. assert (protos sa !! q1 = Some g1); [|congruence]. apply (sc_protos _ Sa). by eexists. }
  destruct (F g1 _ H2) as [H|(q1' & els2 & Hr2 & Ef)]; [done|].
  injection Ef as <- <-. apply reads_readable in Hr2. rewrite <- (readable_fun _ _ _ _ Hr Hr2) in *.
  assert (Hlt : g1 < length (heap sb)) by (by eapply lookup_lt_Some).
  assert (Hge : length (heap sa) <= g1).
  { destruct (decide (g1 < length (heap sa))) as [Hl|]; [|lia]. exfalso. apply Hnot. by eapply ext_heap_back. }
  exact (dn_imports _ _ (D g1 (conj Hge Hlt)) _ q2 H2 Hin).
Qed.

(** The file that is asked for is not loaded, readable, and its [i]-th statement is the first import that
    leads to a missing file. Then Proto panics (if it comes back at all), exactly the declarations before
    that statement can be looked up by their names afterwards, and the ones after it never can. *)
Theorem C84_requested_file s e fuel path els o s1 i t q :
  reachable s -> env_ok e -> (forall n, ~ available s path n) -> readable e path els ->
  package_first els = true -> proto e fuel path s = (o, s1) -> o <> Diverge ->
  els !! i = Some t -> t_data t = DImport q -> breaks s e path q ->
  (forall k t' q', k < i -> els !! k = Some t' -> t_data t' = DImport q' -> ~ breaks s e path q') ->
  (exists v, o = Panic v) /\
  exists g, loaded s1 path g (file_tree path els) /\
  forall j p qn, in_statement g j p -> fqn (file_tree path els) p.2 = Some qn ->
    (j < i -> exists n s2, node_by_full_name qn s1 = (Ret (Some n), s2)) /\
    (i < j -> forall A (m : R A) o2 s2, client Loads m -> m s1 = (o2, s2) ->
       (forall q' k a, ~ found s2 q' (NAst k a p)) /\
       (forall k a, node_index (NAst k a p) s2 = (Ret "", s2))).
Proof.
  intros Hs He Hav Hr Hpf E Ho Hi Hd (miss & Hlead & Hmiss & Hunr) Hfirst.
  pose proof (proj1 (reachable_Inv _ Hs)) as Sc.
  pose proof (proj1 (available_protos _ _ Sc) Hav) as Hp. pose proof (proj1 (available_protos _ _ Sc) Hmiss) as Hpm.
  pose proof (proj2 (reads_readable _ _ _) Hr) as Hrd.
  destruct (add_file_ok e path els s He Sc Hp Hrd) as (Sa & _ & _ & Hh).
  assert (Ed : forall ov sv, visit_list (import_file e fuel) (root (length (heap s)))
      (mkVisitor (Some (root (length (heap s)))) "" false) 0 els (add_file path els s) = (ov, sv) ->
    demark_file e fuel path s = (match ov with Ret _ => Ret None | Panic m => Panic m | Diverge => Diverge end, sv)).
  { intros ov sv Ev. unfold demark_file.
    destruct (proto_file_cases e path s) as [(h & Hg & _)|(_ & [(err & Ep & Hn)|(els2 & Hr2 & Ep)])];
      [congruence|by edestruct Hn|].
    apply reads_readable in Hr2. assert (els2 = els) as -> by (by eapply readable_fun).
    rewrite (rbind_val _ _ _ _ _ Ep), (rbind_val _ _ _ _ _ (deref_ret _ _ _ (heap_at_root _ _ _ Hh))).
    assert (Ev' : visit (import_file e fuel) (mkVisitor (Some (root (length (heap s)))) "" false)
      (root (length (heap s))) (file_tree path els) (add_file path els s) = (ov, sv)) by exact Ev.
    unfold rbind. rewrite Ev'. by destruct ov. }
  set (sa := add_file path els s) in *. set (g := length (heap s)) in *. set (f := file_tree path els) in *.
  assert (Hwf : wf_tree f = true).
  { destruct Hrd as (nm & _ & _ & Hx). apply He in Hx. by apply andb_prop in Hx as [Hx _]. }
  set (v0 := mkVisitor (Some (root g)) "" false).
  destruct (visit_list (import_file e fuel) (root g) v0 0 els sa) as [ov sv] eqn:Ev.
  assert (Epr : match ov with Ret _ => True | Panic m => o = Panic m /\ s1 = sv | Diverge => o = Diverge end).
  { unfold proto in E. rewrite rbind_get, Hp in E. unfold rbind at 1 in E. rewrite (Ed _ _ Ev) in E.
    destruct ov; [done|by injection E as <- <-|by injection E as <- <-]. }
  assert (Hov : ov <> Diverge) by (intros ->; done).
  pose proof (import_file_ok e He fuel) as Himp.
  assert (Hor : forall p, keeps (only_reads e) (import_file e fuel p)).
  { apply keeps_import_file; unfold only_reads; try by auto.
    - intros x1 x2 x3 A1 A2 pth H. destruct (A2 pth H) as [H'|H']; [auto|by right].
    - intros pth els' x Hx Hrx path'. cbn. destruct (decide (pth = path')) as [->|Hne].
      + right. eauto.
      + rewrite lookup_insert_ne by done. by left. }
  assert (Hfe : forall p, keeps (from_env e) (import_file e fuel p)).
  { apply keeps_import_file; unfold from_env; try by auto.
    - intros x1 x2 x3 A1 A2 h f' H. destruct (A2 h f' H) as [H'|H']; [auto|by right].
    - intros pth els' x Hx Hrx h f'. cbn. rewrite lookup_app_Some.
      intros [H|[_ H]]; [by left|]. apply list_lookup_singleton_Some in H as [_ <-]. right. eauto. }
  set (inn := in_file (until g i) (S g) (fun _ => True) g f).
  set (Rl := fun a b => only_reads e a b /\ from_env e a b /\ inn a b).
  assert (Hvo : forall v p t', keeps (only_reads e) (visit (import_file e fuel) v p t')).
  { intros v p t'. apply keeps_visit; [by left| |by left|by left|done].
    intros x1 x2 x3 A1 A2 pth H. destruct (A2 pth H) as [H'|H']; [auto|by right]. }
  assert (Hvf : forall v p t', keeps (from_env e) (visit (import_file e fuel) v p t')).
  { intros v p t'. apply keeps_visit; [by left| |by left|by left|done].
    intros x1 x2 x3 A1 A2 h f' H. destruct (A2 h f' H) as [H'|H']; [auto|by right]. }
  destruct (visit_prefix (import_file e fuel) g path els Rl i Himp Hwf (import_paths_stay e fuel)) with
    (l := els) (i := 0) (v := v0) (s := sa) (o := ov) (s' := sv)
    as (Hdone & vi & si & Evi & Si & Xi & Di & Hhi & Vi & Fi & Pi & Ri1 & Ri2 & Ri3); try done.
  - intros x. split; [by left|]. split; [by left|]. apply in_file_refl.
  - intros x1 x2 x3 (A1 & A2 & A3) (B1 & B2 & B3). split; [|split].
    + intros pth H. destruct (B1 pth H) as [H'|H']; [auto|by right].
    + intros h f' H. destruct (B2 h f' H) as [H'|H']; [auto|by right].
    + by eapply in_file_trans.
  - intros k t' v x Hk Ht' Hv. split; [apply Hvo|]. split; [apply Hvf|].
    apply (keeps_in_file (until g i) (S g) (fun _ => True) g f (import_file e fuel) t' (upto_import g i e fuel) v [k] Hv).
    intros δ _. by exists k, δ.
  - by right.
  - split; [lia|]. apply Nat.lt_le_incl. by eapply lookup_lt_Some.
  - intros k t' q' sk m Hk Ht' Hd' Hsk Hpan.
    destruct (import_file e fuel q' sk) as [oi s'] eqn:Ei. cbn in Hpan. subst oi.
    destruct (import_panics e He fuel q' sk m s' Ei) as (x & err & cause & C1 & C2 & _ & C4 & _).
    apply (Hfirst k t' q' Hk Ht' Hd'). exists x.
    assert (Hxa : protos sa !! x = None) by (by eapply paths_stay_none).
    assert (Hxp : x <> path) by (intros ->; cbn in Hxa; by rewrite lookup_insert in Hxa).
    split; [apply (chain_leads _ _ _ els); [done|by eapply chain_less|done]|].
    split; [apply available_protos; [done|]; cbn in Hxa; by rewrite lookup_insert_ne in Hxa|].
    by apply (C75_one_reason e x cause cause).
  - assert (Edr : drop i els = t :: drop (S i) els) by (by apply drop_S).
    rewrite Edr in Evi. cbn [visit_list] in Evi. unfold rbind in Evi.
    destruct (visit (import_file e fuel) vi (child (root g) i) t si) as [o1 s2] eqn:E1.
    destruct (visit_top_step (import_file e fuel) g path els Himp Hwf i t vi si o1 s2 Hi Hhi Si Vi Fi E1) as (A1 & A2 & A3).
    assert (Hfe2 : from_env e sa s2).
    { pose proof (Hvf vi (child (root g) i) t si) as H. rewrite E1 in H. cbn [snd] in H.
      intros h f' H'. destruct (H h f' H') as [H2|H2]; [auto|by right]. }
    assert (Hor2 : only_reads e sa s2).
    { pose proof (Hvo vi (child (root g) i) t si) as H. rewrite E1 in H. cbn [snd] in H.
      intros h H'. destruct (H h H') as [H2|H2]; [auto|by right]. }
    assert (Hnret : forall v1, o1 <> Ret v1).
    { intros v1 ->. destruct (A3 v1 eq_refl) as (B1 & B2 & _).
      pose proof (ed_import _ _ _ _ B2 t q Hi Hd) as Hq.
      assert (X2 : ext g sa s2) by (eapply ext_trans; [exact Xi|exact A2]).
      assert (D2 : news_done sa s2) by (eapply news_done_trans; [exact A2|exact Di|exact B1]).
      pose proof (leads_loaded s e path els s2 q miss Sc Sa A1 X2 D2 Hfe2 Hq Hlead) as Hm.
      destruct (Hor2 _ Hm) as [[h Hh']|[els' Hx]].
      - cbn in Hh'. pose proof (leads_not_path _ _ _ _ _ Hlead). rewrite lookup_insert_ne in Hh' by congruence. congruence.
      - eapply Hunr. by apply reads_readable. }
    destruct o1 as [v1|msg|]; [by destruct (Hnret v1)| |by injection Evi as <- _].
    injection Evi as <- <-. destruct Epr as [-> ->]. split; [by eexists|].
    assert (Hh2 : heap s2 !! g = Some f) by (by eapply ext_heap_lookup).
    assert (Hl : loaded s2 path g f).
    { split; [apply (sc_protos _ A1); by eexists|done]. }
    exists g. split; [done|]. intros j p qn [δ ->] Hq. cbn [snd] in Hq.
    assert (Hs2 : reachable s2).
    { assert (H : reachable (recover (proto e fuel path) s).2).
      { apply (hist_client Loads _ _ s); [exact Hs|]. apply cl_recover, cl_proto; [done|exact He]. }
      assert (Er : (recover (proto e fuel path) s).2 = s2) by (unfold recover; by rewrite E).
      by rewrite Er in H. }
    pose proof (reachable_Inv _ Hs2) as I2.
    split.
    + intros Hj. rewrite (loaded_fqn _ _ _ _ _ A1 Hl Hpf) in Hq.
      destruct (ed_names _ _ _ _ (Hdone j ltac:(lia)) (δ ++ [j])%list qn) as [p Hpn]; [by destruct δ| |done|].
      { unfold outermost. by rewrite last_snoc. }
      destruct (lookup_named _ _ _ I2 Hpn) as (f' & t' & k & a & s' & _ & _ & _ & _ & H & _). eauto.
    + intros Hj A m o2 s3 Hm Em.
      assert (U : named (until g i) (S g) (fun _ => True) sa s2).
      { eapply named_trans; [apply Ri3; exact Hh|].
        destruct t as [d ps c kids]. cbn in Hd. subst d. cbn [visit] in E1.
        pose proof (upto_import g i e fuel q si) as H. unfold rbind in E1.
        destruct (import_file e fuel q si) as [[]]; injection E1 as _ <-; exact H. }
      assert (Pa : pre (S g) (fun _ => True) sa).
      { split; [|done]. subst sa g. cbn. rewrite app_length. cbn. lia. }
      destruct (U Pa) as [_ _ U3 U4].
      assert (Hno : ~ new_ok (until g i) s2 (g, (δ ++ [j])%list)).
      { intros (f' & _ & [H|H]); cbn in H; [by destruct δ|].
        destruct (H eq_refl) as (j' & δ' & H1 & H2). apply app_inj_tail in H1 as [_ <-]. lia. }
      assert (Hg2 : g < length (heap s2)) by (by eapply lookup_lt_Some).
      destruct (later_nothing m s2 o2 s3 g δ j Hm Em Hg2) as [M3 M4].
      assert (N3 : forall x, names s3 !! x <> Some (g, (δ ++ [j])%list)).
      { intros x Hx. destruct (U3 _ _ (M3 _ Hx)) as [H|H]; [|done].
        change (names sa) with (names s) in H. destruct (sc_names _ Sc _ _ H) as (f' & Hf' & _). cbn in Hf'.
        apply lookup_lt_Some in Hf'. unfold g in Hf'. lia. }
      assert (N4 : scopes s3 !! VPtr (g, (δ ++ [j])%list) = None).
      { destruct (scopes s3 !! VPtr (g, (δ ++ [j])%list)) as [x|] eqn:Hx; [|reflexivity]. exfalso.
        destruct (U4 _ _ (M4 _ eq_refl)) as [H|H]; [|done].
        change (scopes sa) with (scopes s) in H. destruct (sc_scopes _ Sc _ _ H) as (f' & Hf' & _). cbn in Hf'.
        apply lookup_lt_Some in Hf'. unfold g in Hf'. lia. }
      assert (Hs3 : reachable s3).
      { assert (H : reachable (m s2).2) by (apply (hist_client Loads _ _ s2); [exact Hs2|exact Hm]). by rewrite Em in H. }
      split.
      * intros q' k a F. unfold found in F. destruct (node_by_full_name q' s3) as [o3 s4] eqn:E3. cbn in F. subst o3.
        destruct (found_is_declared _ _ _ _ (reachable_Inv _ Hs3) E3) as (path' & f' & t' & k' & a' & p' & [= -> -> <-] & Hx & _).
        by eapply N3.
      * intros k a. unfold node_index. rewrite rbind_get. unfold scope_of. rewrite N4. by destruct k.
Qed.

(** top.proto imports good.proto, which imports it, declares A, imports mid.proto, which imports a
    missing file, and declares B. *)
Definition top_elems : list tree :=
  [ el "top.proto" 1 (DPackage "top") []; el "top.proto" 2 (DImport "good.proto") []; msg "top.proto" 3 "A" [];
    el "top.proto" 4 (DImport "mid.proto") []; msg "top.proto" 5 "B" [] ].
Definition mid_elems : list tree :=
  [ el "mid.proto" 1 (DPackage "mid") []; el "mid.proto" 2 (DImport "missing.proto") []; msg "mid.proto" 3 "C" [] ].
Definition good_elems : list tree :=
  [ el "good.proto" 1 (DPackage "good") []; el "good.proto" 2 (DImport "top.proto") []; msg "good.proto" 3 "G" [] ].
Definition half_files : list (string * list tree) :=
  (std_files ++ [("top.proto", top_elems); ("mid.proto", mid_elems); ("good.proto", good_elems)])%list.
Definition half_env := table_env half_files.
Lemma half_starts : starts half_files = true.
Proof. vm_compute. reflexivity. Qed.
Lemma table_reads tab path els : table_get tab path = Some els -> path <> "" -> readable (table_env tab) path els.
Proof.
  intros H Hne. apply reads_readable. exists path. unfold table_env. cbn. rewrite H. split; [done|]. split; [done|].
  by rewrite String.eqb_refl.
Qed.

Example C84_requested_example : exists v s1 t,
  reachable (start half_files) /\ env_ok half_env /\ (forall n, ~ available (start half_files) "top.proto" n) /\
  readable half_env "top.proto" top_elems /\ package_first top_elems = true /\
  proto half_env 50 "top.proto" (start half_files) = (Panic v, s1) /\
  top_elems !! 3 = Some t /\ t_data t = DImport "mid.proto" /\
  breaks (start half_files) half_env "top.proto" "mid.proto" /\
  (forall k t' q', k < 3 -> top_elems !! k = Some t' -> t_data t' = DImport q' ->
     ~ breaks (start half_files) half_env "top.proto" q') /\
  fqn (file_tree "top.proto" top_elems) [2] = Some ".top.A" /\
  fqn (file_tree "top.proto" top_elems) [4] = Some ".top.B".
Proof.
  assert (E1 : exists v s1, proto half_env 50 "top.proto" (start half_files) = (Panic v, s1)).
  { assert (H : forall {B} (r : outcome B * registry), (match r.1 with Panic _ => true | _ => false end) = true ->
      exists v s', r = (Panic v, s')).
    { intros B [[]]; cbn; try discriminate. by eexists _, _. }
    apply H. vm_compute. reflexivity. }
  assert (Hno : forall n x, x = "top.proto" \/ x = "mid.proto" \/ x = "missing.proto" -> ~ available (start half_files) x n).
  { intros n x Hx. apply (refused_ok (mkEnv [] (fun _ _ => inl not_exist))).
    destruct Hx as [-> |[-> | ->]]; vm_compute; reflexivity. }
  assert (Hmid : readable half_env "mid.proto" mid_elems) by (by apply table_reads).
  assert (Hgood : readable half_env "good.proto" good_elems) by (by apply table_reads).
  assert (Htop : readable half_env "top.proto" top_elems) by (by apply table_reads).
  assert (Hmiss : forall els, ~ readable half_env "missing.proto" els).
  { intros els. apply unreadable_ok. vm_compute. reflexivity. }
  assert (Hst : reachable (start half_files)) by (apply start_history, half_starts).
  assert (Hok : env_ok half_env) by (apply table_env_ok; vm_compute; reflexivity).
  destruct E1 as (v & s1 & E1).
  exists v, s1, (el "top.proto" 4 (DImport "mid.proto") []).
  split; [exact Hst|]. split; [exact Hok|]. split; [intros n; apply Hno; by left|]. split; [exact Htop|].
  split; [reflexivity|]. split; [exact E1|]. clear E1. split; [reflexivity|]. split; [reflexivity|].
  clear Hst. generalize dependent (start half_files). intros s Hno. split.
  { exists "missing.proto". split; [|split; [intros n; apply Hno; by auto|exact Hmiss]].
    eapply leads_step; [by apply leads_self|intros n; apply Hno; by auto|exact Hmid|cbn; set_solver|done]. }
  split; [|split; reflexivity].
  intros k t' q' Hk Ht Hd (m & Hl & Hm & Hu).
  assert (q' = "good.proto") as ->.
  { destruct k as [|[|[|k]]]; [| | |lia]; cbn in Ht; injection Ht as <-; cbn in Hd; congruence. }
  assert (m = "good.proto") as ->.
  { clear -Hl Hgood. induction Hl as [|q1 q2 els _ IH _ Hr Hin Hne]; [done|]. subst q1.
    rewrite (readable_fun _ _ _ _ Hgood Hr) in Hin. cbn in Hin. apply elem_of_list_singleton in Hin. done. }
  by eapply Hu.
Qed.
