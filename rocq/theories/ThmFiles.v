(** * C71: the loaded files determine every answer. *)
From Verif Require Export ThmStable.
From Verif Require Import Frame Navigate Identity Api.

(** ** Specification *)

(** A registry on which only loads were done (any of which may have given an error). *)
Inductive just_loaded : registry -> Prop :=
| jl_new e fuel s : env_ok e -> new_registry e fuel = Ret (inr s) -> just_loaded s
| jl_load e fuel path r s s' :
    env_ok e -> just_loaded s -> proto e fuel path s = (Ret r, s') -> just_loaded s'.

(** No program has asked a MessageField for its Type yet (it remembers the answer for good, C21). *)
Definition no_types (s : registry) : Prop := forall a p, ftcache s !! (a, p) = None.

(** The same file, in two registries. *)
Definition same_file (s1 s2 : registry) (g1 g2 : nat) : Prop :=
  exists path f, loaded s1 path g1 f /\ loaded s2 path g2 f.
(** The element at the same place of the same file. *)
Definition same_place (s1 s2 : registry) (p1 p2 : ptr) : Prop :=
  same_file s1 s2 p1.1 p2.1 /\ p1.2 = p2.2.
(** No program has got any nodes yet. *)
Definition nothing : ids := fun _ _ => False.
(** Something inside a file, not the file itself. *)
Definition inside (p : ptr) : Prop := p.2 <> [].

(** ** Proofs *)

Lemma just_loaded_calm s : just_loaded s -> calm s.
Proof.
  induction 1 as [e fuel s He E|e fuel path r s s' He _ IH E]; [by eapply hist_new|].
  by eapply calm_loads.
Qed.
Lemma just_loaded_empty s : just_loaded s -> cache s = ∅ /\ ftcache s = ∅.
Proof.
  induction 1 as [e fuel s He E|e fuel path r s s' He Hj IH E].
  - destruct (new_registry_ok _ _ _ He E) as (_ & H1 & H2 & _). done.
  - pose proof (proj1 (reachable_Inv _ (calm_reachable _ (just_loaded_calm _ Hj)))) as S.
    destruct (proto_ok _ _ _ _ _ _ He S E) as (_ & _ & Hp).
    assert (Hs : cache s' = cache s /\ ftcache s' = ftcache s).
    { inversion Hp as [g Hg|err H1 H2|els s1 H1 H2 H3 H4 (H5 & H6 & _) H7|els o s1 H1 H2 H3 H4 (H5 & H6 & _) H7];
        subst; cbn; done. }
    destruct IH as [C F], Hs as [-> ->]. done.
Qed.
Lemma just_loaded_no_types s : just_loaded s -> no_types s.
Proof. intros H a p. by rewrite (proj2 (just_loaded_empty _ H)). Qed.

Lemma same_file_fun s1 s2 g h h' : same_file s1 s2 g h -> same_file s1 s2 g h' -> h = h'.
Proof.
  intros (path & f & A1 & A2) (path' & f' & B1 & B2).
  destruct (loaded_path _ _ _ _ _ _ A1 B1) as [-> ->].
  by destruct (loaded_fun _ _ _ _ _ _ A2 B2) as [-> _].
Qed.
Lemma same_file_inj s1 s2 g g' h : same_file s1 s2 g h -> same_file s1 s2 g' h -> g = g'.
Proof.
  intros (path & f & A1 & A2) (path' & f' & B1 & B2).
  destruct (loaded_path _ _ _ _ _ _ A2 B2) as [-> ->].
  by destruct (loaded_fun _ _ _ _ _ _ A1 B1) as [-> _].
Qed.

Lemma same_files_packages s1 s2 : same_files s1 s2 -> packages_first s1 -> packages_first s2.
Proof.
  intros H P path g f Hl. destruct (proj2 (H path f)) as [g1 H1]; [by exists g|]. by eapply P.
Qed.
Lemma same_files_unique s1 s2 : same_files s1 s2 -> unique_names s1 -> unique_names s2.
Proof.
  intros H U path g f π path' g' f' π' q L L' Q Q'.
  destruct (proj2 (H path f)) as [h Hh]; [by exists g|].
  destruct (proj2 (H path' f')) as [h' Hh']; [by exists g'|].
  destruct (U _ _ _ _ _ _ _ _ _ Hh Hh' Q Q') as [<- <-]. split; [|done].
  destruct (loaded_path _ _ _ _ _ _ Hh Hh') as [-> ->].
  by destruct (loaded_fun _ _ _ _ _ _ L L') as [-> _].
Qed.

Lemma inside_child p i : inside (child p i).
Proof. unfold inside, child. cbn. by destruct p.2. Qed.

(** the qualified names of elements *)
(** what the comparison of two registries needs to know about each *)
Definition tidy (s : registry) : Prop := (schema s /\ complete s) /\ unique_names s /\ packages_first s.
Lemma orderly_tidy s : orderly s -> tidy s.
Proof. intros (C & U & P). split; [by apply calm_complete|done]. Qed.
Lemma declared_named s path g f π q :
  schema s /\ complete s -> loaded s path g f -> fqn_here f π = Some q -> exists p, names s !! q = Some p.
Proof.
  intros [S C] (_ & Hf & _) Hq. assert (Hlt : g < length (heap s)) by (by apply lookup_lt_Some in Hf).
  exact (dn_names _ _ (C g Hlt) f π q Hf Hq).
Qed.

Lemma scope_inside s path g f π :
  schema s /\ complete s -> loaded s path g f -> π <> [] ->
  scope_of s (VPtr (g, π)) =
    match walk f π with
    | Some u => if keeps_scope (t_data u) then default "" (fqn_here f π) else ""
    | None => ""
    end.
Proof.
  intros [S C] (_ & Hf & _) Hπ.
  assert (Hlt : g < length (heap s)) by (by apply lookup_lt_Some in Hf).
  unfold scope_of. destruct (scopes s !! VPtr (g, π)) as [q|] eqn:Hq.
  - destruct (sc_scopes _ S _ _ Hq) as (f' & Hf' & Hg). cbn [fst] in Hf'.
    assert (f' = f) as -> by congruence.
    destruct Hg as [[Hnil _]|(Hg & u & Hu & Hk)]; [done|]. cbn [snd] in *.
    by rewrite Hu, Hk, Hg.
  - destruct (walk f π) as [u|] eqn:Hu; [|done]. destruct (keeps_scope (t_data u)) eqn:Hk; [|done].
    destruct (fqn_here f π) as [q|] eqn:Hfq; [|done].
    destruct (dn_scopes _ _ (C g Hlt) f π q u Hf Hfq Hu Hk) as [q' Hq']. congruence.
Qed.

Lemma same_place_sym s1 s2 p1 p2 : same_place s1 s2 p1 p2 -> same_place s2 s1 p2 p1.
Proof. intros [(path & f & A & B) H]. split; [|done]. by exists path, f. Qed.

(** [s2] has the files of [s1], and possibly others *)
Definition all_files (s1 s2 : registry) : Prop :=
  forall path f, (exists g, loaded s1 path g f) -> exists g, loaded s2 path g f.

Lemma same_names s1 s2 q p1 :
  tidy s1 -> tidy s2 -> all_files s1 s2 -> names s1 !! q = Some p1 ->
  exists p2, names s2 !! q = Some p2 /\ same_place s1 s2 p1 p2.
Proof.
  intros (C1 & U1 & P1) (C2 & U2 & P2) Hsame Hp. pose proof (proj1 C1) as S1.
  pose proof (proj1 C2) as S2.
  destruct (sc_names _ S1 _ _ Hp) as (f & Hf & Hq).
  destruct (heap_loaded _ _ _ S1 Hf) as [path Hl].
  destruct (Hsame path f) as [g2 Hl2]; [by exists p1.1|].
  destruct (declared_named _ _ _ _ _ _ C2 Hl2 Hq) as (p2 & Hp2).
  exists p2. split; [done|].
  rewrite <- (loaded_fqn s2 path g2 f p1.2) in Hq by eauto.
  rewrite (unique_ptr _ _ _ _ _ _ _ S2 U2 P2 Hl2 Hq Hp2). split; [|done]. by exists path, f.
Qed.

Lemma alike_more (N F : string -> Prop) s1 s2 :
  tidy s1 -> tidy s2 -> all_files s1 s2 ->
  (forall n sc, N n -> resolve_name_raw (names s1) sc n = resolve_name_raw (names s2) sc n) ->
  (forall p t n, heap_at s1 p = Some t -> refers (t_data t) n -> N n) ->
  (forall path, F path -> protos s1 !! path = None -> protos s2 !! path = None) ->
  (forall p t, heap_at s1 p = Some t ->
    F (p_file (t_pos t)) /\ forall f, t_data t = DProto f -> F f) ->
  alike (same_file s1 s2) inside N F (fun _ => False) s1 s2.
Proof.
  intros O1 O2 Hmore HN Href HF Hpos.
  pose proof (proj1 (proj1 O1)) as S1.
  pose proof (proj1 (proj1 O2)) as S2. constructor; try done.
  - intros g g' (path & f & (_ & A & _) & (_ & B & _)). congruence.
  - intros q p1 H1. by apply same_names.
  - intros q p1 p2 Hp H2. destruct Hp as [(path & f & L1 & L2) Hpath].
    destruct (sc_names _ S2 _ _ H2) as (f' & Hf & Hq).
    assert (f' = f) as -> by (destruct L2 as (_ & L2 & _); congruence).
    rewrite <- Hpath in Hq.
    destruct (declared_named _ _ _ _ _ _ (proj1 O1) L1 Hq) as (p & Hp).
    destruct O1 as (C1 & U1 & P1).
    rewrite <- (loaded_fqn s1 path p1.1 f p1.2) in Hq by eauto.
    rewrite Hp. f_equal.
    pose proof (unique_ptr _ _ _ _ _ _ _ S1 U1 P1 L1 Hq Hp) as E. destruct p1. by rewrite E.
  - intros path HFp. destruct (protos s1 !! path) as [g1|] eqn:H1.
    + destruct (loaded_protos _ _ _ S1 H1) as [f Hl].
      destruct (Hmore path f) as [g2 Hl2]; [by exists g1|].
      destruct (Hl2) as (-> & _). constructor. by exists path, f.
    + rewrite (HF _ HFp H1). constructor.
  - intros [g π] [g' π'] [(path & f & A & B) H] Hi. cbn [fst snd] in *. subst π'.
    unfold inside in Hi. cbn [snd] in Hi.
    by rewrite (scope_inside _ _ _ _ _ (proj1 O1) A Hi), (scope_inside _ _ _ _ _ (proj1 O2) B Hi).
  - intros [g π] t Ht Hd Hnil. cbn in Hnil. subst π. unfold heap_at in Ht. cbn [fst snd] in Ht.
    destruct (heap s1 !! g) as [f|] eqn:Hf; [|done]. cbn in Ht. injection Ht as ->.
    destruct (sc_heap _ S1 _ _ Hf) as (path & els & -> & _). by apply (Hd path).
Qed.

Lemma same_files_alike s1 s2 :
  orderly s1 -> orderly s2 -> same_files s1 s2 ->
  alike (same_file s1 s2) inside every every (fun _ => False) s1 s2.
Proof.
  intros O1%orderly_tidy O2%orderly_tidy Hsame.
  assert (M1 : all_files s1 s2) by (intros path f; apply Hsame).
  assert (M2 : all_files s2 s1) by (intros path f; apply Hsame).
  assert (Hdef : forall q, defined (names s1) q = defined (names s2) q).
  { intros q. unfold defined. destruct (names s1 !! q) as [p1|] eqn:H1.
    - by destruct (same_names _ _ _ _ O1 O2 M1 H1) as (p2 & -> & H).
    - destruct (names s2 !! q) as [p2|] eqn:H2; [|done].
      destruct (same_names _ _ _ _ O2 O1 M2 H2) as (p1 & H & _). congruence. }
  pose proof (proj1 (proj1 O2)) as S2.
  apply alike_more; try done.
  - intros n sc _. unfold resolve_name_raw. rewrite Hdef.
    destruct (has_prefix n "."); [done|].
    generalize (if negb (String.eqb sc "") && negb (has_prefix sc ".") then "." +:+ sc else sc).
    intros sc1. generalize (S (String.length sc1)) as fuel. intros fuel. revert sc1.
    induction fuel as [|fuel IH]; intros sc1; cbn [resolve_loop]; [done|]. by rewrite !Hdef, IH.
  - intros path _ H1. destruct (protos s2 !! path) as [g2|] eqn:H2; [|done].
    destruct (loaded_protos _ _ _ S2 H2) as [f Hl].
    destruct (proj2 (Hsame path f)) as [g1 (Hl1 & _)]; [by exists g2|]. congruence.
Qed.

Section run.
  Context (w1 w2 : registry).
  Context (D : ptr -> Prop) (Dchild : forall p i, D (child p i)).
  Context (C1 : calm w1) (C2 : calm w2) (N F : string -> Prop) (Fzero : F "").
  Context (Hal : alike (same_file w1 w2) D N F (fun _ => False) w1 w2).
  Context (Hnil : forall v, cache w1 !! v <> Some None).
  Context (Hty : no_types w1) (Hty2 : no_types w2).

  Definition types_ok1 (s : registry) : Prop := forall a p r,
    ftcache s !! (a, p) = Some r ->
    exists x s', field_type_body p w1 = (Ret x, s') /\ same_nodeo_eq x r.
  Definition types_ok2 (s : registry) : Prop := forall a p r x s',
    ftcache s !! (a, p) = Some r -> field_type_body p w2 = (Ret x, s') -> same_nodeo_eq x r.
  Definition run_ok (s1 s2 : registry) : Prop :=
    quiet w1 s1 /\ quiet w2 s2 /\ types_ok1 s1 /\ types_ok2 s2.

  Lemma run_ok_step s1 s2 s1' s2' :
    quiet s1 s1' -> quiet s2 s2' -> ftcache s1' = ftcache s1 -> ftcache s2' = ftcache s2 ->
    run_ok s1 s2 -> run_ok s1' s2'.
  Proof.
    intros Q1 Q2 F1 F2 (A1 & A2 & A3 & A4). split; [by eapply quiet_trans|].
    split; [by eapply quiet_trans|]. unfold types_ok1, types_ok2. by rewrite F1, F2.
  Qed.
  Lemma run_ok_alloc s1 s2 : run_ok s1 s2 -> run_ok (alloc s1).2 (alloc s2).2.
  Proof. apply run_ok_step; [apply quiet_alloc..|done|done]. Qed.
  Lemma run_ok_wrap v v' s1 s2 : run_ok s1 s2 -> run_ok (wrap v s1).2 (wrap v' s2).2.
  Proof. apply run_ok_step; [apply quiet_wrap..|apply wrap_ftcache|apply wrap_ftcache]. Qed.

  Notation stw := (st (same_file w1 w2) D N F (fun _ => False) run_ok).
  Notation simw := (sim (same_file w1 w2) D N F (fun _ => False) run_ok).

  Lemma body_simw p p' : same_place w1 w2 p p' ->
    simw (same_nodeo (same_place w1 w2) D anyid) (field_type_body p) (field_type_body p').
  Proof.
    intros Hp. apply (sim_field_type_body (same_file w1 w2) D); [..|exact Hp].
    - apply run_ok_alloc.
    - apply run_ok_wrap.
  Qed.

  (** the two registries themselves *)
  Lemma st_bases : stw w1 w2.
  Proof.
    pose proof (reachable_Inv _ (calm_reachable _ C1)) as I1.
    pose proof (reachable_Inv _ (calm_reachable _ C2)) as I2.
    constructor; [done|done|exact Hal| |done|].
    - intros v Hv. by apply (Hnil v).
    - split; [apply quiet_refl|]. split; [apply quiet_refl|]. split.
      + intros a p r Hr. rewrite Hty in Hr. discriminate Hr.
      + intros a p r x s' Hr. rewrite Hty2 in Hr. discriminate Hr.
  Qed.

  (** on the first registry, whatever was returned is returned by a fresh computation, too *)
  Lemma body_back p s1 s2 x s1' : stw s1 s2 -> field_type_body p s1 = (Ret x, s1') ->
    exists y w', field_type_body p w1 = (Ret y, w') /\ same_nodeo_eq x y.
  Proof.
    intros T E. destruct (st_extra _ _ _ _ _ _ _ _ T) as (Q1 & _).
    assert (T1 : st (@eq nat) anywhere every every (fun _ => False) no_extra s1 w1).
    { constructor.
      - exact (st_inv1 _ _ _ _ _ _ _ _ T).
      - exact (reachable_Inv _ (calm_reachable _ C1)).
      - by apply alike_eq_quiet.
      - exact (st_known _ _ _ _ _ _ _ _ T).
      - done.
      - done. }
    assert (S : sim (@eq nat) anywhere every every (fun _ => False) no_extra (same_nodeo pq anywhere anyid)
      (field_type_body p) (field_type_body p)).
    { apply sim_field_type_body; unfold anywhere, no_extra; try done. }
    destruct (S _ _ _ _ T1 E) as (y & w' & E' & H & _). exists y, w'. split; [done|].
    by apply nodeo_eq.
  Qed.

  Lemma body_ftcache p : keeps (fun s s' => ftcache s' = ftcache s) (field_type_body p).
  Proof.
    apply keeps_field_type_body; try done.
    - intros; congruence.
    - intros v s. apply wrap_ftcache.
  Qed.

  Lemma nodeo_eq_sym x y : same_nodeo_eq x y -> same_nodeo_eq y x.
  Proof.
    assert (Hh : forall h h', same_hdr eq h h' -> same_hdr eq h' h).
    { intros h h' [? ? ? ? ? [|? ? ->]]; by repeat constructor. }
    assert (Hv : forall v v', same_val eq v v' -> same_val eq v' v).
    { fix IH 3. intros v v' H.
      assert (IHs : forall l l', same_vals eq l l' -> same_vals eq l' l).
      { fix IHs 3. intros l l' Hl. destruct Hl; constructor; [by apply IH|by apply IHs]. }
      assert (IHi : forall l l', same_items eq l l' -> same_items eq l' l).
      { fix IHi 3. intros l l' Hl. destruct Hl; constructor; [by apply IH|by apply IHi]. }
      destruct H; constructor; auto. }
    assert (Hn : forall n n', same_node eq anywhere anyid n n' -> same_node eq anywhere anyid n' n).
    { intros n n' H. induction H as [k a a' p p' -> Hd _|b|a a' t t' H IH|a a'|o o' H|v v' H|k v v' H];
        constructor; auto. destruct H; subst. by constructor. }
    intros [|n n' H]; constructor; auto.
  Qed.
  Lemma nodeo_subst P D0 x y z :
    same_nodeo_eq x y -> same_nodeo P D0 anyid y z -> same_nodeo P D0 anyid x z.
  Proof.
    assert (Hh : forall x y z, same_hdr eq x y -> same_hdr P y z -> same_hdr P x z)
      by (apply same_hdr_trans; intros; by subst).
    assert (Hv : forall x y z, same_val eq x y -> same_val P y z -> same_val P x z)
      by (apply same_val_trans; intros; by subst).
    assert (Hn : forall x y, same_node eq anywhere anyid x y ->
      forall z, same_node P D0 anyid y z -> same_node P D0 anyid x z).
    { intros u v H. induction H as [k a a' p p' -> Hd _|b|a a' t t' H IH|a a'|o o' H|v v' H|k v v' H];
        intros w K; inversion K; subst; constructor; eauto.
      destruct H; subst. match goal with K : same_opt _ _ _ _ |- _ => inversion K; subst end.
      by constructor. }
    intros [|n n' H] K; inversion K; subst; constructor; eauto.
  Qed.

  Lemma field_type_simw a a' p p' : same_place w1 w2 p p' ->
    simw (same_nodeo (same_place w1 w2) D anyid) (field_type a p) (field_type a' p').
  Proof.
    intros Hp s1 s2 o s1' T E.
    destruct T as [I1 I2 Al Hk Hn (Q1 & Q2 & F1 & F2)] eqn:ET. clear ET.
    (* the first side *)
    assert (Hfirst : (exists x w', field_type_body p w1 = (Ret x, w') /\ same_nodeo_eq o x) /\
      types_ok1 s1' /\ (forall v, cache s1' !! v = Some None -> False)).
    { unfold field_type in E. rewrite rbind_get in E.
      destruct (ftcache s1 !! (a, p)) as [r|] eqn:Hc.
      - injection E as <- <-. destruct (F1 _ _ _ Hc) as (x & w' & E' & H).
        split; [|done]. exists x, w'. split; [done|by apply nodeo_eq_sym].
      - destruct (field_type_body p s1) as [[r|e|] s0] eqn:Eb; try discriminate E.
        injection E as <- <-. destruct (body_back _ _ _ _ _ T Eb) as (x & w' & E' & H).
        pose proof (body_ftcache p s1) as Hf. rewrite Eb in Hf. cbn in Hf.
        destruct (body_simw _ _ Hp _ _ _ _ T Eb) as (_ & s2' & _ & _ & T').
        split; [by eauto|]. split; [|exact (st_known _ _ _ _ _ _ _ _ T')].
        intros b q r' Hr. cbn in Hr. destruct (decide ((a, p) = (b, q))) as [[= <- <-]|Hne].
        + rewrite lookup_insert in Hr. injection Hr as <-. exists x, w'.
          split; [done|by apply nodeo_eq_sym].
        + rewrite lookup_insert_ne, Hf in Hr by done. by eapply F1. }
    destruct Hfirst as ((x & w' & Ex & Hx) & F1' & Hk').
    pose proof (quiet_field_type a p s1) as Q1'. rewrite E in Q1'. cbn [snd] in Q1'.
    destruct (inv_step_ret _ _ _ _ (inv_step_field_type a p) I1 E) as [I1' _].
    (* the fresh answer of the second *)
    destruct (body_simw _ _ Hp _ _ _ _ st_bases Ex) as (x2 & w2' & Ex2 & Hx2 & _).
    assert (Hsecond : exists o2 s2', field_type a' p' s2 = (Ret o2, s2') /\ same_nodeo_eq x2 o2 /\
      types_ok2 s2').
    { unfold field_type. rewrite rbind_get. destruct (ftcache s2 !! (a', p')) as [r|] eqn:Hc.
      - exists r, s2. split; [done|]. split; [|done]. by eapply F2.
      - destruct (later_body w2 p' _ _ _ _ (st_quiet _ _
          (reachable_Inv _ (calm_reachable _ C2)) I2 Q2) Ex2) as (r & s0 & Eb & Hr & _).
        rewrite Eb. exists r. eexists. split; [done|]. apply nodeo_eq in Hr. split; [done|].
        pose proof (body_ftcache p' s2) as Hf. rewrite Eb in Hf. cbn in Hf.
        intros b q r' y w'' Hr' Ey. cbn in Hr'.
        destruct (decide ((a', p') = (b, q))) as [[= <- <-]|Hne].
        + rewrite lookup_insert in Hr'. injection Hr' as <-. rewrite Ex2 in Ey.
          by injection Ey as <- _.
        + rewrite lookup_insert_ne, Hf in Hr' by done. by eapply F2. }
    destruct Hsecond as (o2 & s2' & E2 & Ho2 & F2').
    pose proof (quiet_field_type a' p' s2) as Q2'. rewrite E2 in Q2'. cbn [snd] in Q2'.
    destruct (inv_step_ret _ _ _ _ (inv_step_field_type a' p') I2 E2) as [I2' _].
    exists o2, s2'. split; [done|]. split.
    - eapply nodeo_subst; [exact Hx|]. eapply same_nodeo_trans; [|exact Hx2|exact Ho2].
      intros ? ? ? ? <-. done.
    - constructor; [done|done|by eapply alike_quiet|exact Hk'|done|].
      split; [by eapply quiet_trans|]. split; [by eapply quiet_trans|]. done.
  Qed.

  Lemma run_program {A} (RA : rel A) E0 m1 m2 :
    same_program (same_place w1 w2) D E0 RA m1 m2 -> one_to_one E0 ->
    ksim (same_file w1 w2) D N F (fun _ => False) run_ok E0 RA m1 m2.
  Proof.
    intros H HE0. apply (ksim_program (same_file w1 w2) D); [..|exact H|exact HE0].
    - apply same_file_fun.
    - apply same_file_inj.
    - exact Dchild.
    - exact Fzero.
    - apply run_ok_alloc.
    - apply run_ok_wrap.
    - apply field_type_simw.
  Qed.

  (** any queries may run on the second registry *)
  Lemma others_keep {B} (m : R B) s1 s2 : client Queries m -> stw s1 s2 -> stw s1 (m s2).2.
  Proof.
    intros Hm [A1 A2 A3 A4 A5 (Q1 & Q2 & A8 & A9)].
    destruct (query_undisturbed m s2 Hm A2) as [Q U]. destruct (U A2) as [I2' F']. constructor; try done.
    - eapply alike_quiet; [apply quiet_refl|exact Q|done].
    - split; [done|]. split; [by eapply quiet_trans|]. split; [done|]. intros a p r x s' Hr Ex.
      destruct (ftcache s2 !! (a, p)) as [r'|] eqn:Hc.
      + rewrite (q_ftcache _ _ Q _ _ Hc) in Hr. injection Hr as <-. by eapply A9.
      + destruct (later_body w2 p _ _ _ _ (st_quiet _ _ (reachable_Inv _ (calm_reachable _ C2)) A2 Q2) Ex)
          as (x' & s2' & E' & Hx & _).
        eapply nodeo_eq_trans; [by apply nodeo_eq|]. by eapply F'.
  Qed.

  (** any queries may have run on the second registry before *)
  Lemma run_returns {A B} (RA : rel A) (m0 : R B) m1 m2 x1 s1' :
    client Queries m0 -> same_program (same_place w1 w2) D nothing RA m1 m2 ->
    m1 w1 = (Ret x1, s1') ->
    exists x2 s2' E, m2 (m0 w2).2 = (Ret x2, s2') /\ one_to_one E /\ RA E x1 x2.
  Proof.
    intros Hm0 Hm E. pose proof (others_keep m0 _ _ Hm0 st_bases) as T.
    destruct (run_program RA nothing m1 m2 Hm ltac:(by intros ? ? ? ? []) _ _ _ _ T ltac:(by intros ? ? []) E) as (x2 & s2' & E2 & Hx & T' & _).
    exists x2, s2'. eexists. split; [done|]. split; [|exact Hx].
    apply ids_of_one; [apply same_file_fun|apply same_file_inj|..].
    - exact (st_inv1 _ _ _ _ _ _ _ _ T').
    - exact (st_inv2 _ _ _ _ _ _ _ _ T').
  Qed.
End run.

(** ** The theorems *)

(** Any program of queries that returns [x1] when run on a registry where only loads were done
    returns the same on every registry with the same files, whatever the order in which they were
    loaded there and whatever queries [m0] ran before. *)
Theorem C71_same_program {A B} (RA : rel A) s1 s2 (m0 : R B) (m1 m2 : R A) x1 s1' :
  just_loaded s1 -> unique_names s1 -> packages_first s1 ->
  calm s2 -> no_types s2 -> same_files s1 s2 -> client Queries m0 ->
  same_program (same_place s1 s2) inside nothing RA m1 m2 ->
  m1 s1 = (Ret x1, s1') ->
  exists x2 s2' E, m2 (m0 s2).2 = (Ret x2, s2') /\ one_to_one E /\ RA E x1 x2.
Proof.
  intros Hj U1 P1 C2 T2 Hsame Hm0 Hm E.
  pose proof (just_loaded_calm _ Hj) as C1. destruct (just_loaded_empty _ Hj) as [He Hf].
  apply (run_returns s1 s2 inside inside_child C1 C2 every every I) with (m1 := m1) (s1' := s1'); try done.
  - apply same_files_alike; [done| |done]. split; [done|].
    split; [by eapply same_files_unique|by eapply same_files_packages].
  - intros v. rewrite He, lookup_empty. discriminate.
  - by apply just_loaded_no_types.
Qed.

(** Registry.Proto called for [paths], in this order, each call giving a file. *)
Inductive only_loads (e : env) : list string -> registry -> registry -> Prop :=
| ol_done s : only_loads e [] s s
| ol_file path paths s s1 s2 fuel f :
    proto e fuel path s = (Ret (inr f), s1) -> only_loads e paths s1 s2 ->
    only_loads e (path :: paths) s s2.

Lemma only_loads_loading e paths s s' : only_loads e paths s s' -> loading e paths s s'.
Proof. induction 1; [constructor|by eapply ld_file]. Qed.
Lemma only_loads_just e paths s s' :
  env_ok e -> only_loads e paths s s' -> just_loaded s -> just_loaded s'.
Proof.
  intros He. induction 1 as [|path paths s s1 s2 fuel f E _ IH]; [done|]. intros Hs.
  apply IH. by eapply jl_load.
Qed.

(** In particular, the order in which a program loads its files does not matter to it. *)
Theorem C71_order_of_loads {A} (RA : rel A) e fuel s0 paths1 paths2 s1 s2 (m1 m2 : R A) x1 s1' :
  env_ok e -> new_registry e fuel = Ret (inr s0) ->
  only_loads e paths1 s0 s1 -> only_loads e paths2 s0 s2 ->
  (forall path, path ∈ paths1 <-> path ∈ paths2) ->
  unique_names s1 -> packages_first s1 ->
  same_program (same_place s1 s2) inside nothing RA m1 m2 ->
  m1 s1 = (Ret x1, s1') ->
  exists x2 s2' E, m2 s2 = (Ret x2, s2') /\ one_to_one E /\ RA E x1 x2.
Proof.
  intros He E0 L1 L2 Hp U P Hm E. assert (J0 : just_loaded s0) by (by eapply jl_new).
  pose proof (only_loads_just _ _ _ _ He L1 J0) as J1.
  pose proof (only_loads_just _ _ _ _ He L2 J0) as J2.
  apply (C71_same_program RA s1 s2 (ret tt) m1 m2 x1 s1'); try done.
  - by apply just_loaded_calm.
  - by apply just_loaded_no_types.
  - apply (C66_order_of_loads e paths1 paths2 s0); [exact He|by apply just_loaded_calm|..].
    + by apply only_loads_loading.
    + by apply only_loads_loading.
    + exact Hp.
  - constructor.
Qed.

(** *** A program

    It looks up a message and lists the types of its fields, skipping oneofs and maps. *)
Definition field_types (q : string) : R (list string) :=
  o <~ node_by_full_name q ;;
  match o with
  | Some (NAst KMessage _ p) =>
      message_fields p (list string) [] (fun l x =>
        match x with
        | NAst KField a f =>
            t <~ field_type a f ;;
            match t with
            | Some (NAst (KOneOf | KMap) _ _) => ret (l, true)
            | Some n => name <~ type_name n ;; ret ((l ++ [name])%list, true)
            | None => ret (l, false)
            end
        | _ => ret (l, true)
        end)
  | _ => panic "no such message"
  end.
Lemma field_types_same P D E q :
  one_to_one E -> same_program P D E (always eq) (field_types q) (field_types q).
Proof.
  intros HO. eapply sp_bind; [apply sp_call, sc_node_by_full_name|].
  intros E1 o o' _ HO1 [|n n' [k a a' p p' Hp _ _| | | | | |]];
    try apply sp_panic. destruct k; try apply sp_panic.
  eapply (sp_loop P D E1 (same_node P D) (always eq)); [by apply sl_message_fields|done|done|].
  intros E2 l l' x x' _ HO2 <- Hx.
  destruct Hx as [k b b' f f' Hf _ _| | | | | |]; try (by apply sp_ret).
  destruct k; try (by apply sp_ret).
  eapply sp_bind; [by apply sp_field_type|]. intros E3 t t' _ HO3 Ht.
  destruct Ht as [|t t' Ht]; [by apply sp_ret|].
  assert (Hname : forall n n', same_node P D E3 n n' -> same_program P D E3
    (fun E r r' => always eq E r.1 r'.1 /\ r.2 = r'.2)
    (name <~ type_name n ;; ret ((l ++ [name])%list, true))
    (name <~ type_name n' ;; ret ((l ++ [name])%list, true))).
  { intros u u' Hu. eapply sp_bind; [by apply sp_call, sc_type_name|]. intros E4 ? ? _ _ <-. by apply sp_ret. }
  destruct Ht as [k c c' g g' Hg Hd|bt|c c' u u' Hu|c c'|u u' Hu|u u' Hu|key u u' Hu];
    try (apply Hname; by constructor).
  destruct k; first [by apply sp_ret|apply Hname; by constructor].
Qed.

Lemma loads_fine_only tab paths : forall s, loads_fine tab paths s = true ->
  only_loads (table_env tab) paths s (load_all tab paths s).
Proof.
  induction paths as [|path paths IH]; intros s H; [constructor|]. cbn [loads_fine load_all] in *.
  unfold proto_or_exit. destruct (proto (table_env tab) 50 path s) as [[[err|f]|m|] s1] eqn:E; try discriminate H.
  eapply ol_file; [exact E|]. by apply IH.
Qed.

Lemma start_new tab : starts tab = true -> new_registry (table_env tab) 50 = Ret (inr (start tab)).
Proof.
  unfold starts, start. intros [_ H]%andb_prop.
  by destruct (new_registry (table_env tab) 50) as [[err|s]|m|].
Qed.

(** data.proto and any.proto in two orders, and the fields of pb.Message. *)
Example C71_example :
  exists s0 s1 s2, env_ok demo_env /\ new_registry demo_env 50 = Ret (inr s0) /\
  only_loads demo_env [dat_f; any_f] s0 s1 /\ only_loads demo_env [any_f; dat_f] s0 s2 /\
  (forall path, path ∈ [dat_f; any_f] <-> path ∈ [any_f; dat_f]) /\
  just_loaded s1 /\ calm s2 /\ no_types s2 /\ same_files s1 s2 /\
  unique_names s1 /\ packages_first s1 /\
  same_program (same_place s1 s2) inside nothing (always eq) (field_types ".pb.Message") (field_types ".pb.Message") /\
  (field_types ".pb.Message" s1).1 =
    Ret ["int32"; "uint32"; "repeated bool"; ".google.protobuf.Any"; ".pb.EnumValuePayload";
         ".pb.Message.InnerMessage"; ".pb.Enum"; ".pb.Message.InnerEnum"].
Proof.
  assert (E0 : new_registry demo_env 50 = Ret (inr (start demo_files)))
    by (apply start_new, demo_starts).
  assert (L1 : only_loads demo_env [dat_f; any_f] (start demo_files) (world demo_files [dat_f; any_f]))
    by (apply loads_fine_only; vm_compute; reflexivity).
  assert (L2 : only_loads demo_env [any_f; dat_f] (start demo_files) (world demo_files [any_f; dat_f]))
    by (apply loads_fine_only; vm_compute; reflexivity).
  assert (U : unique_names (world demo_files [dat_f; any_f])) by (apply check_unique_ok; vm_compute; reflexivity).
  assert (P : packages_first (world demo_files [dat_f; any_f])) by (apply check_packages_ok; vm_compute; reflexivity).
  assert (F : (field_types ".pb.Message" (world demo_files [dat_f; any_f])).1 =
    Ret ["int32"; "uint32"; "repeated bool"; ".google.protobuf.Any"; ".pb.EnumValuePayload";
         ".pb.Message.InnerMessage"; ".pb.Enum"; ".pb.Message.InnerEnum"]) by (vm_compute; reflexivity).
  pose proof demo_env_ok as He.
  revert E0 L1 L2 U P F He. generalize (start demo_files) (world demo_files [dat_f; any_f])
    (world demo_files [any_f; dat_f]) demo_env. intros s0 s1 s2 e E0 L1 L2 U P F He.
  assert (Hp : forall path, path ∈ [dat_f; any_f] <-> path ∈ [any_f; dat_f])
    by (intros path; rewrite !elem_of_cons, elem_of_nil; tauto).
  assert (J0 : just_loaded s0) by (by eapply jl_new).
  pose proof (only_loads_just _ _ _ _ He L1 J0) as J1.
  pose proof (only_loads_just _ _ _ _ He L2 J0) as J2.
  exists s0, s1, s2. split; [exact He|]. split; [exact E0|]. split; [exact L1|]. split; [exact L2|].
  split; [exact Hp|]. split; [exact J1|]. split; [by apply just_loaded_calm|].
  split; [by apply just_loaded_no_types|]. split.
  - apply (C66_order_of_loads e [dat_f; any_f] [any_f; dat_f] s0); [exact He|by apply just_loaded_calm| | |exact Hp].
    + by apply only_loads_loading.
    + by apply only_loads_loading.
  - split; [exact U|]. split; [exact P|]. split; [by apply field_types_same; intros ? ? ? ? []|exact F].
Qed.

(** One answer does depend on the order: NodeIndex of a File.  It is the package of the file if the
    file was loaded by a call of Proto, and empty if it was loaded as an import of another one. *)
Theorem C71_file_index_refuted :
  exists s0 s1 s2, new_registry demo_env 50 = Ret (inr s0) /\
  only_loads demo_env [dat_f; any_f] s0 s1 /\ only_loads demo_env [any_f; dat_f] s0 s2 /\
  let ask := (r <~ proto demo_env 50 any_f ;;
    match r with inr n => node_index n | inl err => ret (error_text err) end) in
  (ask s1).1 = Ret "" /\ (ask s2).1 = Ret ".google.protobuf".
Proof.
  exists (start demo_files), (world demo_files [dat_f; any_f]), (world demo_files [any_f; dat_f]).
  split; [apply start_new, demo_starts|].
  split; [apply loads_fine_only; vm_compute; reflexivity|].
  split; [apply loads_fine_only; vm_compute; reflexivity|].
  split; vm_compute; reflexivity.
Qed.
