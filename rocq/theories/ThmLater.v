(** * C72 and C74 with loads and queries in any order. *)
From Verif Require Export ThmMore ThmThreads.
From Verif Require Import Frame Navigate Identity Api.

Lemma alike_same G G' D N F K s1 s2 :
  (forall g g', G g g' <-> G' g g') -> alike G D N F K s1 s2 -> alike G' D N F K s1 s2.
Proof.
  intros HG A.
  assert (HP : forall p p', pts G p p' <-> pts G' p p') by (intros; unfold pts; by rewrite HG).
  destruct A as [A1 A2 A3 A4 A5 A6 A7 A8 A9 A10]. constructor; try done.
  - intros g g' H. apply A1. by apply HG.
  - intros q p H. destruct (A2 q p H) as (p' & H' & Hp). exists p'. split; [done|]. by apply HP.
  - intros q p p' H. apply A3. by apply HP.
  - intros path H. destruct (A7 path H); constructor. by apply HG.
  - intros p p' H. apply A9. by apply HP.
Qed.

Section later.
  Context (w : registry) (C : calm w) (Hnil : forall v, cache w !! v <> Some None) (Hty : no_types w).

  (** what the files of a later registry must be like *)
  Definition fits (s : registry) : Prop :=
    unique_names s /\ packages_first s /\ no_capture w s /\ ~ is_loaded s "".
  Definition sound (s : registry) : Prop := Inv s /\ complete s /\ grows w s.
  Notation here := (same_file w w).
  Notation hp := (pts here).
  Notation alikew := (alike here inside (references w) (known_path w) (fun _ => False)).

  Lemma fits_less s s' : grows s s' -> fits s' -> fits s.
  Proof.
    intros G (U & P & H & E). split; [|split; [|split]].
    - intros path1 g1 f1 π1 path2 g2 f2 π2 q L1 L2. apply (U path1 g1 f1 π1 path2 g2 f2 π2 q); by eapply loaded_grows.
    - intros path g f L. eapply P. by eapply loaded_grows.
    - intros n q Hr Hm (path & g & f & π & L & Hq). apply (H n q Hr Hm). exists path, g, f, π. split; [|done].
      by eapply loaded_grows.
    - intros (g & f & L). apply E. exists g, f. by eapply loaded_grows.
  Qed.
  Lemma sound_w : sound w.
  Proof.
    split; [exact (reachable_Inv _ (calm_reachable _ C))|]. split; [|apply grows_refl].
    apply (calm_complete _ C).
  Qed.

  Lemma alike_later s : sound s -> fits s -> alikew w s.
  Proof.
    intros ([S _] & Co & G) (U & P & H & E).
    assert (T2 : tidy s) by (split; [by split|by split]).
    assert (Hmore : has_files_of w s) by (intros path f [g L]; exists g; by eapply loaded_grows).
    pose proof (less_tidy _ _ (calm_complete _ C) T2 Hmore) as T1.
    apply (alike_same (same_file w s)).
    - intros g g'. split; intros (path & f & L1 & L2).
      + exists path, f. split; [done|]. pose proof (loaded_grows _ _ _ _ _ G L1) as L1'.
        by destruct (loaded_fun _ _ _ _ _ _ L1' L2) as [<- _].
      + exists path, f. split; [done|]. by eapply loaded_grows.
    - apply extension_alike; try done. exact (proj1 sound_w).
  Qed.

  Definition types2 (s : registry) : Prop := forall a p r x s',
    ftcache s !! (a, p) = Some r -> hp p p -> field_type_body p w = (Ret x, s') ->
    same_nodeo hp inside anyid x r.

  Lemma body_later s p x s' : Inv s -> alikew w s -> hp p p -> field_type_body p w = (Ret x, s') ->
    exists r s2, field_type_body p s = (Ret r, s2) /\ same_nodeo hp inside anyid x r.
  Proof.
    intros I A Hp E.
    assert (T : st here inside (references w) (known_path w) (fun _ => False) no_extra w s).
    { constructor; [exact (proj1 sound_w)|exact I|exact A| |done|done]. intros v Hv. by apply (Hnil v). }
    assert (S : sim here inside (references w) (known_path w) (fun _ => False) no_extra
      (same_nodeo hp inside anyid) (field_type_body p) (field_type_body p)).
    { apply (sim_field_type_body here inside); [..|exact Hp]; unfold no_extra; try done.
      all: first [apply same_file_fun|apply same_file_inj|apply inside_child|by left|idtac]. }
    destruct (S _ _ _ _ T E) as (r & s2 & E2 & Hr & _). eauto.
  Qed.

  (** what happens to the shared registry *)
  Definition later_step (s s' : registry) : Prop :=
    sound s -> sound s' /\ grows s s' /\ (fits s' -> types2 s -> types2 s').
  Lemma later_refl s : later_step s s.
  Proof. intros H. split; [done|]. split; [apply grows_refl|done]. Qed.
  Lemma later_trans s1 s2 s3 : later_step s1 s2 -> later_step s2 s3 -> later_step s1 s3.
  Proof.
    intros A B H. destruct (A H) as (H2 & G2 & T2), (B H2) as (H3 & G3 & T3).
    split; [done|]. split; [by eapply grows_trans|]. intros F Ht. apply T3; [done|]. apply T2; [|done].
    by eapply fits_less.
  Qed.
  Lemma later_quiet {A} (m : R A) :
    keeps quiet m -> keeps inv_step m -> (forall s, sound s -> fits s -> types2 s -> types2 (m s).2) ->
    keeps later_step m.
  Proof.
    intros Q K T s H. pose proof H as (I & Co & G). specialize (Q s). destruct (K s I) as [I' G'].
    split; [|split; [done|]].
    - split; [done|]. split; [by eapply quiet_complete|by eapply grows_trans].
    - intros F. apply T; [done|]. by eapply fits_less.
  Qed.
  Lemma later_same_types s s' : ftcache s' = ftcache s -> types2 s -> types2 s'.
  Proof. intros E H. unfold types2. by rewrite E. Qed.

  Lemma types2_field_type a p s : sound s -> fits s -> types2 s -> types2 (field_type a p s).2.
  Proof.
    intros H F T. pose proof (alike_later s H F) as A. unfold field_type. rewrite rbind_get.
    destruct (ftcache s !! (a, p)) as [r|] eqn:Hc; [done|].
    pose proof (body_ftcache p s) as Hf.
    destruct (field_type_body p s) as [[r|e|] s0] eqn:Eb; cbn [snd] in *; [| |exact (later_same_types _ _ Hf T)].
    - intros b q r' x s' Hr Hq Ex. cbn in Hr. destruct (decide ((a, p) = (b, q))) as [[= <- <-]|Hne].
      + rewrite lookup_insert in Hr. injection Hr as <-.
        destruct (body_later s p x s' (proj1 H) A Hq Ex) as (r' & s2 & E2 & Hr'). rewrite Eb in E2.
        by injection E2 as <- _.
      + rewrite lookup_insert_ne, Hf in Hr by done. by eapply T.
    - intros b q r' x s' Hr Hq Ex. cbn in Hr. destruct (decide ((a, p) = (b, q))) as [[= <- <-]|Hne].
      + destruct (body_later s p x s' (proj1 H) A Hq Ex) as (r2 & s2 & E2 & _). rewrite Eb in E2. discriminate E2.
      + rewrite lookup_insert_ne, Hf in Hr by done. by eapply T.
  Qed.

  Lemma client_later {A} (m : R A) : client CalmLoads m -> keeps later_step m.
  Proof.
    apply (keeps_client later_step later_refl later_trans); [| | |done|].
    - apply later_quiet; [apply quiet_alloc|apply inv_step_alloc|]. intros s _ _. by apply later_same_types.
    - intros v. apply later_quiet; [apply quiet_wrap|apply inv_step_wrap|]. intros s _ _.
      apply later_same_types, wrap_ftcache.
    - intros a p. apply later_quiet; [apply quiet_field_type|apply inv_step_field_type|].
      intros s. apply types2_field_type.
    - intros _ e fuel path He s H. pose proof H as (I & Co & G). unfold proto_or_exit.
      destruct (proto e fuel path s) as [[r|msg|] s1] eqn:E; cbn [snd]; [|by apply later_refl..].
      assert (Cl : client Loads (proto e fuel path)) by (by apply cl_proto).
      destruct (inv_step_ret _ _ _ _ (client_inv_step _ _ Cl) I E) as [I1 G1].
      split; [|split; [done|]].
      + split; [done|]. split; [exact (proto_complete e fuel path s r s1 He (proj1 I) Co E)|by eapply grows_trans].
      + intros _. apply later_same_types. destruct (proto_ok _ _ _ _ _ _ He (proj1 I) E) as (_ & _ & Hp).
        inversion Hp as [g Hg|err H1 H2|els s2 H1 H2 H3 H4 (H5 & H6 & _) H7|els o s2 H1 H2 H3 H4 (H5 & H6 & _) H7];
          subst; cbn; done.
  Qed.

  (** a program on [w] and on a later registry *)
  Definition later_ok (s1 s2 : registry) : Prop :=
    quiet w s1 /\ sound s2 /\ fits s2 /\ types_ok1 w s1 /\ types2 s2.
  Notation stl := (st here inside (references w) (known_path w) (fun _ => False) later_ok).
  Notation siml := (sim here inside (references w) (known_path w) (fun _ => False) later_ok).

  Lemma fits_quiet s s' : quiet s s' -> fits s -> fits s'.
  Proof.
    intros Q (U & P & H & E).
    assert (L : forall p g f, loaded s' p g f -> loaded s p g f) by (intros p g f H0; exact (proj1 (quiet_loaded _ _ _ _ _ Q) H0)).
    split; [|split; [|split]].
    - intros path1 g1 f1 π1 path2 g2 f2 π2 q L1 L2. apply (U path1 g1 f1 π1 path2 g2 f2 π2 q); by apply L.
    - intros path g f Hl. eapply P. by apply L.
    - intros n q Hr Hm (path & g & f & π & Hl & Hq). apply (H n q Hr Hm). exists path, g, f, π. by split; [apply L|].
    - intros (g & f & Hl). apply E. exists g, f. by apply L.
  Qed.
  Lemma sound_quiet s s' : Inv s' -> quiet s s' -> sound s -> sound s'.
  Proof.
    intros I Q (_ & Co & G). split; [done|]. split; [by eapply quiet_complete|].
    eapply grows_trans; [exact G|by apply quiet_grows].
  Qed.
  Lemma later_ok_step s1 s2 s1' s2' :
    quiet s1 s1' -> quiet s2 s2' -> Inv s2' -> ftcache s1' = ftcache s1 -> ftcache s2' = ftcache s2 ->
    later_ok s1 s2 -> later_ok s1' s2'.
  Proof.
    intros Q1 Q2 I2 F1 F2 (A1 & A2 & A3 & A4 & A5). split; [by eapply quiet_trans|].
    split; [by eapply sound_quiet|]. split; [by eapply fits_quiet|]. unfold types_ok1, types2. by rewrite F1, F2.
  Qed.
  Lemma later_ok_alloc s1 s2 : later_ok s1 s2 -> later_ok (alloc s1).2 (alloc s2).2.
  Proof.
    intros H. eapply later_ok_step; [apply quiet_alloc..| |done|done|exact H].
    apply inv_step_alloc, H.
  Qed.
  Lemma later_ok_wrap v v' s1 s2 : later_ok s1 s2 -> later_ok (wrap v s1).2 (wrap v' s2).2.
  Proof.
    intros H. eapply later_ok_step; [apply quiet_wrap..| |apply wrap_ftcache|apply wrap_ftcache|exact H].
    apply inv_step_wrap, H.
  Qed.

  Lemma body_siml p p' : hp p p' ->
    siml (same_nodeo hp inside anyid) (field_type_body p) (field_type_body p').
  Proof.
    intros Hp. apply (sim_field_type_body here inside); [..|exact Hp].
    - apply later_ok_alloc.
    - apply later_ok_wrap.
  Qed.
  Lemma body_backl p s1 x s1' : Inv s1 -> quiet w s1 -> (forall v, cache s1 !! v = Some None -> False) ->
    field_type_body p s1 = (Ret x, s1') ->
    exists y w', field_type_body p w = (Ret y, w') /\ same_nodeo_eq x y.
  Proof.
    intros I1 Q1 Hk E.
    assert (T1 : st (@eq nat) anywhere every every (fun _ => False) no_extra s1 w).
    { constructor; [done|exact (proj1 sound_w)|by apply alike_eq_quiet|exact Hk|done|done]. }
    assert (S : sim (@eq nat) anywhere every every (fun _ => False) no_extra (same_nodeo pq anywhere anyid)
      (field_type_body p) (field_type_body p)).
    { apply sim_field_type_body; unfold anywhere, no_extra; try done. }
    destruct (S _ _ _ _ T1 E) as (y & w' & E' & H & _). exists y, w'. split; [done|].
    by apply nodeo_eq.
  Qed.

  Lemma field_type_siml a a' p p' : hp p p' ->
    siml (same_nodeo hp inside anyid) (field_type a p) (field_type a' p').
  Proof.
    intros Hp s1 s2 o s1' T E.
    destruct T as [I1 I2 Al Hk Hn (Q1 & Sd & Ft & F1 & F2)] eqn:ET. clear ET.
    assert (Hfirst : (exists x w', field_type_body p w = (Ret x, w') /\ same_nodeo_eq o x) /\
      types_ok1 w s1' /\ (forall v, cache s1' !! v = Some None -> False)).
    { unfold field_type in E. rewrite rbind_get in E.
      destruct (ftcache s1 !! (a, p)) as [r|] eqn:Hc.
      - injection E as <- <-. destruct (F1 _ _ _ Hc) as (x & w' & E' & H).
        split; [|done]. exists x, w'. split; [done|by apply nodeo_eq_sym].
      - destruct (field_type_body p s1) as [[r|e|] s0] eqn:Eb; try discriminate E.
        injection E as <- <-. destruct (body_backl _ _ _ _ I1 Q1 Hk Eb) as (x & w' & E' & H).
        pose proof (body_ftcache p s1) as Hf. rewrite Eb in Hf. cbn in Hf.
        destruct (body_siml _ _ Hp _ _ _ _ T Eb) as (_ & s2' & _ & _ & T').
        split; [by eauto|]. split; [|exact (st_known _ _ _ _ _ _ _ _ T')].
        intros b q r' Hr. cbn in Hr. destruct (decide ((a, p) = (b, q))) as [[= <- <-]|Hne].
        + rewrite lookup_insert in Hr. injection Hr as <-. exists x, w'.
          split; [done|by apply nodeo_eq_sym].
        + rewrite lookup_insert_ne, Hf in Hr by done. by eapply F1. }
    destruct Hfirst as ((x & w' & Ex & Hx) & F1' & Hk').
    assert (p' = p) as ->.
    { destruct p as [g π], p' as [g' π']. destruct Hp as [(path & f & A & B) Hπ]. cbn in *. subst π'.
      by destruct (loaded_fun _ _ _ _ _ _ A B) as [-> _]. }
    pose proof (quiet_field_type a p s1) as Q1'. rewrite E in Q1'. cbn [snd] in Q1'.
    destruct (inv_step_ret _ _ _ _ (inv_step_field_type a p) I1 E) as [I1' _].
    pose proof (types2_field_type a' p s2 Sd Ft F2) as F2'.
    pose proof (alike_later s2 Sd Ft) as Alw.
    destruct (body_later s2 p x w' I2 Alw Hp Ex) as (r & s0 & Eb & Hr).
    assert (Hsecond : exists o2 s2', field_type a' p s2 = (Ret o2, s2') /\ same_nodeo hp inside anyid x o2).
    { unfold field_type. rewrite rbind_get. destruct (ftcache s2 !! (a', p)) as [r2|] eqn:Hc.
      - exists r2, s2. split; [done|]. by eapply F2.
      - rewrite Eb. exists r. by eexists. }
    destruct Hsecond as (o2 & s2' & E2 & Ho2). rewrite E2 in F2'. cbn [snd] in F2'.
    pose proof (quiet_field_type a' p s2) as Q2'. rewrite E2 in Q2'. cbn [snd] in Q2'.
    destruct (inv_step_ret _ _ _ _ (inv_step_field_type a' p) I2 E2) as [I2' _].
    exists o2, s2'. split; [done|]. split; [by eapply nodeo_subst|].
    constructor; [done|done|by eapply alike_quiet|exact Hk'|done|].
    split; [by eapply quiet_trans|]. split; [by eapply sound_quiet|]. split; [by eapply fits_quiet|done].
  Qed.

  Lemma program_later {A} (RA : rel A) E0 m1 m2 :
    same_program (same_place w w) inside E0 RA m1 m2 -> one_to_one E0 ->
    ksim here inside (references w) (known_path w) (fun _ => False) later_ok E0 RA m1 m2.
  Proof.
    intros H HE0. apply (ksim_program here inside); [..|exact H|exact HE0].
    - apply same_file_fun.
    - apply same_file_inj.
    - apply inside_child.
    - by left.
    - apply later_ok_alloc.
    - apply later_ok_wrap.
    - apply field_type_siml.
  Qed.

  Lemma st_w : fits w -> stl w w.
  Proof.
    intros F. pose proof sound_w as S. constructor; [apply S|apply S|by apply alike_later| |done|].
    - intros v Hv. by apply (Hnil v).
    - split; [apply quiet_refl|]. split; [done|]. split; [done|]. split.
      + intros a p r Hr. rewrite Hty in Hr. discriminate Hr.
      + intros a p r x s' Hr. rewrite Hty in Hr. discriminate Hr.
  Qed.
  (** any loads and queries may run on the later registry *)
  Lemma others_later {B} (m : R B) s1 s2 :
    client CalmLoads m -> fits (m s2).2 -> stl s1 s2 -> stl s1 (m s2).2.
  Proof.
    intros Hm F [A1 A2 A3 A4 A5 (Q & Sd & Ft & F1 & F2)].
    destruct (client_later m Hm s2 Sd) as (Sd' & G & K). constructor; [done|apply Sd'| |done|done|].
    - eapply alike_quiet; [exact Q|apply quiet_refl|]. by apply alike_later.
    - split; [done|]. split; [done|]. split; [done|]. split; [done|]. by apply K.
  Qed.
  Lemma ids_later s1 s2 : stl s1 s2 -> one_to_one (ids_of here s1 s2).
  Proof.
    intros T. apply ids_of_one; [apply same_file_fun|apply same_file_inj|..].
    - exact (st_inv1 _ _ _ _ _ _ _ _ T).
    - exact (st_inv2 _ _ _ _ _ _ _ _ T).
  Qed.
  Lemma client_grows {B} (m : R B) s : client CalmLoads m -> sound s -> sound (m s).2 /\ grows s (m s).2.
  Proof. intros Hm H. by destruct (client_later m Hm s H) as (? & ? & _). Qed.

  Lemma returns_later {A B} (RA : rel A) (m0 : R B) m1 m2 x1 s1' :
    client CalmLoads m0 -> fits (m0 w).2 -> same_program (same_place w w) inside nothing RA m1 m2 ->
    m1 w = (Ret x1, s1') ->
    exists x2 s2' E, m2 (m0 w).2 = (Ret x2, s2') /\ one_to_one E /\ RA E x1 x2.
  Proof.
    intros Hm0 F Hm E. destruct (client_grows m0 w Hm0 sound_w) as [_ G].
    pose proof (others_later m0 _ _ Hm0 F (st_w (fits_less _ _ G F))) as T.
    destruct (program_later RA nothing m1 m2 Hm ltac:(by intros ? ? ? ? []) _ _ _ _ T ltac:(by intros ? ? []) E)
      as (x2 & s2' & E2 & Hx & T' & _).
    exists x2, s2'. eexists. split; [done|]. split; [|exact Hx]. by apply ids_later.
  Qed.

  (** *** goroutines *)
  Notation thr := (same_thread (same_place w w) inside).
  Definition keeps_on {A} (RA : rel A) (x : A) (t2 : thread A) (s2 : registry) : Prop :=
    exists s1 t1 E s1', stl s1 s2 /\ more E (ids_of here s1 s2) /\ one_to_one E /\
      thr RA E t1 t2 /\ alone t1 s1 = (Ret x, s1').
  Lemma keeps_on_others {A B} (RA : rel A) x t2 s2 (m : R B) :
    client CalmLoads m -> fits (m s2).2 -> keeps_on RA x t2 s2 -> keeps_on RA x t2 (m s2).2.
  Proof.
    intros Hm F (s1 & t1 & E & s1' & T & HE & HO & Ht & Ea).
    pose proof (others_later m _ _ Hm F T) as T'.
    exists s1, t1, E, s1'. split; [done|]. split; [|done].
    destruct (client_inv_step _ _ Hm s2 (st_inv2 _ _ _ _ _ _ _ _ T)) as [_ G2].
    intros a a' Ha. apply HE in Ha. revert a a' Ha. apply ids_of_more; [apply grows_refl|exact G2].
  Qed.
  Lemma keeps_on_own {A} (RA : rel A) x t2 s2 : keeps_on RA x t2 s2 ->
    exists t2' s2', advance t2 s2 = (Ret t2', s2') /\ keeps_on RA x t2' s2'.
  Proof.
    intros (s1 & t1 & E & s1' & T & HE & HO & Ht & Ea).
    destruct Ht as [y y' Hy|B RB m m' k k' Hm Hk].
    - exists (Finished y'), s2. split; [done|]. exists s1, (Finished y), E, s1'. do 3 (split; [done|]).
      split; [by constructor|done].
    - cbn [alone] in Ea. apply rbind_Ret in Ea as (z & s3 & E1 & E2).
      destruct (program_later RB E m m' Hm HO _ _ _ _ T HE E1) as (z2 & s4 & E4 & Hz & T' & HE').
      exists (k' z2), s4. cbn [advance]. rewrite (rbind_val _ _ _ _ _ E4). split; [done|].
      exists s3, (k z), (ids_of here s3 s4), s1'. pose proof (ids_later _ _ T') as HO'. split; [done|]. split; [by intros ? ?|].
      split; [done|]. split; [|done]. apply Hk; [|done|done]. by eapply more_trans.
  Qed.
End later.

Lemma loads_advance {A} (t t1 : thread A) s s1 : loads_and_asks t -> advance t s = (Ret t1, s1) -> loads_and_asks t1.
Proof.
  destruct t as [a|B m go_on]; cbn; [by intros _ [= <- _]|]. intros [_ Ha] E.
  apply rbind_Ret in E as (x & s2 & _ & E). injection E as <- _. apply Ha.
Qed.
Lemma advance_loads {A} (t : thread A) : loads_and_asks t -> client CalmLoads (advance t).
Proof.
  intros Ha. destruct t as [a|B m go_on]; cbn in *; [apply cl_ret|].
  apply cl_bind; [apply Ha|]. intros; apply cl_ret.
Qed.

Lemma schedule_grows {A} w (C : calm w) (Hnil : forall v, cache w !! v <> Some None) (ts ts' : list (thread A)) s s' :
  scheduled ts s ts' s' -> Forall loads_and_asks ts -> sound w s -> sound w s' /\ grows s s'.
Proof.
  intros H. induction H as [ts s|ts s j u u1 s1 ts' s' Hj Ej _ IH]; intros Ha S.
  - split; [done|apply grows_refl].
  - pose proof (Forall_lookup_1 _ _ _ _ Ha Hj) as Hu.
    pose proof (loads_advance _ _ _ _ Hu Ej) as Hu1.
    destruct (client_grows w C Hnil (advance u) s (advance_loads u Hu) S) as [S1 G1]. rewrite Ej in S1, G1.
    destruct (IH ltac:(by apply Forall_insert) S1) as [S2 G2]. split; [done|by eapply grows_trans].
Qed.
Lemma pool_keeps_on {A} w (C : calm w) (Hnil : forall v, cache w !! v <> Some None) (RA : rel A) x (ts ts' : list (thread A)) s s' i t :
  scheduled ts s ts' s' -> Forall loads_and_asks ts -> sound w s -> fits w s' ->
  ts !! i = Some t -> keeps_on w RA x t s ->
  exists t', ts' !! i = Some t' /\ keeps_on w RA x t' s'.
Proof.
  intros H. revert t. induction H as [ts s|ts s j u u1 s1 ts' s' Hj Ej Hs IH]; intros t Ha S F Hi Hk; [by eauto|].
  pose proof (Forall_lookup_1 _ _ _ _ Ha Hj) as Hu.
  pose proof (loads_advance _ _ _ _ Hu Ej) as Hu1. pose proof (advance_loads u Hu) as Hm.
  assert (Ha' : Forall loads_and_asks (<[j := u1]> ts)) by (by apply Forall_insert).
  assert (Hlen : j < length ts) by (by eapply lookup_lt_Some).
  destruct (client_grows w C Hnil (advance u) s Hm S) as [S1 G1]. rewrite Ej in S1, G1. cbn [snd] in S1, G1.
  destruct (schedule_grows w C Hnil _ _ _ _ Hs Ha' S1) as [_ G2].
  pose proof (fits_less w _ _ G2 F) as F1.
  destruct (decide (j = i)) as [->|Hne].
  - assert (u = t) as -> by congruence.
    destruct (keeps_on_own w C Hnil _ _ _ _ Hk) as (t2 & s2 & E2 & Hk2). rewrite E2 in Ej. injection Ej as -> ->.
    apply (IH u1); [done|done|done|by rewrite list_lookup_insert|done].
  - apply (IH t); [done|done|done|by rewrite list_lookup_insert_ne|].
    pose proof (keeps_on_others w C Hnil RA x t s (advance u) Hm) as K. rewrite Ej in K. by apply K.
Qed.

(** ** The theorems *)

(** A program of queries that returns on a registry where only loads were done returns the same after any
    further program of loads and queries in any order (queries may panic and be recovered), unless a
    file loaded by then declares something a reference of the first files might mean. *)
Theorem C72_any_history {A B} (RA : rel A) s (m0 : R B) (m m' : R A) x s1 :
  just_loaded s -> client CalmLoads m0 ->
  unique_names (m0 s).2 -> packages_first (m0 s).2 -> no_capture s (m0 s).2 -> ~ is_loaded (m0 s).2 "" ->
  same_program (same_place s s) inside nothing RA m m' ->
  m s = (Ret x, s1) ->
  exists x' s1' E, m' (m0 s).2 = (Ret x', s1') /\ one_to_one E /\ RA E x x'.
Proof.
  intros J Hm0 U P N E0 Hm E. pose proof (just_loaded_calm _ J) as C.
  destruct (just_loaded_empty _ J) as [He Hf].
  assert (Hnil : forall v, cache s !! v <> Some None) by (intros v; rewrite He, lookup_empty; discriminate).
  apply (returns_later s C Hnil (just_loaded_no_types _ J) RA m0 m m' x s1); try done.
Qed.

(** The goroutines may also load files under the lock (all but goroutine [i]). *)
Theorem C74_with_loads {A B} (RA : rel A) s (m0 : R B) ts ts' i t x s1 s' :
  just_loaded s -> client CalmLoads m0 -> Forall loads_and_asks ts ->
  ts !! i = Some t -> same_thread (same_place s s) inside RA nothing t t ->
  alone t s = (Ret x, s1) ->
  scheduled ts (m0 s).2 ts' s' ->
  unique_names s' -> packages_first s' -> no_capture s s' -> ~ is_loaded s' "" ->
  (forall y, ts' !! i = Some (Finished y) -> exists E, one_to_one E /\ RA E x y) /\
  exists t' t2 s2, ts' !! i = Some t' /\ advance t' s' = (Ret t2, s2).
Proof.
  intros J Hm0 Ha Hi Ht E Hs U P N E0. pose proof (just_loaded_calm _ J) as C.
  destruct (just_loaded_empty _ J) as [He Hf].
  assert (Hnil : forall v, cache s !! v <> Some None) by (intros v; rewrite He, lookup_empty; discriminate).
  pose proof (just_loaded_no_types _ J) as Ty.
  assert (F : fits s s') by done.
  destruct (client_grows s C Hnil m0 s Hm0 (sound_w s C)) as [S0 G0].
  destruct (schedule_grows s C Hnil _ _ _ _ Hs Ha S0) as [_ G1].
  pose proof (fits_less s _ _ G1 F) as F0. pose proof (fits_less s _ _ G0 F0) as Fs.
  assert (K0 : keeps_on s RA x t (m0 s).2).
  { apply (keeps_on_others s C Hnil); [done|done|]. exists s, t, nothing, s1.
    split; [by apply st_w|]. split; [by intros ? ? []|]. split; [by intros ? ? ? ? []|]. done. }
  destruct (pool_keeps_on s C Hnil RA x ts ts' _ s' i t Hs Ha S0 F Hi K0) as (t' & Hi' & Hk'). split.
  - intros y Hy. destruct Hk' as (s2 & t1 & E2 & s3 & T & HE & HO & Ht' & Ea).
    assert (t' = Finished y) as -> by congruence. exists E2. split; [done|].
    remember (Finished y) as u eqn:Eu. destruct Ht' as [z z' Hz|]; [|discriminate Eu].
    injection Eu as ->. cbn [alone] in Ea. injection Ea as -> _. apply Hz; [by intros ? ?|done].
  - destruct (keeps_on_own s C Hnil RA x t' s' Hk') as (t2 & s2 & E2 & _). by exists t', t2, s2.
Qed.

(** *** Examples *)

Definition fitting (s s' : registry) : bool :=
  check_unique s' && check_packages s' && check_capture s s' && check_path s' "".
Lemma fitting_ok s s' : calm s -> fitting s s' = true ->
  unique_names s' /\ packages_first s' /\ no_capture s s' /\ ~ is_loaded s' "".
Proof.
  intros C [[[U P]%andb_prop N]%andb_prop E]%andb_prop. split; [by apply check_unique_ok|].
  split; [by apply check_packages_ok|]. split; [by apply check_capture_ok|by apply check_path_ok].
Qed.

Definition message_types_now : list string :=
  ["int32"; "uint32"; "repeated bool"; ".google.protobuf.Any"; ".pb.EnumValuePayload";
   ".pb.Message.InnerMessage"; ".pb.Enum"; ".pb.Message.InnerEnum"].
(** asks, loads later.proto, asks again *)
Definition asks_and_loads (e : env) : R (list string) :=
  _ <~ field_types ".pb.Message" ;; _ <~ proto_or_exit e 50 later_f ;; field_types ".later.Req".
Example C72_any_history_example :
  exists e s, let s' := (asks_and_loads e s).2 in
  just_loaded s /\ client CalmLoads (asks_and_loads e) /\
  unique_names s' /\ packages_first s' /\ no_capture s s' /\ ~ is_loaded s' "" /\
  (asks_and_loads e s).1 = Ret [".pb.Message"] /\
  same_program (same_place s s) inside nothing (always eq) (field_types ".pb.Message") (field_types ".pb.Message") /\
  (field_types ".pb.Message" s).1 = Ret message_types_now.
Proof.
  assert (E0 : new_registry (table_env later_files) 50 = Ret (inr (start later_files)))
    by (apply start_new; vm_compute; reflexivity).
  assert (L1 : only_loads (table_env later_files) [dat_f] (start later_files) (world later_files [dat_f]))
    by (apply loads_fine_only; vm_compute; reflexivity).
  assert (Fit : fitting (world later_files [dat_f]) (asks_and_loads (table_env later_files) (world later_files [dat_f])).2 = true)
    by (vm_compute; reflexivity).
  assert (A : (asks_and_loads (table_env later_files) (world later_files [dat_f])).1 = Ret [".pb.Message"])
    by (vm_compute; reflexivity).
  assert (F : (field_types ".pb.Message" (world later_files [dat_f])).1 = Ret message_types_now)
    by (vm_compute; reflexivity).
  assert (He : env_ok (table_env later_files)) by (apply table_env_ok; vm_compute; reflexivity).
  revert E0 L1 Fit A F He. generalize (start later_files) (world later_files [dat_f]) (table_env later_files).
  intros s0 s e E0 L1 Fit A F He.
  assert (J0 : just_loaded s0) by (by eapply jl_new).
  pose proof (only_loads_just _ _ _ _ He L1 J0) as J1.
  exists e, s. cbn zeta. destruct (fitting_ok _ _ (just_loaded_calm _ J1) Fit) as (U & P & N & E).
  split; [exact J1|]. split.
  { apply cl_bind; [apply client_query, field_types_client|]. intros _.
    apply cl_bind; [by apply cl_proto_or_exit|]. intros _. apply client_query, field_types_client. }
  do 4 (split; [assumption|]). split; [exact A|]. split; [|exact F].
  by apply field_types_same; intros ? ? ? ? [].
Qed.

(** one goroutine loads later.proto while the other one is busy *)
Definition loader (e : env) : thread (list string) :=
  Locked (proto_or_exit e 50 later_f) (fun _ => Locked (field_types ".later.Req") Finished).
Example C74_with_loads_example :
  exists e s ts' s1 s',
  let t0 := two_lists ".pb.Message" ".pb.EnumValuePayload" in
  let x := (message_types_now ++ ["int32"])%list in
  just_loaded s /\ Forall loads_and_asks [t0; loader e] /\
  same_thread (same_place s s) inside (always eq) nothing t0 t0 /\
  alone t0 s = (Ret x, s1) /\
  scheduled [t0; loader e] (field_types ".pb.Message" s).2 ts' s' /\
  unique_names s' /\ packages_first s' /\ no_capture s s' /\ ~ is_loaded s' "" /\
  ts' = [Finished x; Finished [".pb.Message"]].
Proof.
  pose (t0 := two_lists ".pb.Message" ".pb.EnumValuePayload").
  pose (x := (message_types_now ++ ["int32"])%list).
  assert (E0 : new_registry (table_env later_files) 50 = Ret (inr (start later_files)))
    by (apply start_new; vm_compute; reflexivity).
  assert (L1 : only_loads (table_env later_files) [dat_f] (start later_files) (world later_files [dat_f]))
    by (apply loads_fine_only; vm_compute; reflexivity).
  assert (F : (alone t0 (world later_files [dat_f])).1 = Ret x) by (vm_compute; reflexivity).
  assert (S : match (run_schedule [0; 1; 0; 1] [t0; loader (table_env later_files)]
      (field_types ".pb.Message" (world later_files [dat_f])).2).1 with
    | Ret [Finished a; Finished b] => Some (a, b) | _ => None end = Some (x, [".pb.Message"]))
    by (vm_compute; reflexivity).
  assert (Fit : fitting (world later_files [dat_f]) (run_schedule [0; 1; 0; 1] [t0; loader (table_env later_files)]
      (field_types ".pb.Message" (world later_files [dat_f])).2).2 = true) by (vm_compute; reflexivity).
  assert (He : env_ok (table_env later_files)) by (apply table_env_ok; vm_compute; reflexivity).
  revert E0 L1 F S Fit He. generalize (start later_files) (world later_files [dat_f]) (table_env later_files).
  intros s0 s e E0 L1 F S Fit He.
  assert (J : just_loaded s) by (eapply only_loads_just; [exact He|exact L1|by eapply jl_new]).
  destruct (alone t0 s) as [o s1] eqn:E1. cbn [fst] in F.
  destruct (run_schedule [0; 1; 0; 1] [t0; loader e] (field_types ".pb.Message" s).2) as [o2 s2] eqn:E2.
  cbn [fst snd] in S, Fit. destruct o2 as [ts'|m|]; try discriminate S. exists e, s, ts', s1, s2. cbn zeta.
  destruct (fitting_ok _ _ (just_loaded_calm _ J) Fit) as (U & P & N & E).
  split; [exact J|]. split.
  { constructor.
    - split; [apply client_query, field_types_client|]. intros l. split; [apply client_query, field_types_client|done].
    - constructor; [|constructor]. split; [by apply cl_proto_or_exit|]. intros _.
      split; [apply client_query, field_types_client|done]. }
  split; [apply two_lists_same|]. split; [exact (eq_trans E1 (f_equal (fun o => (o, s1)) F))|]. split; [by eapply run_scheduled|].
  do 4 (split; [assumption|]).
  destruct ts' as [|[a|] [|[b|] [|]]]; try discriminate S. injection S as -> ->. done.
Qed.
