(** * C65-C67: what a load adds, load order, NewRegistry. *)
From Verif Require Export ThmTypes.

(** The path is one of the loaded files. *)
Definition is_loaded (s : registry) (path : string) : Prop := exists g f, loaded s path g f.

(** ** Proofs: a load adds nothing but the import closure *)

Section closure.
  Variable e : env.
  Hypothesis He : env_ok e.
  Variable s0 : registry.
  Variable path0 : string.

  Definition only_chain (s : registry) : Prop :=
    keeps_paths s0 s /\
    forall p, is_Some (protos s !! p) -> is_Some (protos s0 !! p) \/ import_chain s0 e path0 p.

  Lemma only_chain_protos s s' : protos s' = protos s -> only_chain s -> only_chain s'.
  Proof. intros E [H1 H2]. split; [intros p|]; rewrite E; [apply H1|exact H2]. Qed.

  Lemma visit_list_chain imp g l :
    (forall pth s, pth ∈ import_paths l -> only_chain s -> only_chain (imp pth s).2) ->
    (forall t, t ∈ l -> allowed (DProto "") (t_data t) = true /\ wf_tree t = true) ->
    forall v i s, only_chain s -> only_chain (visit_list imp (root g) v i l s).2.
  Proof.
    induction l as [|t l IH]; intros Himp Hl v i s Hs; [done|].
    cbn [visit_list].
    assert (Hrest : forall v i s, only_chain s -> only_chain (visit_list imp (root g) v i l s).2).
    { apply IH.
      - intros pth s' Hp. apply Himp. unfold import_paths in *. cbn.
        destruct (t_data t); cbn; try done. by constructor.
      - intros u Hu. apply Hl. by constructor. }
    destruct (Hl t) as [Ha Hw]; [constructor|].
    destruct (nested (t_data t)) eqn:Hn.
    - destruct (visit_nested imp g t v [i] s Hw Hn) as (v1 & E & _).
      unfold child, root. cbn [fst snd]. rewrite (rbind_val _ _ _ _ _ E). apply Hrest.
      eapply only_chain_protos; [|exact Hs]. apply add_decls_protos.
    - destruct t as [d ps c kids]. cbn [t_data] in *.
      destruct d; try discriminate Hn; try discriminate Ha.
      + cbn [visit]. unfold put_scope. unfold rbind, modify, ret. apply Hrest.
        eapply only_chain_protos; [|exact Hs]. done.
      + cbn [visit]. specialize (Himp filename s). unfold rbind.
        destruct (imp filename s) as [[[]|m|] s1]; cbn in *;
          try (apply Hrest); apply Himp; done || constructor.
  Qed.

  Lemma chain_add path els s :
    import_chain s0 e path0 path -> only_chain s -> protos s !! path = None -> reads e path els ->
    only_chain (add_file path els s).
  Proof.
    intros Hc [H1 H2] Hp Hr. split.
    - intros p Hs. cbn. destruct (decide (path = p)) as [->|Hne].
      + rewrite lookup_insert. by eexists.
      + rewrite lookup_insert_ne by done. by apply H1.
    - intros p. cbn. destruct (decide (path = p)) as [->|Hne].
      + intros _. by right.
      + rewrite lookup_insert_ne by done. apply H2.
  Qed.

  Lemma visit_file_chain fuel path els s v :
    reads e path els -> protos s !! path = None -> only_chain s -> import_chain s0 e path0 path ->
    (forall pth s, import_chain s0 e path0 pth -> only_chain s -> only_chain (import_file e fuel pth s).2) ->
    only_chain (visit (import_file e fuel) v (root (length (heap s))) (file_tree path els)
      (add_file path els s)).2.
  Proof.
    intros Hr Hp Hs Hc IH.
    assert (Hwf : wf_tree (file_tree path els) = true).
    { destruct Hr as (nm & _ & _ & Hr). apply He in Hr. by apply andb_prop in Hr as [Hr _]. }
    assert (Hp0 : protos s0 !! path = None).
    { destruct (protos s0 !! path) as [g|] eqn:E; [|done]. destruct (proj1 Hs path) as [x Hx]; [by eexists|congruence]. }
    change (visit (import_file e fuel) v (root (length (heap s))) (file_tree path els))
      with (visit_list (import_file e fuel) (root (length (heap s))) v 0 els).
    apply visit_list_chain.
    - intros pth s' Hpth Hs'. apply IH; [|done]. eapply chain_step; [exact Hc|done| |exact Hpth].
      by apply reads_readable.
    - intros t Ht. by eapply file_kids_wf.
    - by apply chain_add.
  Qed.

  Lemma import_file_chain fuel : forall path s,
    import_chain s0 e path0 path -> only_chain s -> only_chain (import_file e fuel path s).2.
  Proof.
    induction fuel as [|fuel IH]; intros path s Hc Hs; [done|].
    cbn [import_file]. rewrite rbind_get.
    destruct (protos s !! path) as [g|] eqn:Hp; [done|].
    destruct (proto_file_cases e path s) as [(g & Hg & _)|(_ & [(err & Ep & _)|(els & Hr & Ep)])];
      [congruence| |]; rewrite (rbind_val _ _ _ _ _ Ep); [done|].
    rewrite (rbind_val _ _ _ _ _ (deref_ret _ _ _ (heap_at_root _ _ _ (heap_add_file _ _ _)))).
    pose proof (visit_file_chain fuel path els s (mkVisitor None "" false) Hr Hp Hs Hc IH) as Hv.
    unfold rbind. destruct (visit _ _ _ _ _) as [[v'|m|] s']; done.
  Qed.

  Lemma demark_chain fuel : protos s0 !! path0 = None -> only_chain (demark_file e fuel path0 s0).2.
  Proof.
    intros Hp. assert (Hs : only_chain s0) by (split; [by intros p|by left]).
    unfold demark_file. destruct (proto_file_cases e path0 s0)
      as [(g & Hg & Ep)|(_ & [(err & Ep & _)|(els & Hr & Ep)])];
      [congruence| |]; rewrite (rbind_val _ _ _ _ _ Ep); [done|].
    rewrite (rbind_val _ _ _ _ _ (deref_ret _ _ _ (heap_at_root _ _ _ (heap_add_file _ _ _)))).
    pose proof (visit_file_chain fuel path0 els s0 (mkVisitor (Some (root (length (heap s0)))) "" false)
      Hr Hp Hs (chain_self _ _ _) (import_file_chain fuel)) as Hv.
    unfold rbind. destruct (visit _ _ _ _ _) as [[v'|m|] s']; done.
  Qed.
  Lemma proto_chain fuel : only_chain (proto e fuel path0 s0).2.
  Proof.
    assert (Hs : only_chain s0) by (split; [by intros p|by left]).
    unfold proto. rewrite rbind_get. destruct (protos s0 !! path0) as [g|] eqn:Hp.
    - eapply only_chain_protos; [|exact Hs]. done.
    - pose proof (demark_chain fuel Hp) as H. unfold rbind at 1.
      destruct (demark_file e fuel path0 s0) as [[[err|]|m|] s1]; cbn [snd] in *; try done.
      rewrite rbind_get. destruct (protos s1 !! path0); [|done].
      eapply only_chain_protos; [|exact H]. done.
  Qed.
End closure.

Lemma is_loaded_protos s p : schema s -> is_loaded s p <-> is_Some (protos s !! p).
Proof.
  intros S. split; [by intros (g & f & H & _); eexists|]. intros [g Hg].
  destruct (loaded_protos _ _ _ S Hg) as [f Hf]. by exists g, f.
Qed.
Lemma not_loaded_protos s p : schema s -> ~ is_loaded s p <-> protos s !! p = None.
Proof.
  intros S. rewrite is_loaded_protos by done. by rewrite eq_None_not_Some.
Qed.

Lemma new_content e fuel path s o s1 path' g f :
  env_ok e -> schema s -> proto e fuel path s = (o, s1) -> ~ is_loaded s path' -> loaded s1 path' g f ->
  exists els, readable e path' els /\ f = file_tree path' els.
Proof.
  intros He S E Hn (H1 & H2 & H3).
  pose proof (proto_from_env e fuel path s) as Hfe. rewrite E in Hfe.
  destruct (Hfe g f H2) as [H|(path2 & els' & Hr' & ->)].
  - exfalso. apply Hn. destruct (heap_loaded _ _ _ S H) as [pth Hl].
    assert (pth = path') as -> by (destruct Hl as (_ & _ & B3); congruence). by exists g, f.
  - cbn in H3. injection H3 as ->. exists els'. split; [by apply reads_readable|done].
Qed.

(** ** C65 *)

(** Whatever the outcome of Proto(path) (file, error or panic), every file it added is reached from path
    by following the imports of files that were not loaded, and has the content read now. *)
Theorem C65_adds_only_imports s e fuel path path' g f :
  reachable s -> env_ok e -> ~ is_loaded s path' -> loaded (proto e fuel path s).2 path' g f ->
  import_chain s e path path' /\ exists els, readable e path' els /\ f = file_tree path' els.
Proof.
  intros Hs He Hn Hl. pose proof (proj1 (reachable_Inv _ Hs)) as S. split.
  - destruct (proj2 (proto_chain e He s path fuel) path') as [H|H]; [by destruct Hl; eexists| |done].
    apply is_loaded_protos in H; done.
  - destruct (proto e fuel path s) as [o s1] eqn:E. by eapply new_content.
Qed.

(** If Proto(path) returns a file, the files it added are exactly these. *)
Lemma chain_of_loaded s e path path' g :
  protos s !! path = Some g -> import_chain s e path path' -> path' = path.
Proof. intros Hp. induction 1 as [|path p1 p2 els _ IH H1 _ _]; [done|]. rewrite (IH Hp) in H1. congruence. Qed.

Theorem C65_adds_all_imports s e fuel path f s1 path' :
  calm s -> env_ok e -> proto e fuel path s = (Ret (inr f), s1) ->
  is_loaded s1 path' <-> is_loaded s path' \/ import_chain s e path path'.
Proof.
  intros Hs He E. destruct (calm_complete _ Hs) as [S _].
  pose proof (calm_loads _ _ _ _ _ _ Hs He E) as Hs1. destruct (calm_complete _ Hs1) as [S1 _].
  rewrite !is_loaded_protos by done. split.
  - intros H. pose proof (proto_chain e He s path fuel) as [_ H2]. rewrite E in H2. by apply H2.
  - intros [H|H].
    + pose proof (proto_chain e He s path fuel) as [H1 _]. rewrite E in H1. by apply H1.
    + destruct (protos s !! path) as [g|] eqn:Hp.
      * rewrite (chain_of_loaded _ _ _ _ _ Hp H).
        destruct (proto_returns_loaded _ _ _ _ _ _ He S E) as (g' & t & _ & (Ht & _) & _). by eexists.
      * eapply chain_loaded; [done|exact Hs|exact Hp|exact E|exact H].
Qed.

(** ** C66: order of loads *)

(** A program that loads the files [paths], in this order, each load giving a file, with any queries
    in between. *)
Inductive loading (e : env) : list string -> registry -> registry -> Prop :=
| ld_done s : loading e [] s s
| ld_file path paths s s1 s2 fuel f :
    proto e fuel path s = (Ret (inr f), s1) -> loading e paths s1 s2 -> loading e (path :: paths) s s2
| ld_query paths s s2 {A} (m : R A) :
    client Queries m -> loading e paths (m s).2 s2 -> loading e paths s s2.

(** The same files are loaded, with the same contents. *)
Definition same_files (s1 s2 : registry) : Prop :=
  forall path f, (exists g, loaded s1 path g f) <-> (exists g, loaded s2 path g f).

Lemma loading_calm e paths s s' : env_ok e -> loading e paths s s' -> calm s -> calm s'.
Proof.
  intros He. induction 1 as [s|path paths s s1 s2 fuel f E _ IH|paths s s2 A m Hm _ IH]; intros Hs; [done| |].
  - apply IH. by eapply calm_loads.
  - apply IH. apply hist_client; [done|]. by apply client_query.
Qed.

(** [s'] has the files of [s], and other files have the contents [e] reads *)
Definition more_files (e : env) (s s' : registry) : Prop :=
  (forall p g f, loaded s p g f -> loaded s' p g f) /\
  (forall p g f, loaded s' p g f -> ~ is_loaded s p -> exists els, readable e p els /\ f = file_tree p els).

Lemma more_files_trans e s1 s2 s3 :
  schema s2 -> more_files e s1 s2 -> more_files e s2 s3 -> more_files e s1 s3.
Proof.
  intros S2 [A1 A2] [B1 B2]. split; [eauto|]. intros p g f Hl Hn.
  destruct (protos s2 !! p) as [g2|] eqn:Hp.
  - destruct (loaded_protos _ _ _ S2 Hp) as [f2 Hf2]. pose proof (B1 _ _ _ Hf2) as Hf3.
    destruct (loaded_fun _ _ _ _ _ _ Hl Hf3) as [-> ->]. by eapply A2.
  - eapply B2; [exact Hl|]. by apply not_loaded_protos.
Qed.

Lemma proto_more_files e fuel path s o s1 :
  env_ok e -> schema s -> proto e fuel path s = (o, s1) -> more_files e s s1.
Proof.
  intros He S E. split.
  - intros p g f Hl. destruct (proto_ok _ _ _ _ _ _ He S E) as (_ & G & _). by eapply loaded_grows.
  - intros p g f Hl Hn. by eapply new_content.
Qed.

Lemma chain_more s s' e p p' : schema s -> schema s' -> more_files e s s' ->
  import_chain s' e p p' -> import_chain s e p p'.
Proof.
  intros S S' M. induction 1 as [|p p1 p2 els _ IH H1 Hr Hin]; [constructor|].
  eapply chain_step; [exact IH| |exact Hr|exact Hin].
  destruct (protos s !! p1) as [g|] eqn:Hp; [|done].
  destruct (loaded_protos _ _ _ S Hp) as [f Hf]. destruct (proj1 M _ _ _ Hf) as [H _]. congruence.
Qed.
Lemma chain_less s s' e p p' : calm s -> calm s' -> more_files e s s' ->
  import_chain s e p p' -> is_loaded s' p' \/ import_chain s' e p p'.
Proof.
  intros Hs Hs' M. destruct (calm_complete _ Hs) as [S _]. destruct (calm_complete _ Hs') as [S' C'].
  induction 1 as [|p p1 p2 els _ IH H1 Hr Hin]; [right; constructor|].
  destruct (protos s' !! p1) as [g|] eqn:Hp.
  - left. destruct (loaded_protos _ _ _ S' Hp) as [f Hf]. apply not_loaded_protos in H1; [|done].
    destruct (proj2 M _ _ _ Hf H1) as (els' & Hr' & ->).
    rewrite (readable_fun _ _ _ _ Hr' Hr) in Hin.
    destruct Hf as (_ & Hf & _). assert (Hlt : g < length (heap s')) by (by apply lookup_lt_Some in Hf).
    apply is_loaded_protos; [done|]. eapply (dn_imports _ _ (C' g Hlt)); [exact Hf|exact Hin].
  - destruct IH as [H|H]; [apply is_loaded_protos in H as [x Hx]; [congruence|done]|].
    right. eapply chain_step; [exact H|exact Hp|exact Hr|exact Hin].
Qed.

Lemma quiet_loaded s s' p g f : quiet s s' -> loaded s' p g f <-> loaded s p g f.
Proof. intros Q. unfold loaded. by rewrite (q_protos _ _ Q), (q_heap _ _ Q). Qed.

Lemma chain_same s s' e p p' : protos s' = protos s -> import_chain s e p p' -> import_chain s' e p p'.
Proof.
  intros E. induction 1 as [|p p1 p2 els _ IH H1 Hr Hin]; [constructor|].
  eapply chain_step; [exact IH|by rewrite E|exact Hr|exact Hin].
Qed.

Lemma loading_files e paths s s' : env_ok e -> loading e paths s s' -> calm s ->
  more_files e s s' /\
  forall p', is_loaded s' p' <-> is_loaded s p' \/ exists p, p ∈ paths /\ import_chain s e p p'.
Proof.
  intros He. induction 1 as [s|path paths s s1 s2 fuel f E Hld IH|paths s s2 A m Hm Hld IH]; intros Hs.
  - split; [split; [done|]|].
    + intros p g f Hl Hn. destruct Hn. by exists g, f.
    + intros p'. split; [by left|]. intros [H|(p & Hp & _)]; [done|]. by apply elem_of_nil in Hp.
  - pose proof (calm_loads _ _ _ _ _ _ Hs He E) as Hs1. destruct (IH Hs1) as [M IHf].
    destruct (calm_complete _ Hs) as [S _]. destruct (calm_complete _ Hs1) as [S1 _].
    pose proof (proto_more_files _ _ _ _ _ _ He S E) as M1.
    split; [by eapply more_files_trans|]. intros p'. rewrite IHf.
    rewrite (C65_adds_all_imports _ _ _ _ _ _ p' Hs He E). split.
    + intros [[H|H]|(p & Hp & H)]; [by left| |].
      * right. exists path. split; [constructor|done].
      * right. exists p. split; [by constructor|]. by eapply chain_more.
    + intros [H|(p & Hp & H)]; [auto|]. apply elem_of_cons in Hp as [->|Hp]; [auto|].
      destruct (chain_less _ _ _ _ _ Hs Hs1 M1 H) as [H'|H'].
      * left. by apply (C65_adds_all_imports _ _ _ _ _ _ p' Hs He E).
      * right. by exists p.
  - assert (Hs1 : calm (m s).2) by (apply hist_client; [done|by apply client_query]).
    destruct (IH Hs1) as [[M1 M2] IHf].
    pose proof (query_quiet m Hm s) as Q.
    assert (L : forall p g f, loaded (m s).2 p g f <-> loaded s p g f) by (intros; by apply quiet_loaded).
    assert (L' : forall p, is_loaded (m s).2 p <-> is_loaded s p).
    { intros p. unfold is_loaded. by setoid_rewrite L. }
    split; [split|].
    + intros p g f H. apply M1. by apply L.
    + intros p g f H Hn. eapply M2; [exact H|]. by rewrite L'.
    + intros p'. rewrite IHf, L'. apply or_iff_compat_l. apply exist_proper. intros p.
      apply and_iff_compat_l. split; intros H; (eapply chain_same; [|exact H]); by rewrite (q_protos _ _ Q).
Qed.

Lemma loading_content e paths1 paths2 s s1 s2 p g1 f :
  env_ok e -> calm s -> loading e paths1 s s1 -> loading e paths2 s s2 ->
  (forall p, p ∈ paths1 -> p ∈ paths2) -> loaded s1 p g1 f -> exists g2, loaded s2 p g2 f.
Proof.
  intros He Hs L1 L2 Hp Hl. destruct (loading_files _ _ _ _ He L1 Hs) as [M1 F1].
  destruct (loading_files _ _ _ _ He L2 Hs) as [M2 F2].
  destruct (calm_complete _ Hs) as [S _].
  assert (H2 : is_loaded s2 p).
  { apply F2. destruct (proj1 (F1 p)) as [H|(p0 & H0 & H)]; [by exists g1, f|by left|].
    right. exists p0. auto. }
  destruct (protos s !! p) as [g|] eqn:Hpp.
  - destruct (loaded_protos _ _ _ S Hpp) as [f0 Hf0].
    destruct (loaded_fun _ _ _ _ _ _ Hl (proj1 M1 _ _ _ Hf0)) as [-> ->].
    eexists. by apply (proj1 M2).
  - apply not_loaded_protos in Hpp; [|done].
    destruct (proj2 M1 _ _ _ Hl Hpp) as (els1 & Hr1 & ->). destruct H2 as (g2 & f2 & Hl2).
    destruct (proj2 M2 _ _ _ Hl2 Hpp) as (els2 & Hr2 & ->).
    rewrite (readable_fun _ _ _ _ Hr2 Hr1). eauto.
Qed.

(** Loading the same files in different orders (or several times), with any queries in between, leads to
    the same loaded files with the same contents. *)
Theorem C66_order_of_loads e paths1 paths2 s s1 s2 :
  env_ok e -> calm s -> loading e paths1 s s1 -> loading e paths2 s s2 ->
  (forall path, path ∈ paths1 <-> path ∈ paths2) -> same_files s1 s2.
Proof.
  intros He Hs L1 L2 Hp path f. split; intros [g Hl].
  - eapply (loading_content e paths1 paths2); eauto. intros p. apply Hp.
  - eapply (loading_content e paths2 paths1); eauto. intros p. apply Hp.
Qed.

(** Registries with the same files give the same answers, up to the identity of the nodes: the node found
    under a name is of the same Go type and for the same element of the same file, and has the same
    NodeIndex. *)
Theorem C66_same_answers s1 s2 q n1 s1' :
  calm s1 -> calm s2 -> same_files s1 s2 ->
  unique_names s2 -> packages_first s1 -> packages_first s2 ->
  node_by_full_name q s1 = (Ret (Some n1), s1') ->
  exists path f k a1 a2 g1 g2 π s2',
    n1 = NAst k a1 (g1, π) /\ loaded s1 path g1 f /\ loaded s2 path g2 f /\
    node_by_full_name q s2 = (Ret (Some (NAst k a2 (g2, π))), s2').
Proof.
  intros Hs1 Hs2 Hsame Hu P1 P2 E.
  destruct (C08_found_is_declared _ _ _ _ (calm_reachable _ Hs1) P1 E)
    as (path & g1 & f & π & t & k & a1 & -> & Hl & Hq & Hw & Hk).
  destruct (proj1 (Hsame path f)) as [g2 Hl2]; [by exists g1|].
  destruct (C05_exact_declaration s2 path g2 f π q t k Hs2 Hu P2 Hl2 Hq Hw Hk) as (a2 & s2' & E2).
  exists path, f, k, a1, a2, g1, g2, π, s2'. done.
Qed.

Lemma same_files_sym s1 s2 : same_files s1 s2 -> same_files s2 s1.
Proof. intros H path f. symmetry. apply H. Qed.

(** the assumptions on a registry under which names are answers *)
Definition orderly (s : registry) : Prop := calm s /\ unique_names s /\ packages_first s.

Lemma same_found s1 s2 q n1 : orderly s1 -> orderly s2 -> same_files s1 s2 -> found s1 q n1 ->
  exists path f k a1 a2 g1 g2 π, n1 = NAst k a1 (g1, π) /\ loaded s1 path g1 f /\ loaded s2 path g2 f /\
    found s2 q (NAst k a2 (g2, π)).
Proof.
  intros (C1 & U1 & P1) (C2 & U2 & P2) Hsame E. unfold found in E.
  destruct (node_by_full_name q s1) as [o s1'] eqn:E1. cbn in E. subst o.
  destruct (C66_same_answers _ _ _ _ _ C1 C2 Hsame U2 P1 P2 E1)
    as (path & f & k & a1 & a2 & g1 & g2 & π & s2' & -> & H1 & H2 & E2).
  exists path, f, k, a1, a2, g1, g2, π. split_and!; try done. unfold found. by rewrite E2.
Qed.
Lemma same_unknown s1 s2 q : orderly s1 -> orderly s2 -> same_files s1 s2 -> unknown s1 q -> unknown s2 q.
Proof.
  intros O1 O2 Hsame Hu n Hf.
  destruct (same_found _ _ _ _ O2 O1 (same_files_sym _ _ Hsame) Hf) as (? & ? & ? & ? & ? & ? & ? & ? & _ & _ & _ & H).
  exact (Hu _ H).
Qed.
Lemma same_denotes s1 s2 comps name q : orderly s1 -> orderly s2 -> same_files s1 s2 ->
  denotes s1 comps name q -> denotes s2 comps name q.
Proof.
  intros O1 O2 Hsame [[n Hn] H]. split.
  - destruct (same_found _ _ _ _ O1 O2 Hsame Hn) as (? & ? & ? & ? & ? & ? & ? & ? & _ & _ & _ & H'). eauto.
  - destruct H as [H|(Ha & k & Hk & Hq & H)]; [by left|]. right. split; [done|]. exists k. split; [done|].
    split; [done|]. intros j Hj Hj'. eapply same_unknown; [exact O1|done|done|by apply H].
Qed.

(** The type of a field or branch is the same declaration in both. *)
Theorem C66_same_types s1 s2 path f g1 g2 π comps typ m1 m2 n1 :
  calm s1 /\ unique_names s1 /\ packages_first s1 -> calm s2 /\ unique_names s2 /\ packages_first s2 ->
  same_files s1 s2 -> loaded s1 path g1 f -> loaded s2 path g2 f ->
  fqn f π = Some (dotted comps) -> Forall ident comps -> typ ∉ scalar_names ->
  asks s1 (g1, π) typ m1 -> asks s2 (g2, π) typ m2 ->
  (m1 s1).1 = Ret n1 ->
  match n1 with
  | None => (m2 s2).1 = Ret None
  | Some n1 => exists path' f' k a1 a2 h1 h2 ρ,
      n1 = NAst k a1 (h1, ρ) /\ loaded s1 path' h1 f' /\ loaded s2 path' h2 f' /\
      (m2 s2).1 = Ret (Some (NAst k a2 (h2, ρ)))
  end.
Proof.
  intros O1 O2 Hsame L1 L2 Hq Hid Hb A1 A2 E.
  pose proof (reachable_Inv _ (calm_reachable _ (proj1 O1))) as I1.
  pose proof (reachable_Inv _ (calm_reachable _ (proj1 O2))) as I2.
  assert (Hsc : forall s g m, calm s -> packages_first s -> loaded s path g f -> asks s (g, π) typ m ->
    in_scope s (g, π) comps).
  { intros s g m Cs Ps Hl Ha. split; [|done].
    assert (exists t k, walk f π = Some t /\ represented_by (t_data t) = Some k /\
      k ∈ [KField; KBranch; KMethod] /\ (forall n v, t_data t <> DEnumField n v)) as (t & k & Hw & Hk & Hin & Hne).
    { pose proof (reachable_Inv _ (calm_reachable _ Cs)) as I.
      inversion Ha as [a p t nm ty sq op Ht Hd|a p t nm ty sq op Ht Hd|p t nm ty sq Ht Hd]; subst;
        apply element_heap in Ht; unfold heap_at in Ht; cbn [fst snd] in Ht;
        destruct Hl as (_ & Hh & _); rewrite Hh in Ht;
        exists t; rewrite Hd; eexists; (split; [exact Ht|]); (split; [reflexivity|]);
        (split; [rewrite !elem_of_cons; tauto|discriminate]). }
    exists k, 0%N. split; [done|].
    by rewrite (C06_index_is_qualified_name s path g f π _ t k 0%N Cs Hl (Ps _ _ _ Hl) Hq Hw Hne (or_introl Hk)). }
  pose proof (Hsc s1 g1 m1 (proj1 O1) (proj2 (proj2 O1)) L1 A1) as S1.
  pose proof (Hsc s2 g2 m2 (proj1 O2) (proj2 (proj2 O2)) L2 A2) as S2.
  destruct (asks_spec _ _ _ _ _ I1 A1 S1 Hb) as [(q & n & Hd & Hf & E1)|[Hno E1]]; rewrite E1 in E.
  - destruct (implements_type n) eqn:Hi; [|discriminate E]. injection E as <-.
    destruct (same_found _ _ _ _ O1 O2 Hsame Hf) as (path' & f' & k & a1 & a2 & h1 & h2 & ρ & -> & H1 & H2 & Hf2).
    exists path', f', k, a1, a2, h1, h2, ρ. split; [done|]. split; [done|]. split; [done|].
    pose proof (same_denotes _ _ _ _ _ O1 O2 Hsame Hd) as Hd2.
    destruct (asks_spec _ _ _ _ _ I2 A2 S2 Hb) as [(q' & n' & Hq' & Hf' & E2)|[Hno _]]; [|by apply Hno in Hd2].
    pose proof (denotes_fun _ _ _ _ _ Hd2 Hq') as <-. pose proof (found_fun _ _ _ _ Hf2 Hf') as ->. rewrite E2.
    destruct k; try discriminate Hi; reflexivity.
  - injection E as <-.
    destruct (asks_spec _ _ _ _ _ I2 A2 S2 Hb) as [(q' & n' & Hq' & Hf' & E2)|[_ E2]]; [|done].
    exfalso. apply (Hno q'). by eapply (same_denotes s2 s1); [| |apply same_files_sym|].
Qed.

(** a decision procedure for examples *)
Fixpoint loads_fine (tab : list (string * list tree)) (paths : list string) (s : registry) : bool :=
  match paths with
  | [] => true
  | path :: paths' =>
      match proto (table_env tab) 50 path s with
      | (Ret (inr _), s1) => loads_fine tab paths' s1
      | _ => false
      end
  end.
Lemma loads_fine_ok tab paths : forall s, loads_fine tab paths s = true ->
  loading (table_env tab) paths s (load_all tab paths s).
Proof.
  induction paths as [|path paths IH]; intros s H; [constructor|]. cbn [loads_fine load_all] in *.
  unfold proto_or_exit. destruct (proto (table_env tab) 50 path s) as [[[err|f]|m|] s1] eqn:E; try discriminate H.
  eapply ld_file; [exact E|]. by apply IH.
Qed.

(** data.proto and any.proto, which it imports: the two orders parse in different orders *)
Definition files_in_order (s : registry) : list data := map t_data (heap s).
Example C66_example :
  exists s1 s2, env_ok demo_env /\ calm (start demo_files) /\
  loading demo_env [dat_f; any_f] (start demo_files) s1 /\
  loading demo_env [any_f; dat_f; any_f] (start demo_files) s2 /\
  (forall path, path ∈ [dat_f; any_f] <-> path ∈ [any_f; dat_f; any_f]) /\
  files_in_order s1 <> files_in_order s2 /\
  (calm s1 /\ unique_names s1 /\ packages_first s1) /\ (calm s2 /\ unique_names s2 /\ packages_first s2).
Proof.
  exists (world demo_files [dat_f; any_f]), (world demo_files [any_f; dat_f; any_f]).
  split; [apply demo_env_ok|]. split; [apply start_history, demo_starts|].
  split; [apply loads_fine_ok; vm_compute; reflexivity|].
  split; [apply loads_fine_ok; vm_compute; reflexivity|].
  split; [intros path; rewrite !elem_of_cons, elem_of_nil; tauto|].
  split; [vm_compute; discriminate|].
  split; (split; [apply world_calm, demo_starts|]; split;
    [apply check_unique_ok; vm_compute; reflexivity|apply check_packages_ok; vm_compute; reflexivity]).
Qed.

(** Where two files declare the same name, the order decides:

      x.proto: package d; message M {}            y.proto: package d; message M {} *)
Definition dup_elems (f : string) : list tree :=
  [ el f 1 (DSyntax "proto3") []; el f 2 (DPackage "d") []; msg f 3 "M" [] ].
Definition dup_files : list (string * list tree) :=
  (std_files ++ [("x.proto", dup_elems "x.proto"); ("y.proto", dup_elems "y.proto")])%list.
Theorem C66_duplicates_refuted :
  exists s1 s2,
  loading (table_env dup_files) ["x.proto"; "y.proto"] (start dup_files) s1 /\
  loading (table_env dup_files) ["y.proto"; "x.proto"] (start dup_files) s2 /\
  exists n1 n2, found s1 ".d.M" n1 /\ found s2 ".d.M" n2 /\
  exists a1 a2 p1 p2,
    (node_file n1 s1).1 = Ret (Some (NAst KFile a1 p1)) /\ (node_name p1 s1).1 = Ret "y.proto" /\
    (node_file n2 s2).1 = Ret (Some (NAst KFile a2 p2)) /\ (node_name p2 s2).1 = Ret "x.proto".
Proof.
  exists (world dup_files ["x.proto"; "y.proto"]), (world dup_files ["y.proto"; "x.proto"]).
  split; [apply loads_fine_ok; vm_compute; reflexivity|].
  split; [apply loads_fine_ok; vm_compute; reflexivity|].
  eexists _, _.
  split; [unfold found; vm_compute; reflexivity|].
  split; [unfold found; vm_compute; reflexivity|].
  eexists _, _, _, _. split; [vm_compute; reflexivity|]. split; [vm_compute; reflexivity|].
  split; [vm_compute; reflexivity|]. vm_compute; reflexivity.
Qed.

Example C65_example :
  calm (start demo_files) /\ env_ok demo_env /\
  (exists f s1, proto demo_env 50 dat_f (start demo_files) = (Ret (inr f), s1)) /\
  import_chain (start demo_files) demo_env dat_f any_f /\ ~ is_loaded (start demo_files) any_f.
Proof.
  assert (Hn : forall p, protos (start demo_files) !! p = None -> ~ is_loaded (start demo_files) p).
  { intros p H (g & f & H' & _). congruence. }
  assert (Hs : forall p, (match table_get demo_files p with Some _ => true | None => false end) = true -> serves demo_env p p).
  { intros p Hp. exists [], ("table", fun path => match table_get demo_files path with
                               | Some _ => RName path | None => RError not_exist end), [].
    split; [reflexivity|]. split; [constructor|]. cbn [snd]. by destruct (table_get demo_files p). }
  split; [apply start_history, demo_starts|]. split; [apply demo_env_ok|].
  split; [eexists _, _; apply by_returns; vm_compute; reflexivity|].
  split; [|apply Hn; vm_compute; reflexivity].
  eapply chain_step; [apply chain_self|vm_compute; reflexivity| |].
  - exists dat_f. split; [apply Hs; vm_compute; reflexivity|]. split; [discriminate|vm_compute; reflexivity].
  - vm_compute. set_solver.
Qed.

(** ** C67: NewRegistry *)

Lemma not_readable_not_reads e path : (forall els, ~ readable e path els) <-> (forall els, ~ reads e path els).
Proof. split; intros H els Hr; apply (H els); by apply reads_readable. Qed.

(** If the descriptor cannot be found, read or parsed, NewRegistry returns an error. *)
Theorem C67_no_descriptor e fuel :
  env_ok e -> (forall els, ~ readable e "google/protobuf/descriptor.proto" els) ->
  exists err cause, new_registry e fuel = Ret (inl err) /\
    error_text err = "set up proto descriptor: " +:+ cause.
Proof.
  intros He Hn. unfold new_registry.
  destruct (demark_file e fuel descriptor_path empty_registry) as [od sd] eqn:Ed.
  destruct (demark_file_ok e fuel descriptor_path empty_registry od sd He schema_empty eq_refl Ed)
    as (_ & _ & [(_ & (err & ->) & _)|(els & Hr & _)]); [|].
  { eexists _, (error_text err). split; [reflexivity|]. done. }
  exfalso. apply reads_readable in Hr. exact (Hn _ Hr).
Qed.

(** A registry NewRegistry returns has loaded the descriptor and the files it transitively imports, and
    nothing else, with the contents read; no node exists yet. *)
Theorem C67_new_registry e fuel s :
  env_ok e -> new_registry e fuel = Ret (inr s) ->
  (exists els, readable e "google/protobuf/descriptor.proto" els /\
     loaded s "google/protobuf/descriptor.proto" 0 (file_tree "google/protobuf/descriptor.proto" els)) /\
  (forall path, is_loaded s path <-> import_chain empty_registry e "google/protobuf/descriptor.proto" path) /\
  (forall path g f, loaded s path g f -> exists els, readable e path els /\ f = file_tree path els).
Proof.
  intros He E. assert (Hc : calm s) by (by eapply hist_new). destruct (calm_complete _ Hc) as [S C].
  unfold new_registry in E.
  destruct (demark_file e fuel descriptor_path empty_registry) as [od sd] eqn:Ed.
  pose proof (demark_chain e He empty_registry descriptor_path fuel eq_refl) as Hch. rewrite Ed in Hch.
  pose proof (demark_from_env e fuel descriptor_path empty_registry) as Hfe. rewrite Ed in Hfe.
  destruct (demark_file_ok e fuel descriptor_path empty_registry od sd He schema_empty eq_refl Ed) as (_ & _ & A).
  destruct od as [[err|]|m|]; try discriminate E. injection E as <-. cbn [snd] in *.
  assert (Hcont : forall path g f, loaded sd path g f -> exists els, readable e path els /\ f = file_tree path els).
  { intros path g f (H1 & H2 & H3). destruct (Hfe g f H2) as [H|(p2 & els & Hr & ->)]; [by destruct g|].
    cbn in H3. injection H3 as ->. exists els. split; [by apply reads_readable|done]. }
  destruct A as [(_ & (err & ?) & _)|(els & A3 & A4 & A5 & A6)]; [done|].
  split; [|split].
  - exists els. split; [by apply reads_readable|]. by split.
  - intros path. rewrite is_loaded_protos by done. split.
    + intros H. destruct (proj2 Hch path H) as [[x Hx]|H']; [discriminate Hx|done].
    + intros H. remember descriptor_path as dp eqn:Hdp.
      change "google/protobuf/descriptor.proto" with descriptor_path in H. rewrite <- Hdp in H.
      clear Ed Hch Hfe A3 A6. induction H as [dp|dp p1 p2 els1 _ IH _ Hr Hin]; [by eexists|].
      destruct (IH Hdp A4 A5) as [g Hg].
      destruct (loaded_protos _ _ _ S Hg) as [f Hf]. destruct (Hcont _ _ _ Hf) as (els2 & Hr2 & ->).
      rewrite (readable_fun _ _ _ _ Hr2 Hr) in Hin. destruct Hf as (_ & Hf & _).
      assert (Hlt : g < length (heap sd)) by (by apply lookup_lt_Some in Hf).
      exact (dn_imports _ _ (C g Hlt) _ p2 Hf Hin).
  - exact Hcont.
Qed.

(** ** Proofs: loading succeeds *)

(** Every path of [U] is loaded or can be found, read and parsed. *)
Definition all_readable (e : env) (s : registry) (U : list string) : Prop :=
  forall path, path ∈ U -> is_loaded s path \/ exists els, readable e path els.

Section success.
  Variable e : env.
  Variable U : list string.
  Hypothesis He : env_ok e.
  Hypothesis HU : import_closed e U.

  Definition good_paths (s : registry) : Prop :=
    forall p, p ∈ U -> is_Some (protos s !! p) \/ exists els, reads e p els.
  Lemma good_paths_mono s s' : keeps_paths s s' -> good_paths s -> good_paths s'.
  Proof. intros K H p Hp. destruct (H p Hp) as [H'|H']; [left; by apply K|by right]. Qed.

  Lemma visit_list_succeeds (J : registry -> Prop) imp g l :
    (forall s s', protos s' = protos s -> J s -> J s') ->
    (forall pth s, pth ∈ import_paths l -> J s -> exists s', imp pth s = (Ret tt, s') /\ J s') ->
    (forall t, t ∈ l -> allowed (DProto "") (t_data t) = true /\ wf_tree t = true) ->
    forall v i s, J s -> exists v' s', visit_list imp (root g) v i l s = (Ret v', s').
  Proof.
    intros HJ. induction l as [|t l IH]; intros Himp Hl v i s Hs; [eauto|].
    cbn [visit_list].
    assert (Hrest : forall v i s, J s -> exists v' s', visit_list imp (root g) v i l s = (Ret v', s')).
    { apply IH.
      - intros pth s' Hp. apply Himp. unfold import_paths in *. cbn.
        destruct (t_data t); cbn; try done. by constructor.
      - intros u Hu. apply Hl. by constructor. }
    destruct (Hl t) as [Ha Hw]; [constructor|].
    destruct (nested (t_data t)) eqn:Hn.
    - destruct (visit_nested imp g t v [i] s Hw Hn) as (v1 & E & _).
      unfold child, root. cbn [fst snd]. rewrite (rbind_val _ _ _ _ _ E). apply Hrest.
      eapply HJ; [|exact Hs]. apply add_decls_protos.
    - destruct t as [d ps c kids]. cbn [t_data] in *.
      destruct d; try discriminate Hn; try discriminate Ha.
      + cbn [visit]. unfold put_scope. unfold rbind, modify, ret. apply Hrest.
        eapply HJ; [|exact Hs]. done.
      + cbn [visit]. destruct (Himp filename s) as (s1 & E & A2); [cbn; constructor|done|].
        unfold rbind. rewrite E. by apply Hrest.
  Qed.

  Lemma visit_file_succeeds fuel path els s v :
    reads e path els -> protos s !! path = None -> path ∈ U -> todo U s <= fuel -> good_paths s ->
    (forall pth s', pth ∈ U -> todo U s' < fuel -> good_paths s' -> exists s'', import_file e fuel pth s' = (Ret tt, s'')) ->
    exists v' s', visit (import_file e fuel) v (root (length (heap s))) (file_tree path els)
      (add_file path els s) = (Ret v', s').
  Proof.
    intros Hr Hp Hin Htodo Hg IH.
    assert (Hwf : wf_tree (file_tree path els) = true).
    { destruct Hr as (nm & _ & _ & Hr). apply He in Hr. by apply andb_prop in Hr as [Hr _]. }
    change (visit (import_file e fuel) v (root (length (heap s))) (file_tree path els))
      with (visit_list (import_file e fuel) (root (length (heap s))) v 0 els).
    apply (visit_list_succeeds (fun s' => todo U s' < fuel /\ good_paths s')).
    - intros s1 s2 E [H1 H2]. split; [unfold todo; by rewrite E|]. intros p H. rewrite E. by apply H2.
    - intros pth s' Hpth [H1 H2]. destruct (IH pth s') as [s'' E]; [by eapply HU|done|done|].
      exists s''. split; [done|].
      pose proof (import_keeps_paths e fuel pth s') as K. rewrite E in K. cbn in K. split.
      + pose proof (todo_mono U _ _ K). lia.
      + by eapply good_paths_mono.
    - intros t Ht. by eapply file_kids_wf.
    - split; [pose proof (todo_add U path els s Hin Hp); lia|].
      eapply good_paths_mono; [|exact Hg]. intros p H. cbn. destruct (decide (path = p)) as [->|Hne].
      + rewrite lookup_insert. by eexists.
      + by rewrite lookup_insert_ne.
  Qed.

  Lemma import_file_succeeds fuel : forall path s,
    path ∈ U -> todo U s < fuel -> good_paths s -> exists s', import_file e fuel path s = (Ret tt, s').
  Proof.
    induction fuel as [|fuel IH]; intros path s Hin Ht Hg; [lia|].
    cbn [import_file]. rewrite rbind_get.
    destruct (protos s !! path) as [g|] eqn:Hp; [by eexists|].
    destruct (proto_file_cases e path s) as [(g & Hg' & _)|(_ & [(err & Ep & Hno)|(els & Hr & Ep)])].
    - congruence.
    - destruct (Hg path Hin) as [[x Hx]|[els Hr]]; [congruence|]. by apply Hno in Hr.
    - rewrite (rbind_val _ _ _ _ _ Ep).
      rewrite (rbind_val _ _ _ _ _ (deref_ret _ _ _ (heap_at_root _ _ _ (heap_add_file _ _ _)))).
      destruct (visit_file_succeeds fuel path els s (mkVisitor None "" false) Hr Hp Hin ltac:(lia) Hg IH) as (v' & s' & E).
      rewrite (rbind_val _ _ _ _ _ E). by eexists.
  Qed.

  Lemma demark_succeeds fuel path s :
    path ∈ U -> todo U s <= fuel -> good_paths s -> protos s !! path = None ->
    exists s', demark_file e fuel path s = (Ret None, s').
  Proof.
    intros Hin Ht Hg Hp. unfold demark_file.
    destruct (proto_file_cases e path s) as [(g & Hg' & _)|(_ & [(err & Ep & Hno)|(els & Hr & Ep)])].
    - congruence.
    - destruct (Hg path Hin) as [[x Hx]|[els Hr]]; [congruence|]. by apply Hno in Hr.
    - rewrite (rbind_val _ _ _ _ _ Ep).
      rewrite (rbind_val _ _ _ _ _ (deref_ret _ _ _ (heap_at_root _ _ _ (heap_add_file _ _ _)))).
      destruct (visit_file_succeeds fuel path els s (mkVisitor (Some (root (length (heap s)))) "" false)
        Hr Hp Hin Ht Hg (import_file_succeeds fuel)) as (v' & s' & E).
      rewrite (rbind_val _ _ _ _ _ E). by eexists.
  Qed.
End success.

(** ** C68 *)

(** Proto(path) returns a file if every file of a finite set containing path and closed under imports is
    already loaded or can be found, read and parsed; whatever the declarations in them are. *)
Theorem C68_load_succeeds e U fuel path s :
  reachable s -> env_ok e -> closed_under_imports e U -> path ∈ U -> all_readable e s U ->
  length U <= fuel -> exists f s1, proto e fuel path s = (Ret (inr f), s1).
Proof.
  intros Hs He HU Hin Hr Hf. pose proof (proj1 (reachable_Inv _ Hs)) as S.
  apply closed_import_closed in HU.
  assert (Hg : good_paths e U s).
  { intros p Hp. destruct (Hr p Hp) as [H|[els H]]; [left; by apply is_loaded_protos|].
    right. exists els. by apply reads_readable. }
  pose proof (todo_length U s) as Ht.
  unfold proto. rewrite rbind_get. destruct (protos s !! path) as [g|] eqn:Hp; [by eexists _, _|].
  destruct (demark_succeeds e U He HU fuel path s Hin ltac:(lia) Hg Hp) as [s1 E].
  destruct (demark_file_ok e fuel path s _ _ He S Hp E) as (_ & _ & [(_ & (err & ?) & _)|(els & _ & H & _)]); [done|].
  rewrite (rbind_val _ _ _ _ _ E), rbind_get, H. by eexists _, _.
Qed.

(** The same for NewRegistry. *)
Theorem C68_new_registry_succeeds e U fuel :
  env_ok e -> closed_under_imports e U -> "google/protobuf/descriptor.proto" ∈ U ->
  (forall path, path ∈ U -> exists els, readable e path els) -> length U <= fuel ->
  exists s, new_registry e fuel = Ret (inr s).
Proof.
  intros He HU Hin Hr Hf. apply closed_import_closed in HU. unfold new_registry.
  destruct (demark_succeeds e U He HU fuel descriptor_path empty_registry Hin) as [s1 E].
  - pose proof (todo_length U empty_registry). lia.
  - intros p Hp. right. destruct (Hr p Hp) as [els H]. exists els. by apply reads_readable.
  - done.
  - rewrite E. eauto.
Qed.

(** If a file the descriptor transitively imports cannot be found, read or parsed, NewRegistry returns
    neither a registry nor an error: it panics if the import closure is finite. *)
Theorem C67_broken_import_panics e U fuel path' els :
  env_ok e -> closed_under_imports e U -> "google/protobuf/descriptor.proto" ∈ U -> length U <= fuel ->
  readable e "google/protobuf/descriptor.proto" els ->
  import_chain empty_registry e "google/protobuf/descriptor.proto" path' ->
  (forall els', ~ readable e path' els') ->
  exists msg, new_registry e fuel = Panic msg.
Proof.
  intros He HU Hin Hf Hr Hch Hn. apply closed_import_closed in HU.
  destruct (new_registry e fuel) as [[err|s]|msg|] eqn:E; [exfalso|exfalso|by eexists|exfalso].
  - unfold new_registry in E.
    destruct (demark_file e fuel descriptor_path empty_registry) as [od sd] eqn:Ed.
    destruct (demark_file_ok e fuel descriptor_path empty_registry od sd He schema_empty eq_refl Ed)
      as (_ & _ & [(Hno & _)|(els2 & _ & _ & _ & H)]).
    + apply (Hno els). by apply reads_readable.
    + destruct od as [[err'|]|m|]; try discriminate E. by destruct (H _ eq_refl).
  - destruct (C67_new_registry _ _ _ He E) as (_ & H1 & H2).
    destruct (proj2 (H1 path') Hch) as (g & f & Hl). destruct (H2 _ _ _ Hl) as (els' & Hr' & _). exact (Hn _ Hr').
  - unfold new_registry in E.
    destruct (demark_file e fuel descriptor_path empty_registry) as [od sd] eqn:Ed.
    assert (Hd : (demark_file e fuel descriptor_path empty_registry).1 <> Diverge).
    { unfold demark_file.
      destruct (proto_file_cases e descriptor_path empty_registry) as [(g & Hg & _)|(_ & [(err & Ep & _)|(els2 & Hr2 & Ep)])];
        [done| |]; rewrite (rbind_val _ _ _ _ _ Ep); [done|].
      rewrite (rbind_val _ _ _ _ _ (deref_ret _ _ _ (heap_at_root _ _ _ (heap_add_file _ _ _)))).
      pose proof (todo_length U empty_registry) as Ht.
      pose proof (visit_file_term e U fuel descriptor_path els2 empty_registry
        (mkVisitor (Some (root (length (heap empty_registry)))) "" false) He Hr2 eq_refl Hin HU
        ltac:(lia) (import_file_term e U He HU fuel)) as Hv.
      unfold rbind. destruct (visit _ _ _ _ _) as [[v'|m|] s']; done. }
    rewrite Ed in Hd. destruct od as [[err'|]|m|]; done.
Qed.

(** a descriptor that imports itself and a second file, and one that imports a missing file *)
Definition desc2 (import : string) : list tree :=
  (el desc_f 1 (DImport desc_f) [] :: el desc_f 2 (DImport import) [] :: descriptor_elems)%list.
Definition own_files : list (string * list tree) := [(desc_f, desc2 any_f); (any_f, any_elems)].
Definition torn_files : list (string * list tree) := [(desc_f, desc2 "gone.proto"); (any_f, any_elems)].
Lemma table_readable tab path els : table_get tab path = Some els -> path <> "" ->
  readable (table_env tab) path els.
Proof.
  intros H Hne. exists path. split; [|split; [done|]].
  - eexists [], _, []. split; [reflexivity|]. split; [constructor|]. cbn. by rewrite H.
  - cbn. rewrite String.eqb_refl. by rewrite H.
Qed.
Lemma table_not_readable tab path : table_get tab path = None -> forall els, ~ readable (table_env tab) path els.
Proof.
  intros H els (name & Hs & Hne & _). apply serves_find in Hs. cbn in Hs. rewrite H in Hs. vm_compute in Hs. congruence.
Qed.
Lemma table_closed tab :
  forallb (fun kv => forallb (fun p => existsb (String.eqb p) (map fst tab)) (import_paths kv.2)) tab = true ->
  closed_under_imports (table_env tab) (map fst tab).
Proof.
  intros H path els path' _ (name & Hs & Hne & Hr) Hin. apply serves_find in Hs. cbn in Hs, Hr.
  assert (table_get tab path = Some els) as Hg.
  { destruct (table_get tab path) as [els'|] eqn:E; cbn in Hs; [|vm_compute in Hs; congruence]. injection Hs as <-.
    rewrite String.eqb_refl in Hr. cbn in Hr. congruence. }
  clear Hs Hr.
  assert (Hk : (path, els) ∈ tab).
  { clear H. induction tab as [|[k v] tab IH]; [done|]. cbn in Hg.
    destruct (String.eqb_spec k path) as [->|]; [injection Hg as ->; constructor|]. constructor. by apply IH. }
  rewrite List.forallb_forall in H. apply elem_of_list_In in Hk. specialize (H _ Hk). cbn in H.
  rewrite List.forallb_forall in H. apply elem_of_list_In in Hin. specialize (H _ Hin).
  apply List.existsb_exists in H as (x & Hx & Hxe). apply String.eqb_eq in Hxe as ->. by apply elem_of_list_In.
Qed.

Example C67_example :
  env_ok (table_env own_files) /\ (exists s, new_registry (table_env own_files) 2 = Ret (inr s)) /\
  env_ok (table_env torn_files) /\ closed_under_imports (table_env torn_files) [desc_f; any_f; "gone.proto"] /\
  readable (table_env torn_files) desc_f (desc2 "gone.proto") /\
  import_chain empty_registry (table_env torn_files) desc_f "gone.proto" /\
  (forall els, ~ readable (table_env torn_files) "gone.proto" els) /\
  (forall els, ~ readable (table_env [(any_f, any_elems)]) desc_f els).
Proof.
  split; [apply table_env_ok; vm_compute; reflexivity|].
  split. { assert (H : match new_registry (table_env own_files) 2 with Ret (inr _) => true | _ => false end = true)
             by (vm_compute; reflexivity).
    revert H. generalize (new_registry (table_env own_files) 2).
    intros [[m|s]|m|] H; [discriminate H|exists s; reflexivity|discriminate H|discriminate H]. }
  split; [apply table_env_ok; vm_compute; reflexivity|].
  assert (Hr : readable (table_env torn_files) desc_f (desc2 "gone.proto"))
    by (apply table_readable; [vm_compute; reflexivity|discriminate]).
  split.
  { intros path els path' Hp Hre Hi.
    apply elem_of_cons in Hp as [->|Hp]; [|apply elem_of_cons in Hp as [->|Hp]; [|apply elem_of_cons in Hp as [->|Hp]]].
    - rewrite (readable_fun _ _ _ _ Hr Hre) in Hi. cbn in Hi. set_solver.
    - assert (Hr' : readable (table_env torn_files) any_f any_elems)
        by (apply table_readable; [vm_compute; reflexivity|discriminate]).
      rewrite (readable_fun _ _ _ _ Hr' Hre) in Hi. cbn in Hi. set_solver.
    - destruct (table_not_readable torn_files "gone.proto" eq_refl _ Hre).
    - by apply elem_of_nil in Hp. }
  split; [exact Hr|].
  split; [eapply chain_step; [apply chain_self|reflexivity|exact Hr|cbn; set_solver]|].
  split; apply table_not_readable; vm_compute; reflexivity.
Qed.

Example C68_example :
  reachable (start demo_files) /\ env_ok demo_env /\ closed_under_imports demo_env (map fst demo_files) /\
  dat_f ∈ map fst demo_files /\ all_readable demo_env (start demo_files) (map fst demo_files) /\
  length (map fst demo_files) = 4.
Proof.
  split; [apply start_history, demo_starts|]. split; [apply demo_env_ok|].
  split; [apply table_closed; vm_compute; reflexivity|]. split; [cbn; set_solver|].
  split; [|reflexivity]. intros path Hp. right.
  assert (exists els, table_get demo_files path = Some els /\ path <> "") as (els & H1 & H2).
  { change (path ∈ [desc_f; any_f; dat_f; meta_f]) in Hp.
    repeat (apply elem_of_cons in Hp as [->|Hp]; [eexists; split; [vm_compute; reflexivity|discriminate]|]).
    by apply elem_of_nil in Hp. }
  exists els. by apply table_readable.
Qed.
