(** * A name that is declared again: C85. *)
From Verif Require Export ThmPoison.
From Verif Require Import Worlds Frame Iterate Demo Identity Nodes LoadFacts Loading Loader Visit Api.
Local Open Scope go_scope.

(** ** The specification *)

(** The element [p] belongs to a file that is loaded in [s1] and was not in [s]. *)
Definition newly_loaded (s s1 : registry) (p : ptr) : Prop :=
  exists path f, loaded s1 path p.1 f /\ forall n, ~ available s path n.

(** ** Proofs: the loader does not read the names *)

Record besides (N : gmap string ptr) (s s' : registry) : Prop := mkBesides {
  be_heap : heap s = heap s'; be_protos : protos s = protos s'; be_scopes : scopes s = scopes s';
  be_cache : cache s = cache s'; be_ftcache : ftcache s = ftcache s'; be_next : next s = next s';
  be_names : names s = names s' ∪ N
}.
Section besides.
  Variable N : gmap string ptr.
  Definition blind {A} (m : R A) : Prop :=
    forall s s', besides N s s' -> (m s).1 = (m s').1 /\ besides N (m s).2 (m s').2.
  Lemma blind_ret {A} (x : A) : blind (ret x).
  Proof. by intros s s' B. Qed.
  Lemma blind_panic {A} v : blind (panic v : R A).
  Proof. by intros s s' B. Qed.
  Lemma blind_diverge {A} : blind (diverge : R A).
  Proof. by intros s s' B. Qed.
  Lemma blind_bind {A B} (m : R A) (k : A -> R B) : blind m -> (forall x, blind (k x)) -> blind (rbind m k).
  Proof.
    intros Hm Hk s s' H. destruct (Hm s s' H) as [E X]. unfold rbind.
    destruct (m s) as [o s1], (m s') as [o' s1']. cbn in E, X. subst o'. destruct o as [x|v|]; [|done..].
    by apply Hk.
  Qed.
  Lemma blind_get {A} (k : registry -> R A) :
    (forall s s', besides N s s' -> (k s s).1 = (k s' s').1 /\ besides N (k s s).2 (k s' s').2) -> blind (rbind get k).
  Proof. intros H s s' B. rewrite !rbind_get. by apply H. Qed.
  Lemma blind_name q p : blind (put_name q p).
  Proof. intros s s' []. split; [done|]. constructor; cbn; try done. rewrite be_names0. by rewrite insert_union_l. Qed.
  Lemma blind_scope k q : blind (put_scope k q).
  Proof. intros s s' []. split; [done|]. constructor; cbn; try done. by rewrite be_scopes0. Qed.
  Lemma blind_alloc : blind alloc.
  Proof. intros s s' []. unfold alloc. cbn. split; [by rewrite be_next0|]. constructor; cbn; try done. by rewrite be_next0. Qed.
  Lemma blind_deref p : blind (deref p).
  Proof.
    apply blind_get. intros s s' B.
    assert (E : heap_at s p = heap_at s' p) by (unfold heap_at; by rewrite (be_heap _ _ _ B)).
    rewrite E. by destruct (heap_at s' p).
  Qed.
  Lemma blind_new_file g : blind (new_file g).
  Proof. apply blind_bind; [apply blind_alloc|intros a; apply blind_ret]. Qed.
  Lemma blind_proto_file e path : blind (proto_file e path).
  Proof.
    apply blind_get. intros s s' B. pose proof B as []. rewrite be_protos0.
    destruct (protos s' !! path); [done|]. destruct (find_name _ _) as [|name]; [done|].
    destruct (String.eqb name ""); [done|]. destruct (e_read _ _ _) as [|els]; [done|].
    unfold rbind, modify, ret. cbn. rewrite be_heap0. split; [done|].
    constructor; cbn; try done; congruence.
  Qed.
  Lemma blind_visit imp t : (forall path, blind (imp path)) -> forall v p, blind (visit imp v p t).
  Proof.
    intros Himp. induction t as [d ps c kids IH] using tree_nested_ind. intros v p.
    assert (Hk : forall v i, blind (visit_list imp p v i kids)).
    { induction IH as [|k l Hk _ IHl]; intros w i; cbn [visit_list]; [apply blind_ret|].
      apply blind_bind; [apply Hk|intros w'; apply IHl]. }
    destruct d; cbn [visit];
      repeat first [apply blind_ret | apply blind_name | apply blind_scope | apply Himp | apply Hk
        | (match goal with |- context [if ?b then _ else _] => destruct b end)
        | (apply blind_bind; [|intros ?])].
  Qed.
  Lemma blind_import e fuel : forall path, blind (import_file e fuel path).
  Proof.
    induction fuel as [|fuel IH]; intros path; cbn [import_file]; [apply blind_diverge|].
    apply blind_get. intros s s' B. rewrite (be_protos _ _ _ B). destruct (protos s' !! path); [done|].
    revert s s' B. apply blind_bind; [apply blind_proto_file|]. intros [err|g]; [apply blind_panic|].
    apply blind_bind; [apply blind_deref|]. intros t.
    apply blind_bind; [by apply blind_visit|]. intros _. apply blind_ret.
  Qed.
  Lemma blind_proto e fuel path : blind (proto e fuel path).
  Proof.
    apply blind_get. intros s s' B. rewrite (be_protos _ _ _ B).
    assert (Hn : forall g, blind (f <~ new_file g ;; ret (inr f) : R (error + node))).
    { intros g. apply blind_bind; [apply blind_new_file|intros f; apply blind_ret]. }
    destruct (protos s' !! path) as [g|]; [by apply Hn|].
    revert s s' B. apply blind_bind.
    - unfold demark_file. apply blind_bind; [apply blind_proto_file|]. intros [err|g]; [apply blind_ret|].
      apply blind_bind; [apply blind_deref|]. intros t.
      apply blind_bind; [by apply blind_visit, blind_import|]. intros _. apply blind_ret.
    - intros [err|]; [apply blind_ret|]. apply blind_get. intros s s' B. rewrite (be_protos _ _ _ B).
      destruct (protos s' !! path); [by apply Hn|done].
  Qed.
End besides.

Definition erased (s : registry) : registry := set_names ∅ s.
Lemma erased_besides s : besides (names s) s (erased s).
Proof. constructor; cbn; try done. by rewrite (left_id_L ∅ (∪)). Qed.
Lemma erased_schema s : schema s -> schema (erased s).
Proof. intros []. constructor; cbn; auto. intros q p H. by rewrite lookup_empty in H. Qed.

Lemma heap_new s path g f s1 :
  schema s -> schema s1 -> grows s s1 -> loaded s1 path g f -> (forall n, ~ available s path n) -> length (heap s) <= g.
Proof.
  intros S S1 G (L1 & L2 & L3) Hav. destruct (decide (g < length (heap s))) as [Hlt|]; [|lia]. exfalso.
  apply available_protos in Hav; [|done].
  pose proof (ext_heap_back _ _ _ _ _ G Hlt L2) as H.
  destruct (proj1 (sc_protos _ S1 path g) L1) as [els H']. rewrite L2 in H'. injection H' as ->.
  assert (protos s !! path = Some g) by (apply (sc_protos _ S); by eexists). congruence.
Qed.
Lemma new_is_newly s s1 p f : schema s -> schema s1 -> grows s s1 ->
  length (heap s) <= p.1 -> heap s1 !! p.1 = Some f -> newly_loaded s s1 p.
Proof.
  intros S S1 G Hge Hf. destruct (heap_loaded _ _ _ S1 Hf) as [path Hl]. exists path, f. split; [done|].
  apply available_protos; [done|]. destruct (protos s !! path) as [g|] eqn:E; [|done]. exfalso.
  pose proof (ext_protos _ _ _ G _ _ E) as E1. destruct Hl as (L1 & _). assert (g = p.1) as -> by congruence.
  destruct (proj1 (sc_protos _ S path p.1) E) as [els H]. apply lookup_lt_Some in H. lia.
Qed.

Lemma new_names e fuel path s f s1 g f' π q :
  schema s -> env_ok e -> proto e fuel path s = (Ret (inr f), s1) ->
  length (heap s) <= g -> heap s1 !! g = Some f' -> fqn_here f' π = Some q ->
  exists p, names s1 !! q = Some p /\ length (heap s) <= p.1.
Proof.
  intros S He E Hg Hf Hq.
  destruct (blind_proto (names s) e fuel path s (erased s) (erased_besides s)) as [E1 B].
  rewrite E in E1, B. destruct (proto e fuel path (erased s)) as [o' s1'] eqn:E'. cbn in E1, B. subst o'.
  pose proof (erased_schema s S) as Se.
  destruct (proto_ok e fuel path (erased s) _ s1' He Se E') as (S1 & _ & P).
  rewrite (be_heap _ _ _ B) in Hf.
  assert (Hnm : exists p, names s1' !! q = Some p).
  { inversion P as [g0 Hg0 Ef| |els s2 Hp Hr H1 H2 H3 D|els o s2 Hp Hr H1 H2 H3 D]; subst.
    - cbn in Hf. apply lookup_lt_Some in Hf. lia.
    - cbn in Hf, D |- *.
      assert (Hlt : g < length (heap s2)) by (by eapply lookup_lt_Some).
      exact (dn_names _ _ (D g (conj Hg Hlt)) f' π q Hf Hq).
    - exfalso. by eapply D. }
  destruct Hnm as [p Hp]. exists p. split.
  - rewrite (be_names _ _ _ B). by apply lookup_union_Some_l.
  - pose proof (later_named (length (heap s)) (proto e fuel path) (cl_proto Loads e fuel path eq_refl He) (erased s)) as M.
    rewrite E' in M. cbn [snd] in M.
    assert (P1 : pre (length (heap s)) (bad_away none_bad) (erased s)) by (split; [done|intros ? []]).
    destruct (nw_names _ _ _ _ _ (M P1) _ _ Hp) as [H|(f2 & H2 & [H|[H _]])]; [|exfalso|done].
    + cbn in H. by rewrite lookup_empty in H.
    + destruct (sc_names _ S1 _ _ Hp) as (f3 & H3 & H4). rewrite H in H4.
      destruct (sc_heap _ S1 _ _ H3) as (pth & els & -> & _). discriminate H4.
Qed.

(** ** C85 *)

(** A load that returns a file: every name declared in a file that the load has added is, from then on,
    the name of an element of such a file, whatever else declares it. *)
Theorem C85_new_files_win s e fuel path f s1 path' g t π q :
  reachable s -> env_ok e -> proto e fuel path s = (Ret (inr f), s1) ->
  loaded s1 path' g t -> (forall n, ~ available s path' n) -> package_first (t_kids t) = true -> fqn t π = Some q ->
  exists k a p s2, node_by_full_name q s1 = (Ret (Some (NAst k a p)), s2) /\ newly_loaded s s1 p.
Proof.
  intros Hs He E Hl Hav Hpf Hq. pose proof (proj1 (reachable_Inv _ Hs)) as S.
  destruct (proto_ok e fuel path s _ s1 He S E) as (S1 & G & _).
  rewrite (loaded_fqn _ _ _ _ _ S1 Hl Hpf) in Hq.
  pose proof (heap_new _ _ _ _ _ S S1 G Hl Hav) as Hge.
  destruct (new_names _ _ _ _ _ _ _ _ _ _ S He E Hge (proj1 (proj2 Hl)) Hq) as (p & Hp & Hpg).
  assert (Hs1 : reachable s1).
  { assert (H : reachable (proto e fuel path s).2) by (apply (hist_client Loads _ _ s); [exact Hs|by apply cl_proto]).
    by rewrite E in H. }
  destruct (lookup_named _ _ _ (reachable_Inv _ Hs1) Hp) as (f' & t' & k & a & s2 & Hf' & _ & _ & _ & H & _).
  exists k, a, p, s2. split; [done|]. by eapply new_is_newly.
Qed.

(** Conversely, whatever a program does, the answer for a name changes only to an element of a file that
    it has loaded. *)
Theorem C85_only_new_files s {A} (m : R A) o s1 q k a p :
  reachable s -> client Loads m -> m s = (o, s1) -> found s q (NAst k a p) ->
  exists k' a' p', found s1 q (NAst k' a' p') /\ (p' = p /\ k' = k \/ newly_loaded s s1 p').
Proof.
  intros Hs Hm E F. pose proof (reachable_Inv _ Hs) as I. pose proof (proj1 I) as S.
  assert (Hs1 : reachable s1).
  { assert (H : reachable (m s).2) by (apply (hist_client Loads _ _ s); [exact Hs|exact Hm]). by rewrite E in H. }
  pose proof (reachable_Inv _ Hs1) as I1.
  unfold found in F. destruct (node_by_full_name q s) as [o0 s0] eqn:E0. cbn in F. subst o0.
  destruct (found_is_declared _ _ _ _ I E0) as (path & f & t & k0 & a0 & p0 & [= <- <- <-] & Hn & Hl & Hw & _ & Hk).
  destruct (client_good_step Loads m Hm s S) as [S1 G]. rewrite E in S1, G. cbn [snd] in S1, G.
  destruct (ext_names _ _ _ G q (ex_intro _ _ Hn)) as [p' Hn'].
  destruct (lookup_named _ _ _ I1 Hn') as (f' & t' & k' & a' & s2 & Hf' & Hq' & Ht' & Hk' & H & _).
  exists k', a', p'. split; [unfold found; by rewrite H|].
  pose proof (later_named (length (heap s)) m Hm s) as M. rewrite E in M. cbn [snd] in M.
  assert (P1 : pre (length (heap s)) (bad_away none_bad) s) by (split; [done|intros ? []]).
  destruct (nw_names _ _ _ _ _ (M P1) _ _ Hn') as [Ho|(f2 & H2 & [H3|[H3 _]])].
  - left. assert (p' = p) as -> by congruence. split; [done|].
    pose proof (ext_heap_lookup _ _ _ _ _ G (proj1 (proj2 Hl))) as Hx. rewrite Hf' in Hx. injection Hx as ->. congruence.
  - exfalso. rewrite H3 in Hq'. destruct (sc_heap _ S1 _ _ Hf') as (pth & els & -> & _). discriminate Hq'.
  - right. by eapply new_is_newly.
Qed.

(** So an older declaration of the name is no longer found by it, although its NodeIndex is still the name. *)
Theorem C85_old_declaration_lost s e fuel path f s1 path1 g1 t1 π1 u k a path2 g2 t2 π2 q :
  calm s -> env_ok e -> proto e fuel path s = (Ret (inr f), s1) ->
  loaded s path1 g1 t1 -> package_first (t_kids t1) = true -> fqn t1 π1 = Some q ->
  walk t1 π1 = Some u -> represented_by (t_data u) = Some k -> (forall n v, t_data u <> DEnumField n v) ->
  loaded s1 path2 g2 t2 -> (forall n, ~ available s path2 n) -> package_first (t_kids t2) = true ->
  fqn t2 π2 = Some q ->
  node_index (NAst k a (g1, π1)) s1 = (Ret q, s1) /\
  (exists n, found s1 q n) /\ forall k' a' p', found s1 q (NAst k' a' p') -> p' <> (g1, π1).
Proof.
  intros Hs He E Hl1 Hp1 Hq1 Hw Hk Hne Hl2 Hav Hp2 Hq2.
  pose proof (calm_reachable _ Hs) as Hr. pose proof (proj1 (reachable_Inv _ Hr)) as S.
  destruct (proto_ok e fuel path s _ s1 He S E) as (S1 & G & _).
  assert (Hl1' : loaded s1 path1 g1 t1).
  { destruct Hl1 as (L1 & L2 & L3). split; [by eapply ext_protos|]. split; [by eapply ext_heap_lookup|done]. }
  split.
  { apply (C06_index_is_qualified_name s1 path1 g1 t1 π1 q u k a); try done; [|by left]. by eapply calm_loads. }
  destruct (C85_new_files_win s e fuel path f s1 path2 g2 t2 π2 q Hr He E Hl2 Hav Hp2 Hq2)
    as (k' & a' & p' & s2 & E2 & (path' & f' & Hl' & Hav')).
  split; [eexists; unfold found; by rewrite E2|].
  intros k2 a2 p2 F ->. unfold found in F. rewrite E2 in F. cbn in F. injection F as -> -> ->. cbn in Hl'.
  destruct Hl' as (L1 & L2 & L3). destruct Hl1 as (M1 & M2 & M3). destruct Hl1' as (_ & N2 & _).
  assert (t1 = f') as -> by congruence. assert (path' = path1) as -> by congruence.
  eapply Hav'. eapply loaded_available. by split.
Qed.

(** The same file under two paths. *)
Definition copy_elems (path : string) : list tree :=
  [ el path 1 (DPackage "p") []; msg path 2 "M" [] ].
Definition copy_files : list (string * list tree) :=
  (std_files ++ [("one.proto", copy_elems "one.proto"); ("x/one.proto", copy_elems "x/one.proto")])%list.
Definition copy_env := table_env copy_files.
Definition one_copy : registry := (proto copy_env 50 "one.proto" (start copy_files)).2.
Definition two_copies : registry := (proto copy_env 50 "x/one.proto" one_copy).2.
Lemma copy_starts : starts copy_files = true.
Proof. vm_compute. reflexivity. Qed.
Lemma copy_env_ok : env_ok copy_env.
Proof. apply table_env_ok. vm_compute. reflexivity. Qed.
Lemma returned_b (m : R (error + node)) x :
  (match (m x).1 with Ret (inr _) => true | _ => false end) = true -> exists f, m x = (Ret (inr f), (m x).2).
Proof. destruct (m x) as [[[]| |]]; cbn; try discriminate. by eexists. Qed.
Example C85_example : exists f u k a,
  calm one_copy /\ reachable one_copy /\ env_ok copy_env /\
  proto copy_env 50 "x/one.proto" one_copy = (Ret (inr f), two_copies) /\
  loaded one_copy "one.proto" 1 (file_tree "one.proto" (copy_elems "one.proto")) /\
  package_first (copy_elems "one.proto") = true /\
  fqn (file_tree "one.proto" (copy_elems "one.proto")) [1] = Some ".p.M" /\
  walk (file_tree "one.proto" (copy_elems "one.proto")) [1] = Some u /\
  represented_by (t_data u) = Some k /\ (forall n v, t_data u <> DEnumField n v) /\
  found one_copy ".p.M" (NAst k a (1, [1])) /\
  loaded two_copies "x/one.proto" 2 (file_tree "x/one.proto" (copy_elems "x/one.proto")) /\
  (forall n, ~ available one_copy "x/one.proto" n) /\ package_first (copy_elems "x/one.proto") = true /\
  fqn (file_tree "x/one.proto" (copy_elems "x/one.proto")) [1] = Some ".p.M".
Proof.
  assert (E1 : exists f, proto copy_env 50 "one.proto" (start copy_files) = (Ret (inr f), one_copy)).
  { apply returned_b. vm_compute. reflexivity. }
  assert (E2 : exists f, proto copy_env 50 "x/one.proto" one_copy = (Ret (inr f), two_copies)).
  { apply returned_b. vm_compute. reflexivity. }
  assert (Hn : forall n, ~ available one_copy "x/one.proto" n).
  { intros n. apply (refused_ok (mkEnv [] (fun _ _ => inl not_exist))). vm_compute. reflexivity. }
  assert (Hf : exists a, found one_copy ".p.M" (NAst KMessage a (1, [1]))).
  { eexists. unfold found. vm_compute. reflexivity. }
  assert (Hl1 : loaded one_copy "one.proto" 1 (file_tree "one.proto" (copy_elems "one.proto"))).
  { split; [|split]; vm_compute; reflexivity. }
  assert (Hl2 : loaded two_copies "x/one.proto" 2 (file_tree "x/one.proto" (copy_elems "x/one.proto"))).
  { split; [|split]; vm_compute; reflexivity. }
  destruct E1 as [f1 E1], E2 as [f2 E2], Hf as [a Hf].
  assert (Hc : calm one_copy) by (exact (calm_loads _ _ _ _ _ _ (start_history _ _ copy_starts) copy_env_ok E1)).
  exists f2, (msg "one.proto" 2 "M" []), KMessage, a.
  split; [exact Hc|]. split; [exact (calm_reachable _ Hc)|]. split; [exact copy_env_ok|].
  split; [exact E2|]. split; [exact Hl1|]. split; [reflexivity|]. split; [reflexivity|]. split; [reflexivity|].
  split; [reflexivity|]. split; [intros n v; discriminate|]. split; [exact Hf|]. split; [exact Hl2|].
  split; [exact Hn|]. split; reflexivity.
Qed.
