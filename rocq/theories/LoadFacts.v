(** * Facts about loading behind the property theorems C01-C13. *)
From Verif Require Export Nodes Observe.

(** ** Vocabulary *)

Lemma loaded_schema s path g f :
  schema s -> loaded s path g f <-> exists els, f = file_tree path els /\ heap s !! g = Some f.
Proof.
  intros S. split.
  - intros (Hp & Hf & Hd). apply (sc_protos _ S) in Hp as [els Hels].
    exists els. split; [congruence|done].
  - intros (els & -> & Hf). split; [|by split]. apply (sc_protos _ S). eauto.
Qed.
Lemma loaded_protos s path g :
  schema s -> protos s !! path = Some g -> exists f, loaded s path g f.
Proof.
  intros S Hp. pose proof Hp as Hp'. apply (sc_protos _ S) in Hp as [els Hels].
  exists (file_tree path els). by split.
Qed.
Lemma heap_loaded s g f : schema s -> heap s !! g = Some f -> exists path, loaded s path g f.
Proof.
  intros S Hf. destruct (sc_heap _ S _ _ Hf) as (path & els & -> & _).
  exists path. apply loaded_schema; eauto.
Qed.
Lemma loaded_grows s s' path g f : grows s s' -> loaded s path g f -> loaded s' path g f.
Proof.
  intros E (Hp & Hf & Hd). split; [by eapply ext_protos|].
  split; [by eapply ext_heap_lookup|done].
Qed.
Lemma loaded_fun s path g g' f f' :
  loaded s path g f -> loaded s path g' f' -> g' = g /\ f' = f.
Proof. intros (A1 & A2 & _) (B1 & B2 & _). assert (g' = g) by congruence. split; congruence. Qed.
Lemma loaded_path s path path' g f f' :
  loaded s path g f -> loaded s path' g f' -> path' = path /\ f' = f.
Proof.
  intros (A1 & A2 & A3) (B1 & B2 & B3). assert (f' = f) by congruence. split; congruence.
Qed.
Lemma loaded_available s path g f :
  loaded s path g f -> available s path (NAst KFile (next s) (root g)).
Proof.
  intros (Hp & _). exists (set_next (next s + 1)%N s). intros e fuel.
  unfold proto. rewrite rbind_get, Hp. done.
Qed.
Lemma available_loaded s path n :
  schema s -> available s path n ->
  exists g f, loaded s path g f /\ n = NAst KFile (next s) (root g).
Proof.
  intros S [s' H].
  destruct (protos s !! path) as [g|] eqn:Hp.
  - destruct (loaded_protos s path g S Hp) as [f Hf]. exists g, f. split; [done|].
    specialize (H (mkEnv [] (fun _ _ => inl (ENew ""))) 0). unfold proto in H.
    rewrite rbind_get, Hp in H. cbn in H. by injection H as <- _.
  - specialize (H (mkEnv [] (fun _ _ => inl (ENew ""))) 0). unfold proto in H.
    rewrite rbind_get, Hp in H. unfold demark_file, proto_file in H. unfold rbind in H.
    cbn in H. rewrite Hp in H. cbn in H. discriminate H.
Qed.

(** ** Resolvers *)

Lemma find_name_spec rs path :
  match find_name rs path with
  | inr name =>
      (Forall (fun x => not_there (x.2 path)) rs /\ name = "") \/
      (exists pre r post, rs = (pre ++ r :: post)%list /\
         Forall (fun x => not_there (x.2 path)) pre /\ r.2 path = RName name)
  | inl msg =>
      exists pre r post e, rs = (pre ++ r :: post)%list /\
        Forall (fun x => not_there (x.2 path)) pre /\ r.2 path = RError e /\
        error_is err_not_exist e = false /\ msg = EWrap ("resolve proto file path with " +:+ r.1) e
  end.
Proof.
  induction rs as [|[nm ask] rs IH]; cbn [find_name]; [by left|].
  destruct (ask path) as [name|e] eqn:Ha; [|destruct (error_is err_not_exist e) eqn:He].
  - right. exists [], (nm, ask), rs. done.
  - destruct (find_name rs path) as [msg|name].
    + destruct IH as (pre & r & post & e0 & -> & H1 & H2 & H3).
      exists ((nm, ask) :: pre), r, post, e0. split; [done|]. split; [|done].
      constructor; [by exists e|done].
    + destruct IH as [[H1 H2]|(pre & r & post & -> & H1 & H2)].
      * left. split; [|done]. constructor; [by exists e|done].
      * right. exists ((nm, ask) :: pre), r, post. split; [done|]. split; [|done].
        constructor; [by exists e|done].
  - exists [], (nm, ask), rs, e. done.
Qed.
Lemma find_name_skip pre rs path :
  Forall (fun x => not_there (x.2 path)) pre -> find_name (pre ++ rs) path = find_name rs path.
Proof.
  induction 1 as [|[nm ask] pre (e & Hx & He) _ IH]; [done|]. cbn in Hx |- *. rewrite Hx, He. exact IH.
Qed.
Lemma serves_find e path name : serves e path name -> find_name (e_resolvers e) path = inr name.
Proof.
  intros (pre & [nm ask] & post & -> & H1 & H2). rewrite find_name_skip by done.
  cbn in H2 |- *. by rewrite H2.
Qed.
Lemma fails_find e path who err : resolver_fails e path who err ->
  find_name (e_resolvers e) path =
  inl (EWrap ("resolve proto file path with " +:+ who) err).
Proof.
  intros (pre & [nm ask] & post & -> & H1 & H2 & H3 & H4). rewrite find_name_skip by done.
  cbn in H2, H3 |- *. rewrite H3, H4. by subst.
Qed.
Lemma nobody_find e path : nobody_knows e path -> find_name (e_resolvers e) path = inr "".
Proof.
  intros H. rewrite <- (app_nil_r (e_resolvers e)), find_name_skip by done. done.
Qed.
Lemma reads_readable e path els : reads e path els <-> readable e path els.
Proof.
  split.
  - intros (name & Hf & Hn & Hr). exists name. split; [|done].
    pose proof (find_name_spec (e_resolvers e) path) as H. rewrite Hf in H.
    destruct H as [[_ H]|H]; [done|]. exact H.
  - intros (name & Hs & Hn & Hr). exists name. split; [by apply serves_find|done].
Qed.
Lemma readable_fun e path els els' : readable e path els -> readable e path els' -> els' = els.
Proof.
  rewrite <- !reads_readable. intros (n1 & A1 & A2 & A3) (n2 & B1 & B2 & B3). congruence.
Qed.
Lemma closed_import_closed e U : closed_under_imports e U -> import_closed e U.
Proof. intros H path els Hin Hr path' Hp. eapply H; eauto. by apply reads_readable. Qed.

(** ** C01, C03 *)

Lemma proto_returns_loaded e fuel path s f s1 :
  env_ok e -> schema s -> proto e fuel path s = (Ret (inr f), s1) ->
  exists g t, f = NAst KFile (next s) (root g) /\ loaded s1 path g t /\
    (forall els, protos s !! path = None -> readable e path els -> t = file_tree path els).
Proof.
  intros He S E. destruct (proto_ok e fuel path s _ s1 He S E) as (S1 & G & P).
  inversion P as [g Hg H1 H2|err Hp Hr H1 H2|els s2 Hp Hr H1 H2 H3 H4 H5 H6
                  |els o s2 Hp Hr H1 H2 H3 H4 H5 H6]; subst.
  - destruct (loaded_protos s path g S Hg) as [t Ht]. exists g, t. split; [done|].
    split; [by eapply loaded_grows|]. congruence.
  - exists (length (heap s)), (file_tree path els). split; [done|].
    split; [by split|]. intros els' _ Hr'. apply reads_readable in Hr.
    by rewrite (readable_fun _ _ _ _ Hr' Hr).
  - by edestruct H4.
Qed.

Lemma stays_loaded s e fuel path f s1 {A} (m : R A) o s2 :
  reachable s -> env_ok e -> proto e fuel path s = (Ret (inr f), s1) ->
  client Loads m -> m s1 = (o, s2) ->
  exists g a a' t,
    f = NAst KFile a (root g) /\ loaded s1 path g t /\
    available s2 path (NAst KFile a' (root g)) /\ loaded s2 path g t.
Proof.
  intros Hs He E Hm Em. destruct (reachable_Inv s Hs) as [S _].
  destruct (proto_returns_loaded _ _ _ _ _ _ He S E) as (g & t & -> & Ht & _).
  assert (R1 : reachable s1).
  { eapply client_reachable; [exact Hs| |exact E]. by apply cl_proto. }
  destruct (client_inv_step _ _ Hm s1 (reachable_Inv _ R1)) as [_ G]. rewrite Em in G.
  pose proof (loaded_grows _ _ _ _ _ G Ht) as Ht2.
  exists g, (next s), (next s2), t. split; [done|]. split; [done|].
  split; [by eapply loaded_available|done].
Qed.

Lemma parsed_once s g1 g2 path els1 els2 :
  reachable s -> heap s !! g1 = Some (file_tree path els1) ->
  heap s !! g2 = Some (file_tree path els2) -> g1 = g2.
Proof.
  intros Hs H1 H2. destruct (reachable_Inv s Hs) as [S _].
  assert (protos s !! path = Some g1) by (apply (sc_protos _ S); eauto).
  assert (protos s !! path = Some g2) by (apply (sc_protos _ S); eauto).
  congruence.
Qed.

(** ** C02 *)

Lemma load_terminates e U path s :
  env_ok e -> closed_under_imports e U -> path ∈ U ->
  exists o s', o <> Diverge /\ forall fuel, length U <= fuel -> proto e fuel path s = (o, s').
Proof.
  intros He HU Hin. apply closed_import_closed in HU.
  assert (Hd : (proto e (length U) path s).1 <> Diverge).
  { eapply proto_term; eauto. apply todo_length. }
  destruct (proto e (length U) path s) as [o s'] eqn:E. cbn in Hd.
  exists o, s'. split; [done|]. intros fuel Hf. rewrite <- E.
  apply proto_fuel; [done|]. by rewrite E.
Qed.

(** ** C04 *)

Lemma calm_loads s e fuel path r s1 :
  calm s -> env_ok e -> proto e fuel path s = (Ret r, s1) -> calm s1.
Proof.
  intros Hs He E. eapply (client_history CalmLoads (proto_or_exit e fuel path)); [done| |].
  - by apply cl_proto_or_exit.
  - unfold proto_or_exit. by rewrite E.
Qed.
Lemma imports_loaded s path path' g f :
  calm s -> loaded s path g f -> imports_from s path path' -> exists g' f', loaded s path' g' f'.
Proof.
  intros Hs Hl Hi. destruct (calm_complete s Hs) as [S C].
  induction Hi as [path|path path' path'' g' f' _ _ Hl' Hin]; [eauto|].
  destruct Hl' as (Hp & Hf & Hd).
  assert (Hlt : g' < length (heap s)) by (by apply lookup_lt_Some in Hf).
  destruct (dn_imports _ _ (C g' Hlt) f' path'' Hf Hin) as [g'' Hg''].
  destruct (loaded_protos s path'' g'' S Hg'') as [f'' Hf'']. eauto.
Qed.

(** ** Names *)

Lemma loaded_fqn s path g f π :
  schema s -> loaded s path g f -> package_first (t_kids f) = true ->
  fqn f π = fqn_here f π.
Proof.
  intros S Hl Hp. pose proof Hl as Hl'. apply loaded_schema in Hl as (els & -> & Hf); [|done].
  destruct (sc_heap _ S _ _ Hf) as (path' & els' & Heq & Hwf & _).
  injection Heq as <- <-. symmetry. by apply fqn_here_fqn.
Qed.

Lemma own_name_wrap d n : own_name d = Some n -> exists k, wrap_kind d = Some k.
Proof. destruct d; cbn; intros H; try discriminate H; eauto. Qed.

Lemma fqn_here_walk f π q : fqn_here f π = Some q ->
  exists t n, walk f π = Some t /\ own_name (t_data t) = Some n.
Proof.
  unfold fqn_here. destruct (walk f π) as [t|]; [|done].
  destruct (own_name (t_data t)) as [n|] eqn:Hn; [|done]. eauto.
Qed.

Lemma lookup_named s q (p : ptr) :
  Inv s -> names s !! q = Some p ->
  exists f t k a s', heap s !! p.1 = Some f /\ fqn_here f p.2 = Some q /\
    walk f p.2 = Some t /\ wrap_kind (t_data t) = Some k /\
    node_by_full_name q s = (Ret (Some (NAst k a p)), s') /\ quiet s s' /\ nodes s' /\
    cache s' !! VPtr p = Some (Some (NAst k a p)).
Proof.
  intros [S N] Hq. destruct (sc_names _ S _ _ Hq) as (f & Hf & Hfq).
  destruct (fqn_here_walk _ _ _ Hfq) as (t & n & Ht & Hn).
  destruct (own_name_wrap _ _ Hn) as [k Hk].
  assert (Hat : heap_at s p = Some t) by (unfold heap_at; by rewrite Hf).
  destruct (wrap_ok s p t k N Hat Hk) as (a & s' & E & Q & N' & Hc).
  exists f, t, k, a, s'. split; [done|]. split; [done|]. split; [done|]. split; [done|].
  split; [|done]. unfold node_by_full_name. rewrite rbind_get. rewrite Hq. exact E.
Qed.

(** C08 *)
Lemma found_is_declared s q n s' :
  Inv s -> node_by_full_name q s = (Ret (Some n), s') ->
  exists path f t k a p, n = NAst k a p /\ names s !! q = Some p /\
    loaded s path p.1 f /\ walk f p.2 = Some t /\ fqn_here f p.2 = Some q /\
    wrap_kind (t_data t) = Some k.
Proof.
  intros [S N] E. unfold node_by_full_name in E. rewrite rbind_get in E.
  destruct (wrap_ret _ _ _ _ N E) as (p & k & a & t & Hv & -> & Ht & Hk & _).
  destruct (names s !! q) as [p'|] eqn:Hq; [|discriminate Hv]. injection Hv as ->.
  destruct (sc_names _ S _ _ Hq) as (f & Hf & Hfq).
  destruct (heap_loaded s p.1 f S Hf) as [path Hl].
  exists path, f, t, k, a, p. unfold heap_at in Ht. rewrite Hf in Ht. done.
Qed.

(** C05 *)
Lemma declared_found s path g f π q :
  calm s -> loaded s path g f -> fqn_here f π = Some q ->
  exists p k a s', names s !! q = Some p /\
    node_by_full_name q s = (Ret (Some (NAst k a p)), s').
Proof.
  intros Hs (_ & Hf & _) Hq. destruct (calm_complete s Hs) as [S C].
  assert (Hlt : g < length (heap s)) by (by apply lookup_lt_Some in Hf).
  destruct (dn_names _ _ (C g Hlt) f π q Hf Hq) as [p Hp].
  pose proof (history_Inv _ s Hs) as HI.
  destruct (lookup_named s q p HI Hp) as (f' & t & k & a & s' & _ & _ & _ & _ & E & _).
  exists p, k, a, s'. done.
Qed.

Lemma unique_ptr s path g f π q (p : ptr) :
  schema s -> unique_names s -> packages_first s -> loaded s path g f -> fqn f π = Some q ->
  names s !! q = Some p -> p = (g, π).
Proof.
  intros S Hu Hpf Hl Hq Hp. destruct (sc_names _ S _ _ Hp) as (f' & Hf' & Hq').
  destruct (heap_loaded s p.1 f' S Hf') as [path' Hl'].
  rewrite <- (loaded_fqn s path' p.1 f' p.2) in Hq' by eauto.
  destruct p as [g' π']. cbn in *.
  destruct (Hu path g f π path' g' f' π' q Hl Hl' Hq Hq') as [-> ->]. done.
Qed.

(** C06 *)
Lemma index_scope s path g f π q t k a :
  calm s -> loaded s path g f -> fqn_here f π = Some q -> walk f π = Some t ->
  keeps_scope (t_data t) = true ->
  wrap_kind (t_data t) = Some k \/ k = KOneOf \/ k = KMap ->
  node_index (NAst k a (g, π)) s = (Ret q, s).
Proof.
  intros Hs (_ & Hf & _) Hq Ht Hk Hkind. destruct (calm_complete s Hs) as [S C].
  assert (Hlt : g < length (heap s)) by (by apply lookup_lt_Some in Hf).
  destruct (dn_scopes _ _ (C g Hlt) f π q t Hf Hq Ht Hk) as [q' Hq'].
  destruct (sc_scopes _ S _ _ Hq') as (f' & Hf' & Hg). cbn [fst] in Hf'.
  assert (f' = f) as -> by congruence.
  assert (q' = q) as ->.
  { destruct Hg as [[Hnil _]|[Hg _]]; [|cbn in Hg; congruence].
    cbn in Hnil. subst π. unfold fqn_here in Hq. cbn in Hq.
    destruct (sc_heap _ S _ _ Hf) as (pth & els & -> & _). discriminate Hq. }
  assert (Hsc : scope_of s (VPtr (g, π)) = q) by (unfold scope_of; by rewrite Hq').
  unfold node_index. rewrite rbind_get.
  destruct Hkind as [Hkind|[-> | ->]]; [|by rewrite Hsc..].
  destruct (fqn_here_walk _ _ _ Hq) as (t' & n & Ht' & Hn).
  assert (t' = t) as -> by congruence.
  destruct (t_data t); try discriminate Hn; try discriminate Hk; cbn in Hkind;
    injection Hkind as <-; by rewrite Hsc.
Qed.

Lemma enum_value_index s a p t :
  schema s -> heap_at s p = Some t -> (exists n v, t_data t = DEnumField n v) ->
  node_index (NAst KEnumValue a p) s = (Ret "", s).
Proof.
  intros S Ht (n & v & Hd). unfold node_index. rewrite rbind_get.
  unfold scope_of. destruct (scopes s !! VPtr p) as [q|] eqn:Hq; [|done].
  exfalso. destruct (sc_scopes _ S _ _ Hq) as (f & Hf & Hg).
  unfold heap_at in Ht. rewrite Hf in Ht.
  destruct Hg as [[Hnil _]|(_ & u & Hu & Hk)].
  - rewrite Hnil in Ht. cbn in Ht. injection Ht as ->.
    destruct (sc_heap _ S _ _ Hf) as (pth & els & -> & _). discriminate Hd.
  - rewrite Hu in Ht. injection Ht as ->. rewrite Hd in Hk. discriminate Hk.
Qed.

(** ** C10 *)

Definition only_reads (e : env) (s s' : registry) : Prop :=
  forall path, is_Some (protos s' !! path) ->
    is_Some (protos s !! path) \/ exists els, reads e path els.

Lemma demark_only_reads e fuel path : keeps (only_reads e) (demark_file e fuel path).
Proof.
  apply keeps_demark_file; unfold only_reads; try by auto.
  - intros s1 s2 s3 A B pth H. destruct (B pth H) as [H'|H']; [auto|by right].
  - intros pth els s Hp Hr path'. cbn. destruct (decide (pth = path')) as [->|Hne].
    + right. eauto.
    + rewrite lookup_insert_ne by done. by left.
Qed.

Lemma proto_only_reads e fuel path : keeps (only_reads e) (proto e fuel path).
Proof.
  intros s. unfold proto. rewrite rbind_get. destruct (protos s !! path) as [g|] eqn:Hp.
  - intros pth H. by left.
  - pose proof (demark_only_reads e fuel path s) as H. unfold rbind.
    destruct (demark_file e fuel path s) as [[[err|]|m|] s1]; cbn [snd] in *; try exact H.
    cbn. destruct (protos s1 !! path); cbn; exact H.
Qed.

Lemma missing_import_not_returned e fuel path els path' s :
  env_ok e -> schema s -> protos s !! path = None -> readable e path els ->
  path' ∈ import_paths els -> protos s !! path' = None -> (forall els', ~ readable e path' els') ->
  exists s1, ((exists msg, proto e fuel path s = (Panic msg, s1)) \/
              proto e fuel path s = (Diverge, s1)) /\
    loaded s1 path (length (heap s)) (file_tree path els).
Proof.
  intros He S Hp Hr Hin Hp' Hr'. destruct (proto e fuel path s) as [o s1] eqn:E.
  destruct (proto_ok e fuel path s o s1 He S E) as (S1 & G & P).
  pose proof (proto_only_reads e fuel path s) as Hor. rewrite E in Hor. cbn in Hor.
  apply reads_readable in Hr.
  destruct P as [g Hg|err Hpn Hn|els2 s2 Hpn Hr2 H1 H2 H3 H4|els2 o s2 Hpn Hr2 H1 H2 H3 H4].
  - congruence.
  - exfalso. by eapply Hn.
  - exfalso. assert (els2 = els) as -> by (eapply readable_fun; apply reads_readable; eauto).
    assert (Hd : done s2 (length (heap s))).
    { apply H4. split; [lia|]. by apply lookup_lt_Some in H1. }
    assert (Hi : is_Some (protos s2 !! path')) by (eapply dn_imports; eauto).
    destruct (Hor path' Hi) as [[x Hx]|[els' Hx]]; [congruence|].
    eapply Hr'. by apply reads_readable.
  - assert (els2 = els) as -> by (eapply readable_fun; apply reads_readable; eauto).
    exists s2. split; [|by split].
    destruct o as [x|msg|]; [by edestruct H4|left; eauto|by right].
Qed.

(** ** NodeIndex of files *)

Definition dom_grows (s s' : registry) : Prop :=
  forall v, is_Some (scopes s !! v) -> is_Some (scopes s' !! v).
Lemma dom_grows_insert v q s : dom_grows s (set_scopes (<[v := q]> (scopes s)) s).
Proof.
  intros v' H. cbn. destruct (decide (v = v')) as [->|Hne];
    [rewrite lookup_insert; eauto|by rewrite lookup_insert_ne].
Qed.
Lemma import_dom_grows e fuel path : keeps dom_grows (import_file e fuel path).
Proof.
  apply keeps_import_file; try (unfold dom_grows; by auto). intros. apply dom_grows_insert.
Qed.
Lemma visit_dom_grows imp v p t : (forall path, keeps dom_grows (imp path)) ->
  keeps dom_grows (visit imp v p t).
Proof.
  intros H. apply keeps_visit; try (unfold dom_grows; by auto). intros. apply dom_grows_insert.
Qed.
Lemma visit_list_dom_grows imp p l : (forall path, keeps dom_grows (imp path)) ->
  forall v i, keeps dom_grows (visit_list imp p v i l).
Proof.
  intros H. induction l as [|t l IH]; intros v i; cbn [visit_list].
  - apply keeps_ret. unfold dom_grows; auto.
  - apply keeps_bind; [unfold dom_grows; auto|by apply visit_dom_grows|]. intros v'. apply IH.
Qed.

Lemma visit_list_package imp g l : (forall path, keeps dom_grows (imp path)) ->
  (forall t, t ∈ l -> allowed (DProto "") (t_data t) = true /\ wf_tree t = true) ->
  forall v i s v' s', v_file v = Some (root g) ->
  visit_list imp (root g) v i l s = (Ret v', s') ->
  (exists t, t ∈ l /\ is_package (t_data t) = true) ->
  is_Some (scopes s' !! VPtr (root g)).
Proof.
  intros Himp. induction l as [|t l IH]; intros Hl v i s v' s' Hv E (u & Hu & Hpk);
    [by inversion Hu|].
  cbn [visit_list] in E. apply rbind_Ret in E as (v1 & s1 & E1 & E2).
  destruct (is_package (t_data t)) eqn:Ht.
  - pose proof (visit_list_dom_grows imp (root g) l Himp v1 (S i) s1) as Hd.
    rewrite E2 in Hd. apply Hd. destruct t as [d ps c kids]. cbn in Ht.
    destruct d; try discriminate Ht. cbn [visit] in E1.
    unfold put_scope in E1. rewrite rbind_modify in E1.
    injection E1 as _ <-.
    assert (Hvf : v_file (if has_prefix name "." then set_scope name v
      else if negb (name =? "")%string then set_scope ("." +:+ name) v else v) = Some (root g)).
    { destruct (has_prefix name "."); [done|]. by destruct (negb (name =? "")%string). }
    rewrite Hvf. cbn [scopes set_scopes]. rewrite lookup_insert. by eexists.
  - assert (Hv1 : v_file v1 = Some (root g)).
    { destruct (Hl t) as [Hal Hwf]; [constructor|].
      destruct (nested (t_data t)) eqn:Hn.
      - destruct (visit_nested imp g t v [i] s Hwf Hn) as (v2 & E3 & _ & V2).
        unfold child, root in E1. cbn [fst snd] in E1. rewrite E3 in E1.
        injection E1 as <- _. by rewrite V2.
      - destruct t as [d ps c kids]. cbn in Ht, Hn, Hal.
        destruct d; try discriminate Hn; try discriminate Hal; try discriminate Ht.
        cbn [visit] in E1. apply rbind_Ret in E1 as (_ & s2 & _ & E3).
        by injection E3 as <- _. }
    eapply IH; eauto.
    + intros t' Ht'. apply Hl. by constructor.
    + exists u. split; [|done]. apply elem_of_cons in Hu as [->|Hu]; [congruence|done].
Qed.

Lemma last_package_first els i t :
  package_first els = true -> els !! i = Some t -> is_package (t_data t) = true ->
  pkg_before els (S i) = file_scope els.
Proof.
  revert i. induction els as [|u els IH]; intros i Hp Hi Ht; [done|].
  cbn [package_first] in Hp. unfold file_scope, the_package. cbn [List.find].
  destruct (is_package (t_data u)) eqn:Hu; cbn in Hp.
  - (* the package statement is the first element *)
    assert (Hno : forallb (fun u => negb (is_package (t_data u))) els = true) by exact Hp.
    destruct i as [|i].
    + unfold pkg_before. cbn [take foldl]. destruct u as [d ps c kids]. cbn in Hu.
      destruct d; try discriminate Hu. unfold pkg_step. cbn [t_data].
      destruct (String.eqb name "") eqn:Hn; [|done]. unfold pkg_scope. by rewrite Hn.
    + cbn in Hi. exfalso. rewrite List.forallb_forall in Hno.
      specialize (Hno t). rewrite Ht in Hno. cbn in Hno.
      discriminate Hno. apply elem_of_list_In. by eapply elem_of_list_lookup_2.
  - destruct i as [|i].
    + cbn in Hi. injection Hi as ->. congruence.
    + cbn in Hi. destruct (container (t_data u)) eqn:Hc.
      * exfalso. rewrite List.forallb_forall in Hp.
        specialize (Hp t). rewrite Ht in Hp. cbn in Hp.
        discriminate Hp. apply elem_of_list_In. by eapply elem_of_list_lookup_2.
      * specialize (IH i Hp Hi Ht). unfold file_scope, the_package in IH. rewrite <- IH.
        unfold pkg_before. cbn [take foldl]. f_equal. unfold pkg_step.
        destruct u as [d ps c kids]. cbn in Hu |- *. by destruct d.
Qed.

Lemma file_index s path g f a :
  schema s -> loaded s path g f -> package_first (t_kids f) = true ->
  node_index (NAst KFile a (root g)) s = (Ret (scope_of s (VPtr (root g))), s) /\
  (scopes s !! VPtr (root g) = None \/
   scopes s !! VPtr (root g) = Some (file_scope (t_kids f))).
Proof.
  intros S Hl Hp. split; [done|].
  destruct (scopes s !! VPtr (root g)) as [q|] eqn:Hq; [right|by left].
  destruct (sc_scopes _ S _ _ Hq) as (f' & Hf' & Hg). cbn [fst root] in Hf'.
  assert (f' = f) as -> by (destruct Hl as (_ & Hf & _); congruence).
  destruct Hg as [(_ & i & t & Hi & Ht & ->)|(Hg & _)].
  - by rewrite (last_package_first _ _ _ Hp Hi Ht).
  - exfalso. unfold fqn_here, root in Hg. cbn in Hg. destruct Hl as (_ & _ & Hd).
    rewrite Hd in Hg. discriminate Hg.
Qed.

Lemma direct_load_scope e fuel path els s f s1 :
  env_ok e -> schema s -> protos s !! path = None -> readable e path els ->
  (exists t, t ∈ els /\ is_package (t_data t) = true) ->
  proto e fuel path s = (Ret (inr f), s1) ->
  is_Some (scopes s1 !! VPtr (root (length (heap s)))).
Proof.
  intros He S Hp Hr Hpk E. unfold proto in E. rewrite rbind_get, Hp in E.
  apply rbind_Ret in E as (r & s2 & E1 & E2).
  destruct r as [err|]; [discriminate E2|].
  assert (Hs : scopes s1 = scopes s2).
  { rewrite rbind_get in E2. destruct (protos s2 !! path); [|discriminate E2].
    cbn in E2. injection E2 as _ <-. done. }
  rewrite Hs. clear E2 Hs. apply reads_readable in Hr.
  unfold demark_file in E1. apply rbind_Ret in E1 as (r & s3 & E3 & E4).
  destruct (proto_file_cases e path s) as [(g & Hg & _)|(_ & [(err & Ep & _)|(els' & Hr' & Ep)])];
    [congruence| |]; rewrite Ep in E3; injection E3 as <- <-; [discriminate E4|].
  assert (els' = els) as -> by (eapply readable_fun; apply reads_readable; eauto).
  destruct (add_file_ok e path els s He S Hp Hr) as (S2 & _ & Hwf & Hf).
  apply rbind_Ret in E4 as (t & s4 & E5 & E6).
  rewrite (deref_ret _ _ _ (heap_at_root _ _ _ Hf)) in E5. injection E5 as <- <-.
  apply rbind_Ret in E6 as (v' & s5 & E7 & E8). injection E8 as <-.
  assert (Hw : forall t, t ∈ els -> allowed (DProto "") (t_data t) = true /\ wf_tree t = true).
  { intros t Ht. by eapply file_kids_wf. }
  exact (visit_list_package (import_file e fuel) (length (heap s)) els
           (fun pth => import_dom_grows e fuel pth) Hw
           (mkVisitor (Some (root (length (heap s)))) "" false) 0 _ v' s5 eq_refl E7 Hpk).
Qed.

(** ** C10, transitively *)

Definition from_env (e : env) (s s' : registry) : Prop :=
  forall g f, heap s' !! g = Some f ->
    heap s !! g = Some f \/ exists path els, reads e path els /\ f = file_tree path els.

Lemma demark_from_env e fuel path : keeps (from_env e) (demark_file e fuel path).
Proof.
  apply keeps_demark_file; unfold from_env; try by auto.
  - intros s1 s2 s3 A B g f H. destruct (B g f H) as [H'|H']; [auto|by right].
  - intros pth els s Hp Hr g f. cbn. rewrite lookup_app_Some.
    intros [H|[_ H]]; [by left|]. apply list_lookup_singleton_Some in H as [_ <-]. right. eauto.
Qed.
Lemma proto_from_env e fuel path : keeps (from_env e) (proto e fuel path).
Proof.
  intros s. unfold proto. rewrite rbind_get. destruct (protos s !! path) as [g|] eqn:Hp.
  - intros g' f H. by left.
  - pose proof (demark_from_env e fuel path s) as H. unfold rbind.
    destruct (demark_file e fuel path s) as [[[err|]|m|] s1]; cbn [snd] in *; try exact H.
    cbn. destruct (protos s1 !! path); cbn; exact H.
Qed.

Lemma chain_loaded e fuel path f s s1 path' :
  env_ok e -> calm s -> protos s !! path = None -> proto e fuel path s = (Ret (inr f), s1) ->
  import_chain s e path path' -> is_Some (protos s1 !! path').
Proof.
  intros He Hs Hp E Hch. pose proof (calm_loads _ _ _ _ _ _ Hs He E) as Hs1.
  destruct (calm_complete _ Hs) as [S _]. destruct (calm_complete _ Hs1) as [S1 C1].
  induction Hch as [path|path path1 path2 els _ IH Hp1 Hr Hin].
  - destruct (proto_returns_loaded _ _ _ _ _ _ He S E) as (g & t & _ & (H & _) & _). eauto.
  - destruct (IH Hp E) as [g Hg]. destruct (loaded_protos _ _ _ S1 Hg) as [t (H1 & H2 & H3)].
    pose proof (proto_from_env e fuel path s) as Hfe. rewrite E in Hfe.
    destruct (Hfe g t H2) as [H|(path' & els' & Hr' & ->)].
    + exfalso. destruct (heap_loaded _ _ _ S H) as [pth (B1 & B2 & B3)].
      assert (pth = path1) as -> by congruence. congruence.
    + cbn in H3. injection H3 as ->. apply reads_readable in Hr'.
      rewrite (readable_fun _ _ _ _ Hr Hr') in H2.
      assert (Hlt : g < length (heap s1)) by (by apply lookup_lt_Some in H2).
      exact (dn_imports _ _ (C1 g Hlt) _ path2 H2 Hin).
Qed.

Lemma broken_import_blows_up e fuel path els path' s :
  env_ok e -> calm s -> protos s !! path = None -> readable e path els ->
  import_chain s e path path' -> protos s !! path' = None -> (forall els', ~ readable e path' els') ->
  blows_up (proto e fuel path s) /\
  loaded (proto e fuel path s).2 path (length (heap s)) (file_tree path els).
Proof.
  intros He Hs Hp Hr Hch Hp' Hn. destruct (calm_complete _ Hs) as [S _].
  destruct (proto e fuel path s) as [o s1] eqn:E.
  destruct (proto_ok e fuel path s o s1 He S E) as (S1 & G & P).
  apply reads_readable in Hr.
  destruct P as [g Hg|err Hpn Hn2|els2 s2 Hpn Hr2 H1 H2 H3 H4|els2 o s2 Hpn Hr2 H1 H2 H3 H4].
  - congruence.
  - exfalso. by eapply Hn2.
  - exfalso. destruct (chain_loaded _ _ _ _ _ _ _ He Hs Hp E Hch) as [g Hg].
    pose proof (proto_only_reads e fuel path s) as Hor. rewrite E in Hor.
    destruct (Hor path') as [[x Hx]|[els' Hx]]; [by eexists|congruence|].
    eapply Hn. by apply reads_readable.
  - assert (els2 = els) as -> by (eapply readable_fun; apply reads_readable; eauto).
    split; [exact H4|by split].
Qed.

(** ** C09, C11 *)

Lemma proto_unreadable e fuel path s :
  env_ok e -> schema s -> protos s !! path = None -> (forall els, ~ readable e path els) ->
  exists err, proto e fuel path s = (Ret (inl err), s).
Proof.
  intros He S Hp Hn. destruct (proto e fuel path s) as [o s1] eqn:E.
  destruct (proto_ok e fuel path s o s1 He S E) as (S1 & G & P).
  destruct P as [g Hg|err Hpn Hn2|els2 s2 Hpn Hr2 _ _ _ _|els2 o s2 Hpn Hr2 _ _ _ _].
  - congruence.
  - eauto.
  - exfalso. eapply Hn. by apply reads_readable.
  - exfalso. eapply Hn. by apply reads_readable.
Qed.
Lemma proto_file_error e fuel path s msg :
  protos s !! path = None -> proto_file e path s = (Ret (inl msg), s) ->
  proto e fuel path s = (Ret (inl (EWrap ("resolve proto file " +:+ path) msg)), s).
Proof.
  intros Hp Hf. unfold proto. rewrite rbind_get, Hp.
  rewrite (rbind_val _ _ s (Some msg) s); [done|].
  unfold demark_file. by rewrite (rbind_val _ _ _ _ _ Hf).
Qed.
Lemma proto_find_fails e fuel path s msg :
  protos s !! path = None -> find_name (e_resolvers e) path = inl msg ->
  proto e fuel path s = (Ret (inl (EWrap ("resolve proto file " +:+ path) msg)), s).
Proof.
  intros Hp Hf. apply proto_file_error; [done|]. unfold proto_file.
  by rewrite rbind_get, Hp, Hf.
Qed.
Lemma proto_not_found e fuel path s :
  protos s !! path = None -> nobody_knows e path ->
  proto e fuel path s = (Ret (inl (EWrap ("resolve proto file " +:+ path) (ENew "not found"))), s).
Proof.
  intros Hp Hf. apply nobody_find in Hf. apply proto_file_error; [done|]. unfold proto_file.
  by rewrite rbind_get, Hp, Hf.
Qed.

(** ** C12, C13 *)

Lemma later_heap s {A} (m : R A) s' p t :
  reachable s -> client Loads m -> (m s).2 = s' -> heap_at s p = Some t -> heap_at s' p = Some t.
Proof.
  intros Hs Hm <-. destruct (client_inv_step _ _ Hm s (reachable_Inv _ Hs)) as [_ G].
  by eapply ext_heap_at.
Qed.
Lemma later_name s {A} (m : R A) s' q (p : ptr) :
  reachable s -> client Loads m -> (m s).2 = s' -> names s !! q = Some p ->
  exists p', names s' !! q = Some p'.
Proof.
  intros Hs Hm <- Hq. destruct (client_inv_step _ _ Hm s (reachable_Inv _ Hs)) as [_ G].
  destruct (ext_names _ _ _ G q) as [p' Hp']; eauto.
Qed.
Lemma later_lookup s {A} (m : R A) s' q n s1 :
  reachable s -> client Loads m -> (m s).2 = s' -> node_by_full_name q s = (Ret (Some n), s1) ->
  exists n' s2, node_by_full_name q s' = (Ret (Some n'), s2).
Proof.
  intros Hs Hm E Hq. destruct (found_is_declared _ _ _ _ (reachable_Inv _ Hs) Hq)
    as (path & f & t & k & a & p & _ & Hp & _).
  destruct (later_name _ _ _ _ _ Hs Hm E Hp) as [p' Hp'].
  assert (I' : Inv s') by (rewrite <- E; by apply (client_inv_step _ _ Hm s (reachable_Inv _ Hs))).
  destruct (lookup_named _ _ _ I' Hp') as (f' & t' & k' & a' & s2 & _ & _ & _ & _ & E' & _).
  eauto.
Qed.
Lemma later_index s {A} (m : R A) s' k a p t :
  reachable s -> client Loads m -> (m s).2 = s' -> heap_at s p = Some t ->
  (node_index (NAst k a p) s').1 = (node_index (NAst k a p) s).1.
Proof.
  intros Hs Hm <- Ht. destruct (client_inv_step _ _ Hm s (reachable_Inv _ Hs)) as [_ G].
  assert (Hlt : p.1 < length (heap s)).
  { unfold heap_at in Ht. destruct (heap s !! p.1) eqn:H; [|done]. by apply lookup_lt_Some in H. }
  assert (Hsc : scope_of (m s).2 (VPtr p) = scope_of s (VPtr p)).
  { unfold scope_of. f_equal. by apply (ext_scopes _ _ _ G). }
  unfold node_index. rewrite !rbind_get. destruct k; cbn; by rewrite ?Hsc.
Qed.
