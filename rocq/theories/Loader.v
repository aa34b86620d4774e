(** * Loading: what grows, what stays, what is complete. *)
From Verif Require Export Visit.

(** ** Extension: later states know at least as much.  Scopes of the first [n] ASTs are fixed. *)
Record ext (n : nat) (s s' : registry) : Prop := mkExt {
  ext_heap : exists l, heap s' = (heap s ++ l)%list;
  ext_protos : forall path g, protos s !! path = Some g -> protos s' !! path = Some g;
  ext_names : forall q, is_Some (names s !! q) -> is_Some (names s' !! q);
  ext_scopes_dom : forall v, is_Some (scopes s !! v) -> is_Some (scopes s' !! v);
  ext_scopes : forall p, p.1 < n -> scopes s' !! VPtr p = scopes s !! VPtr p;
  ext_cache : forall v o, cache s !! v = Some o -> cache s' !! v = Some o;
  ext_ftcache : forall k o, ftcache s !! k = Some o -> ftcache s' !! k = Some o;
  ext_next : (next s <= next s')%N
}.

Ltac ext_tac :=
  constructor; cbn; auto; try lia; try (exists []; by rewrite app_nil_r).

Lemma ext_refl n s : ext n s s.
Proof. ext_tac. Qed.
Lemma ext_trans n s1 s2 s3 : ext n s1 s2 -> ext n s2 s3 -> ext n s1 s3.
Proof.
  intros [[l1 A1] A2 A3 A4 A5 A6 A7 A8] [[l2 B1] B2 B3 B4 B5 B6 B7 B8].
  constructor; auto; try lia; [|intros p Hp; by rewrite B5, A5].
  exists (l1 ++ l2)%list. by rewrite B1, A1, app_assoc.
Qed.
Lemma ext_weaken n m s s' : m <= n -> ext n s s' -> ext m s s'.
Proof.
  intros Hm [[l1 A1] A2 A3 A4 A5 A6 A7 A8]. constructor; eauto.
  intros p Hp. apply A5. lia.
Qed.
Lemma ext_heap_lookup n s s' g t : ext n s s' -> heap s !! g = Some t -> heap s' !! g = Some t.
Proof. intros [[l A1] _ _ _ _ _ _ _] H. rewrite A1. by apply lookup_app_l_Some. Qed.
Lemma ext_heap_at n s s' p t : ext n s s' -> heap_at s p = Some t -> heap_at s' p = Some t.
Proof.
  unfold heap_at. intros E. destruct (heap s !! p.1) as [u|] eqn:H; [|done].
  by rewrite (ext_heap_lookup _ _ _ _ _ E H).
Qed.
Lemma ext_length n s s' : ext n s s' -> length (heap s) <= length (heap s').
Proof. intros [[l A1] _ _ _ _ _ _ _]. rewrite A1, app_length. lia. Qed.

Lemma quiet_ext n s s' : quiet s s' -> ext n s s'.
Proof.
  intros [A1 A2 A3 A4 A5 A6 A7]. constructor; rewrite ?A1, ?A2, ?A3, ?A4; auto.
  exists []. by rewrite app_nil_r.
Qed.

(** extension as seen by a client *)
Definition grows (s s' : registry) : Prop := ext (length (heap s)) s s'.
Lemma grows_refl s : grows s s.
Proof. apply ext_refl. Qed.
Lemma grows_trans s1 s2 s3 : grows s1 s2 -> grows s2 s3 -> grows s1 s3.
Proof.
  unfold grows. intros A B. eapply ext_trans; [exact A|].
  eapply ext_weaken; [|exact B]. eapply ext_length; eauto.
Qed.

(** ** The schema invariant *)

Definition good_scope (f : tree) (p : ptr) (q : string) : Prop :=
  (p.2 = [] /\ exists i t, t_kids f !! i = Some t /\ is_package (t_data t) = true /\
                           q = pkg_before (t_kids f) (S i)) \/
  (fqn_here f p.2 = Some q /\
   exists u, walk f p.2 = Some u /\ keeps_scope (t_data u) = true).

Record schema (s : registry) : Prop := mkSchema {
  sc_protos : forall path g,
    protos s !! path = Some g <-> exists els, heap s !! g = Some (file_tree path els);
  sc_heap : forall g t, heap s !! g = Some t ->
    exists path els, t = file_tree path els /\ wf_tree t = true /\ forallb (stamped path) els = true;
  sc_names : forall q p, names s !! q = Some p ->
    exists f, heap s !! p.1 = Some f /\ fqn_here f p.2 = Some q;
  sc_scopes : forall p q, scopes s !! VPtr p = Some q ->
    exists f, heap s !! p.1 = Some f /\ good_scope f p q
}.

Lemma schema_empty : schema empty_registry.
Proof.
  constructor; intros; cbn in *; rewrite ?lookup_empty in *; try done.
  split; [done|]. intros (els & H). by rewrite lookup_nil in H.
Qed.

(** a loaded file whose loading is finished *)
Record done (s : registry) (g : nat) : Prop := mkDone {
  dn_names : forall f π q, heap s !! g = Some f -> fqn_here f π = Some q ->
    is_Some (names s !! q);
  dn_scopes : forall f π q u, heap s !! g = Some f -> fqn_here f π = Some q ->
    walk f π = Some u -> keeps_scope (t_data u) = true -> is_Some (scopes s !! VPtr (g, π));
  dn_imports : forall f path, heap s !! g = Some f -> path ∈ import_paths (t_kids f) ->
    is_Some (protos s !! path)
}.

Lemma ext_heap_back n s s' g f :
  ext n s s' -> g < length (heap s) -> heap s' !! g = Some f -> heap s !! g = Some f.
Proof.
  intros [[l A1] _ _ _ _ _ _ _] Hg H. rewrite A1 in H. by rewrite lookup_app_l in H.
Qed.

Lemma ext_done n s s' g : ext n s s' -> g < length (heap s) -> done s g -> done s' g.
Proof.
  intros E Hg [D1 D2 D3]. constructor.
  - intros f π q Hf Hq. eapply ext_names; eauto. eapply D1; eauto. eapply ext_heap_back; eauto.
  - intros f π q u Hf Hq Hu Hk. eapply ext_scopes_dom; eauto.
    eapply D2; eauto. eapply ext_heap_back; eauto.
  - intros f path Hf Hp. apply (ext_heap_back _ _ _ _ _ E Hg) in Hf.
    destruct (D3 f path Hf Hp) as [g' Hg']. exists g'. eapply ext_protos; eauto.
Qed.

Definition news_done (s s' : registry) : Prop :=
  forall g, length (heap s) <= g < length (heap s') -> done s' g.

Lemma news_done_refl s : news_done s s.
Proof. intros g Hg. lia. Qed.
Lemma news_done_trans n s1 s2 s3 :
  ext n s2 s3 -> news_done s1 s2 -> news_done s2 s3 -> news_done s1 s3.
Proof.
  intros E A B g Hg. destruct (decide (g < length (heap s2))) as [Hlt|Hge].
  - eapply ext_done; eauto. apply A. lia.
  - apply B. lia.
Qed.

(** ** Recording declarations *)

Definition good_decl (f : tree) (x : string * list nat * bool) : Prop :=
  let '(q, π, b) := x in
  fqn_here f π = Some q /\ (b = true -> exists u, walk f π = Some u /\ keeps_scope (t_data u) = true).

Lemma add_decl_ok g f s x :
  schema s -> heap s !! g = Some f -> good_decl f x ->
  schema (add_decl g s x) /\ ext g s (add_decl g s x) /\
  heap (add_decl g s x) = heap s /\
  is_Some (names (add_decl g s x) !! x.1.1) /\
  (x.2 = true -> is_Some (scopes (add_decl g s x) !! VPtr (g, x.1.2))).
Proof.
  intros [S1 S2 S3 S4] Hf. destruct x as [[q π] b]. intros [Hq Hb].
  assert (Hn : forall q' p, <[q:=(g, π)]> (names s) !! q' = Some p ->
             exists f, heap s !! p.1 = Some f /\ fqn_here f p.2 = Some q').
  { intros q' p. rewrite lookup_insert_Some. intros [[-> <-]|[_ H]]; eauto. }
  destruct b; cbn [add_decl fst snd].
  - split; [|split; [|split; [done|]]].
    + constructor; cbn; auto. intros p q'. rewrite lookup_insert_Some.
      intros [[[= <-] <-]|[_ H]]; [|eauto].
      exists f. split; [done|]. right. cbn. split; [done|]. by apply Hb.
    + ext_tac.
      * intros q' H. destruct (decide (q = q')) as [->|Hne];
          [rewrite lookup_insert; eauto|by rewrite lookup_insert_ne].
      * intros v H. destruct (decide (VPtr (g, π) = v)) as [->|Hne];
          [rewrite lookup_insert; eauto|by rewrite lookup_insert_ne].
      * intros p Hp. rewrite lookup_insert_ne; [done|]. intros [= <-]. cbn in Hp. lia.
    + cbn. rewrite !lookup_insert. eauto.
  - split; [|split; [|split; [done|]]].
    + constructor; cbn; auto.
    + ext_tac.
      intros q' H. destruct (decide (q = q')) as [->|Hne];
        [rewrite lookup_insert; eauto|by rewrite lookup_insert_ne].
    + cbn. rewrite !lookup_insert. split; [eauto|done].
Qed.

Lemma add_decls_ok g f l : forall s,
  schema s -> heap s !! g = Some f -> (forall x, x ∈ l -> good_decl f x) ->
  schema (add_decls g l s) /\ ext g s (add_decls g l s) /\
  heap (add_decls g l s) = heap s /\
  (forall x, x ∈ l -> is_Some (names (add_decls g l s) !! x.1.1) /\
     (x.2 = true -> is_Some (scopes (add_decls g l s) !! VPtr (g, x.1.2)))).
Proof.
  induction l as [|x l IH]; intros s Hs Hf Hl; cbn [add_decls fold_left].
  - split; [done|]. split; [apply ext_refl|]. split; [done|]. intros x Hx. inversion Hx.
  - destruct (add_decl_ok g f s x Hs Hf) as (A1 & A2 & A3 & A4 & A5);
      [apply Hl; constructor|].
    destruct (IH (add_decl g s x)) as (B1 & B2 & B3 & B4).
    + done.
    + by rewrite A3.
    + intros y Hy. apply Hl. by constructor.
    + fold (add_decls g l (add_decl g s x)). split; [done|].
      split; [by eapply ext_trans|]. split; [congruence|].
      intros y Hy. apply elem_of_cons in Hy as [->|Hy]; [|auto]. split.
      * by eapply ext_names.
      * intros Hb. eapply ext_scopes_dom; [exact B2|]. auto.
Qed.

(** ** The loop over the elements of a file *)

Definition imp_ok (imp : string -> R unit) : Prop :=
  forall path s o s', schema s -> imp path s = (o, s') ->
    schema s' /\ grows s s' /\
    (o = Ret tt -> is_Some (protos s' !! path) /\ news_done s s').

(** everything the [j]-th top level element contributes is recorded *)
Record elem_done (s : registry) (g : nat) (f : tree) (j : nat) : Prop := mkElemDone {
  ed_names : forall π q, π <> [] -> outermost π = j -> fqn_here f π = Some q ->
    is_Some (names s !! q);
  ed_scopes : forall π q u, π <> [] -> outermost π = j -> fqn_here f π = Some q ->
    walk f π = Some u -> keeps_scope (t_data u) = true -> is_Some (scopes s !! VPtr (g, π));
  ed_import : forall t path, t_kids f !! j = Some t -> t_data t = DImport path ->
    is_Some (protos s !! path)
}.

Lemma ext_elem_done n s s' g f j : ext n s s' -> elem_done s g f j -> elem_done s' g f j.
Proof.
  intros E [D1 D2 D3]. constructor.
  - intros π q Hne Ho Hq. eapply ext_names; eauto.
  - intros π q u Hne Ho Hq Hu Hk. eapply ext_scopes_dom; eauto.
  - intros t path Ht Hp. destruct (D3 t path Ht Hp) as [x Hx]. exists x. eapply ext_protos; eauto.
Qed.

Lemma outermost_app π j : π <> [] -> outermost π = j -> exists δ, π = (δ ++ [j])%list.
Proof.
  intros Hne Ho. destruct π as [|x δ] using rev_ind; [done|]. exists δ.
  unfold outermost in Ho. rewrite last_snoc in Ho. cbn in Ho. by subst.
Qed.

Lemma wf_path path path' els : wf_tree (file_tree path els) = wf_tree (file_tree path' els).
Proof. reflexivity. Qed.

Lemma file_kid path els j t :
  wf_tree (file_tree path els) = true -> els !! j = Some t ->
  allowed (DProto path) (t_data t) = true /\ wf_tree t = true.
Proof.
  intros Hwf Hj. cbn [wf_tree file_tree] in Hwf. rewrite List.forallb_forall in Hwf.
  apply andb_prop, Hwf. apply elem_of_list_In. eapply elem_of_list_lookup_2; eauto.
Qed.

Lemma visit_top imp g path els :
  let f := file_tree path els in
  imp_ok imp -> wf_tree f = true ->
  forall l i v s o s',
  drop i els = l -> heap s !! g = Some f -> schema s ->
  v_scope v = pkg_before els i -> v_file v = None \/ v_file v = Some (root g) ->
  visit_list imp (root g) v i l s = (o, s') ->
  schema s' /\ ext g s s' /\
  forall v', o = Ret v' ->
    news_done s s' /\ forall j, i <= j -> j < length els -> elem_done s' g f j.
Proof.
  intros f Himp Hwf l. induction l as [|t l IH]; intros i v s o s' Hl Hf Hs Hsc Hvf E.
  - cbn in E. injection E as <- <-. split; [done|]. split; [apply ext_refl|].
    intros v' _. split; [apply news_done_refl|]. intros j Hi Hj.
    assert (Hlen : length (drop i els) = 0) by (by rewrite Hl).
    rewrite drop_length in Hlen. lia.
  - assert (Hi : els !! i = Some t).
    { rewrite <- (Nat.add_0_r i), <- lookup_drop, Hl. done. }
    assert (Hl' : drop (S i) els = l).
    { rewrite <- Nat.add_1_r, <- drop_drop, Hl. done. }
    destruct (file_kid _ _ _ _ Hwf Hi) as [Hal Hwt].
    assert (Hpk : pkg_before els (S i) = pkg_step (pkg_before els i) t).
    { unfold pkg_before. rewrite (take_S_r _ _ _ Hi), foldl_app. done. }
    (* what one element does *)
    assert (Hstep : forall o1 s1, visit imp v (child (root g) i) t s = (o1, s1) ->
      schema s1 /\ ext g s s1 /\
      forall v1, o1 = Ret v1 ->
        news_done s s1 /\ elem_done s1 g f i /\
        v_scope v1 = pkg_before els (S i) /\ v_file v1 = v_file v).
    { intros o1 s1 E1. destruct (nested (t_data t)) eqn:Hn.
      - (* declarations *)
        unfold child, root in E1. cbn [fst snd] in E1.
        destruct (visit_nested imp g t v [i] s Hwt Hn) as (v1 & E2 & V1 & V2).
        rewrite E2 in E1. injection E1 as <- <-.
        assert (Hw : walk f [i] = Some t) by (cbn; exact Hi).
        assert (Hsc1 : v_scope v = scope_at f [i]).
        { unfold scope_at. cbn [enclosing walk]. cbn. by rewrite sapp_nil_r. }
        assert (Hspec : forall q π b,
          (q, π, b) ∈ decls (v_scope v) [i] t <-> declares_below f [i] q π b).
        { intros q π b. rewrite Hsc1. by apply decls_spec. }
        destruct (add_decls_ok g f (decls (v_scope v) [i] t) s Hs Hf) as (A1 & A2 & A3 & A4).
        { intros [[q π] b] Hx. apply Hspec in Hx as (_ & Hq & u & Hu & Hb). split; [done|].
          intros ->. eauto. }
        split; [done|]. split; [done|]. intros v1' [= <-].
        split; [intros g' Hg'; rewrite A3 in Hg'; lia|].
        split; [|split; [|done]].
        + constructor.
          * intros π q Hne Ho Hq. destruct (outermost_app _ _ Hne Ho) as [δ ->].
            destruct (walk f (δ ++ [i])) as [u|] eqn:Hu;
              [|unfold fqn_here in Hq; by rewrite Hu in Hq].
            apply (A4 (q, (δ ++ [i])%list, keeps_scope (t_data u))).
            apply Hspec. split; [by exists δ|]. split; [done|]. eauto.
          * intros π q u Hne Ho Hq Hu Hk. destruct (outermost_app _ _ Hne Ho) as [δ ->].
            apply (A4 (q, (δ ++ [i])%list, keeps_scope (t_data u))); [|done].
            apply Hspec. split; [by exists δ|]. split; [done|]. eauto.
          * intros t' pth Ht' Hp. cbn in Ht'. rewrite Hi in Ht'. injection Ht' as <-.
            by rewrite Hp in Hn.
        + rewrite V1, Hpk, Hsc. unfold pkg_step. destruct (t_data t); done.
      - destruct t as [d ps c kids]. cbn [t_data] in *.
        destruct d; try discriminate Hn; try discriminate Hal.
        + (* package *)
          cbn [visit] in E1. unfold rbind, put_scope, modify, ret in E1.
          match type of E1 with context [v_scope ?v1] => set (w := v1) in * end.
          assert (Hw1 : v_scope w = pkg_before els (S i) /\ v_file w = v_file v).
          { rewrite Hpk, <- Hsc. unfold w, pkg_step, pkg_scope. cbn [t_data].
            destruct (String.eqb name "") eqn:Hemp.
            - apply String.eqb_eq in Hemp. subst name. done.
            - by destruct (has_prefix name "."). }
          destruct Hw1 as [W1 W2]. injection E1 as <- <-.
          assert (Hed : forall s1 : registry, elem_done s1 g f i).
          { intros s1. constructor.
            - intros π q Hne Ho Hq. destruct (outermost_app _ _ Hne Ho) as [δ ->].
              exfalso. destruct δ as [|x δ] using rev_ind.
              + unfold fqn_here in Hq. cbn in Hq. by rewrite Hi in Hq.
              + clear IHδ. rewrite <- app_assoc in Hq. unfold fqn_here in Hq.
                destruct (walk f (δ ++ [x] ++ [i])) as [u|]; [|done].
                destruct (own_name (t_data u)); [|done].
                destruct (visible f (δ ++ [x] ++ [i])) eqn:Hv; [|done].
                apply visible_app in Hv. cbn in Hv. by rewrite Hi in Hv.
            - intros π q u Hne Ho Hq Hu _. exfalso.
              destruct (outermost_app _ _ Hne Ho) as [δ ->].
              destruct δ as [|x δ] using rev_ind.
              + unfold fqn_here in Hq. cbn in Hq. by rewrite Hi in Hq.
              + clear IHδ. rewrite <- app_assoc in Hq. unfold fqn_here in Hq.
                destruct (walk f (δ ++ [x] ++ [i])) as [u'|]; [|done].
                destruct (own_name (t_data u')); [|done].
                destruct (visible f (δ ++ [x] ++ [i])) eqn:Hv; [|done].
                apply visible_app in Hv. cbn in Hv. by rewrite Hi in Hv.
            - intros t' pth Ht' Hp. cbn in Ht'. rewrite Hi in Ht'. by injection Ht' as <-. }
          destruct Hs as [S1 S2 S3 S4].
          split; [|split].
          * constructor; cbn; auto. intros p q. rewrite lookup_insert_Some.
            intros [[Hk <-]|[_ H]]; [|eauto].
            destruct (v_file w) as [fp|] eqn:Hfp; [|done].
            injection Hk as ->. rewrite W2 in Hfp. destruct Hvf as [Hvf|Hvf]; [congruence|].
            rewrite Hvf in Hfp. assert (p = root g) as -> by congruence.
            exists f. split; [done|]. left. split; [done|].
            exists i, (T (DPackage name) ps c kids). done.
          * ext_tac.
            -- intros k H. destruct (decide (k = match v_file w with Some fp => VPtr fp
                  | None => VNilProto end)) as [->|Hne];
                 [rewrite lookup_insert; eauto|by rewrite lookup_insert_ne].
            -- intros p Hp. rewrite lookup_insert_ne; [done|].
               rewrite W2. destruct Hvf as [->| ->]; [done|]. intros [= <-].
               cbn in Hp. lia.
          * intros v1 [= <-]. split; [intros g' Hg'; cbn in Hg'; lia|]. auto.
        + (* import *)
          cbn [visit] in E1. unfold rbind in E1.
          destruct (imp filename s) as [oi si] eqn:Ei.
          destruct (Himp _ _ _ _ Hs Ei) as (A1 & A2 & A3).
          assert (Hg : ext g s si).
          { eapply ext_weaken; [|exact A2]. apply lookup_lt_Some in Hf. lia. }
          destruct oi as [[]|m|];
            [|injection E1 as <- <-; split; [done|]; split; [done|]; done
             |injection E1 as <- <-; split; [done|]; split; [done|]; done].
          cbn in E1. injection E1 as <- <-. split; [done|]. split; [done|]. intros v1 [= <-].
          destruct (A3 eq_refl) as [A4 A5].
          split; [done|]. split; [|split; [|done]].
          * assert (Hno : forall π q, π <> [] -> outermost π = i -> fqn_here f π = Some q -> False).
            { intros π q Hne Ho Hq. destruct (outermost_app _ _ Hne Ho) as [δ ->].
              destruct δ as [|x δ] using rev_ind.
              + unfold fqn_here in Hq. cbn in Hq. by rewrite Hi in Hq.
              + clear IHδ. rewrite <- app_assoc in Hq. unfold fqn_here in Hq.
                destruct (walk f (δ ++ [x] ++ [i])) as [u'|]; [|done].
                destruct (own_name (t_data u')); [|done].
                destruct (visible f (δ ++ [x] ++ [i])) eqn:Hv; [|done].
                apply visible_app in Hv. cbn in Hv. by rewrite Hi in Hv. }
            constructor; [by intros; exfalso; eauto|by intros; exfalso; eauto|].
            intros t' pth Ht' Hp. cbn in Ht'. rewrite Hi in Ht'. injection Ht' as <-.
            cbn in Hp. injection Hp as <-. done.
          * rewrite Hpk, <- Hsc. done. }
    cbn [visit_list] in E. unfold rbind in E.
    destruct (visit imp v (child (root g) i) t s) as [o1 s1] eqn:E1.
    destruct (Hstep o1 s1 eq_refl) as (A1 & A2 & A3).
    destruct o1 as [v1|m|];
      [|injection E as <- <-; split; [done|]; split; [done|]; done
       |injection E as <- <-; split; [done|]; split; [done|]; done].
    destruct (A3 v1 eq_refl) as (B1 & B2 & B3 & B4).
    assert (Hf1 : heap s1 !! g = Some f) by (by eapply ext_heap_lookup).
    assert (Hvf1 : v_file v1 = None \/ v_file v1 = Some (root g)) by (by rewrite B4).
    destruct (IH (S i) v1 s1 o s' Hl' Hf1 A1 B3 Hvf1 E) as (C1 & C2 & C3).
    split; [done|]. split; [by eapply ext_trans|].
    intros v' Hv'. destruct (C3 v' Hv') as [D1 D2]. split; [by eapply news_done_trans|].
    intros j Hij Hj. destruct (decide (j = i)) as [->|Hne].
    + by eapply ext_elem_done.
    + apply D2; lia.
Qed.

(** ** Loading one file *)

Lemma elem_done_done s g path els :
  heap s !! g = Some (file_tree path els) ->
  (forall j, j < length els -> elem_done s g (file_tree path els) j) -> done s g.
Proof.
  intros Hf H.
  assert (Ho : forall π q, fqn_here (file_tree path els) π = Some q ->
            π <> [] /\ outermost π < length els).
  { intros π q Hq. unfold fqn_here in Hq.
    destruct (walk (file_tree path els) π) as [t|] eqn:Hw; [|done].
    destruct (own_name (t_data t)) eqn:Hn; [|done].
    assert (Hne : π <> []) by (intros ->; cbn in Hw; injection Hw as <-; done).
    split; [done|]. destruct (walk_outermost _ _ _ Hw Hne) as (u & Hu & _).
    cbn in Hu. by apply lookup_lt_Some in Hu. }
  constructor; rewrite Hf.
  - intros f π q [= <-] Hq. destruct (Ho _ _ Hq) as [Hne Hlt].
    exact (ed_names _ _ _ _ (H _ Hlt) π q Hne eq_refl Hq).
  - intros f π q u [= <-] Hq Hu Hk. destruct (Ho _ _ Hq) as [Hne Hlt].
    exact (ed_scopes _ _ _ _ (H _ Hlt) π q u Hne eq_refl Hq Hu Hk).
  - intros f pth [= <-] Hp. cbn in Hp. unfold import_paths in Hp.
    apply elem_of_list_omap in Hp as (t & Ht & Hd).
    apply elem_of_list_lookup in Ht as [j Hj].
    destruct (t_data t) eqn:Htd; try discriminate Hd. injection Hd as ->.
    refine (ed_import _ _ _ _ (H j _) t pth Hj Htd). by apply lookup_lt_Some in Hj.
Qed.

(** reading and parsing a path that is not loaded *)
Definition reads (e : env) (path : string) (els : list tree) : Prop :=
  exists name, find_name (e_resolvers e) path = inr name /\ name <> "" /\
               e_read e name path = inr els.

Definition add_file (path : string) (els : list tree) (s : registry) : registry :=
  mkReg ((heap s ++ [file_tree path els])%list) (<[path := length (heap s)]> (protos s))
    (names s) (scopes s) (cache s) (ftcache s) (next s).

Lemma proto_file_cases e path s :
  (exists g, protos s !! path = Some g /\ proto_file e path s = (Ret (inr g), s)) \/
  (protos s !! path = None /\
   ((exists err, proto_file e path s = (Ret (inl err), s) /\ forall els, ~ reads e path els) \/
    (exists els, reads e path els /\
       proto_file e path s = (Ret (inr (length (heap s))), add_file path els s)))).
Proof.
  unfold proto_file. rewrite rbind_get.
  destruct (protos s !! path) as [g|] eqn:Hp; [left; exists g; split; reflexivity|right]. split; [done|].
  unfold reads. destruct (find_name (e_resolvers e) path) as [err|nm] eqn:Hn.
  - left. eexists. split; [reflexivity|]. by intros els (nm & ? & _).
  - destruct (String.eqb nm "") eqn:Hnm.
    + apply String.eqb_eq in Hnm. left. eexists. split; [reflexivity|].
      intros els (nm' & ? & ? & _). congruence.
    + apply String.eqb_neq in Hnm. destruct (e_read e nm path) as [err|els] eqn:Hr.
      * left. eexists. split; [reflexivity|]. intros els (nm' & ? & _ & ?). congruence.
      * right. exists els. split; [by exists nm|]. reflexivity.
Qed.

Lemma add_file_ok e path els s :
  env_ok e -> schema s -> protos s !! path = None -> reads e path els ->
  schema (add_file path els s) /\ grows s (add_file path els s) /\
  wf_tree (file_tree path els) = true /\
  heap (add_file path els s) !! length (heap s) = Some (file_tree path els).
Proof.
  intros He [S1 S2 S3 S4] Hp (nm & _ & _ & Hr). apply He in Hr. apply andb_prop in Hr as [Hr Hst]. unfold wf_elems in Hr.
  assert (Hnew : heap (add_file path els s) !! length (heap s) = Some (file_tree path els)).
  { cbn. rewrite lookup_app_r, Nat.sub_diag by done. done. }
  assert (Hold : forall g t, heap s !! g = Some t -> heap (add_file path els s) !! g = Some t).
  { intros g t Hg. cbn. by apply lookup_app_l_Some. }
  assert (Hinv : forall g t, heap (add_file path els s) !! g = Some t ->
            heap s !! g = Some t \/ (g = length (heap s) /\ t = file_tree path els)).
  { intros g t Hg. cbn in Hg. apply lookup_app_Some in Hg as [Hg|[Hlen Hg]]; [auto|].
    right. apply list_lookup_singleton_Some in Hg as [Hg <-]. split; [lia|done]. }
  split; [|split; [|split; [done|exact Hnew]]].
  - constructor.
    + intros path' g. cbn [protos add_file]. rewrite lookup_insert_Some. split.
      * intros [[-> <-]|[Hne Hg]]; [eauto|]. apply S1 in Hg as [els' Hg]. eauto.
      * intros [els' Hg]. apply Hinv in Hg as [Hg|[-> Hft]].
        -- right. assert (Hg' : protos s !! path' = Some g) by (apply S1; eauto).
           split; [congruence|done].
        -- injection Hft as -> _. by left.
    + intros g t Hg. apply Hinv in Hg as [Hg|[-> ->]]; [eauto|]. exists path, els. done.
    + intros q p Hq. destruct (S3 q p Hq) as (f & Hf & Hn). eauto.
    + intros p q Hq. destruct (S4 p q Hq) as (f & Hf & Hn). eauto.
  - constructor; cbn; auto; try lia; [by eexists|].
    intros path' g Hg. rewrite lookup_insert_ne; [done|congruence].
Qed.

Lemma deref_ret p s t : heap_at s p = Some t -> deref p s = (Ret t, s).
Proof. intros H. unfold deref. rewrite rbind_get. by rewrite H. Qed.
Lemma heap_at_root s g t : heap s !! g = Some t -> heap_at s (root g) = Some t.
Proof. intros H. unfold heap_at, root. cbn. by rewrite H. Qed.

(** the part common to VisitImport and demarkFile: visiting a freshly parsed file *)
Lemma visit_file_ok e imp path els s v o s' :
  env_ok e -> imp_ok imp -> schema s -> protos s !! path = None -> reads e path els ->
  v_scope v = "" -> v_file v = None \/ v_file v = Some (root (length (heap s))) ->
  visit imp v (root (length (heap s))) (file_tree path els) (add_file path els s) = (o, s') ->
  schema s' /\ grows s s' /\ protos s' !! path = Some (length (heap s)) /\
  (forall v', o = Ret v' -> news_done s s').
Proof.
  intros He Himp Hs Hp Hr Hsc Hvf E.
  destruct (add_file_ok e path els s He Hs Hp Hr) as (A1 & A2 & A3 & A4).
  change (visit imp v (root (length (heap s))) (file_tree path els))
    with (visit_list imp (root (length (heap s))) v 0 els) in E.
  destruct (visit_top imp _ path els Himp A3 els 0 v _ o s' eq_refl A4 A1 Hsc Hvf E)
    as (B1 & B2 & B3).
  assert (Hg : grows s s') by (eapply ext_trans; [exact A2|exact B2]).
  split; [done|]. split; [done|]. split.
  - eapply ext_protos; [exact B2|]. cbn. by rewrite lookup_insert.
  - intros v' Hv'. destruct (B3 v' Hv') as [C1 C2].
    assert (Hlen : length (heap (add_file path els s)) = S (length (heap s))).
    { cbn. rewrite app_length. cbn. lia. }
    intros g Hg'. destruct (decide (g = length (heap s))) as [->|Hne].
    + apply (elem_done_done s' _ path els); [exact (ext_heap_lookup _ _ _ _ _ B2 A4)|].
      intros j Hj. apply C2; [lia|done].
    + apply C1. rewrite Hlen. lia.
Qed.

Lemma import_file_ok e : env_ok e -> forall fuel, imp_ok (import_file e fuel).
Proof.
  intros He fuel. induction fuel as [|fuel IH]; intros path s o s' Hs E; cbn [import_file] in E.
  - injection E as <- <-. split; [done|]. split; [apply grows_refl|]. done.
  - rewrite rbind_get in E.
    destruct (protos s !! path) as [g|] eqn:Hp.
    + injection E as <- <-. split; [done|]. split; [apply grows_refl|].
      intros _. split; [by exists g|apply news_done_refl].
    + destruct (proto_file_cases e path s) as [(g & Hg & _)|(_ & [(err & Ep & _)|(els & Hr & Ep)])];
        [congruence| |]; rewrite (rbind_val _ _ _ _ _ Ep) in E.
      * injection E as <- <-. split; [done|]. split; [apply grows_refl|]. done.
      * destruct (add_file_ok e path els s He Hs Hp Hr) as (_ & _ & _ & A4).
        rewrite (rbind_val _ _ _ _ _ (deref_ret _ _ _ (heap_at_root _ _ _ A4))) in E.
        unfold rbind in E.
        destruct (visit (import_file e fuel) (mkVisitor None "" false) (root (length (heap s)))
                    (file_tree path els) (add_file path els s)) as [ov sv] eqn:Ev.
        destruct (visit_file_ok e _ path els s (mkVisitor None "" false) ov sv He IH Hs Hp Hr eq_refl
                    (or_introl eq_refl) Ev) as (B1 & B2 & B3 & B4).
        assert (Hs' : s' = sv) by (unfold ret in E; destruct ov; congruence). subst sv.
        split; [done|]. split; [done|]. intros ->.
        destruct ov as [v'|m|]; [|discriminate E|discriminate E].
        split; [by eexists|]. by eapply B4.
Qed.

Lemma demark_file_ok e fuel path s o s' :
  env_ok e -> schema s -> protos s !! path = None ->
  demark_file e fuel path s = (o, s') ->
  schema s' /\ grows s s' /\
  ((forall els, ~ reads e path els) /\ (exists err, o = Ret (Some err)) /\ s' = s \/
   (exists els, reads e path els /\
      protos s' !! path = Some (length (heap s)) /\
      heap s' !! length (heap s) = Some (file_tree path els) /\
      (forall r, o = Ret r -> r = None /\ news_done s s'))).
Proof.
  intros He Hs Hp E. unfold demark_file in E.
  destruct (proto_file_cases e path s) as [(g & Hg & _)|(_ & [(err & Ep & Hno)|(els & Hr & Ep)])];
    [congruence| |]; rewrite (rbind_val _ _ _ _ _ Ep) in E.
  - injection E as <- <-. split; [done|]. split; [apply grows_refl|]. left. eauto.
  - destruct (add_file_ok e path els s He Hs Hp Hr) as (A1 & A2 & A3 & A4).
    rewrite (rbind_val _ _ _ _ _ (deref_ret _ _ _ (heap_at_root _ _ _ A4))) in E.
    unfold rbind in E.
    destruct (visit (import_file e fuel)
       {| v_file := Some (root (length (heap s))); v_scope := ""; v_is_extend := false |}
       (root (length (heap s))) (file_tree path els) (add_file path els s)) as [ov sv] eqn:Ev.
    destruct (visit_file_ok e _ path els s
                (mkVisitor (Some (root (length (heap s)))) "" false) ov sv He (import_file_ok e He fuel) Hs Hp Hr
                eq_refl (or_intror eq_refl) Ev) as (B1 & B2 & B3 & B4).
    assert (Hs' : s' = sv) by (unfold ret in E; destruct ov; congruence). subst sv.
    split; [done|]. split; [done|]. right. exists els. split; [done|]. split; [done|]. split.
    { apply (sc_protos _ B1) in B3 as [els' B3].
      rewrite B3. f_equal.
      destruct (visit_top (import_file e fuel) (length (heap s)) path els
        (import_file_ok e He fuel) A3 els 0 (mkVisitor (Some (root (length (heap s)))) "" false) _ _ _ eq_refl A4 A1 eq_refl
        (or_intror eq_refl) Ev) as (_ & X & _).
      pose proof (ext_heap_lookup _ _ _ _ _ X A4). congruence. }
    intros r ->. destruct ov as [v'|m|]; [|discriminate E|discriminate E].
    unfold ret in E. injection E as <-. split; [done|]. by eapply B4.
Qed.
