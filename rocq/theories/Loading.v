(** * Registry.Proto and NewRegistry: results, frames, termination. *)
From Verif Require Export Loader.

(** ** The loader does not touch the node caches *)

Section loader_closure.
  Variable Rl : registry -> registry -> Prop.
  Hypothesis Rl_refl : forall s, Rl s s.
  Hypothesis Rl_trans : forall s1 s2 s3, Rl s1 s2 -> Rl s2 s3 -> Rl s1 s3.
  Hypothesis Rl_names : forall q p s, Rl s (set_names (<[q := p]> (names s)) s).
  Hypothesis Rl_scopes : forall k q s, Rl s (set_scopes (<[k := q]> (scopes s)) s).
  Variable e : env.
  Hypothesis Rl_add : forall path els s,
    protos s !! path = None -> reads e path els -> Rl s (add_file path els s).

  Lemma keeps_put_name q p : keeps Rl (put_name q p).
  Proof. intros s. apply Rl_names. Qed.
  Lemma keeps_put_scope k q : keeps Rl (put_scope k q).
  Proof. intros s. apply Rl_scopes. Qed.

  Lemma keeps_visit imp t : (forall path, keeps Rl (imp path)) ->
    forall v p, keeps Rl (visit imp v p t).
  Proof.
    intros Himp. induction t as [d ps c kids IH] using tree_nested_ind. intros v p.
    assert (Hk : forall v i, keeps Rl (visit_list imp p v i kids)).
    { induction IH as [|k l Hk _ IHl]; intros w i; cbn [visit_list];
        [by apply keeps_ret|]. apply keeps_bind; auto. }
    assert (Hr : forall v' : visitor, keeps Rl (ret v')) by (intros; by apply keeps_ret).
    pose proof keeps_put_name as Hn. pose proof keeps_put_scope as Hs.
    assert (Hb : forall A B (m : R A) (k : A -> R B),
      keeps Rl m -> (forall a, keeps Rl (k a)) -> keeps Rl (rbind m k)).
    { intros. by apply keeps_bind. }
    destruct d; try apply Hr.
    - apply Hk.
    - cbn [visit]. apply Hb; [apply Hs|auto].
    - cbn [visit]. apply Hb; [apply Himp|auto].
    - cbn [visit]. apply Hb.
      + destruct is_extend; [auto|]. apply Hb; [apply Hn|]. intros _. apply Hb; [apply Hs|auto].
      + intros v1. apply Hb; [apply (Hk v1 0)|auto].
    - cbn [visit]. apply Hb; [apply Hn|]. intros _. apply Hb; [apply Hs|auto].
    - cbn [visit]. apply Hb; [apply Hn|]. intros _. apply Hb; [apply Hs|]. intros _.
      apply Hb; [apply (Hk v 0)|auto].
    - cbn [visit]. apply Hb; [apply Hn|]. intros _. apply Hb; [apply Hs|auto].
    - cbn [visit]. apply Hb; [apply Hn|]. intros _. apply Hb; [apply Hs|auto].
    - cbn [visit]. apply Hb; [apply Hn|]. intros _. apply Hb; [apply Hs|]. intros _.
      apply (Hk v 0).
    - cbn [visit]. apply Hb; [apply Hn|auto].
    - cbn [visit]. apply Hb; [apply Hn|]. intros _. apply Hb; [apply Hn|]. intros _.
      apply Hb; [apply Hs|]. intros _. apply Hb; [|auto].
      apply (Hk (set_scope (scoped_name v name) v) 0).
    - cbn [visit]. apply Hb; [apply Hn|]. intros _. apply Hb; [apply Hs|auto].
  Qed.

  Lemma keeps_proto_file path : keeps Rl (proto_file e path).
  Proof.
    intros s. destruct (proto_file_cases e path s)
      as [(g & _ & E)|(Hp & [(err & E & _)|(els & Hr & E)])]; rewrite E; cbn; auto.
  Qed.
  Lemma keeps_import_file fuel : forall path, keeps Rl (import_file e fuel path).
  Proof.
    induction fuel as [|fuel IH]; intros path; cbn [import_file].
    - by apply keeps_diverge.
    - apply keeps_bind; [done|by apply keeps_get|]. intros s.
      destruct (protos s !! path); [by apply keeps_ret|].
      apply keeps_bind; [done|apply keeps_proto_file|]. intros [err|g]; [by apply keeps_panic|].
      apply keeps_bind; [done|by apply keeps_deref|]. intros t.
      apply keeps_bind; [done|by apply keeps_visit|]. intros _. by apply keeps_ret.
  Qed.
  Lemma keeps_demark_file fuel path : keeps Rl (demark_file e fuel path).
  Proof.
    unfold demark_file.
    apply keeps_bind; [done|apply keeps_proto_file|]. intros [err|g]; [by apply keeps_ret|].
    apply keeps_bind; [done|by apply keeps_deref|]. intros t.
    apply keeps_bind; [done| |intros _; by apply keeps_ret].
    apply keeps_visit. apply keeps_import_file.
  Qed.
End loader_closure.

Definition same_nodes (s s' : registry) : Prop :=
  cache s' = cache s /\ ftcache s' = ftcache s /\ next s' = next s.

Lemma demark_same_nodes e fuel path : keeps same_nodes (demark_file e fuel path).
Proof.
  apply keeps_demark_file; unfold same_nodes; try done.
  intros s1 s2 s3 (A1 & A2 & A3) (B1 & B2 & B3). split; [congruence|]. split; congruence.
Qed.

(** ** Registry.Proto *)

Inductive proto_spec (e : env) (path : string) (s : registry)
  : outcome (error + node) -> registry -> Prop :=
| ps_known g :
    protos s !! path = Some g ->
    proto_spec e path s (Ret (inr (NAst KFile (next s) (root g)))) (set_next (next s + 1)%N s)
| ps_error err :
    protos s !! path = None -> (forall els, ~ reads e path els) ->
    proto_spec e path s (Ret (inl err)) s
| ps_loaded els s1 :
    protos s !! path = None -> reads e path els ->
    heap s1 !! length (heap s) = Some (file_tree path els) ->
    protos s1 !! path = Some (length (heap s)) -> same_nodes s s1 -> news_done s s1 ->
    proto_spec e path s (Ret (inr (NAst KFile (next s) (root (length (heap s))))))
      (set_next (next s + 1)%N s1)
| ps_failed els o s1 :
    protos s !! path = None -> reads e path els ->
    heap s1 !! length (heap s) = Some (file_tree path els) ->
    protos s1 !! path = Some (length (heap s)) -> same_nodes s s1 ->
    (forall x, o <> Ret x) ->
    proto_spec e path s o s1.

Lemma quiet_schema s s' : quiet s s' -> schema s -> schema s'.
Proof.
  intros [A1 A2 A3 A4 _ _ _] [S1 S2 S3 S4]. constructor; rewrite ?A1, ?A2, ?A3, ?A4; auto.
Qed.
Lemma quiet_grows s s' : quiet s s' -> grows s s'.
Proof. apply quiet_ext. Qed.
Lemma quiet_set_next s n : (next s <= n)%N -> quiet s (set_next n s).
Proof. intros H. by constructor. Qed.

Lemma proto_ok e fuel path s o s' :
  env_ok e -> schema s -> proto e fuel path s = (o, s') ->
  schema s' /\ grows s s' /\ proto_spec e path s o s'.
Proof.
  intros He Hs E. unfold proto in E. rewrite rbind_get in E.
  destruct (protos s !! path) as [g|] eqn:Hp.
  - unfold new_file in E. unfold rbind at 1 in E. rewrite rbind_alloc in E.
    cbn in E. injection E as <- <-.
    assert (Q : quiet s (set_next (next s + 1)%N s)) by (apply quiet_set_next; lia).
    split; [by eapply quiet_schema|]. split; [by apply quiet_grows|]. by constructor.
  - destruct (demark_file e fuel path s) as [od sd] eqn:Ed.
    pose proof (demark_same_nodes e fuel path s) as Hsame. rewrite Ed in Hsame. cbn in Hsame.
    destruct (demark_file_ok e fuel path s od sd He Hs Hp Ed)
      as (A1 & A2 & [(A3 & (err & ->) & ->)|(els & A3 & A4 & A5 & A6)]).
    + rewrite (rbind_val _ _ _ _ _ Ed) in E. unfold ret in E. injection E as <- <-.
      split; [done|]. split; [done|]. by constructor.
    + destruct od as [r|m|].
      * destruct (A6 r eq_refl) as [-> A7].
        rewrite (rbind_val _ _ _ _ _ Ed), rbind_get, A4 in E.
        unfold new_file in E. unfold rbind at 1 in E. rewrite rbind_alloc in E.
        cbn in E. injection E as <- <-. destruct Hsame as (H1 & H2 & H3).
        assert (Q : quiet sd (set_next (next sd + 1)%N sd)) by (apply quiet_set_next; lia).
        split; [by eapply quiet_schema|].
        split; [by eapply grows_trans; [|apply quiet_grows]|].
        rewrite H3. by eapply ps_loaded.
      * rewrite (rbind_pan _ _ _ _ _ Ed) in E. injection E as <- <-.
        split; [done|]. split; [done|]. by eapply ps_failed.
      * rewrite (rbind_div _ _ _ _ Ed) in E. injection E as <- <-.
        split; [done|]. split; [done|]. by eapply ps_failed.
Qed.

Lemma new_registry_ok e fuel s :
  env_ok e -> new_registry e fuel = Ret (inr s) ->
  schema s /\ cache s = ∅ /\ ftcache s = ∅ /\ next s = 0%N /\
  is_Some (protos s !! descriptor_path) /\ (forall g, g < length (heap s) -> done s g).
Proof.
  intros He E. unfold new_registry in E.
  destruct (demark_file e fuel descriptor_path empty_registry) as [od sd] eqn:Ed.
  pose proof (demark_same_nodes e fuel descriptor_path empty_registry) as (H1 & H2 & H3).
  rewrite Ed in H1, H2, H3. cbn in H1, H2, H3.
  destruct (demark_file_ok e fuel descriptor_path empty_registry od sd He schema_empty eq_refl Ed)
    as (A1 & A2 & A3).
  destruct od as [[err|]|m|]; try discriminate E. injection E as <-.
  split; [done|]. split; [done|]. split; [done|]. split; [done|].
  destruct A3 as [(_ & (err & ?) & _)|(els & _ & A4 & _ & A6)]; [done|].
  split; [by eexists|]. destruct (A6 None eq_refl) as [_ A7].
  intros g Hg. apply A7. cbn. lia.
Qed.

(** ** Everything a client does extends the registry and keeps the schema invariant *)

Definition good_step (s s' : registry) : Prop := schema s -> schema s' /\ grows s s'.
Lemma good_step_refl s : good_step s s.
Proof. intros H. split; [done|apply grows_refl]. Qed.
Lemma good_step_trans s1 s2 s3 : good_step s1 s2 -> good_step s2 s3 -> good_step s1 s3.
Proof.
  intros A B H. destruct (A H) as [A1 A2]. destruct (B A1) as [B1 B2].
  split; [done|by eapply grows_trans].
Qed.
Lemma quiet_good_step {A} (m : R A) : keeps quiet m -> keeps good_step m.
Proof.
  intros Q s H. specialize (Q s). split; [by eapply quiet_schema|by apply quiet_grows].
Qed.
Lemma client_good_step b {A} (m : R A) : client b m -> keeps good_step m.
Proof.
  assert (Hp : forall e fuel path, env_ok e -> keeps good_step (proto e fuel path)).
  { intros e fuel path He s Hs.
    destruct (proto e fuel path s) as [o s'] eqn:E.
    destruct (proto_ok e fuel path s o s' He Hs E) as (A1 & A2 & _). done. }
  apply (keeps_client good_step good_step_refl good_step_trans).
  - apply quiet_good_step, quiet_alloc.
  - intros v. apply quiet_good_step, quiet_wrap.
  - intros a p. apply quiet_good_step, quiet_field_type.
  - intros _. exact Hp.
  - intros _ e fuel path He. apply keeps_proto_or_exit; auto using good_step_refl.
Qed.

(** ** Termination: imports over a finite closed set of paths *)

Definition import_closed (e : env) (U : list string) : Prop :=
  forall path els, path ∈ U -> reads e path els ->
    forall path', path' ∈ import_paths els -> path' ∈ U.

Definition todo (U : list string) (s : registry) : nat :=
  length (filter (fun path => protos s !! path = None) U).

Lemma filter_length_le {A} (P Q : A -> Prop) `{!∀ x, Decision (P x)}
    `{!∀ x, Decision (Q x)} l :
  (forall x, Q x -> P x) -> length (filter Q l) <= length (filter P l).
Proof.
  intros HPQ. induction l as [|x l IH]; [done|]. rewrite !filter_cons.
  destruct (decide (Q x)), (decide (P x)); cbn; try lia. exfalso. auto.
Qed.
Lemma filter_length_lt {A} (P Q : A -> Prop) `{!∀ x, Decision (P x)}
    `{!∀ x, Decision (Q x)} l y :
  (forall x, Q x -> P x) -> y ∈ l -> P y -> ~ Q y ->
  length (filter Q l) < length (filter P l).
Proof.
  intros HPQ Hy HP HQ. induction Hy as [y l|y x l Hy IH]; rewrite !filter_cons.
  - rewrite decide_False, decide_True by done. cbn.
    pose proof (filter_length_le P Q l HPQ). lia.
  - specialize (IH HP HQ). destruct (decide (Q x)), (decide (P x)); cbn; try lia.
    exfalso. auto.
Qed.

Definition keeps_paths (s s' : registry) : Prop :=
  forall path, is_Some (protos s !! path) -> is_Some (protos s' !! path).

Lemma todo_mono U s s' : keeps_paths s s' -> todo U s' <= todo U s.
Proof.
  intros E. apply filter_length_le. intros path Hn.
  destruct (protos s !! path) as [g|] eqn:Hp; [|done].
  destruct (E path) as [x Hx]; [by eexists|]. congruence.
Qed.
Lemma import_keeps_paths e fuel path : keeps keeps_paths (import_file e fuel path).
Proof.
  apply keeps_import_file; unfold keeps_paths; auto.
  intros path' els s _ _ pth H. cbn. destruct (decide (path' = pth)) as [->|Hne].
  - rewrite lookup_insert. by eexists.
  - by rewrite lookup_insert_ne.
Qed.
Lemma todo_add U path els s :
  path ∈ U -> protos s !! path = None -> todo U (add_file path els s) < todo U s.
Proof.
  intros Hin Hp. unfold todo. eapply filter_length_lt; [|exact Hin|exact Hp|].
  - intros x. cbn. destruct (decide (x = path)) as [->|Hne].
    + by rewrite lookup_insert.
    + by rewrite lookup_insert_ne.
  - cbn. by rewrite lookup_insert.
Qed.

Lemma add_decls_protos g l s : protos (add_decls g l s) = protos s.
Proof.
  revert s. induction l as [|[[q π] b] l IH]; intros s; [done|].
  cbn [add_decls fold_left]. fold (add_decls g l (add_decl g s (q, π, b))).
  rewrite IH. by destruct b.
Qed.

Lemma visit_list_term (J : registry -> Prop) imp g l :
  (forall s s', protos s' = protos s -> J s -> J s') ->
  (forall pth s, pth ∈ import_paths l -> J s ->
     (imp pth s).1 <> Diverge /\ J (imp pth s).2) ->
  (forall t, t ∈ l -> allowed (DProto "") (t_data t) = true /\ wf_tree t = true) ->
  forall v i s, J s -> (visit_list imp (root g) v i l s).1 <> Diverge.
Proof.
  intros HJ. induction l as [|t l IH]; intros Himp Hl v i s Hs; [done|].
  cbn [visit_list].
  assert (Hrest : forall v i s, J s -> (visit_list imp (root g) v i l s).1 <> Diverge).
  { apply IH.
    - intros pth s' Hp. apply Himp. unfold import_paths in *. cbn.
      destruct (t_data t); cbn; try done. by constructor.
    - intros u Hu. apply Hl. by constructor. }
  destruct (Hl t) as [Ha Hw]; [constructor|].
  destruct (nested (t_data t)) eqn:Hn.
  - destruct (visit_nested imp g t v [i] s Hw Hn) as (v1 & E & _).
    unfold child, root. cbn [fst snd]. rewrite (rbind_val _ _ _ _ _ E). apply Hrest.
    eapply HJ; [|exact Hs]. apply add_decls_protos.
  - destruct t as [d ps c kids]. cbn [t_data] in *.
    destruct d; try discriminate Hn; try discriminate Ha.
    + cbn [visit]. unfold put_scope. unfold rbind, modify, ret. apply Hrest.
      eapply HJ; [|exact Hs]. done.
    + cbn [visit]. destruct (Himp filename s) as [A1 A2]; [cbn; constructor|done|].
      unfold rbind. destruct (imp filename s) as [[[]|m|] s1]; cbn in *; try done.
      by apply Hrest.
Qed.

Lemma file_kids_wf path els t :
  wf_tree (file_tree path els) = true -> t ∈ els ->
  allowed (DProto "") (t_data t) = true /\ wf_tree t = true.
Proof.
  intros Hwf [j Hj]%elem_of_list_lookup. by destruct (file_kid _ _ _ _ Hwf Hj).
Qed.

Lemma visit_file_term e U fuel path els s v :
  env_ok e -> reads e path els -> protos s !! path = None ->
  path ∈ U -> import_closed e U -> todo U s <= fuel ->
  (forall pth s', pth ∈ U -> todo U s' < fuel -> (import_file e fuel pth s').1 <> Diverge) ->
  (visit (import_file e fuel) v (root (length (heap s))) (file_tree path els)
     (add_file path els s)).1 <> Diverge.
Proof.
  intros He Hr Hp Hin HU Htodo IH.
  assert (Hwf : wf_tree (file_tree path els) = true).
  { destruct Hr as (nm & _ & _ & Hr). apply He in Hr. by apply andb_prop in Hr as [Hr _]. }
  change (visit (import_file e fuel) v (root (length (heap s))) (file_tree path els))
    with (visit_list (import_file e fuel) (root (length (heap s))) v 0 els).
  apply (visit_list_term (fun s' => todo U s' < fuel)).
  - intros s1 s2 E. unfold todo. by rewrite E.
  - intros pth s' Hpth Hs'. split; [apply IH; [by eapply HU|done]|].
    pose proof (todo_mono U _ _ (import_keeps_paths e fuel pth s')). lia.
  - intros t Ht. by eapply file_kids_wf.
  - pose proof (todo_add U path els s Hin Hp). lia.
Qed.

Lemma heap_add_file path els s :
  heap (add_file path els s) !! length (heap s) = Some (file_tree path els).
Proof. cbn. rewrite lookup_app_r, Nat.sub_diag by done. done. Qed.

Lemma import_file_term e U : env_ok e -> import_closed e U ->
  forall fuel path s, path ∈ U -> todo U s < fuel -> (import_file e fuel path s).1 <> Diverge.
Proof.
  intros He HU fuel. induction fuel as [|fuel IH]; intros path s Hin Ht; [lia|].
  cbn [import_file]. rewrite rbind_get.
  destruct (protos s !! path) as [g|] eqn:Hp; [done|].
  destruct (proto_file_cases e path s) as [(g & Hg & _)|(_ & [(err & Ep & _)|(els & Hr & Ep)])];
    [congruence| |]; rewrite (rbind_val _ _ _ _ _ Ep); [done|].
  rewrite (rbind_val _ _ _ _ _ (deref_ret _ _ _ (heap_at_root _ _ _ (heap_add_file _ _ _)))).
  pose proof (visit_file_term e U fuel path els s (mkVisitor None "" false) He Hr Hp Hin HU
    ltac:(lia) IH) as Hv.
  unfold rbind. destruct (visit _ _ _ _ _) as [[v'|m|] s']; done.
Qed.

Lemma proto_term e U fuel path s : env_ok e -> import_closed e U ->
  path ∈ U -> todo U s <= fuel -> (proto e fuel path s).1 <> Diverge.
Proof.
  intros He HU Hin Ht. unfold proto. rewrite rbind_get.
  destruct (protos s !! path) as [g|] eqn:Hp; [done|].
  assert (Hd : (demark_file e fuel path s).1 <> Diverge).
  { unfold demark_file.
    destruct (proto_file_cases e path s) as [(g & Hg & _)|(_ & [(err & Ep & _)|(els & Hr & Ep)])];
      [congruence| |]; rewrite (rbind_val _ _ _ _ _ Ep); [done|].
    rewrite (rbind_val _ _ _ _ _ (deref_ret _ _ _ (heap_at_root _ _ _ (heap_add_file _ _ _)))).
    pose proof (visit_file_term e U fuel path els s
      (mkVisitor (Some (root (length (heap s)))) "" false) He Hr Hp Hin HU
      Ht (import_file_term e U He HU fuel)) as Hv.
    unfold rbind. destruct (visit _ _ _ _ _) as [[v'|m|] s']; done. }
  unfold rbind at 1. destruct (demark_file e fuel path s) as [[[err|]|m|] s']; try done.
  rewrite rbind_get. by destruct (protos s' !! path).
Qed.

Lemma todo_length U s : todo U s <= length U.
Proof. unfold todo. apply filter_length. Qed.

(** More fuel never changes a finished run. *)
Lemma rbind_fuel {A B} (m m' : R A) (k k' : A -> R B) s :
  ((m s).1 <> Diverge -> m' s = m s) ->
  (forall a s', (k a s').1 <> Diverge -> k' a s' = k a s') ->
  (rbind m k s).1 <> Diverge -> rbind m' k' s = rbind m k s.
Proof.
  unfold rbind. intros Hm Hk. destruct (m s) as [[a|e|] s1]; intros Hd; rewrite Hm; auto; done.
Qed.
Lemma visit_fuel imp imp' :
  (forall path s, (imp path s).1 <> Diverge -> imp' path s = imp path s) ->
  forall t v p s, (visit imp v p t s).1 <> Diverge -> visit imp' v p t s = visit imp v p t s.
Proof.
  intros Himp t. induction t as [d ps c kids IH] using tree_nested_ind.
  assert (Hk : forall v p i s, (visit_list imp p v i kids s).1 <> Diverge ->
            visit_list imp' p v i kids s = visit_list imp p v i kids s).
  { induction IH as [|k l Hk _ IHl]; intros v p i s; [done|]. cbn [visit_list].
    unfold rbind. intros Hd. rewrite Hk; [|by destruct (visit imp v _ k s) as [[]]].
    destruct (visit imp v (child p i) k s) as [[v1|m|] s1]; [|done|done]. by apply IHl. }
  intros v p s.
  destruct d; try done.
  - apply (Hk v p 0 s).
  - cbn [visit]. unfold rbind. intros Hd. rewrite Himp; [done|].
    by destruct (imp filename s) as [[]].
  - change (visit imp v p (T (DMessage name is_extend) ps c kids)) with
      (v1 <~ (if is_extend then ret (set_is_extend true v)
              else put_name (scoped_name v name) p ;;; put_scope (VPtr p) (scoped_name v name) ;;;
                   ret (set_scope (scoped_name v name) v)) ;;
       v2 <~ visit_list imp p v1 0 kids ;;
       ret (set_scope (v_scope v) (set_is_extend false v2))).
    change (visit imp' v p (T (DMessage name is_extend) ps c kids)) with
      (v1 <~ (if is_extend then ret (set_is_extend true v)
              else put_name (scoped_name v name) p ;;; put_scope (VPtr p) (scoped_name v name) ;;;
                   ret (set_scope (scoped_name v name) v)) ;;
       v2 <~ visit_list imp' p v1 0 kids ;;
       ret (set_scope (v_scope v) (set_is_extend false v2))).
    apply rbind_fuel; [done|]. intros v1 s1. apply rbind_fuel; [apply Hk|done].
  - change (visit imp v p (T (DOneof name) ps c kids)) with
      (put_name (scoped_name v name) p ;;; put_scope (VPtr p) (scoped_name v name) ;;;
       v2 <~ visit_list imp p v 0 kids ;; ret (set_scope (v_scope v) v2)).
    change (visit imp' v p (T (DOneof name) ps c kids)) with
      (put_name (scoped_name v name) p ;;; put_scope (VPtr p) (scoped_name v name) ;;;
       v2 <~ visit_list imp' p v 0 kids ;; ret (set_scope (v_scope v) v2)).
    unfold put_name, put_scope. rewrite !rbind_modify. unfold rbind.
    intros Hd. rewrite Hk; [done|]. by destruct (visit_list imp p v 0 kids _) as [[]].
  - change (visit imp v p (T (DEnum name) ps c kids)) with
      (put_name (scoped_name v name) p ;;; put_scope (VPtr p) (scoped_name v name) ;;;
       visit_list imp p v 0 kids).
    change (visit imp' v p (T (DEnum name) ps c kids)) with
      (put_name (scoped_name v name) p ;;; put_scope (VPtr p) (scoped_name v name) ;;;
       visit_list imp' p v 0 kids).
    unfold put_name, put_scope. rewrite !rbind_modify. apply Hk.
  - change (visit imp v p (T (DService name) ps c kids)) with
      (put_name (scoped_name v name) p ;;; put_name (scoped_name v name) p ;;;
       put_scope (VPtr p) (scoped_name v name) ;;;
       v2 <~ visit_list imp p (set_scope (scoped_name v name) v) 0 kids ;;
       ret (set_scope (v_scope v) v2)).
    change (visit imp' v p (T (DService name) ps c kids)) with
      (put_name (scoped_name v name) p ;;; put_name (scoped_name v name) p ;;;
       put_scope (VPtr p) (scoped_name v name) ;;;
       v2 <~ visit_list imp' p (set_scope (scoped_name v name) v) 0 kids ;;
       ret (set_scope (v_scope v) v2)).
    unfold put_name, put_scope. rewrite !rbind_modify. unfold rbind.
    intros Hd. rewrite Hk; [done|]. by destruct (visit_list imp p _ 0 kids _) as [[]].
Qed.

Lemma import_fuel e : forall fuel fuel' path s, fuel <= fuel' ->
  (import_file e fuel path s).1 <> Diverge ->
  import_file e fuel' path s = import_file e fuel path s.
Proof.
  induction fuel as [|fuel IH]; intros fuel' path s Hle; [done|].
  destruct fuel' as [|fuel']; [lia|]. cbn [import_file]. rewrite !rbind_get.
  destruct (protos s !! path); [done|]. unfold rbind.
  destruct (proto_file e path s) as [[[err|g]|m|] s1]; try done.
  destruct (deref (root g) s1) as [[t|m|] s2]; try done.
  intros Hd. rewrite (visit_fuel (import_file e fuel) (import_file e fuel')); [done| |].
  - intros pth s' H. apply IH; [lia|done].
  - by destruct (visit _ _ _ _ s2) as [[]].
Qed.

Lemma proto_fuel e fuel fuel' path s : fuel <= fuel' ->
  (proto e fuel path s).1 <> Diverge -> proto e fuel' path s = proto e fuel path s.
Proof.
  intros Hle. unfold proto. rewrite !rbind_get. destruct (protos s !! path); [done|].
  apply rbind_fuel; [|done]. unfold demark_file.
  apply rbind_fuel; [done|]. intros [err|g] s1; [done|].
  apply rbind_fuel; [done|]. intros t s2. apply rbind_fuel; [|done].
  apply visit_fuel. intros pth s'. by apply import_fuel.
Qed.
