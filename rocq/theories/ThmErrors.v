(** * What errors.Is and Error() tell about a failure (C75). *)
From Verif Require Export ThmLoading ThmResolvers ThmSchema.

(** ** Words *)

(** [err] is [cause] with annotations in front of it: its text ends with the text of [cause], and
    errors.Is gives the same answers for both, whatever the error asked for. *)
Definition annotates (err cause : error) : Prop :=
  (exists notes, error_text err = notes +:+ error_text cause) /\
  forall target, error_is target err = error_is target cause.

(** errors.Is finds nothing in [err]. *)
Definition anonymous (err : error) : Prop := forall target, error_is target err = false.

(** Why the file [path] cannot be had from [e]: no resolver knows it (or the one that answers gives an
    empty name): an error of the library that says "not found"; a resolver fails: its error; the file cannot be read
    or parsed: that error. *)
Inductive failure (e : env) (path : string) : error -> Prop :=
| failure_unknown : nobody_knows e path -> failure e path (ENew "not found")
| failure_no_name : serves e path "" -> failure e path (ENew "not found")
| failure_resolver who cause : resolver_fails e path who cause -> failure e path cause
| failure_read name cause :
    serves e path name -> name <> "" -> e_read e name path = inl cause -> failure e path cause.

(** ** Lemmas *)

Lemma annotates_refl err : annotates err err.
Proof. split; [|done]. by exists "". Qed.
Lemma annotates_wrap msg err cause : annotates err cause -> annotates (EWrap msg err) cause.
Proof.
  intros [[notes E] H]. split; [|exact H]. exists (msg +:+ ": " +:+ notes). cbn [error_text].
  rewrite E. by rewrite !sapp_assoc.
Qed.

Lemma proto_file_failure e path s err s' :
  protos s !! path = None -> proto_file e path s = (Ret (inl err), s') ->
  exists cause, failure e path cause /\ annotates err cause.
Proof.
  intros Hp E. unfold proto_file in E. rewrite rbind_get, Hp in E.
  pose proof (find_name_spec (e_resolvers e) path) as Hf.
  destruct (find_name (e_resolvers e) path) as [err'|name].
  - destruct Hf as (pre & r & post & c & Er & H1 & H2 & H3 & ->). unfold ret in E. injection E as <- _.
    exists c. split; [|apply annotates_wrap, annotates_refl].
    apply (failure_resolver e path r.1). exists pre, r, post. done.
  - destruct (String.eqb_spec name "") as [Hz|Hne].
    + subst name. unfold ret in E. injection E as <- _. eexists. split; [|apply annotates_refl].
      destruct Hf as [[Hf _]|Hf]; [by apply failure_unknown|by apply failure_no_name].
    + destruct (e_read e name path) as [c|els] eqn:Er; [|discriminate E].
      unfold ret in E. injection E as <- _.
      exists c. split; [|apply annotates_wrap, annotates_refl].
      destruct Hf as [[_ Hf]|Hf]; [done|]. by apply (failure_read e path name).
Qed.

(** the set of loaded paths only grows *)
Definition paths_stay (s s' : registry) : Prop := forall path, is_Some (protos s !! path) -> is_Some (protos s' !! path).
Lemma paths_stay_refl s : paths_stay s s.
Proof. by intros path. Qed.
Lemma paths_stay_trans s1 s2 s3 : paths_stay s1 s2 -> paths_stay s2 s3 -> paths_stay s1 s3.
Proof. intros H1 H2 path H. by apply H2, H1. Qed.
Lemma paths_stay_none s s' path : paths_stay s s' -> protos s' !! path = None -> protos s !! path = None.
Proof.
  intros H Hn. destruct (protos s !! path) as [g|] eqn:E; [|done]. exfalso.
  destruct (H path) as [g' Hg]; [by eexists|]. congruence.
Qed.
Lemma paths_stay_add path els s : paths_stay s (add_file path els s).
Proof.
  intros q [g Hg]. cbn. destruct (decide (q = path)) as [->|Hne]; [rewrite lookup_insert; by eexists|].
  rewrite lookup_insert_ne by done. by exists g.
Qed.
Lemma import_paths_stay e fuel path : keeps paths_stay (import_file e fuel path).
Proof.
  apply keeps_import_file; [apply paths_stay_refl|apply paths_stay_trans|intros ? ? ? ? H; exact H|intros ? ? ? ? H; exact H|].
  intros p els s _ _. apply paths_stay_add.
Qed.
Lemma visit_paths_stay imp v p t : (forall path, keeps paths_stay (imp path)) -> keeps paths_stay (visit imp v p t).
Proof. intros H. apply keeps_visit; [apply paths_stay_refl|apply paths_stay_trans|intros ? ? ? ? Hx; exact Hx|intros ? ? ? ? Hx; exact Hx|done]. Qed.

(** a panic while a file is visited comes from one of its imports *)
Lemma visit_list_panics imp g path : (forall path, keeps paths_stay (imp path)) ->
  forall l i v s m s',
  Forall (fun t => allowed (DProto path) (t_data t) = true /\ wf_tree t = true) l ->
  visit_list imp (root g) v i l s = (Panic m, s') ->
  exists q s1 s2, q ∈ import_paths l /\ paths_stay s s1 /\ imp q s1 = (Panic m, s2).
Proof.
  intros Himp l. induction l as [|t l IH]; intros i v s m s' Hl E; [discriminate E|].
  inversion_clear Hl as [|? ? [Ha Hw] Hl']. cbn [visit_list] in E. unfold rbind in E.
  destruct (visit imp v (child (root g) i) t s) as [o1 s1] eqn:E1.
  assert (Hps : paths_stay s s1).
  { pose proof (visit_paths_stay imp v (child (root g) i) t Himp s) as H. by rewrite E1 in H. }
  assert (Hin : forall q, q ∈ import_paths l -> q ∈ import_paths (t :: l)).
  { intros q Hq. unfold import_paths in *. cbn. destruct (t_data t); try done. by right. }
  destruct o1 as [v1|m1|]; [|injection E as -> <-|discriminate E].
  - destruct (IH (S i) v1 s1 m s' Hl' E) as (q & s2 & s3 & H1 & H2 & H3).
    exists q, s2, s3. split; [by apply Hin|]. split; [by eapply paths_stay_trans|done].
  - destruct (nested (t_data t)) eqn:Hn.
    { unfold child, root in E1. cbn [fst snd] in E1.
      destruct (visit_nested imp g t v [i] s Hw Hn) as (v1 & E2 & _). congruence. }
    destruct t as [d ps c kids]. cbn [t_data] in *.
    destruct d; try discriminate Hn; try discriminate Ha; try discriminate E1.
    cbn [visit] in E1. unfold rbind in E1. destruct (imp filename s) as [[[]|m2|] s2] eqn:E2; try discriminate E1.
    injection E1 as -> <-. exists filename, s, s2. split; [|split; [apply paths_stay_refl|done]].
    unfold import_paths. cbn. left.
Qed.

Lemma visit_file_panics e imp path els v s m s' :
  env_ok e -> reads e path els -> (forall path, keeps paths_stay (imp path)) ->
  visit imp v (root (length (heap s))) (file_tree path els) (add_file path els s) = (Panic m, s') ->
  exists q s1 s2, q ∈ import_paths els /\ paths_stay s s1 /\ is_Some (protos s1 !! path) /\ imp q s1 = (Panic m, s2).
Proof.
  intros He (nm & _ & _ & Hr) Himp E. apply He in Hr. apply andb_prop in Hr as [Hr _].
  change (visit imp v (root (length (heap s))) (file_tree path els))
    with (visit_list imp (root (length (heap s))) v 0 els) in E.
  destruct (visit_list_panics imp (length (heap s)) path Himp els 0 v (add_file path els s) m s') as (q & s1 & s2 & H1 & H2 & H3); [|exact E|].
  - apply Forall_lookup. intros i t Ht. exact (file_kid path els i t Hr Ht).
  - exists q, s1, s2. split; [done|]. split; [eapply paths_stay_trans; [apply paths_stay_add|done]|].
    split; [|done]. apply H2. cbn. rewrite lookup_insert. by eexists.
Qed.

Lemma chain_less s s' e path q : paths_stay s s' -> import_chain s' e path q -> import_chain s e path q.
Proof.
  intros H. induction 1 as [|path path' path'' els H1 IH Hn Hr Hin]; [constructor|].
  eapply chain_step; [exact IH|by eapply paths_stay_none|exact Hr|exact Hin].
Qed.
Lemma chain_left s e path els path' q :
  protos s !! path = None -> readable e path els -> path' ∈ import_paths els ->
  import_chain s e path' q -> import_chain s e path q.
Proof.
  intros Hp Hr Hin. induction 1 as [|path' p1 p2 els' H1 IH Hn Hr' Hin'].
  - eapply chain_step; [constructor|done|done|done].
  - eapply chain_step; [by apply IH|done|done|done].
Qed.

Lemma import_panics e : env_ok e -> forall fuel path s m s',
  import_file e fuel path s = (Panic m, s') ->
  exists q err cause, import_chain s e path q /\ protos s !! q = None /\
    m = PError (EWrap ("get proto file for import " +:+ q) err) /\ failure e q cause /\ annotates err cause.
Proof.
  intros He fuel. induction fuel as [|fuel IH]; intros path s m s' E; [discriminate E|].
  cbn [import_file] in E. rewrite rbind_get in E.
  destruct (protos s !! path) as [g|] eqn:Hp; [discriminate E|].
  destruct (proto_file_cases e path s) as [(g & Hg & _)|(_ & [(err & Ep & _)|(els & Hr & Ep)])];
    [congruence| |]; rewrite (rbind_val _ _ _ _ _ Ep) in E.
  - unfold panic in E. injection E as <- _.
    destruct (proto_file_failure _ _ _ _ _ Hp Ep) as (cause & H1 & H2).
    exists path, err, cause. split; [constructor|]. done.
  - assert (Hh : heap (add_file path els s) !! length (heap s) = Some (file_tree path els)).
    { cbn. by rewrite lookup_app_r, Nat.sub_diag. }
    rewrite (rbind_val _ _ _ _ _ (deref_ret _ _ _ (heap_at_root _ _ _ Hh))) in E.
    unfold rbind in E.
    destruct (visit (import_file e fuel) (mkVisitor None "" false) (root (length (heap s)))
                (file_tree path els) (add_file path els s)) as [[v'|m'|] sv] eqn:Ev; try discriminate E.
    injection E as -> <-.
    destruct (visit_file_panics e _ path els _ s m sv He Hr (import_paths_stay e fuel) Ev)
      as (q & s1 & s2 & H1 & H2 & H3 & H4).
    destruct (IH q s1 m s2 H4) as (q' & err & cause & C1 & C2 & C3 & C4).
    exists q', err, cause. split; [|split; [by eapply paths_stay_none|done]].
    eapply chain_left; [exact Hp|by apply reads_readable|exact H1|]. by eapply chain_less.
Qed.

Lemma demark_panics e fuel path s m s' :
  env_ok e -> protos s !! path = None -> demark_file e fuel path s = (Panic m, s') ->
  exists q err cause, q <> path /\ import_chain s e path q /\ protos s !! q = None /\
    m = PError (EWrap ("get proto file for import " +:+ q) err) /\ failure e q cause /\ annotates err cause.
Proof.
  intros He Hp E. unfold demark_file in E.
  destruct (proto_file_cases e path s) as [(g & Hg & _)|(_ & [(err & Ep & _)|(els & Hr & Ep)])];
    [congruence| |]; rewrite (rbind_val _ _ _ _ _ Ep) in E; [discriminate E|].
  assert (Hh : heap (add_file path els s) !! length (heap s) = Some (file_tree path els)).
  { cbn. by rewrite lookup_app_r, Nat.sub_diag. }
  rewrite (rbind_val _ _ _ _ _ (deref_ret _ _ _ (heap_at_root _ _ _ Hh))) in E.
  unfold rbind in E.
  destruct (visit (import_file e fuel) _ (root (length (heap s)))
              (file_tree path els) (add_file path els s)) as [[v'|m'|] sv] eqn:Ev; try discriminate E.
  injection E as -> <-.
  destruct (visit_file_panics e _ path els _ s m sv He Hr (import_paths_stay e fuel) Ev)
    as (q & s1 & s2 & H1 & H2 & H3 & H4).
  destruct (import_panics e He fuel q s1 m s2 H4) as (q' & err & cause & C1 & C2 & C3 & C4).
  exists q', err, cause. split.
  { intros ->. destruct H3 as [x Hx]. congruence. }
  split; [|split; [by eapply paths_stay_none|done]].
  eapply chain_left; [exact Hp|by apply reads_readable|exact H1|]. by eapply chain_less.
Qed.

(** ** C75 *)

(** An error returned by Proto is the reason why the requested file cannot be had, with annotations. *)
Theorem C75_returned e fuel path s err s' :
  reachable s -> env_ok e -> proto e fuel path s = (Ret (inl err), s') ->
  (exists cause, failure e path cause /\ annotates err cause) /\
  exists rest, error_text err = "resolve proto file " +:+ path +:+ ": " +:+ rest.
Proof.
  intros Hs He E. pose proof (proj1 (reachable_Inv _ Hs)) as S.
  destruct (proto_ok e fuel path s _ s' He S E) as (_ & _ & P).
  inversion P as [|err' Hp Hn| |els2 o s2 Hp Hr2 H1 H2 H3 H4]; subst; [|exfalso; by eapply H4].
  unfold proto in E. rewrite rbind_get, Hp in E. unfold demark_file in E.
  destruct (proto_file_cases e path s') as [(g & Hg & _)|(_ & [(err2 & Ep & _)|(els & Hr & Ep)])];
    [congruence| |exfalso; by eapply Hn].
  unfold rbind in E. rewrite Ep in E. unfold ret in E. injection E as <-.
  destruct (proto_file_failure _ _ _ _ _ Hp Ep) as (cause & H1 & H2). split.
  - exists cause. split; [done|by apply annotates_wrap].
  - exists (error_text err2). cbn [error_text]. by rewrite sapp_assoc.
Qed.

(** A panic of Proto carries an error, the reason why a file it imports cannot be had. *)
Theorem C75_panicked e fuel path s v s' :
  reachable s -> env_ok e -> proto e fuel path s = (Panic v, s') ->
  exists import err cause,
    v = PError err /\ import <> path /\ import_chain s e path import /\ ~ is_loaded s import /\
    failure e import cause /\ annotates err cause /\
    exists rest, error_text err = "get proto file for import " +:+ import +:+ ": " +:+ rest.
Proof.
  intros Hs He E. pose proof (proj1 (reachable_Inv _ Hs)) as S.
  unfold proto in E. rewrite rbind_get in E.
  destruct (protos s !! path) as [g|] eqn:Hp; [discriminate E|]. unfold rbind in E.
  destruct (demark_file e fuel path s) as [[[err|]|m|] sd] eqn:Ed; try discriminate E.
  - exfalso. cbn in E. destruct (protos sd !! path); discriminate E.
  - injection E as -> ->.
    destruct (demark_panics _ _ _ _ _ _ He Hp Ed) as (q & err & cause & H0 & H1 & H2 & -> & H4 & H5).
    exists q, (EWrap ("get proto file for import " +:+ q) err), cause. split; [done|]. split; [done|]. split; [done|].
    split. { intros (g & f & Hl & _). congruence. }
    split; [done|]. split; [by apply annotates_wrap|].
    exists (error_text err). cbn [error_text]. by rewrite sapp_assoc.
Qed.

(** NewRegistry: the same for the descriptor. *)
Theorem C75_new_registry e fuel :
  env_ok e ->
  (forall err, new_registry e fuel = Ret (inl err) ->
     exists cause, failure e "google/protobuf/descriptor.proto" cause /\ annotates err cause) /\
  (forall v, new_registry e fuel = Panic v ->
     exists import err cause, v = PError err /\
       import_chain empty_registry e "google/protobuf/descriptor.proto" import /\
       failure e import cause /\ annotates err cause).
Proof.
  intros He. unfold new_registry.
  destruct (demark_file e fuel descriptor_path empty_registry) as [[[err|]|m|] sd] eqn:Ed; (split; intros x E); try discriminate E.
  - injection E as <-. unfold demark_file in Ed.
    destruct (proto_file_cases e descriptor_path empty_registry) as [(g & Hg & _)|(_ & [(err2 & Ep & _)|(els & Hr & Ep)])];
      [done| |].
    + unfold rbind in Ed. rewrite Ep in Ed. unfold ret in Ed. injection Ed as -> _.
      destruct (proto_file_failure _ descriptor_path empty_registry _ _ eq_refl Ep) as (cause & H1 & H2).
      exists cause. split; [done|by apply annotates_wrap].
    + exfalso. rewrite (rbind_val _ _ _ _ _ Ep) in Ed. unfold rbind in Ed.
      destruct (deref _ _) as [[t| |] s1]; try discriminate Ed.
      destruct (visit _ _ _ _ _) as [[v'| |] s2]; discriminate Ed.
  - injection E as <-.
    destruct (demark_panics e fuel descriptor_path empty_registry _ _ He eq_refl Ed) as (q & err & cause & H0 & H1 & H2 & -> & H4 & H5).
    exists q, (EWrap ("get proto file for import " +:+ q) err), cause. split; [done|]. split; [done|].
    split; [done|]. by apply annotates_wrap.
Qed.

(** The reason is one: a file has at most one, and a file that can be read has none. *)
Theorem C75_one_reason e path cause1 cause2 :
  failure e path cause1 -> failure e path cause2 ->
  cause1 = cause2 /\ forall els, ~ readable e path els.
Proof.
  assert (Hf : forall c, failure e path c ->
    (find_name (e_resolvers e) path = inr "" /\ c = ENew "not found") \/
    (exists who, find_name (e_resolvers e) path = inl (EWrap ("resolve proto file path with " +:+ who) c)) \/
    (exists name, name <> "" /\ find_name (e_resolvers e) path = inr name /\ e_read e name path = inl c)).
  { intros c [H|H|who c' H|name c' H1 H2 H3].
    - left. split; [by apply nobody_find|done].
    - left. split; [by apply serves_find|done].
    - right. left. exists who. by apply fails_find.
    - right. right. exists name. split; [done|]. split; [by apply serves_find|done]. }
  intros H1 H2. apply Hf in H1, H2. split.
  - destruct H1 as [[H1 A1]|[(who1 & H1)|(n1 & N1 & H1 & R1)]], H2 as [[H2 A2]|[(who2 & H2)|(n2 & N2 & H2 & R2)]];
      congruence.
  - intros els (name & Hs & Hne & Hr). apply serves_find in Hs.
    destruct H1 as [[H1 _]|[(who1 & H1)|(n1 & N1 & H1 & R1)]]; congruence.
Qed.

(** A file that no resolver knows: the error says nothing to errors.Is, in particular it is not
    os.ErrNotExist. *)
Theorem C75_unknown_is_nameless e fuel path s err s' :
  reachable s -> env_ok e -> nobody_knows e path -> proto e fuel path s = (Ret (inl err), s') -> anonymous err.
Proof.
  intros Hs He Hn E.
  destruct (C75_returned _ _ _ _ _ _ Hs He E) as ((cause & Hc & _ & Ha) & _).
  destruct (C75_one_reason e path cause (ENew "not found") Hc (failure_unknown _ _ Hn)) as [-> _]. intros t. by rewrite Ha.
Qed.
Theorem C75_not_exist_refuted :
  exists e fuel path s err, reachable s /\ env_ok e /\
    (forall r, r ∈ e_resolvers e -> exists err, r.2 path = RError err /\ error_is "os.ErrNotExist" err = true) /\
    (proto e fuel path s).1 = Ret (inl err) /\ error_is "os.ErrNotExist" err = false.
Proof.
  exists demo_env, 50, "nope.proto", (start demo_files). eexists.
  split; [apply start_history, demo_starts|]. split; [apply demo_env_ok|]. split; [|split; [vm_compute; reflexivity|done]].
  intros r Hr. cbn in Hr. apply elem_of_list_singleton in Hr as ->. exists not_exist. split; vm_compute; reflexivity.
Qed.

(** The resolvers of Build: the file is not there exactly if os.Stat says so (os.ErrNotExist, possibly
    wrapped); its other errors are reported. *)
Theorem C75_resolve os r path :
  let file := path_join [resolver_root r; path] in
  (not_there (resolver_resolve os r path) <->
     exists err, os_stat os file = SError err /\ error_is "os.ErrNotExist" err = true) /\
  (forall err, resolver_resolve os r path = RError err ->
     exists cause, os_stat os file = SError cause /\ annotates err cause) /\
  (forall name, resolver_resolve os r path = RName name -> name = file /\ exists d, os_stat os file = SOk d).
Proof.
  cbn zeta. unfold resolver_resolve. destruct (os_stat os (path_join [resolver_root r; path])) as [err|d] eqn:E.
  - split; [|split].
    + split; [intros (x & [= <-] & Hx); eauto|]. intros (x & [= <-] & Hx). by eexists.
    + intros x [= <-]. exists err. split; [done|]. apply annotates_wrap, annotates_refl.
    + done.
  - split; [|split; [done|]].
    + split; [by intros (x & ? & _)|by intros (x & ? & _)].
    + intros name [= <-]. eauto.
Qed.

(** How a string is shown in an error: between quotes, and a text without quotes, backslashes and
    unprintable characters as it is. *)
Definition readable_char (c : ascii) : Prop :=
  32 <= Ascii.nat_of_ascii c < 127 /\ c <> """"%char /\ c <> "\"%char.
Definition ascii_char (c : ascii) : Prop := Ascii.nat_of_ascii c < 128.
Fixpoint text_of (P : ascii -> Prop) (s : string) : Prop :=
  match s with "" => True | String c s' => P c /\ text_of P s' end.

Lemma quote_readable c : readable_char c -> quote_char c = String c "".
Proof.
  intros ([H1 H2] & H3 & H4). unfold quote_char.
  apply Ascii.eqb_neq in H3, H4. rewrite H3, H4. cbn [orb].
  apply Nat.leb_le in H1. apply Nat.ltb_lt in H2. by rewrite H1, H2.
Qed.

(** no code of a character is a prefix of the code of another one *)
Fixpoint is_prefix (a b : string) : bool :=
  match a, b with
  | "", _ => true
  | String x a', String y b' => Ascii.eqb x y && is_prefix a' b'
  | _, _ => false
  end.
Lemma is_prefix_app a b x y : a +:+ x = b +:+ y -> is_prefix a b || is_prefix b a = true.
Proof.
  revert b. induction a as [|c a IH]; intros [|d b] H; try done.
  change (String c (a +:+ x) = String d (b +:+ y)) in H. injection H as -> H. cbn [is_prefix].
  rewrite Ascii.eqb_refl. cbn [andb]. by apply IH.
Qed.
Definition all_chars : list ascii := map Ascii.ascii_of_nat (List.seq 0 256).
Lemma all_chars_all c : In c all_chars.
Proof.
  apply in_map_iff. exists (Ascii.nat_of_ascii c). split; [apply Ascii.ascii_nat_embedding|].
  apply in_seq. pose proof (Ascii.nat_ascii_bounded c). lia.
Qed.
Lemma quote_code_table : forallb (fun c => forallb (fun d => Ascii.eqb c d ||
  negb (is_prefix (quote_char c) (quote_char d) || is_prefix (quote_char d) (quote_char c))) all_chars) all_chars &&
  forallb (fun c => negb (String.eqb (quote_char c) "")) all_chars &&
  forallb (fun c => negb (is_prefix """" (quote_char c))) all_chars = true.
Proof. vm_compute. reflexivity. Qed.
Lemma quote_char_inj c d x y : quote_char c +:+ x = quote_char d +:+ y -> c = d /\ x = y.
Proof.
  intros H. pose proof (is_prefix_app _ _ _ _ H) as Hp.
  pose proof quote_code_table as T. apply andb_prop in T as [[T _]%andb_prop _].
  rewrite List.forallb_forall in T. specialize (T c (all_chars_all c)).
  rewrite List.forallb_forall in T. specialize (T d (all_chars_all d)).
  rewrite Hp in T. cbn [negb] in T. rewrite orb_false_r in T. apply Ascii.eqb_eq in T as ->. split; [done|].
  clear Hp. revert H. generalize (quote_char d). intros q. induction q as [|z w IH]; [done|]. intros H. injection H as H. by apply IH.
Qed.
Lemma quote_end c x y : """" +:+ x <> quote_char c +:+ y.
Proof.
  intros H. pose proof quote_code_table as T. apply andb_prop in T as [[_ T1]%andb_prop T2].
  rewrite List.forallb_forall in T1, T2. specialize (T1 c (all_chars_all c)). specialize (T2 c (all_chars_all c)).
  destruct (quote_char c) as [|z w]; [done|]. injection H as <- _. cbn in T2. done.
Qed.
Lemma quote_body_inj a : forall b, quote_body a +:+ """" = quote_body b +:+ """" -> a = b.
Proof.
  induction a as [|c a IH]; intros [|d b] H; cbn [quote_body] in H.
  - done.
  - exfalso. rewrite sapp_assoc in H. exact (quote_end d "" _ H).
  - exfalso. rewrite sapp_assoc in H. exact (quote_end c "" _ (eq_sym H)).
  - rewrite !sapp_assoc in H. apply quote_char_inj in H as [-> H]. by rewrite (IH b H).
Qed.

(** A text of readable characters is shown as it is between quotes, and different texts are shown
    differently. *)
Theorem C75_quote :
  (forall s, text_of readable_char s -> quote s = """" +:+ s +:+ """") /\
  (forall s1 s2, text_of ascii_char s1 -> text_of ascii_char s2 -> quote s1 = quote s2 -> s1 = s2).
Proof.
  split.
  - intros s H. unfold quote. do 2 f_equal. induction s as [|c s IH]; [done|]. destruct H as [H1 H2].
    cbn [quote_body]. rewrite (quote_readable _ H1), (IH H2). done.
  - intros s1 s2 _ _ H. unfold quote in H. injection H as H. by apply quote_body_inj.
Qed.

(** If a resolver of Build fails, the error of Proto names it: the root as it was given, or the
    distribution of protoc. *)
Theorem C75_names_resolver os rs read pre r post fuel path cause s :
  rs = (pre ++ r :: post)%list ->
  Forall (fun x => not_there (resolver_resolve os x path)) pre ->
  os_stat os (path_join [resolver_root r; path]) = SError cause -> error_is "os.ErrNotExist" cause = false ->
  ~ is_loaded s path -> reachable s ->
  exists err, proto (mkEnv (env_resolvers os rs) read) fuel path s = (Ret (inl err), s) /\
    error_text err = "resolve proto file " +:+ path +:+ ": resolve proto file path with " +:+
      (match r with PRProtoc _ => "protoc distribution" | PRRoot root => "schema at " +:+ quote root end) +:+
      ": check computed path: " +:+ error_text cause.
Proof.
  intros -> Hpre Hst Hne Hl Hs. pose proof (proj1 (reachable_Inv _ Hs)) as S.
  assert (Hp : protos s !! path = None).
  { destruct (protos s !! path) as [g|] eqn:E; [|done]. exfalso. apply Hl.
    destruct (loaded_protos _ _ _ S E) as [f Hf]. by exists g, f. }
  destruct (C11_resolver_error (mkEnv (env_resolvers os (pre ++ r :: post)) read) fuel path (resolver_string r)
    (EWrap "check computed path" cause) s Hp) as (err & E & Ht).
  - exists (env_resolvers os pre), (resolver_string r, resolver_resolve os r), (env_resolvers os post).
    split; [cbn [e_resolvers]; unfold env_resolvers; by rewrite map_app|].
    split; [unfold env_resolvers; apply Forall_fmap; exact Hpre|]. cbn [fst snd]. split; [done|]. split; [|done].
    unfold resolver_resolve. by rewrite Hst.
  - exists err. split; [exact E|]. rewrite Ht. cbn [error_text].
    destruct r; cbn [resolver_string]; rewrite ?sapp_assoc; done.
Qed.
(** If a file is found and cannot be read or parsed, the error of Proto names the path that was asked for and
    the file it was resolved to. *)
Theorem C75_names_file e fuel path name cause s :
  reachable s -> ~ is_loaded s path -> serves e path name -> name <> "" -> e_read e name path = inl cause ->
  exists err, proto e fuel path s = (Ret (inl err), s) /\
    error_text err = "resolve proto file " +:+ path +:+ ": get proto definition from resolved file " +:+ name +:+
      ": " +:+ error_text cause.
Proof.
  intros Hs Hl Hsv Hn Hr. pose proof (proj1 (reachable_Inv _ Hs)) as S.
  assert (Hp : protos s !! path = None).
  { destruct (protos s !! path) as [g|] eqn:E; [|done]. exfalso. apply Hl.
    destruct (loaded_protos _ _ _ S E) as [f Hf]. by exists g, f. }
  assert (Hpf : proto_file e path s = (Ret (inl (EWrap ("get proto definition from resolved file " +:+ name) cause)), s)).
  { unfold proto_file. rewrite rbind_get, Hp, (serves_find _ _ _ Hsv). destruct (String.eqb_spec name ""); [done|]. by rewrite Hr. }
  eexists. split; [exact (proto_file_error _ _ _ _ _ Hp Hpf)|].
  cbn [error_text]. by rewrite !sapp_assoc.
Qed.
(** The parser does not accept the file broken.proto of the second root. *)
Definition syntax_env : env :=
  mkEnv [("first", fun _ => RError (EForeign "no" ["os.ErrNotExist"])); ("second", fun path => RName ("/protos/" +:+ path))]
    (fun _ _ => inl (ENew "parse file: <input>:1:1: found ""?""")).
Example C75_names_file_example :
  reachable (start demo_files) /\ ~ is_loaded (start demo_files) "broken.proto" /\
  serves syntax_env "broken.proto" "/protos/broken.proto".
Proof.
  split; [apply start_history, demo_starts|]. split.
  - assert (H : protos (start demo_files) !! "broken.proto" = None) by (vm_compute; reflexivity).
    intros (g & f & Hl & _). congruence.
  - exists [("first", fun _ => RError (EForeign "no" ["os.ErrNotExist"]))], ("second", fun path => RName ("/protos/" +:+ path)), [].
    split; [done|]. split; [|done]. constructor; [|constructor]. eexists. split; [reflexivity|done].
Qed.

(** The root "proto files" cannot be read. *)
Definition locked_os : os_view :=
  mkOs (fun f => if String.eqb f "proto files" then SOk true else SError (ENew "permission denied")) (inl (ENew "not found")).
Example C75_names_resolver_example :
  exists rs, built locked_os [WithRoot ["proto files"]] = inr rs /\ rs = ([] ++ PRRoot "proto files" :: [])%list /\
    os_stat locked_os (path_join ["proto files"; "a.proto"]) = SError (ENew "permission denied") /\
    ~ is_loaded (start demo_files) "a.proto" /\ reachable (start demo_files) /\
    quote "proto files" = """proto files""".
Proof.
  eexists. split; [vm_compute; reflexivity|]. split; [done|]. split; [vm_compute; reflexivity|].
  split; [|split; [apply start_history, demo_starts|reflexivity]].
  assert (H : protos (start demo_files) !! "a.proto" = None) by (vm_compute; reflexivity).
  intros (g & f & Hl & _). congruence.
Qed.

(** the roots that Build tries: those given, and the empty one if one is given twice *)
Definition tried (calls : list call) (root : string) : Prop :=
  root ∈ roots_given calls \/ root = "" /\ ~ NoDup (roots_given calls).

Lemma compacted_elem l x : x ∈ compacted l -> x ∈ l.
Proof.
  induction l as [|y [|z l] IH]; [done|done|].
  change (compacted (y :: z :: l)) with
    (if String.eqb y z then compacted (z :: l) else y :: compacted (z :: l)).
  destruct (String.eqb y z); [intros H; right; by apply IH|].
  intros H. apply elem_of_cons in H as [->|H]; [left|right; by apply IH].
Qed.
Lemma compact_arg_elem l x : x ∈ compact_arg l -> x ∈ l \/ x = "".
Proof.
  unfold compact_arg. intros H. apply elem_of_app in H as [H|H]; [left; by apply compacted_elem|].
  right. by apply elem_of_replicate in H as [-> _].
Qed.

(** Build: the error is the one of looking for protoc, of its standard files, of a root (the empty one
    if a root is given twice), or the library's own for a root that is not a directory. *)
Theorem C75_build os calls err :
  built os calls = inl err ->
  exists cause, annotates err cause /\
    (asked calls /\ os_protoc os = inl cause \/
     asked calls /\ (exists file, os_stat os file = SError cause) /\ (forall r, new_resolver_protoc os <> inr r) \/
     (exists root, tried calls root /\ os_stat os root = SError cause) \/
     (exists root, tried calls root /\ os_stat os root = SOk false) /\ anonymous cause).
Proof.
  intros E. rewrite built_eq in E.
  set (roots := compact_arg (sort_strings (roots_given calls))) in *.
  assert (Hr : forall l err, (forall r, r ∈ l -> tried calls r) -> build_roots os l = inl err ->
    exists cause, annotates err cause /\
     ((exists root, tried calls root /\ os_stat os root = SError cause) \/
      (exists root, tried calls root /\ os_stat os root = SOk false) /\ anonymous cause)).
  { clear E err. intros l. induction l as [|r l IH]; intros err Hl E; [discriminate E|]. cbn [build_roots] in E.
    unfold new_resolver_root in E. destruct (os_stat os r) as [c|[|]] eqn:Es.
    - injection E as <-. exists c. split; [do 2 apply annotates_wrap; apply annotates_refl|]. left.
      exists r. split; [apply Hl; left|done].
    - destruct (build_roots os l) as [err'|xs] eqn:El; [|discriminate E]. injection E as ->.
      apply IH; [|done]. intros r' Hr'. apply Hl. by right.
    - injection E as <-. eexists. split; [apply annotates_wrap, annotates_refl|]. right. split; [|done].
      exists r. split; [apply Hl; left|done]. }
  assert (Hin : forall r, r ∈ roots -> tried calls r).
  { intros r H. unfold roots, tried in *. rewrite (sort_perm (roots_given calls)).
    destruct (decide (NoDup (sort_strings (roots_given calls)))) as [Hd|Hd].
    - left. by rewrite (compact_arg_nodup _ Hd) in H.
    - apply compact_arg_elem in H as [H|H]; [by left|by right]. }
  destruct (b_protoc _) eqn:Eb.
  - apply asked_protoc in Eb. destruct (new_resolver_protoc os) as [e1|r] eqn:Ep.
    + injection E as <-. unfold new_resolver_protoc in Ep. destruct (os_protoc os) as [c|pp] eqn:Eo.
      * injection Ep as <-. exists c. split; [do 2 apply annotates_wrap; apply annotates_refl|]. by left.
      * cbn zeta in Ep. destruct (os_stat os _) as [c|] eqn:Es; [|discriminate Ep]. injection Ep as <-.
        exists c. split; [do 2 apply annotates_wrap; apply annotates_refl|]. right. left. split; [done|]. split; [by eexists|].
        intros r. done.
    + destruct (build_roots os roots) as [e1|xs] eqn:Er; [|discriminate E]. injection E as <-.
      destruct (Hr _ _ Hin Er) as (c & H1 & [H2|H2]); exists c; (split; [done|]); auto.
  - destruct (Hr _ _ Hin E) as (c & H1 & [H2|H2]); exists c; (split; [done|]); auto.
Qed.

(** A resolver that fails, an import that is missing, a registry without a descriptor, and roots that
    are missing or given twice. *)
Theorem C75_example :
  (exists err s', proto three_resolvers 50 "y.proto" (start demo_files) = (Ret (inl err), s')) /\
  env_ok three_resolvers /\ failure three_resolvers "y.proto" (ENew "io") /\
  (exists v s', proto broken_env 50 broken_f (start broken_files) = (Panic v, s')) /\
  failure broken_env "missing.proto" (ENew "not found") /\
  (exists err, new_registry three_resolvers 50 = Ret (inl err)) /\
  (exists err, built two_roots [WithRoot ["a"; "a"]] = inl err /\ error_is "os.ErrNotExist" err = true) /\
  (exists err, built two_roots [WithRoot ["a/x.proto"]] = inl err /\ anonymous err) /\
  (exists err, built two_roots [WithProtoc] = inl err /\ anonymous err).
Proof.
  split.
  { destruct (C11_resolver_error three_resolvers 50 "y.proto" "c" (ENew "io") (start demo_files)) as (err & E & _);
      [vm_compute; reflexivity|apply C11_example|]. by exists err, (start demo_files). }
  split. { intros name path els [= <-]. done. }
  split. { apply (failure_resolver _ _ "c"), C11_example. }
  split.
  { assert (H : forall {A} (r : outcome A * registry),
      (match r.1 with Panic _ => true | _ => false end) = true -> exists v s', r = (Panic v, s')).
    { intros A [[]]; cbn; try discriminate. by eexists _, _. }
    apply H. vm_compute. reflexivity. }
  split. { apply failure_unknown. repeat constructor. exists not_exist. split; vm_compute; reflexivity. }
  split. { eexists. vm_compute. reflexivity. }
  split. { eexists. split; [vm_compute; reflexivity|vm_compute; reflexivity]. }
  split. { eexists. split; [vm_compute; reflexivity|done]. }
  eexists. split; [vm_compute; reflexivity|done].
Qed.
