(** * C82: option names mean what they mean in the protobuf language, unless hidden. *)
From Verif Require Export LanguageOptions ThmLanguage ThmOptions ThmAccessors.

Section schema.
Context (s : registry).
Hypothesis Hcalm : calm s.
Hypothesis Hvalid : valid_schema s.

Lemma element_walk p t path f : element_at s p t -> loaded s path p.1 f -> walk f p.2 = Some t.
Proof. intros Ht Hl. apply element_heap in Ht. unfold heap_at in Ht. destruct Hl as (_ & Hl & _). by rewrite Hl in Ht. Qed.
Lemma annotated_idents p t scope own : element_at s p t -> annotated s p t scope own -> Forall ident (scope ++ own).
Proof.
  intros Ht Ha. destruct Hvalid as (_ & _ & Hn & _). destruct Ha as [path comps Hp Hl [Hid _]|n scope Hn' He Hsc].
  - by rewrite app_nil_r.
  - destruct Hsc as (path & f & pc & Hl & [Hpc _] & Hv & ->). destruct (Hn _ _ _ Hl) as [_ Hidn].
    pose proof (element_walk _ _ _ _ Ht Hl) as Hw.
    apply Forall_app. split; [apply Forall_app; split; [done|by apply enclosing_idents]|].
    constructor; [by eapply Hidn|constructor].
Qed.

Lemma annotated_scope k a p t scope own cn : points_to s p (NAst k a p) -> element_at s p t ->
  options_message (t_data t) = Some cn -> annotated s p t scope own -> options_scope s (NAst k a p) (scope ++ own).
Proof.
  intros Hp Ht Hcn Ha. split; [by eapply annotated_idents|].
  apply points_ast in Hp as (_ & u & Hu & Hk).
  assert (u = t) as -> by (apply element_heap in Hu, Ht; congruence).
  destruct Ha as [path comps Hp2 Hl [Hid Hfs] Hna|n scope Hn He Hsc].
  - rewrite app_nil_r. pose proof Hl as (_ & _ & Hd). rewrite Hd in Hk. destruct Hk as [[= <-]|[_ [? ?]]]; [|done].
    exists (the_package (t_kids t)). split.
    + unfold file_package. rewrite (rbind_val _ _ _ _ _ (deref_ok _ _ _ (element_heap _ _ _ Ht))). by rewrite package_of_the.
    + unfold file_scope, pkg_scope in Hfs. destruct (String.eqb_spec (the_package (t_kids t)) "") as [E|E].
      * left. split; [done|]. by destruct comps.
      * right. apply prefix_dot_false in Hna. by rewrite Hna in Hfs.
  - assert (Hni : (node_index (NAst k a p) s).1 = Ret (dotted (scope ++ [n]))).
    { destruct Hsc as (path & f & pc & Hl & [Hpc Hfs] & Hv & ->). pose proof (element_walk _ _ _ _ Ht Hl) as Hw.
      destruct Hvalid as (_ & Hpf & _). destruct p as [g π]. cbn [fst snd] in *.
      assert (Hq : fqn f π = Some (dotted ((pc ++ enclosing f π) ++ [n]))).
      { unfold fqn. rewrite Hw, Hn, Hv. unfold file_scope in Hfs. rewrite Hfs, <- dotted_app. by rewrite <- app_assoc. }
      rewrite (C06_index_is_qualified_name s path g f π _ t k a Hcalm Hl (Hpf _ _ _ Hl) Hq Hw He); [done|].
      destruct Hk as [Hk|[-> _]]; [by left|right; by left]. }
    destruct k; try exact Hni. exfalso. destruct Hk as [Hk|[Hk _]]; [|done]. by destruct (t_data t) as [| | | | | |? []| | | | | | | | | | | |].
Qed.

(** what the language finds is what the library's search comes to, if nothing is found below the own name *)
Lemma symbol_denotes scope own x q d :
  Forall ident (scope ++ own) -> length own <= 1 -> language_symbol s scope x q d ->
  (own <> [] -> forall d', ~ declared s (dotted (scope ++ own) +:+ "." +:+ x) d') ->
  denotes s (scope ++ own) x q.
Proof.
  intros Hid Hown Hl Hno. apply Forall_app in Hid as [Hids _].
  assert (Hlow : forall j, length scope < j -> j <= length (scope ++ own) ->
     unknown s (dotted (take j (scope ++ own)) +:+ "." +:+ x)).
  { intros j H1 H2 n Hf. rewrite app_length in H2. rewrite take_ge in Hf by (rewrite app_length; lia).
    destruct (found_declared s Hcalm Hvalid _ _ Hf) as (d' & _ & _ & _ & Hd & _).
    refine (Hno _ d' Hd). intros ->. cbn in H2. lia. }
  assert (Hd : declared s q d) by (by inversion Hl).
  destruct (declared_node s Hcalm Hvalid _ _ Hd) as (k0 & a0 & p0 & Hf0 & _).
  split; [by exists (NAst k0 a0 p0)|].
  destruct Hl as [x d Habs _|x k d Hix Hk _ Hin|first rest k d Hif Hne Hir Hk _ Hin]; [by left|right..].
  - split; [rewrite <- (sapp_nil_r x); by apply ident_relative|].
    exists k. rewrite app_length. split; [lia|]. split; [rewrite take_app_le by lia; apply dotted_snoc|].
    intros j Hj Hjl. destruct (decide (j <= length scope)) as [Hle|Hgt].
    + intros n Hf. rewrite take_app_le in Hf by lia. rewrite <- dotted_snoc in Hf.
      destruct (found_declared s Hcalm Hvalid _ _ Hf) as (d' & _ & _ & _ & Hd' & _). exact (proj1 (Hin j ltac:(lia)) d' Hd').
    + apply Hlow; [lia|rewrite app_length; lia].
  - split; [by apply ident_relative|].
    exists k. rewrite app_length. split; [lia|]. split; [rewrite take_app_le by lia; apply dotted_at|].
    intros j Hj Hjl. destruct (decide (j <= length scope)) as [Hle|Hgt].
    + intros n Hf. rewrite take_app_le in Hf by lia. rewrite <- dotted_at in Hf.
      destruct (found_declared s Hcalm Hvalid _ _ Hf) as (d' & _ & _ & _ & Hd' & _). apply (Hin j); [lia|].
      assert (E : (take j scope ++ [first])%list = take (S j) (take j scope ++ first :: rest)).
      { rewrite take_app_ge by (rewrite take_length; lia). f_equal. rewrite take_length.
        replace (S j - j `min` length scope) with 1 by lia. done. }
      rewrite E. eapply declared_inside; [exact Hvalid|exact Hd'| |done|].
      * apply Forall_app. split; [by apply Forall_take|]. by constructor.
      * rewrite app_length, take_length. destruct rest; [done|]. cbn [length]. lia.
    + apply Hlow; [lia|rewrite app_length; lia].
Qed.
Lemma annotated_own p t scope own : annotated s p t scope own -> length own <= 1.
Proof. destruct 1; cbn; lia. Qed.

(** a declared plain field as a target *)
Lemma declared_field q d : declared s q d -> plain_field d ->
  exists a f t, found s q (NAst KField a f) /\ element_at s f t /\ plain_field (t_data t).
Proof.
  intros Hd Hp. destruct (declared_node s Hcalm Hvalid _ _ Hd) as (k & a & f & Hf & Hk).
  assert (k = KField) as -> by (destruct d; try done; by injection Hk as <-).
  pose proof (history_Inv _ _ Hcalm) as I. destruct (found_at _ _ _ _ _ I Hf) as (Hn & t & Ht & _).
  exists a, f, t. split; [done|]. split; [by apply heap_element|].
  (* the element found is the one declared *)
  destruct Hd as (path & g & ft & π & u & Hl & Hq & Hw & <-).
  destruct Hvalid as (Hu & Hpf & _).
  destruct (C05_exact_declaration s path g ft π q u KField Hcalm Hu Hpf Hl Hq Hw) as (a' & s2 & E).
  { by destruct (t_data u). }
  unfold found in Hf. rewrite E in Hf. injection Hf as <- <-.
  unfold heap_at in Ht. cbn [fst snd] in Ht. destruct Hl as (_ & Hl & _). rewrite Hl, Hw in Ht. by injection Ht as <-.
Qed.
Lemma class_field cn ca class y : found s cn (NAst KMessage ca class) -> field_of s cn y ->
  exists ct f, element_at s class ct /\ head (children (plain_field_named y) class ct) = Some f.
Proof.
  intros Hf (path & g & ft & π & i & t & Hl & Hq & Hw & Hy).
  destruct Hvalid as (Hu & Hpf & _).
  assert (exists ct, walk ft π = Some ct) as [ct Hct].
  { unfold fqn in Hq. destruct (walk ft π) as [ct|]; [by exists ct|discriminate Hq]. }
  assert (exists k, represented_by (t_data ct) = Some k) as [k Hk].
  { unfold fqn in Hq. rewrite Hct in Hq. destruct (t_data ct) as [| | | | | |? []| | | | | | | | | | | |]; try discriminate Hq; by eexists. }
  destruct (C05_exact_declaration s path g ft π cn ct k Hcalm Hu Hpf Hl Hq Hct Hk) as (a' & s2 & E).
  unfold found in Hf. rewrite E in Hf. injection Hf as -> _ <-.
  exists ct.
  assert (Hc : element_at s (g, π) ct) by (exists path, ft; by split).
  assert (Hin : ((g, i :: π) : ptr) ∈ children (plain_field_named y) (g, π) ct).
  { unfold children. apply elem_of_list_fmap. exists (((g, i :: π) : ptr), t). split; [done|].
    apply elem_of_list_In, filter_In. split; [|done]. apply elem_of_list_In.
    cbn [walk] in Hw. rewrite Hct in Hw. cbn in Hw.
    unfold kids_at. apply elem_of_lookup_imap. exists i, t. done. }
  destruct (children _ (g, π) ct) as [|f l]; [by apply elem_of_nil in Hin|]. by exists f.
Qed.

Lemma custom_denotes p t scope own x q d : element_at s p t -> annotated s p t scope own ->
  language_symbol s scope x q d -> ~ hidden s scope own ("(" +:+ x +:+ ")") -> denotes s (scope ++ own) x q.
Proof.
  intros Ht Ha Hl Hh. eapply symbol_denotes; [by eapply annotated_idents|by eapply annotated_own|exact Hl|].
  intros Hne d' Hd'. apply Hh. by eapply hidden_custom.
Qed.
Lemma bare_denotes scope own y q : ident y -> no_parens y = true -> ~ hidden s scope own y -> ~ denotes s (scope ++ own) y q.
Proof.
  intros Hy Hp Hh [[n Hf] [[Habs _]|(_ & k & Hk & -> & _)]].
  - revert Habs. rewrite <- (sapp_nil_r y). by apply ident_relative.
  - destruct (found_declared s Hcalm Hvalid _ _ Hf) as (d & _ & _ & _ & Hd & _). apply Hh. by eapply hidden_predefined.
Qed.
Lemma meaning_target cn ca class p t scope own oname m :
  element_at s p t -> annotated s p t scope own -> found s cn (NAst KMessage ca class) ->
  option_meaning s cn scope oname m -> ~ hidden s scope own oname ->
  exists f, option_target s (scope ++ own) class oname f.
Proof.
  intros Ht Ha Hf Hm Hh. destruct Hm as [x q d Hx Hl Hp _|y Hy Hp Hfo].
  - destruct (declared_field q d) as (a & f & u & H1 & H2 & H3); [by inversion Hl|done|].
    exists f. eapply ot_denoted; [by apply ref_custom|exact (custom_denotes p t scope own x q d Ht Ha Hl Hh)|exact H1|exact H2|exact H3].
  - destruct (class_field _ _ _ _ Hf Hfo) as (ct & f & H1 & H2). exists f.
    eapply ot_predefined; [by apply ref_plain| |exact H1|exact H2]. intros q. by apply bare_denotes.
Qed.

(** whatever encloses a declared name is a package, or a message or service *)
Lemma declared_within q d l i : declared s q d -> Forall ident l -> q = dotted l -> 0 < i < length l ->
  package_named s (dotted (take i l)) \/
  exists d', declared s (dotted (take i l)) d' /\ exists n, d' = DMessage n false \/ d' = DService n.
Proof.
  intros (path & g & f & π & t & Hl & Hq & Hw & Hd) Hid -> Hi.
  pose proof Hvalid as (_ & _ & Hn & _). destruct (Hn _ _ _ Hl) as [[pc Hpc] Hidn].
  destruct (fqn_parts s Hvalid _ _ _ _ _ _ Hl Hpc Hq) as (t' & n & Hw' & Hn' & Hv & E & Hid').
  apply (dotted_inj _ _ Hid Hid') in E. subst l. rewrite !app_length in Hi. cbn in Hi.
  destruct (decide (i <= length pc)) as [Hle|Hgt].
  - left. exists path, g, f, pc, i. split; [done|]. split; [done|]. split; [lia|]. by rewrite take_app_le.
  - right. destruct (enclosing_prefix f π (i - length pc) Hv) as (π' & u & n' & Hu & Hsn & Hv' & E); [lia|].
    exists (t_data u). split.
    + exists path, g, f, π', u. split; [done|]. split; [|done]. unfold fqn. rewrite Hu, (scope_own _ _ Hsn), Hv'.
      destruct Hpc as [_ Hfs]. unfold file_scope in Hfs. rewrite Hfs, E, <- dotted_app. f_equal. f_equal.
      rewrite take_app_ge by lia. rewrite take_app_le by lia. done.
    + destruct (t_data u) as [| | | | | |? []| | | | | | | | | | | |]; try discriminate Hsn; eauto.
Qed.
End schema.

Lemma paren_inj x y : "(" +:+ x +:+ ")" = "(" +:+ y +:+ ")" -> x = y.
Proof.
  assert (forall a b, a +:+ ")" = b +:+ ")" -> a = b) as H.
  { induction a as [|c a IH]; intros [|c' b] E; [done| | |].
    - exfalso. injection E as _ E. by destruct b.
    - exfalso. injection E as _ E. by destruct a.
    - injection E as -> E. f_equal. by apply IH. }
  intros E. apply H. by injection E.
Qed.

(** ** The theorems *)

(** If every option statement of an element has a meaning in the language and none of the names is hidden,
    Options collects one option per statement, and each is, for ever, exactly what the language says. *)
Theorem C82_options s n k a p t cn ca class scope own :
  calm s -> valid_schema s -> n = NAst k a p -> points_to s p n -> element_at s p t ->
  options_message (t_data t) = Some cn -> found s cn (NAst KMessage ca class) -> annotated s p t scope own ->
  (forall q, q ∈ children an_option p t ->
     exists oname m, statement s q oname /\ option_meaning s cn scope oname m /\ ~ hidden s scope own oname) ->
  exists l, ((sq <~ options n ;; collect sq) s).1 = Ret l /\
    Forall2 (fun q o => exists oname m, statement s q oname /\ option_meaning s cn scope oname m /\
       forall A (c : R A) q', client Loads c -> (option_is o q' (c s).2).1 = Ret (bool_decide (q' = m)))
      (children an_option p t) l.
Proof.
  intros Hc Hv -> Hp Ht Hcn Hf Ha Hall.
  pose proof (annotated_scope s Hc Hv _ _ _ _ _ _ _ Hp Ht Hcn Ha) as Hsc.
  destruct (C33_options s (NAst k a p) k a p t cn ca class (scope ++ own) (calm_reachable _ Hc) eq_refl Hp Ht Hcn Hf Hsc) as (l & El & Hl).
  { intros q Hq. destruct (Hall q Hq) as (oname & m & H1 & H2 & H3). exists oname.
    destruct (meaning_target s Hc Hv cn ca class p t scope own oname m Ht Ha Hf H2 H3) as [f Hff]. by exists f. }
  exists l. split; [exact El|].
  assert (Hin : Forall (fun q => exists oname m, statement s q oname /\ option_meaning s cn scope oname m /\ ~ hidden s scope own oname)
    (children an_option p t)) by (apply list.Forall_forall; exact Hall).
  clear El Hall Hcn. induction Hl as [|q o qs os Hqo _ IH]; [constructor|].
  apply Forall_cons_1 in Hin as [(oname & m & H1 & H2 & H3) Hin]. constructor; [|by apply IH].
  exists oname, m. split; [done|]. split; [done|]. intros A c q' Hcl.
  destruct H2 as [x m d Hx Hls Hpf Hext|y Hy Hpy Hfo].
  - eapply (C34_custom_option s _ class q o _ x m q' c Hc Hqo H1); [by apply ref_custom| |exact Hcl].
    exact (custom_denotes s Hc Hv p t scope own x m d Ht Ha Hls H3).
  - eapply (C35_predefined_option s _ class cn ca q o y y q' c Hc Hf Hqo H1); [by apply ref_plain| |exact Hcl].
    intros d. by apply (bare_denotes s Hc Hv).
Qed.

(** The meaning is one. *)
Theorem C82_one_meaning s cn scope oname m m' :
  calm s -> valid_schema s -> Forall ident scope ->
  option_meaning s cn scope oname m -> option_meaning s cn scope oname m' -> m' = m.
Proof.
  intros Hc Hv Hid H1 H2.
  assert (Hcd : forall x q d, language_symbol s scope x q d -> denotes s scope x q).
  { intros x q d Hl. rewrite <- (app_nil_r scope).
    apply (symbol_denotes s Hc Hv scope [] x q d); [by rewrite app_nil_r|cbn; lia|done|done]. }
  assert (Hpar : forall x, no_parens ("(" +:+ x +:+ ")") = false) by done.
  assert (Hinj : forall x y, "(" +:+ x +:+ ")" = "(" +:+ y +:+ ")" -> no_parens x = true -> no_parens y = true -> y = x).
  { intros x y E Hx Hy. apply (f_equal strip_parens) in E.
    rewrite <- (strip_no_parens _ Hx), <- (strip_no_parens _ Hy).
    rewrite (refers_strip _ _ (ref_custom x Hx)), (refers_strip _ _ (ref_custom y Hy)) in E. congruence. }
  inversion H1 as [x q d Hx Hl Hp Hext E1 E2|y Hy Hp Hf E1 E2]; subst;
    inversion H2 as [x' q' d' Hx' Hl' Hp' Hext' E1' E2'|y' Hy' Hp' Hf' E1' E2']; subst; [| |by rewrite Hpar in Hp|done].
  - assert (x' = x) as -> by (symmetry; apply Hinj; [by rewrite !sapp_cons, E1'|done|done]). exact (denotes_fun _ _ _ _ _ (Hcd _ _ _ Hl) (Hcd _ _ _ Hl')).
  - by rewrite Hpar in Hp'.
Qed.

(** Only messages and services can hide the name of a custom option of theirs. *)
Theorem C82_only_scopes_hide s p t scope own x xs :
  calm s -> valid_schema s -> element_at s p t -> annotated s p t scope own ->
  Forall ident xs -> xs <> [] -> "." +:+ x = dotted xs -> no_parens x = true -> hidden s scope own ("(" +:+ x +:+ ")") ->
  exists n, t_data t = DMessage n false \/ t_data t = DService n.
Proof.
  intros Hc Hv Ht Ha Hxs Hne Ex Hnp Hh.
  inversion Hh as [x' d Hown Hd E|y k d Hy Hk Hd Hp E]; [|subst; discriminate Hp].
  assert (x' = x) as ->.
  { apply paren_inj. rewrite !sapp_cons. by f_equal. }
  destruct Ha as [|n scope Hn He Hs]; [done|].
  pose proof (annotated_idents s Hv p t scope [n] Ht (ann_element _ _ _ _ _ Hn He Hs)) as Hid.
  assert (Hd' : declared s (dotted ((scope ++ [n]) ++ xs)) d) by (by rewrite dotted_app, <- Ex).
  destruct (declared_within s Hv _ d ((scope ++ [n]) ++ xs) (length (scope ++ [n])) Hd') as [Hpk|(d2 & Hd2 & x2 & Hx2)].
  - by apply Forall_app.
  - done.
  - rewrite !app_length. destruct xs; [done|]. cbn. lia.
  - exfalso. rewrite take_app in Hpk. destruct Hs as (path & f & pc & Hl & [Hpc Hfs] & Hvis & ->).
    pose proof (element_walk s _ _ _ _ Ht Hl) as Hw.
    pose proof Hv as (_ & _ & _ & Hnp'). refine (Hnp' _ (t_data t) _ Hpk).
    exists path, p.1, f, p.2, t. split; [done|]. split; [|done].
    unfold fqn. rewrite Hw, Hn, Hvis. unfold file_scope in Hfs. rewrite Hfs, <- dotted_app. by rewrite <- app_assoc.
  - rewrite take_app in Hd2. destruct Hs as (path & f & pc & Hl & [Hpc Hfs] & Hvis & ->).
    pose proof (element_walk s _ _ _ _ Ht Hl) as Hw.
    assert (Hdt : declared s (dotted ((pc ++ enclosing f p.2) ++ [n])) (t_data t)).
    { exists path, p.1, f, p.2, t. split; [done|]. split; [|done].
      unfold fqn. rewrite Hw, Hn, Hvis. unfold file_scope in Hfs. rewrite Hfs, <- dotted_app. by rewrite <- app_assoc. }
    exists x2. by rewrite <- (declared_fun s Hv _ _ _ Hdt Hd2).
Qed.

(** A hidden custom name is taken for what hides it. *)
Theorem C82_hidden s class p t scope own q o x d q' {A} (c : R A) :
  calm s -> valid_schema s -> element_at s p t -> annotated s p t scope own ->
  about s (scope ++ own) class q o -> statement s q ("(" +:+ x +:+ ")") -> no_parens x = true -> ~ absolute x ->
  declared s (dotted (scope ++ own) +:+ "." +:+ x) d -> client Loads c ->
  (option_is o q' (c s).2).1 = Ret (bool_decide (q' = dotted (scope ++ own) +:+ "." +:+ x)).
Proof.
  intros Hc Hv Ht Ha Hab Hst Hx Hna Hd Hcl.
  eapply (C34_custom_option s _ class q o _ x _ q' c Hc Hab Hst); [by apply ref_custom| |exact Hcl].
  destruct (declared_node s Hc Hv _ _ Hd) as (k & a & f & Hf & _).
  split; [by exists (NAst k a f)|]. right. split; [done|]. exists (length (scope ++ own)). split; [done|].
  split; [by rewrite take_ge|]. intros j H1 H2. lia.
Qed.

(** The converse for simple names in parentheses: the option is what the name stands for in the language,
    unless a package by that name is in between.  (It need not be an extension of the options message, see
    [C82_refuted_no_extension].) *)
Theorem C82_simple_sound s cn ca class p t scope own q o x :
  calm s -> valid_schema s -> element_at s p t -> annotated s p t scope own ->
  found s cn (NAst KMessage ca class) -> ~ field_of s cn ("(" +:+ x +:+ ")") ->
  about s (scope ++ own) class q o -> statement s q ("(" +:+ x +:+ ")") -> ident x -> no_parens x = true ->
  ~ hidden s scope own ("(" +:+ x +:+ ")") ->
  (forall j, j <= length scope -> ~ package_named s (dotted (take j scope ++ [x]))) ->
  exists m d, language_symbol s scope x m d /\ plain_field d /\
    forall A (c : R A) q', client Loads c -> (option_is o q' (c s).2).1 = Ret (bool_decide (q' = m)).
Proof.
  intros Hc Hv Ht Ha Hf Hnf Hab Hst Hi Hx Hh Hnp. pose proof (history_Inv _ _ Hc) as I.
  pose proof Hab as (_ & _ & oname & Hst' & Htg).
  assert (oname = "(" +:+ x +:+ ")") as ->.
  { destruct Hst as (u & l & Hu & Hdu), Hst' as (u' & l' & Hu' & Hdu'). apply element_heap in Hu, Hu'. congruence. }
  inversion Htg as [x' m a f u Hx' Hden Hff Hu Hpu Hfe|x' ct f Hx' Hno Hct Hhd Hfe];
    apply refers_strip in Hx'; rewrite (refers_strip _ _ (ref_custom x Hx)) in Hx'; subst x'.
  - destruct (found_declared s Hc Hv _ _ Hff) as (d & k' & a' & p' & Hd & [= <- <- <-] & Hk').
    exists m, d.
    assert (Hpd : plain_field d).
    { pose proof (found_at _ _ _ _ _ I Hff) as (_ & v & Hv' & _). apply element_heap in Hu.
      assert (v = u) as -> by congruence.
      destruct Hd as (path & g & ft & π & w & Hl & Hq & Hw & <-). pose proof Hv as (Hun & Hpf & _).
      destruct (C05_exact_declaration s path g ft π m w KField Hc Hun Hpf Hl Hq Hw Hk') as (a' & s2 & E).
      unfold found in Hff. rewrite E in Hff. injection Hff as <- Hfp. rewrite <- Hfp in Hu.
      unfold heap_at in Hu. cbn [fst snd] in Hu. destruct Hl as (_ & Hl & _). rewrite Hl, Hw in Hu. by injection Hu as ->. }
    split.
    { destruct Hden as [_ [[Habs _]|(_ & k & Hk & -> & Hinner)]].
      { exfalso. revert Habs. rewrite <- (sapp_nil_r x). by apply ident_relative. }
      pose proof (annotated_own s p t scope own Ha) as Hown.
      rewrite app_length in Hk, Hinner.
      destruct (decide (k <= length scope)) as [Hle|Hgt].
      - rewrite take_app_le in Hd |- * by lia. rewrite <- dotted_snoc in Hd |- *. apply sym_simple; [done|done|done|].
        intros j Hj. split; [|apply Hnp; lia]. intros d' Hd'.
        destruct (declared_node s Hc Hv _ _ Hd') as (k2 & a2 & p2 & Hf2 & _).
        specialize (Hinner j ltac:(lia) ltac:(lia) (NAst k2 a2 p2)).
        rewrite take_app_le in Hinner by lia. rewrite <- dotted_snoc in Hinner. by apply Hinner.
      - exfalso. apply Hh. rewrite take_ge in Hd by (rewrite app_length; lia).
        eapply hidden_custom; [|exact Hd]. intros ->. cbn in Hk. lia. }
    split; [done|]. intros A c q' Hcl.
    eapply (C34_custom_option s _ class q o _ x m q' c Hc Hab Hst); [by apply ref_custom|exact Hden|exact Hcl].
  - exfalso. apply Hnf.
    destruct (found_declared s Hc Hv _ _ Hf) as (d & k' & a' & p' & Hd & [= <- <- <-] & Hk').
    destruct Hd as (path & g & ft & π & w & Hl & Hq & Hw & <-). pose proof Hv as (Hun & Hpf & _).
    destruct (C05_exact_declaration s path g ft π cn w KMessage Hc Hun Hpf Hl Hq Hw Hk') as (a' & s2 & E).
    pose proof Hf as Hf'. unfold found in Hf'. rewrite E in Hf'. injection Hf' as <- <-.
    pose proof (element_walk s (g, π) ct path ft Hct Hl) as Hwc. cbn [snd] in Hwc. assert (ct = w) as -> by congruence.
    assert (Hin : o_field o ∈ children (plain_field_named ("(" +:+ x +:+ ")")) (g, π) w).
    { clear -Hhd. destruct (children _ (g, π) w) as [|f' l]; [discriminate Hhd|]. injection Hhd as ->. apply elem_of_list_here. }
    unfold children in Hin. apply elem_of_list_fmap in Hin as (b & _ & Hb).
    apply elem_of_list_In, filter_In in Hb as [Hb Hsel]. apply elem_of_list_In in Hb. unfold kids_at in Hb.
    apply elem_of_lookup_imap in Hb as (i & u & -> & Hi').
    exists path, g, ft, π, i, u. split; [done|]. split; [done|]. cbn [walk]. by rewrite Hw.
Qed.

(** ** A schema *)

Definition lo_f := "lo.proto".
Definition lo_elems : list tree :=
  [ el lo_f 1 (DPackage "lo") [];
    el lo_f 2 (DImport desc_f) [];
    extb lo_f 3 "google.protobuf.MessageOptions" [ fld lo_f 4 "string" "tag" 50001; fld lo_f 5 "Tag" "deep" 50002 ];
    msg lo_f 6 "Tag" [ fld lo_f 7 "int32" "b" 1 ];
    msg lo_f 8 "Plain" [ opt lo_f 9 "(tag)" "x"; opt lo_f 10 "deprecated" "true"; opt lo_f 11 "(lo.deep)" "x" ];
    msg lo_f 12 "Own" [ opt lo_f 13 "(tag)" "x"; extb lo_f 14 "google.protobuf.MessageOptions" [ fld lo_f 15 "string" "tag" 50003 ] ];
    msg lo_f 16 "W" [ opt lo_f 17 "(Tag.b)" "1" ];
    msg lo_f 18 "Deep" [ opt lo_f 19 "(deep).b" "1" ] ].
Definition lo_files : list (string * list tree) := (std_files ++ [ (lo_f, lo_elems) ])%list.
Definition lo_world : registry := Worlds.world lo_files [lo_f].

Definition mo := ".google.protobuf.MessageOptions".
Definition lo_options (i : nat) : R (list optn) := sq <~ options (NAst KMessage 1 (1, [i])) ;; collect sq.
Definition single_option (s : registry) (i : nat) (yes no : string) : bool :=
  match (lo_options i s).1 with
  | Ret [o] => match (option_is o yes s).1, (option_is o no s).1 with Ret true, Ret false => true | _, _ => false end
  | _ => false
  end.
Definition lo_check : bool :=
  starts lo_files && check_schema lo_world &&
  forallb (undeclared lo_world)
    [".lo.Plain.tag"; ".lo.Plain.lo.deep"; ".deprecated"; ".lo.deprecated"; ".lo.Plain.deprecated"] &&
  forallb (no_aggregate lo_world) [".lo.google"; ".tag"; ".lo.lo"] &&
  single_option lo_world 5 ".lo.Own.tag" ".lo.tag" && single_option lo_world 6 ".lo.Tag.b" "" &&
  match (lo_options 7 lo_world).1 with Panic (PText e) => String.eqb e "option field not found" | _ => false end &&
  match (node_by_full_name mo lo_world).1 with Ret (Some (NAst KMessage _ (0, [3]))) => true | _ => false end.
Lemma lo_checked : lo_check = true.
Proof. vm_compute. reflexivity. Qed.
Lemma lo_loaded : loaded lo_world lo_f 1 (file_tree lo_f lo_elems) /\ loaded lo_world desc_f 0 (file_tree desc_f descriptor_elems).
Proof. split; (split; [|split]); vm_compute; reflexivity. Qed.

Lemma lo_facts : exists s, calm s /\ valid_schema s /\
  loaded s lo_f 1 (file_tree lo_f lo_elems) /\ loaded s desc_f 0 (file_tree desc_f descriptor_elems) /\
  (forall d, ~ declared s ".lo.Plain.tag" d) /\ (forall d, ~ declared s ".lo.Plain.lo.deep" d) /\
  (forall d, ~ declared s ".deprecated" d) /\ (forall d, ~ declared s ".lo.deprecated" d) /\
  (forall d, ~ declared s ".lo.Plain.deprecated" d) /\
  ~ aggregate_named s ".lo.google" /\ ~ aggregate_named s ".tag" /\ ~ aggregate_named s ".lo.lo" /\
  single_option s 5 ".lo.Own.tag" ".lo.tag" = true /\ single_option s 6 ".lo.Tag.b" "" = true /\
  (lo_options 7 s).1 = Panic (PText "option field not found") /\ (exists ca, found s mo (NAst KMessage ca (0, [3]))).
Proof.
  exists lo_world. pose proof lo_checked as H. pose proof lo_loaded as [L1 L2]. unfold lo_check in H.
  assert (Hr : starts lo_files = true -> calm lo_world) by apply world_calm.
  revert H L1 L2 Hr. generalize lo_world as s. intros s H L1 L2 Hr. rewrite !andb_true_iff in H.
  destruct H as (((((((H1 & H2) & H3) & H4) & H5) & H6) & H7) & H8).
  cbn [forallb] in H3, H4. rewrite !andb_true_iff in H3. rewrite !andb_true_iff in H4.
  destruct H3 as (U1 & U2 & U3 & U4 & U5 & _), H4 as (A1 & A2 & A3 & _).
  split; [by apply Hr|]. split; [by apply check_schema_ok|]. split; [done|]. split; [done|].
  split; [intros d; by apply undeclared_ok|]. split; [intros d; by apply undeclared_ok|]. split; [intros d; by apply undeclared_ok|].
  split; [intros d; by apply undeclared_ok|]. split; [intros d; by apply undeclared_ok|].
  split; [by apply no_aggregate_ok|]. split; [by apply no_aggregate_ok|]. split; [by apply no_aggregate_ok|].
  split; [done|]. split; [done|]. split.
  - destruct (lo_options 7 s).1 as [|[e|]|]; try discriminate H7. apply String.eqb_eq in H7. by rewrite H7.
  - unfold found. destruct (node_by_full_name mo s).1 as [[[[] ca [[|] [|[|[|[|[]]]] []]]| | | | |]|]| |]; try discriminate H8. by exists ca.
Qed.

Lemma not_hidden_custom s scope own x : (forall d, ~ declared s (dotted (scope ++ own) +:+ "." +:+ x) d) ->
  ~ hidden s scope own ("(" +:+ x +:+ ")").
Proof.
  intros H Hh. remember ("(" +:+ x +:+ ")") as oname eqn:E. destruct Hh as [x' d Hne Hd|y k d Hy Hk Hd Hp].
  - apply paren_inj in E. subst x'. exact (H _ Hd).
  - subst y. discriminate Hp.
Qed.
Lemma not_hidden_bare s scope own y : no_parens y = true ->
  (forall k d, k <= length (scope ++ own) -> ~ declared s (dotted (take k (scope ++ own)) +:+ "." +:+ y) d) ->
  ~ hidden s scope own y.
Proof.
  intros Hp H Hh. destruct Hh as [x d Hne Hd|y k d Hy Hk Hd _]; [discriminate Hp|exact (H _ _ Hk Hd)].
Qed.

Section lo.
Context (s : registry).
Hypothesis L : loaded s lo_f 1 (file_tree lo_f lo_elems).
Hypothesis LD : loaded s desc_f 0 (file_tree desc_f descriptor_elems).
Hypothesis A1 : ~ aggregate_named s ".lo.google".
Lemma lo_element π t : walk (file_tree lo_f lo_elems) π = Some t -> element_at s (1, π) t.
Proof. intros Hw. exists lo_f. unfold element_of. eexists. split; [exact L|]. done. Qed.
Lemma lo_scope π scope : visible (file_tree lo_f lo_elems) π = true -> scope = ("lo" :: enclosing (file_tree lo_f lo_elems) π) ->
  scope_around s (1, π) scope.
Proof.
  intros Hv ->. exists lo_f, (file_tree lo_f lo_elems), ["lo"]. split; [exact L|]. split; [split; [by apply idents|reflexivity]|]. done.
Qed.
Lemma lo_extendee : language_message s ["lo"] "google.protobuf.MessageOptions" mo.
Proof.
  apply (langm_compound s ["lo"] "google" ["protobuf"; "MessageOptions"] 0 "MessageOptions").
  - by apply identb_ok.
  - done.
  - by apply idents.
  - cbn. lia.
  - eapply (declared_here s desc_f 0 _ [3]); [exact LD|reflexivity..].
  - intros j [Hj1 Hj2]. cbn in Hj2. assert (j = 1) as -> by lia. exact A1.
Qed.
Lemma lo_extension i q : fqn (file_tree lo_f lo_elems) [i; 2] = Some q -> extension_of s mo q.
Proof.
  intros Hq. eexists lo_f, 1, _, [2], i, _, "google.protobuf.MessageOptions", ["lo"]. split; [exact L|]. split; [done|].
  split; [reflexivity|]. split; [reflexivity|]. split; [by apply lo_scope|exact lo_extendee].
Qed.
Lemma lo_tag : option_meaning s mo ["lo"] "(tag)" ".lo.tag".
Proof.
  apply (om_custom s mo ["lo"] "tag" ".lo.tag" (DNormalField "tag" "string" 50001 false false)); [done| |done|].
  - apply (sym_simple s ["lo"] "tag" 1); [by apply identb_ok|cbn; lia| |intros j [? Hj]; cbn in Hj; lia].
    eapply (declared_here s lo_f 1 _ [0; 2]); [exact L|reflexivity..].
  - by apply (lo_extension 0).
Qed.
Lemma lo_deep : option_meaning s mo ["lo"] "(deep)" ".lo.deep".
Proof.
  apply (om_custom s mo ["lo"] "deep" ".lo.deep" (DNormalField "deep" "Tag" 50002 false false)); [done| |done|].
  - apply (sym_simple s ["lo"] "deep" 1); [by apply identb_ok|cbn; lia| |intros j [? Hj]; cbn in Hj; lia].
    eapply (declared_here s lo_f 1 _ [1; 2]); [exact L|reflexivity..].
  - by apply (lo_extension 1).
Qed.
Lemma lo_lo_deep : ~ aggregate_named s ".lo.lo" -> option_meaning s mo ["lo"] "(lo.deep)" ".lo.deep".
Proof.
  intros A3.
  apply (om_custom s mo ["lo"] "lo.deep" ".lo.deep" (DNormalField "deep" "Tag" 50002 false false)); [done| |done|].
  - apply (sym_compound s ["lo"] "lo" ["deep"] 0); [by apply identb_ok|done|by apply idents|cbn; lia| |].
    + eapply (declared_here s lo_f 1 _ [1; 2]); [exact L|reflexivity..].
    + intros j [Hj1 Hj2]. cbn in Hj2. assert (j = 1) as -> by lia. exact A3.
  - by apply (lo_extension 1).
Qed.
Lemma lo_deprecated : option_meaning s mo ["lo"] "deprecated" (mo +:+ ".deprecated").
Proof.
  apply (om_predefined s mo ["lo"] "deprecated"); [by apply identb_ok|done|].
  eexists desc_f, 0, _, [3], 0, _. split; [exact LD|]. split; [reflexivity|]. split; reflexivity.
Qed.
Lemma lo_annotated i t n : walk (file_tree lo_f lo_elems) [i] = Some t -> t_data t = DMessage n false ->
  points_to s (1, [i]) (NAst KMessage 1 (1, [i])) /\ element_at s (1, [i]) t /\ annotated s (1, [i]) t ["lo"] [n].
Proof.
  intros Hw Hd. pose proof (lo_element _ _ Hw) as He. split; [split; [done|]; exists t; split; [done|by rewrite Hd]|].
  split; [done|]. apply ann_element; [by rewrite Hd|by rewrite Hd|]. by apply lo_scope.
Qed.
End lo.

(** A message with a custom option, a predefined one and a custom one by its qualified name. *)
Example C82_example : exists s t ca, let n := NAst KMessage 1 (1, [4]) in
  calm s /\ valid_schema s /\ points_to s (1, [4]) n /\ element_at s (1, [4]) t /\
  options_message (t_data t) = Some mo /\ found s mo (NAst KMessage ca (0, [3])) /\ annotated s (1, [4]) t ["lo"] ["Plain"] /\
  children an_option (1, [4]) t = [(1, [0; 4]); (1, [1; 4]); (1, [2; 4])] /\
  statement s (1, [0; 4]) "(tag)" /\ option_meaning s mo ["lo"] "(tag)" ".lo.tag" /\ ~ hidden s ["lo"] ["Plain"] "(tag)" /\
  statement s (1, [1; 4]) "deprecated" /\ option_meaning s mo ["lo"] "deprecated" (mo +:+ ".deprecated") /\
  ~ hidden s ["lo"] ["Plain"] "deprecated" /\
  statement s (1, [2; 4]) "(lo.deep)" /\ option_meaning s mo ["lo"] "(lo.deep)" ".lo.deep" /\ ~ hidden s ["lo"] ["Plain"] "(lo.deep)".
Proof.
  destruct lo_facts as (s & Hc & Hv & L & LD & U1 & U2 & U3 & U4 & U5 & A1 & A2 & A3 & _ & _ & _ & ca & Hca).
  exists s. eexists. exists ca. cbn zeta.
  destruct (lo_annotated s L 4 (msg lo_f 8 "Plain" [ opt lo_f 9 "(tag)" "x"; opt lo_f 10 "deprecated" "true"; opt lo_f 11 "(lo.deep)" "x" ]) "Plain") as (P1 & P2 & P3); [reflexivity|reflexivity|].
  split; [exact Hc|]. split; [exact Hv|]. split; [exact P1|]. split; [exact P2|]. split; [reflexivity|]. split; [exact Hca|].
  split; [exact P3|]. split; [reflexivity|].
  split; [eexists _, _; split; [apply (lo_element s L); reflexivity|reflexivity]|]. split; [by apply lo_tag|].
  split; [by apply (not_hidden_custom s ["lo"] ["Plain"] "tag")|].
  split; [eexists _, _; split; [apply (lo_element s L); reflexivity|reflexivity]|]. split; [by apply lo_deprecated|].
  split.
  { apply not_hidden_bare; [done|]. intros k d Hk. cbn in Hk. destruct k as [|[|[|k]]]; [apply U3|apply U4|apply U5|lia]. }
  split; [eexists _, _; split; [apply (lo_element s L); reflexivity|reflexivity]|]. split; [by apply lo_lo_deep|].
  by apply (not_hidden_custom s ["lo"] ["Plain"] "lo.deep").
Qed.

(** The first of them, for the converse. *)
Example C82_simple_sound_example : exists s t ca o,
  calm s /\ valid_schema s /\ element_at s (1, [4]) t /\ annotated s (1, [4]) t ["lo"] ["Plain"] /\
  found s mo (NAst KMessage ca (0, [3])) /\ ~ field_of s mo "(tag)" /\
  about s (["lo"] ++ ["Plain"]) (0, [3]) (1, [0; 4]) o /\ statement s (1, [0; 4]) "(tag)" /\
  ~ hidden s ["lo"] ["Plain"] "(tag)" /\
  (forall j, j <= 1 -> ~ package_named s (dotted (take j ["lo"] ++ ["tag"]))).
Proof.
  destruct lo_facts as (s & Hc & Hv & L & LD & U1 & U2 & U3 & U4 & U5 & A1 & A2 & A3 & _ & _ & _ & ca & Hca).
  destruct (lo_annotated s L 4 (msg lo_f 8 "Plain" [ opt lo_f 9 "(tag)" "x"; opt lo_f 10 "deprecated" "true"; opt lo_f 11 "(lo.deep)" "x" ]) "Plain") as (P1 & P2 & P3); [reflexivity|reflexivity|].
  assert (St : statement s (1, [0; 4]) "(tag)") by (eexists _, _; split; [apply (lo_element s L); reflexivity|reflexivity]).
  assert (Hh : ~ hidden s ["lo"] ["Plain"] "(tag)") by (by apply (not_hidden_custom s ["lo"] ["Plain"] "tag")).
  destruct (meaning_target s Hc Hv mo ca (0, [3]) _ _ _ _ _ _ P2 P3 Hca (lo_tag s L LD A1) Hh) as [f Hf].
  exists s. eexists. exists ca, (mkOptn 0%N (1, [0; 4]) (0, [3]) f).
  split; [exact Hc|]. split; [exact Hv|]. split; [exact P2|]. split; [exact P3|]. split; [exact Hca|]. split.
  { intros (path & g & ft & π & i & t & Hl & Hq & Hw & Hn). destruct Hv as (Hu & _).
    assert (Hours : fqn (file_tree desc_f descriptor_elems) [3] = Some mo) by reflexivity.
    destruct (Hu _ _ _ _ _ _ _ _ _ LD Hl Hours Hq) as [Hg Hπ]. subst g π.
    destruct LD as (_ & LD' & _), Hl as (_ & Hl & _). rewrite LD' in Hl. injection Hl as <-.
    destruct i as [|i]; [injection Hw as <-; discriminate Hn|discriminate Hw]. }
  split; [split; [reflexivity|]; split; [reflexivity|]; exists "(tag)"; split; [exact St|exact Hf]|].
  split; [exact St|]. split; [exact Hh|].
  intros [|[|j]] Hj Hp; [|  |lia].
  - apply A2. by right.
  - destruct Hv as (_ & _ & _ & Hn). refine (Hn _ (DNormalField "tag" "string" 50001 false false) _ Hp).
    eapply (declared_here s lo_f 1 _ [0; 2]); [exact L|reflexivity..].
Qed.

(** It is not so for an extension declared inside the annotated message: there the language finds the outer
    extension, the library the inner one. *)
Theorem C82_refuted_own_scope : exists s t n o, 
  calm s /\ valid_schema s /\ points_to s (1, [5]) n /\ element_at s (1, [5]) t /\ options_message (t_data t) = Some mo /\
  annotated s (1, [5]) t ["lo"] ["Own"] /\ statement s (1, [0; 5]) "(tag)" /\
  option_meaning s mo ["lo"] "(tag)" ".lo.tag" /\
  ((sq <~ options n ;; collect sq) s).1 = Ret [o] /\
  (option_is o ".lo.tag" s).1 = Ret false /\ (option_is o ".lo.Own.tag" s).1 = Ret true.
Proof.
  destruct lo_facts as (s & Hc & Hv & L & LD & _ & _ & _ & _ & _ & A1 & A2 & A3 & S5 & _ & _ & ca & Hca).
  unfold single_option in S5. destruct (lo_options 5 s).1 as [[|o [|]]| |] eqn:El; try discriminate S5.
  destruct (lo_annotated s L 5 (msg lo_f 12 "Own" [ opt lo_f 13 "(tag)" "x"; extb lo_f 14 "google.protobuf.MessageOptions" [ fld lo_f 15 "string" "tag" 50003 ] ]) "Own") as (P1 & P2 & P3); [reflexivity|reflexivity|].
  exists s. eexists. exists (NAst KMessage 1 (1, [5])), o.
  split; [exact Hc|]. split; [exact Hv|]. split; [exact P1|]. split; [exact P2|]. split; [reflexivity|]. split; [exact P3|].
  split; [eexists _, _; split; [apply (lo_element s L); reflexivity|reflexivity]|]. split; [by apply lo_tag|].
  split; [exact El|].
  destruct (option_is o ".lo.Own.tag" s).1 as [[]| |]; try discriminate S5.
  destruct (option_is o ".lo.tag" s).1 as [[]| |]; try discriminate S5. done.
Qed.

(** The hypotheses of [C82_hidden] and [C82_only_scopes_hide] hold there. *)
Example C82_hidden_example : exists s t d o,
  calm s /\ valid_schema s /\ element_at s (1, [5]) t /\ annotated s (1, [5]) t ["lo"] ["Own"] /\
  about s (["lo"] ++ ["Own"]) (0, [3]) (1, [0; 5]) o /\ statement s (1, [0; 5]) "(tag)" /\
  declared s (dotted (["lo"] ++ ["Own"]) +:+ "." +:+ "tag") d /\ hidden s ["lo"] ["Own"] "(tag)".
Proof.
  destruct lo_facts as (s & Hc & Hv & L & LD & U1 & U2 & U3 & U4 & U5 & A1 & A2 & A3 & _ & _ & _ & ca & Hca).
  destruct (lo_annotated s L 5 (msg lo_f 12 "Own" [ opt lo_f 13 "(tag)" "x"; extb lo_f 14 "google.protobuf.MessageOptions" [ fld lo_f 15 "string" "tag" 50003 ] ]) "Own") as (P1 & P2 & P3); [reflexivity|reflexivity|].
  assert (Hd : declared s ".lo.Own.tag" (DNormalField "tag" "string" 50003 false false))
    by (eapply (declared_here s lo_f 1 _ [0; 1; 5]); [exact L|reflexivity..]).
  destruct (declared_field s Hc Hv _ _ Hd Logic.I) as (a & f & u & H1 & H2 & H3).
  exists s. eexists. exists (DNormalField "tag" "string" 50003 false false), (mkOptn 0%N (1, [0; 5]) (0, [3]) f).
  split; [exact Hc|]. split; [exact Hv|]. split; [exact P2|]. split; [exact P3|].
  assert (St : statement s (1, [0; 5]) "(tag)") by (eexists _, _; split; [apply (lo_element s L); reflexivity|reflexivity]).
  split.
  { split; [reflexivity|]. split; [reflexivity|]. exists "(tag)". split; [exact St|]. cbn [o_field].
    eapply (ot_denoted _ _ _ _ "tag" ".lo.Own.tag"); [by apply (ref_custom "tag")| |exact H1|exact H2|exact H3].
    split; [by exists (NAst KField a f)|]. right. split; [by intros [r E]|]. exists 2. split; [cbn; lia|]. split; [reflexivity|].
    intros j Hj1 Hj2. cbn in Hj2. lia. }
  split; [exact St|]. split; [exact Hd|]. by apply (hidden_custom s ["lo"] ["Own"] "tag" _ ltac:(done) Hd).
Qed.

(** And something that is no extension of the options message is accepted: an ordinary field of a message. *)
Theorem C82_refuted_no_extension : exists s t n o, 
  calm s /\ valid_schema s /\ points_to s (1, [6]) n /\ element_at s (1, [6]) t /\ options_message (t_data t) = Some mo /\
  annotated s (1, [6]) t ["lo"] ["W"] /\ statement s (1, [0; 6]) "(Tag.b)" /\
  (forall m, ~ option_meaning s mo ["lo"] "(Tag.b)" m) /\
  ((sq <~ options n ;; collect sq) s).1 = Ret [o] /\ (option_is o ".lo.Tag.b" s).1 = Ret true.
Proof.
  destruct lo_facts as (s & Hc & Hv & L & LD & _ & _ & _ & _ & _ & A1 & A2 & A3 & _ & S6 & _ & ca & Hca).
  unfold single_option in S6. destruct (lo_options 6 s).1 as [[|o [|]]| |] eqn:El; try discriminate S6.
  destruct (lo_annotated s L 6 (msg lo_f 16 "W" [ opt lo_f 17 "(Tag.b)" "1" ]) "W") as (P1 & P2 & P3); [reflexivity|reflexivity|].
  exists s. eexists. exists (NAst KMessage 1 (1, [6])), o.
  split; [exact Hc|]. split; [exact Hv|]. split; [exact P1|]. split; [exact P2|]. split; [reflexivity|]. split; [exact P3|].
  split; [eexists _, _; split; [apply (lo_element s L); reflexivity|reflexivity]|]. split.
  { intros m Hm. remember "(Tag.b)" as oname eqn:E. destruct Hm as [x q d Hx Hl Hp Hext|y Hy Hp _]; [|by subst y].
    change "(Tag.b)" with ("(" +:+ "Tag.b" +:+ ")") in E. apply paren_inj in E. subst x.
    assert (Hq : declared s ".lo.Tag.b" (DNormalField "b" "int32" 1 false false))
      by (eapply (declared_here s lo_f 1 _ [0; 3]); [exact L|reflexivity..]).
    assert (Hl2 : language_symbol s ["lo"] "Tag.b" ".lo.Tag.b" (DNormalField "b" "int32" 1 false false)).
    { apply (sym_compound s ["lo"] "Tag" ["b"] 1); [by apply identb_ok|done|by apply idents|cbn; lia|exact Hq|].
      intros j [? Hj]. cbn in Hj. lia. }
    assert (Hid : Forall ident ["lo"]) by (by apply idents).
    pose proof (symbol_denotes s Hc Hv ["lo"] [] _ _ _ Hid ltac:(cbn; lia) Hl ltac:(done)) as D1.
    pose proof (symbol_denotes s Hc Hv ["lo"] [] _ _ _ Hid ltac:(cbn; lia) Hl2 ltac:(done)) as D2.
    rewrite (denotes_fun _ _ _ _ _ D2 D1) in Hext.
    destruct Hext as (path & g & f & π & i & b & en & scope & Lf & Hfq & Hw & Hd & _).
    destruct Hv as (Hu & _).
    assert (Hours : fqn (file_tree lo_f lo_elems) [0; 3] = Some ".lo.Tag.b") by reflexivity.
    destruct (Hu _ _ _ _ _ _ _ _ _ L Lf Hours Hfq) as [Hg Hπ]. subst g. injection Hπ as Hi Hπ. subst i π.
    destruct L as (_ & L & _), Lf as (_ & Lf & _). rewrite L in Lf. injection Lf as <-.
    injection Hw as <-. discriminate Hd. }
  split; [exact El|].
  destruct (option_is o ".lo.Tag.b" s).1 as [[]| |]; try discriminate S6. done.
Qed.

(** And "(x).y", which sets the field y of the message that is the value of the option x, is not supported. *)
Theorem C82_refuted_subfield : exists s t n,
  calm s /\ valid_schema s /\ points_to s (1, [7]) n /\ element_at s (1, [7]) t /\ options_message (t_data t) = Some mo /\
  annotated s (1, [7]) t ["lo"] ["Deep"] /\ statement s (1, [0; 7]) "(deep).b" /\
  option_meaning s mo ["lo"] "(deep)" ".lo.deep" /\ declared s ".lo.deep" (DNormalField "deep" "Tag" 50002 false false) /\
  language_type s ["lo"] "Tag" ".lo.Tag" /\ field_of s ".lo.Tag" "b" /\
  ((sq <~ options n ;; collect sq) s).1 = Panic (PText "option field not found").
Proof.
  destruct lo_facts as (s & Hc & Hv & L & LD & _ & _ & _ & _ & _ & A1 & A2 & A3 & _ & _ & S7 & ca & Hca).
  destruct (lo_annotated s L 7 (msg lo_f 18 "Deep" [ opt lo_f 19 "(deep).b" "1" ]) "Deep") as (P1 & P2 & P3); [reflexivity|reflexivity|].
  exists s. eexists. exists (NAst KMessage 1 (1, [7])).
  split; [exact Hc|]. split; [exact Hv|]. split; [exact P1|]. split; [exact P2|]. split; [reflexivity|]. split; [exact P3|].
  split; [eexists _, _; split; [apply (lo_element s L); reflexivity|reflexivity]|]. split; [by apply lo_deep|].
  split; [eapply (declared_here s lo_f 1 _ [1; 2]); [exact L|reflexivity..]|].
  split.
  { apply (lang_simple s ["lo"] "Tag" 1); [by apply identb_ok|cbn; lia| |intros j [? Hj]; cbn in Hj; lia].
    exists (DMessage "Tag" false). split; [|done]. eapply (declared_here s lo_f 1 _ [3]); [exact L|reflexivity..]. }
  split; [|exact S7].
  eexists lo_f, 1, _, [3], 0, _. split; [exact L|]. split; [reflexivity|]. split; reflexivity.
Qed.
