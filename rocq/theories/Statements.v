(** * Statement by statement: what a load has done when it stops. *)
From Verif Require Export ThmLoading ThmErrors.
From Verif Require Import Worlds Frame Iterate Demo Identity Nodes LoadFacts Loading Loader Visit Api.
Local Open Scope go_scope.

(** one statement of a file *)
Lemma visit_top_step imp g path els :
  let f := file_tree path els in
  imp_ok imp -> wf_tree f = true ->
  forall i t v s o1 s1,
  els !! i = Some t -> heap s !! g = Some f -> schema s ->
  v_scope v = pkg_before els i -> v_file v = None \/ v_file v = Some (root g) ->
  visit imp v (child (root g) i) t s = (o1, s1) ->
  schema s1 /\ ext g s s1 /\
  forall v1, o1 = Ret v1 ->
    news_done s s1 /\ elem_done s1 g f i /\
    v_scope v1 = pkg_before els (S i) /\ v_file v1 = v_file v.
Proof.
  intros f Himp Hwf i t v s o1 s1 Hi Hf Hs Hsc Hvf.
    destruct (file_kid _ _ _ _ Hwf Hi) as [Hal Hwt].
    assert (Hpk : pkg_before els (S i) = pkg_step (pkg_before els i) t).
    { unfold pkg_before. rewrite (take_S_r _ _ _ Hi), foldl_app. done. }
    intros E1. destruct (nested (t_data t)) eqn:Hn.
      - (* declarations *)
        unfold child, root in E1. cbn [fst snd] in E1.
        destruct (visit_nested imp g t v [i] s Hwt Hn) as (v1 & E2 & V1 & V2).
        rewrite E2 in E1. injection E1 as <- <-.
        assert (Hw : walk f [i] = Some t) by (cbn; exact Hi).
        assert (Hsc1 : v_scope v = scope_at f [i]).
        { unfold scope_at. cbn [enclosing walk]. cbn. by rewrite sapp_nil_r. }
        assert (Hspec : forall q π b,
          (q, π, b) ∈ decls (v_scope v) [i] t <-> declares_below f [i] q π b).
        { intros q π b. rewrite Hsc1. by apply decls_spec. }
        destruct (add_decls_ok g f (decls (v_scope v) [i] t) s Hs Hf) as (A1 & A2 & A3 & A4).
        { intros [[q π] b] Hx. apply Hspec in Hx as (_ & Hq & u & Hu & Hb). split; [done|].
          intros ->. eauto. }
        split; [done|]. split; [done|]. intros v1' [= <-].
        split; [intros g' Hg'; rewrite A3 in Hg'; lia|].
        split; [|split; [|done]].
        + constructor.
          * intros π q Hne Ho Hq. destruct (outermost_app _ _ Hne Ho) as [δ ->].
            destruct (walk f (δ ++ [i])) as [u|] eqn:Hu;
              [|unfold fqn_here in Hq; by rewrite Hu in Hq].
            apply (A4 (q, (δ ++ [i])%list, keeps_scope (t_data u))).
            apply Hspec. split; [by exists δ|]. split; [done|]. eauto.
          * intros π q u Hne Ho Hq Hu Hk. destruct (outermost_app _ _ Hne Ho) as [δ ->].
            apply (A4 (q, (δ ++ [i])%list, keeps_scope (t_data u))); [|done].
            apply Hspec. split; [by exists δ|]. split; [done|]. eauto.
          * intros t' pth Ht' Hp. cbn in Ht'. rewrite Hi in Ht'. injection Ht' as <-.
            by rewrite Hp in Hn.
        + rewrite V1, Hpk, Hsc. unfold pkg_step. destruct (t_data t); done.
      - destruct t as [d ps c kids]. cbn [t_data] in *.
        destruct d; try discriminate Hn; try discriminate Hal.
        + (* package *)
          cbn [visit] in E1. unfold rbind, put_scope, modify, ret in E1.
          match type of E1 with context [v_scope ?v1] => set (w := v1) in * end.
          assert (Hw1 : v_scope w = pkg_before els (S i) /\ v_file w = v_file v).
          { rewrite Hpk, <- Hsc. unfold w, pkg_step, pkg_scope. cbn [t_data].
            destruct (String.eqb name "") eqn:Hemp.
            - apply String.eqb_eq in Hemp. subst name. done.
            - by destruct (has_prefix name "."). }
          destruct Hw1 as [W1 W2]. injection E1 as <- <-.
          assert (Hed : forall s1 : registry, elem_done s1 g f i).
          { intros s1. constructor.
            - intros π q Hne Ho Hq. destruct (outermost_app _ _ Hne Ho) as [δ ->].
              exfalso. destruct δ as [|x δ] using rev_ind.
              + unfold fqn_here in Hq. cbn in Hq. by rewrite Hi in Hq.
              + clear IHδ. rewrite <- app_assoc in Hq. unfold fqn_here in Hq.
                destruct (walk f (δ ++ [x] ++ [i])) as [u|]; [|done].
                destruct (own_name (t_data u)); [|done].
                destruct (visible f (δ ++ [x] ++ [i])) eqn:Hv; [|done].
                apply visible_app in Hv. cbn in Hv. by rewrite Hi in Hv.
            - intros π q u Hne Ho Hq Hu _. exfalso.
              destruct (outermost_app _ _ Hne Ho) as [δ ->].
              destruct δ as [|x δ] using rev_ind.
              + unfold fqn_here in Hq. cbn in Hq. by rewrite Hi in Hq.
              + clear IHδ. rewrite <- app_assoc in Hq. unfold fqn_here in Hq.
                destruct (walk f (δ ++ [x] ++ [i])) as [u'|]; [|done].
                destruct (own_name (t_data u')); [|done].
                destruct (visible f (δ ++ [x] ++ [i])) eqn:Hv; [|done].
                apply visible_app in Hv. cbn in Hv. by rewrite Hi in Hv.
            - intros t' pth Ht' Hp. cbn in Ht'. rewrite Hi in Ht'. by injection Ht' as <-. }
          destruct Hs as [S1 S2 S3 S4].
          split; [|split].
          * constructor; cbn; auto. intros p q. rewrite lookup_insert_Some.
            intros [[Hk <-]|[_ H]]; [|eauto].
            destruct (v_file w) as [fp|] eqn:Hfp; [|done].
            injection Hk as ->. rewrite W2 in Hfp. destruct Hvf as [Hvf|Hvf]; [congruence|].
            rewrite Hvf in Hfp. assert (p = root g) as -> by congruence.
            exists f. split; [done|]. left. split; [done|].
            exists i, (T (DPackage name) ps c kids). done.
          * ext_tac.
            -- intros k H. destruct (decide (k = match v_file w with Some fp => VPtr fp
                  | None => VNilProto end)) as [->|Hne];
                 [rewrite lookup_insert; eauto|by rewrite lookup_insert_ne].
            -- intros p Hp. rewrite lookup_insert_ne; [done|].
               rewrite W2. destruct Hvf as [->| ->]; [done|]. intros [= <-].
               cbn in Hp. lia.
          * intros v1 [= <-]. split; [intros g' Hg'; cbn in Hg'; lia|]. auto.
        + (* import *)
          cbn [visit] in E1. unfold rbind in E1.
          destruct (imp filename s) as [oi si] eqn:Ei.
          destruct (Himp _ _ _ _ Hs Ei) as (A1 & A2 & A3).
          assert (Hg : ext g s si).
          { eapply ext_weaken; [|exact A2]. apply lookup_lt_Some in Hf. lia. }
          destruct oi as [[]|m|];
            [|injection E1 as <- <-; split; [done|]; split; [done|]; done
             |injection E1 as <- <-; split; [done|]; split; [done|]; done].
          cbn in E1. injection E1 as <- <-. split; [done|]. split; [done|]. intros v1 [= <-].
          destruct (A3 eq_refl) as [A4 A5].
          split; [done|]. split; [|split; [|done]].
          * assert (Hno : forall π q, π <> [] -> outermost π = i -> fqn_here f π = Some q -> False).
            { intros π q Hne Ho Hq. destruct (outermost_app _ _ Hne Ho) as [δ ->].
              destruct δ as [|x δ] using rev_ind.
              + unfold fqn_here in Hq. cbn in Hq. by rewrite Hi in Hq.
              + clear IHδ. rewrite <- app_assoc in Hq. unfold fqn_here in Hq.
                destruct (walk f (δ ++ [x] ++ [i])) as [u'|]; [|done].
                destruct (own_name (t_data u')); [|done].
                destruct (visible f (δ ++ [x] ++ [i])) eqn:Hv; [|done].
                apply visible_app in Hv. cbn in Hv. by rewrite Hi in Hv. }
            constructor; [by intros; exfalso; eauto|by intros; exfalso; eauto|].
            intros t' pth Ht' Hp. cbn in Ht'. rewrite Hi in Ht'. injection Ht' as <-.
            cbn in Hp. injection Hp as <-. done.
          * rewrite Hpk, <- Hsc. done.
Qed.

(** only an import can fail *)
Lemma visit_top_stops imp g path els i t v s o1 s1 :
  wf_tree (file_tree path els) = true -> els !! i = Some t ->
  visit imp v (child (root g) i) t s = (o1, s1) ->
  (exists v1, o1 = Ret v1) \/
  exists q, t_data t = DImport q /\
    ((exists m, o1 = Panic m /\ (imp q s).1 = Panic m) \/ (o1 = Diverge /\ (imp q s).1 = Diverge)).
Proof.
  intros Hwf Hi E1. destruct (file_kid _ _ _ _ Hwf Hi) as [Hal Hwt].
  destruct (nested (t_data t)) eqn:Hn.
  { unfold child, root in E1. cbn [fst snd] in E1.
    destruct (visit_nested imp g t v [i] s Hwt Hn) as (v1 & E2 & _). rewrite E2 in E1.
    injection E1 as <- _. left. by eexists. }
  destruct t as [d ps c kids]. cbn [t_data] in *.
  destruct d; try discriminate Hn; try discriminate Hal; cbn [visit] in E1; unfold rbind in E1.
  - unfold put_scope, modify, ret in E1. injection E1 as <- _. left. by eexists.
  - destruct (imp filename s) as [[[]|m2|] s2] eqn:E; cbn in *; injection E1 as <- _.
    + left. by eexists.
    + right. exists filename. split; [done|]. left. exists m2. by rewrite E.
    + right. exists filename. split; [done|]. right. by rewrite E.
Qed.

(** If no import before the statement [i0] panics, the visit gets there. *)
Lemma visit_prefix imp g path els (Rl : registry -> registry -> Prop) i0 :
  let f := file_tree path els in
  imp_ok imp -> wf_tree f = true -> (forall path, keeps paths_stay (imp path)) ->
  (forall s, Rl s s) -> (forall s1 s2 s3, Rl s1 s2 -> Rl s2 s3 -> Rl s1 s3) ->
  (forall k t v s, k < i0 -> els !! k = Some t -> v_file v = None \/ v_file v = Some (root g) ->
     Rl s (visit imp v (child (root g) k) t s).2) ->
  forall l i v s o s',
  drop i els = l -> heap s !! g = Some f -> schema s ->
  v_scope v = pkg_before els i -> v_file v = None \/ v_file v = Some (root g) ->
  visit_list imp (root g) v i l s = (o, s') -> o <> Diverge -> i <= i0 <= length els ->
  (forall k t q sk m, k < i0 -> els !! k = Some t -> t_data t = DImport q -> paths_stay s sk ->
     (imp q sk).1 <> Panic m) ->
  (forall j, i <= j < i0 -> elem_done s' g f j) /\
  exists vi si, visit_list imp (root g) vi i0 (drop i0 els) si = (o, s') /\
    schema si /\ ext g s si /\ news_done s si /\ heap si !! g = Some f /\
    v_scope vi = pkg_before els i0 /\ (v_file vi = None \/ v_file vi = Some (root g)) /\ paths_stay s si /\ Rl s si.
Proof.
  intros f Himp Hwf Hps Rr Rt Hv l. induction l as [|t l IH]; intros i v s o s' Hl Hf Hs Hsc Hvf E Ho Hi0 Hno.
  - assert (Hlen : length (drop i els) = 0) by (by rewrite Hl). rewrite drop_length in Hlen.
    assert (i0 = i) as -> by lia. split; [intros j Hj; lia|]. exists v, s. rewrite Hl. split; [exact E|].
    split; [done|]. split; [apply ext_refl|]. split; [apply news_done_refl|]. eauto using paths_stay_refl.
  - destruct (decide (i0 = i)) as [->|Hne].
    { split; [intros j Hj; lia|]. exists v, s. rewrite Hl. split; [exact E|].
      split; [done|]. split; [apply ext_refl|]. split; [apply news_done_refl|]. eauto using paths_stay_refl. }
    assert (Hi : els !! i = Some t) by (rewrite <- (Nat.add_0_r i), <- lookup_drop, Hl; done).
    assert (Hl' : drop (S i) els = l) by (rewrite <- Nat.add_1_r, <- drop_drop, Hl; done).
    cbn [visit_list] in E. unfold rbind in E.
    destruct (visit imp v (child (root g) i) t s) as [o1 s1] eqn:E1.
    destruct (visit_top_step imp g path els Himp Hwf i t v s o1 s1 Hi Hf Hs Hsc Hvf E1) as (A1 & A2 & A3).
    assert (P1 : paths_stay s s1).
    { pose proof (visit_paths_stay imp v (child (root g) i) t Hps s) as H. by rewrite E1 in H. }
    assert (R1 : Rl s s1).
    { pose proof (Hv i t v s ltac:(lia) Hi Hvf) as H. by rewrite E1 in H. }
    destruct (visit_top_stops imp g path els i t v s o1 s1 Hwf Hi E1) as [[v1 ->]|(q & Hd & [(m & -> & Hm)|[-> _]])].
    + destruct (A3 v1 eq_refl) as (B1 & B2 & B3 & B4).
      assert (Hf1 : heap s1 !! g = Some f) by (by eapply ext_heap_lookup).
      assert (Hvf1 : v_file v1 = None \/ v_file v1 = Some (root g)) by (by rewrite B4).
      destruct (visit_top imp g path els Himp Hwf l (S i) v1 s1 o s' Hl' Hf1 A1 B3 Hvf1 E) as (_ & X & _).
      destruct (IH (S i) v1 s1 o s' Hl' Hf1 A1 B3 Hvf1 E Ho ltac:(lia)) as (C1 & vi & si & C2 & C3 & C4 & C5 & C6 & C7 & C8 & C9 & C10).
      { intros k t' q sk m Hk Ht' Hd Hsk. eapply Hno; [done|done|done|]. by eapply paths_stay_trans. }
      split.
      { intros j Hj. destruct (decide (j = i)) as [->|]; [by eapply ext_elem_done|]. apply C1. lia. }
      exists vi, si. split; [done|]. split; [done|]. split; [by eapply ext_trans|]. split; [by eapply news_done_trans|].
      split; [done|]. split; [done|]. split; [done|]. split; [by eapply paths_stay_trans|]. by eapply Rt.
    + exfalso. eapply (Hno i t q s m); [lia|done|done|apply paths_stay_refl|done].
    + by injection E as <- _.
Qed.
