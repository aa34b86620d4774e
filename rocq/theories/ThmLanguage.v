(** * Names as the protobuf language resolves them: C80. *)
From Verif Require Export Language ThmReadme ThmLoading ThmTypes.
From Verif Require Import Visit LoadFacts Enumerate Worlds Demo Identity Api.

(** ** Names and their prefixes *)

Lemma enclosing_prefix f π : forall m, visible f π = true -> 0 < m <= length (enclosing f π) ->
  exists π' u n, walk f π' = Some u /\ scope_name (t_data u) = Some n /\ visible f π' = true /\
    (enclosing f π' ++ [n])%list = take m (enclosing f π).
Proof.
  induction π as [|i π IH]; intros m Hv Hm; cbn [enclosing] in Hm |- *; [cbn in Hm; lia|].
  cbn [visible] in Hv. apply andb_prop in Hv as [Hv _].
  destruct (walk f π) as [u|] eqn:Hw.
  2: { rewrite app_nil_r in *. by apply IH. }
  destruct (scope_name (t_data u)) as [n|] eqn:Hn.
  2: { rewrite app_nil_r in *. by apply IH. }
  rewrite app_length in Hm. cbn in Hm. destruct (decide (m <= length (enclosing f π))) as [Hle|Hgt].
  - destruct (IH m Hv) as (π' & u' & n' & H); [lia|]. exists π', u', n'. by rewrite take_app_le.
  - exists π, u, n. split; [done|]. split; [done|]. split; [done|]. rewrite take_ge; [done|]. rewrite app_length. cbn. lia.
Qed.

Lemma scope_own d n : scope_name d = Some n -> own_name d = Some n.
Proof. destruct d as [| | | | | |? []| | | | | | | | | | | |]; try done. Qed.
Lemma enclosing_idents f π : (forall π t n, walk f π = Some t -> own_name (t_data t) = Some n -> ident n) ->
  Forall ident (enclosing f π).
Proof.
  intros H. induction π as [|i π IH]; [constructor|]. cbn [enclosing]. apply Forall_app. split; [done|].
  destruct (walk f π) as [u|] eqn:Hw; [|constructor]. destruct (scope_name (t_data u)) as [n|] eqn:Hn; [|constructor].
  constructor; [|constructor]. eapply H; [exact Hw|]. by apply scope_own.
Qed.

Section schema.
Context (s : registry).
Hypothesis Hcalm : calm s.
Hypothesis Hvalid : valid_schema s.

Lemma fqn_parts path g f π q pc : loaded s path g f -> packaged f pc -> fqn f π = Some q ->
  exists t n, walk f π = Some t /\ own_name (t_data t) = Some n /\ visible f π = true /\
    q = dotted (pc ++ enclosing f π ++ [n]) /\ Forall ident (pc ++ enclosing f π ++ [n]).
Proof.
  intros Hl [Hpc Hfs] Hq. destruct Hvalid as (_ & _ & Hn & _). destruct (Hn _ _ _ Hl) as [_ Hid].
  unfold fqn in Hq. destruct (walk f π) as [t|] eqn:Hw; [|done]. destruct (own_name (t_data t)) as [n|] eqn:Hn'; [|done].
  destruct (visible f π) eqn:Hv; [|done]. injection Hq as <-. exists t, n. split; [done|]. split; [done|]. split; [done|].
  split; [unfold file_scope in Hfs; rewrite Hfs; by rewrite <- !dotted_app|].
  apply Forall_app. split; [done|]. apply Forall_app. split; [by apply enclosing_idents|].
  constructor; [by eapply Hid|constructor].
Qed.

(** whatever encloses a declared name is a package, a message or a service *)
Lemma declared_inside q d l i : declared s q d -> Forall ident l -> q = dotted l -> 0 < i < length l ->
  aggregate_named s (dotted (take i l)).
Proof.
  intros (path & g & f & π & t & Hl & Hq & Hw & Hd) Hid -> Hi.
  destruct Hvalid as (_ & _ & Hn & _). destruct (Hn _ _ _ Hl) as [[pc Hpc] Hidn].
  destruct (fqn_parts _ _ _ _ _ _ Hl Hpc Hq) as (t' & n & Hw' & Hn' & Hv & E & Hid').
  apply (dotted_inj _ _ Hid Hid') in E. subst l. rewrite !app_length in Hi. cbn in Hi.
  destruct (decide (i <= length pc)) as [Hle|Hgt].
  - right. exists path, g, f, pc, i. split; [done|]. split; [done|]. split; [lia|]. by rewrite take_app_le.
  - left. destruct (enclosing_prefix f π (i - length pc) Hv) as (π' & u & n' & Hu & Hsn & Hv' & E); [lia|].
    exists (t_data u). split.
    + exists path, g, f, π', u. split; [done|]. split; [|done]. unfold fqn. rewrite Hu, (scope_own _ _ Hsn), Hv'.
      destruct Hpc as [_ Hfs]. unfold file_scope in Hfs. rewrite Hfs, E, <- dotted_app. f_equal. f_equal.
      rewrite take_app_ge by lia. rewrite take_app_le by lia. done.
    + destruct (t_data u) as [| | | | | |? []| | | | | | | | | | | |]; try discriminate Hsn; [by left|right; eauto].
Qed.

Lemma found_declared q n : found s q n -> exists d k a p, declared s q d /\ n = NAst k a p /\ represented_by d = Some k.
Proof.
  intros Hf. pose proof (history_Inv _ _ Hcalm) as I. unfold found in Hf.
  destruct (node_by_full_name q s) as [o s1] eqn:E. cbn in Hf. subst o.
  destruct (found_is_declared _ _ _ _ I E) as (path & f & t & k & a & p & -> & Hn & Hl & Hw & Hq & Hk).
  destruct Hvalid as (_ & Hpf & _).
  rewrite <- (loaded_fqn _ _ _ _ _ (proj1 I) Hl (Hpf _ _ _ Hl)) in Hq.
  exists (t_data t), k, a, p. rewrite represented_wrap. split; [|done]. exists path, p.1, f, p.2, t. done.
Qed.
Lemma declared_node_data q d : declared s q d ->
  exists k a p, found s q (NAst k a p) /\ represented_by d = Some k /\ not_a_type s p = PError (ENew ("node " +:+ go_proto d +:+ " does not represent a type")).
Proof.
  intros (path & g & f & π & t & Hl & Hq & Hw & <-). destruct Hvalid as (Hu & Hpf & _).
  assert (exists k, represented_by (t_data t) = Some k) as [k Hk].
  { unfold fqn in Hq. rewrite Hw in Hq. destruct (t_data t) as [| | | | | |? []| | | | | | | | | | | |]; try discriminate Hq; by eexists. }
  destruct (C05_exact_declaration s path g f π q t k Hcalm Hu Hpf Hl Hq Hw Hk) as (a & s2 & E).
  exists k, a, (g, π). split; [unfold found; by rewrite E|]. split; [done|].
  unfold not_a_type, go_visitee, heap_at. cbn [fst snd]. destruct Hl as (_ & -> & _). by rewrite Hw.
Qed.
Lemma declared_node q d : declared s q d -> exists k a p, found s q (NAst k a p) /\ represented_by d = Some k.
Proof. intros Hd. destruct (declared_node_data _ _ Hd) as (k & a & p & H1 & H2 & _). by exists k, a, p. Qed.
Lemma declared_fun q d d' : declared s q d -> declared s q d' -> d' = d.
Proof.
  intros (p1 & g1 & f1 & π1 & t1 & L1 & Q1 & W1 & <-) (p2 & g2 & f2 & π2 & t2 & L2 & Q2 & W2 & <-).
  destruct Hvalid as (Hu & _). destruct (Hu _ _ _ _ _ _ _ _ _ L1 L2 Q1 Q2) as [-> ->].
  destruct L1 as (_ & L1 & _), L2 as (_ & L2 & _). congruence.
Qed.
Lemma type_found q : type_named s q <-> exists n, found s q n /\ message_or_enum n.
Proof.
  split.
  - intros (d & Hd & Ht). destruct (declared_node _ _ Hd) as (k & a & p & Hf & Hk). exists (NAst k a p). split; [done|].
    destruct d as [| | | | | |? []| | | | | | | | | | | |]; try discriminate Ht; by injection Hk as <-.
  - intros (n & Hf & Hm). destruct (found_declared _ _ Hf) as (d & k & a & p & Hd & -> & Hk). exists d. split; [done|].
    destruct Hd as (? & ? & ? & ? & t & _ & Hq & Hw & <-). unfold fqn in Hq. rewrite Hw in Hq.
    destruct (t_data t) as [| | | | | |? []| | | | | | | | | | | |]; try discriminate Hk; injection Hk as <-; done.
Qed.

(** a field, branch or method: its scope and its own name *)
Lemma scope_place p t n k scope : element_at s p t -> own_name (t_data t) = Some n -> data_is_type (t_data t) = false ->
  (forall x, t_data t <> DService x) -> (forall x v, t_data t <> DEnumField x v) ->
  k ∈ [KField; KBranch; KMethod] -> represented_by (t_data t) = Some k -> scope_around s p scope ->
  in_scope s p (scope ++ [n]) /\ declared s (dotted (scope ++ [n])) (t_data t) /\ Forall ident (scope ++ [n]).
Proof.
  intros Ht Hn Hnt Hns Hne Hk Hr (path & f & pc & Hl & Hpc & Hv & ->).
  assert (Hw : walk f p.2 = Some t).
  { apply element_heap in Ht. unfold heap_at in Ht. destruct Hl as (_ & Hl & _). by rewrite Hl in Ht. }
  assert (Hq : fqn f p.2 = Some (dotted ((pc ++ enclosing f p.2) ++ [n]))).
  { unfold fqn. rewrite Hw, Hn, Hv. destruct Hpc as [_ Hfs]. unfold file_scope in Hfs. rewrite Hfs, <- dotted_app.
    by rewrite <- app_assoc. }
  destruct Hvalid as (_ & Hpf & Hnames & _). destruct (Hnames _ _ _ Hl) as [_ Hidn].
  assert (Hid : Forall ident ((pc ++ enclosing f p.2) ++ [n])).
  { apply Forall_app. split; [apply Forall_app; split; [apply Hpc|by apply enclosing_idents]|].
    constructor; [by eapply Hidn|constructor]. }
  split.
  - split; [|done]. exists k, 0%N. split; [done|].
    destruct p as [g π]. cbn [fst snd] in *.
    by rewrite (C06_index_is_qualified_name s path g f π _ t k 0%N Hcalm Hl (Hpf _ _ _ Hl) Hq Hw Hne (or_introl Hr)).
  - split; [|done]. exists path, p.1, f, p.2, t. done.
Qed.
Lemma asks_place p typ m scope : asks s p typ m -> scope_around s p scope ->
  exists n d, in_scope s p (scope ++ [n]) /\ declared s (dotted (scope ++ [n])) d /\ data_is_type d = false /\
    (forall x, d <> DService x) /\ Forall ident (scope ++ [n]).
Proof.
  intros Ha Hs.
  assert (exists t n, element_at s p t /\ own_name (t_data t) = Some n /\ data_is_type (t_data t) = false /\
     (forall x, t_data t <> DService x) /\ (forall x v, t_data t <> DEnumField x v) /\
     exists k, k ∈ [KField; KBranch; KMethod] /\ represented_by (t_data t) = Some k) as (t & n & Ht & Hn & Hnt & Hns & Hne & k & Hk & Hr).
  { inversion Ha as [a p' t name typ' num opt Ht Hd Hc|a p' t name typ' num opt Ht Hd Hc|p' t name typ' num Ht Hd]; subst;
      exists t, name; rewrite Hd; (split; [done|]); (split; [done|]); (split; [done|]); (split; [done|]); (split; [done|]);
      eexists; (split; [|reflexivity]); set_solver. }
  destruct (scope_place p t n k scope Ht Hn Hnt Hns Hne Hk Hr Hs) as (H1 & H2 & H3).
  exists n, (t_data t). done.
Qed.
Lemma asks_method_place p typ b m scope : asks_method s p typ b m -> scope_around s p scope ->
  exists n d, in_scope s p (scope ++ [n]) /\ declared s (dotted (scope ++ [n])) d /\ data_is_type d = false /\
    (forall x, d <> DService x) /\ Forall ident (scope ++ [n]).
Proof.
  intros Ha Hs.
  assert (exists t name req sreq rett sret, element_at s p t /\ t_data t = DRPC name req sreq rett sret)
    as (t & name & req & sreq & rett & sret & Ht & Hd) by (inversion Ha; subst; eauto 10).
  destruct (scope_place p t name KMethod scope) as (H1 & H2 & H3); rewrite ?Hd; try done; [set_solver|].
  rewrite Hd in H2. by eexists _, _.
Qed.

(** nothing is declared below a field *)
Lemma nothing_below q d l tl n : declared s q d -> data_is_type d = false -> (forall x, d <> DService x) ->
  q = dotted l -> Forall ident l -> Forall ident tl -> tl <> [] -> l <> [] -> ~ found s (dotted (l ++ tl)) n.
Proof.
  intros Hd Hnt Hns -> Hl Htl Hne Hne' Hf. destruct (found_declared _ _ Hf) as (d' & _ & _ & _ & Hd' & _).
  assert (Hagg : aggregate_named s (dotted l)).
  { rewrite <- (take_app l tl). eapply declared_inside; [exact Hd'|by apply Forall_app|done|].
    rewrite app_length. destruct l; [by destruct Hne'|]. destruct tl; [by destruct Hne|]. cbn [length]. lia. }
  destruct Hagg as [(d2 & Hd2 & H)|Hp].
  - rewrite (declared_fun _ _ _ Hd Hd2) in H. destruct H as [H|[x H]]; [congruence|]. by apply Hns in H.
  - destruct Hvalid as (_ & _ & _ & H). exact (H _ _ Hd Hp).
Qed.

Lemma ident_relative first rest : ident first -> ~ absolute (first +:+ rest).
Proof.
  intros [Hn Hd] [r E]. destruct first as [|c first]; [done|]. injection E as -> _. cbn in Hd. discriminate Hd.
Qed.
Lemma dot_inside a b : no_dot (a +:+ "." +:+ b) = false.
Proof.
  induction a as [|c a IH]; [done|]. change (no_dot (String c a +:+ "." +:+ b)) with (negb (Ascii.eqb c ".") && no_dot (a +:+ "." +:+ b)).
  rewrite IH. apply andb_false_r.
Qed.
Lemma dotted_at k scope first rest :
  dotted (take k scope ++ first :: rest) = dotted (take k scope) +:+ "." +:+ (first +:+ dotted rest).
Proof. rewrite dotted_app. done. Qed.

(** the language's answer is what the library's search comes to *)
Lemma language_denotes scope typ q n0 d0 :
  Forall ident (scope ++ [n0]) -> declared s (dotted (scope ++ [n0])) d0 ->
  data_is_type d0 = false -> (forall x, d0 <> DService x) ->
  language_type s scope typ q ->
  (ident typ -> forall k d, k <= length scope -> declared s (dotted (take k scope ++ [typ])) d -> data_is_type d = true) ->
  denotes s (scope ++ [n0]) typ q.
Proof.
  intros Hid Hd0 Hnt Hns Hlang Hobs.
  assert (Hlen : length (scope ++ [n0]) = S (length scope)) by (rewrite app_length; cbn; lia).
  pose proof Hid as Hid'. apply Forall_app in Hid' as [Hids _].
  destruct Hlang as [typ Habs Ht|typ k Hityp Hk Ht Hin|first rest k Hif Hne Hir Hk Ht Hin].
  - split; [apply type_found in Ht as (n & Hf & _); by exists n|]. by left.
  - split; [apply type_found in Ht as (n & Hf & _); by exists n|]. right.
    split; [rewrite <- (sapp_nil_r typ); by apply ident_relative|].
    exists k. split; [lia|]. split; [rewrite take_app_le by lia; apply dotted_snoc|].
    intros j Hj Hjl n Hf. destruct (decide (j <= length scope)) as [Hle|Hgt].
    + rewrite take_app_le in Hf by lia. rewrite <- dotted_snoc in Hf.
      destruct (found_declared _ _ Hf) as (d & _ & _ & _ & Hd & _). apply (Hin j); [lia|]. exists d. split; [done|].
      exact (Hobs Hityp j d Hle Hd).
    + rewrite take_ge in Hf by lia. rewrite <- dotted_snoc in Hf.
      refine (nothing_below _ _ _ [typ] n Hd0 Hnt Hns eq_refl Hid _ _ _ Hf); [by constructor|done|by destruct scope].
  - split; [apply type_found in Ht as (n & Hf & _); by exists n|]. right.
    split; [by apply ident_relative|].
    exists k. split; [lia|]. split; [rewrite take_app_le by lia; apply dotted_at|].
    intros j Hj Hjl n Hf. destruct (decide (j <= length scope)) as [Hle|Hgt].
    + rewrite take_app_le in Hf by lia. rewrite <- dotted_at in Hf.
      destruct (found_declared _ _ Hf) as (d & _ & _ & _ & Hd & _). apply (Hin j); [lia|].
      assert (E : (take j scope ++ [first])%list = take (S j) (take j scope ++ first :: rest)).
      { rewrite take_app_ge by (rewrite take_length; lia). f_equal. rewrite take_length.
        replace (S j - j `min` length scope) with 1 by lia. done. }
      rewrite E. eapply declared_inside; [exact Hd| |done|].
      * apply Forall_app. split; [by apply Forall_take|]. by constructor.
      * rewrite app_length, take_length. destruct rest; [done|]. cbn [length]. lia.
    + rewrite take_ge in Hf by lia. 
      replace (dotted (scope ++ [n0]) +:+ "." +:+ first +:+ dotted rest)
        with (dotted ((scope ++ [n0]) ++ first :: rest)) in Hf by (rewrite dotted_app; done).
      refine (nothing_below _ _ _ (first :: rest) n Hd0 Hnt Hns eq_refl Hid _ _ _ Hf); [by constructor|done|by destruct scope].
Qed.

Lemma language_message_denotes scope typ q n0 d0 :
  Forall ident (scope ++ [n0]) -> declared s (dotted (scope ++ [n0])) d0 ->
  data_is_type d0 = false -> (forall x, d0 <> DService x) ->
  language_message s scope typ q -> denotes s (scope ++ [n0]) typ q /\ exists a p, found s q (NAst KMessage a p).
Proof.
  intros Hid Hd0 Hnt Hns Hl.
  assert (Hm : exists n, declared s q (DMessage n false)) by (inversion Hl; eauto).
  destruct Hm as [nm Hm]. destruct (declared_node _ _ Hm) as (kk & a & pq & Hf & [= <-]).
  split; [|by exists a, pq].
  destruct Hl as [typ n Habs Ht|typ k n Hityp Hk Ht Hin|first rest k n Hif Hne Hir Hk Ht Hin].
  - split; [by exists (NAst KMessage a pq)|]. by left.
  - split; [by exists (NAst KMessage a pq)|]. right.
    split; [rewrite <- (sapp_nil_r typ); by apply ident_relative|].
    exists k. rewrite app_length. cbn [length]. split; [lia|]. split; [rewrite take_app_le by lia; apply dotted_snoc|].
    intros j Hj Hjl x Hf'. rewrite <- dotted_snoc in Hf'. destruct (decide (j <= length scope)) as [Hle|Hgt].
    + rewrite take_app_le in Hf' by lia. destruct (found_declared _ _ Hf') as (d' & _ & _ & _ & Hd' & _).
      exact (proj1 (Hin j ltac:(lia)) d' Hd').
    + rewrite take_ge in Hf' by (rewrite app_length; cbn; lia).
      refine (nothing_below _ _ _ [typ] x Hd0 Hnt Hns eq_refl Hid _ _ _ Hf'); [by constructor|done|by destruct scope].
  - assert (Hlt : language_type s scope (first +:+ dotted rest) (dotted (take k scope ++ first :: rest))).
    { apply lang_compound; try done. by exists (DMessage n false). }
    apply (language_denotes scope _ _ n0 d0 Hid Hd0 Hnt Hns Hlt).
    intros [_ Hnd]. exfalso. destruct rest as [|r rest]; [done|]. cbn [dotted] in Hnd.
    rewrite dot_inside in Hnd. discriminate Hnd.
Qed.
End schema.

(** Wherever the language gives a type name a meaning, the library gives it the same one, unless the
    name is a simple one and something else than a message or an enum is declared by that name in a
    scope around the field. *)
Theorem C80_agrees s p typ m scope q :
  calm s -> valid_schema s -> asks s p typ m -> typ ∉ scalar_names ->
  scope_around s p scope -> language_type s scope typ q ->
  (ident typ -> forall k d, k <= length scope -> declared s (dotted (take k scope ++ [typ])) d -> data_is_type d = true) ->
  exists n, found s q n /\ message_or_enum n /\ (m s).1 = Ret (Some n).
Proof.
  intros Hc Hv Ha Hb Hs Hl Hobs.
  destruct (asks_place s Hc Hv _ _ _ _ Ha Hs) as (n0 & d0 & Hin & Hd0 & Hnt & Hns & Hid).
  pose proof (language_denotes s Hc Hv scope typ q n0 d0 Hid Hd0 Hnt Hns Hl Hobs) as Hden.
  assert (Ht : type_named s q) by (destruct Hl; done).
  apply (type_found s Hc Hv) in Ht as (n & Hf & Hm). exists n. split; [done|]. split; [done|].
  destruct (asks_spec s p typ m _ (history_Inv _ _ Hc) Ha Hin Hb) as [(q' & n' & Hq & Hf' & E)|[Hno _]].
  2: { exfalso. exact (Hno _ Hden). }
  rewrite (denotes_fun _ _ _ _ _ Hden Hq) in Hf'.
  rewrite (found_fun _ _ _ _ Hf Hf') in E. rewrite E. destruct n as [[]| | | | |]; done.
Qed.

(** The converse for simple names: a message or an enum is returned only if the language says so. *)
Theorem C80_simple_sound s p typ m scope n :
  calm s -> valid_schema s -> asks s p typ m -> typ ∉ scalar_names ->
  scope_around s p scope -> ident typ -> (m s).1 = Ret (Some n) -> message_or_enum n ->
  exists q, language_type s scope typ q /\ found s q n.
Proof.
  intros Hc Hv Ha Hb Hs Hi Hr Hm.
  destruct (asks_place s Hc Hv _ _ _ _ Ha Hs) as (n0 & d0 & Hin & Hd0 & Hnt & Hns & Hid).
  destruct (asks_spec s p typ m _ (history_Inv _ _ Hc) Ha Hin Hb) as [(q & n' & Hq & Hf & E)|[_ E]]; [|congruence].
  assert (n' = n) as ->. { rewrite Hr in E. by destruct (implements_type n'); [injection E as ->|]. }
  exists q. split; [|done]. destruct Hq as [_ [[Habs _]|(_ & k & Hk & -> & Hinner)]].
  { exfalso. revert Habs. rewrite <- (sapp_nil_r typ). by apply ident_relative. }
  rewrite app_length in Hk, Hinner. cbn [length] in Hk, Hinner.
  rewrite <- dotted_snoc in Hf |- *. destruct (decide (k <= length scope)) as [Hle|Hgt].
  - rewrite take_app_le in Hf |- * by lia. apply lang_simple; [done|done|apply (type_found s Hc Hv); eauto|].
    intros j Hj Ht. apply (type_found s Hc Hv) in Ht as (n2 & Hf2 & _). specialize (Hinner j ltac:(lia) ltac:(lia) n2).
    rewrite take_app_le in Hinner by lia. rewrite <- dotted_snoc in Hinner. by apply Hinner.
  - rewrite take_ge in Hf by (rewrite app_length; cbn; lia).
    exfalso. refine (nothing_below s Hc Hv _ _ _ [typ] n Hd0 Hnt Hns eq_refl Hid _ _ _ Hf); [by constructor|done|by destruct scope].
Qed.

Lemma found_dec s q : {n | found s q n} + {forall n, ~ found s q n}.
Proof.
  unfold found. destruct (node_by_full_name q s).1 as [[n|]| |]; [left; by exists n|right; by intros n ?..].
Qed.
Lemma innermost s comps name k : k <= length comps -> (exists n, found s (dotted (take k comps) +:+ "." +:+ name) n) ->
  ~ absolute name -> exists q, denotes s comps name q.
Proof.
  intros Hk Hf Hna. remember (length comps - k) as r eqn:Er. revert k Hk Hf Er.
  induction r as [r IH] using lt_wf_ind. intros k Hk Hf ->.
  assert ((exists j, k < j <= length comps /\ exists n, found s (dotted (take j comps) +:+ "." +:+ name) n) \/
          (forall j, k < j -> j <= length comps -> unknown s (dotted (take j comps) +:+ "." +:+ name))) as [(j & Hj & Hfj)|Hno].
  { clear IH Hf. generalize (length comps) as L. intros L. induction L as [|L IHL]; [right; lia|].
    destruct IHL as [(j & Hj & Hfj)|Hno]; [left; exists j; split; [lia|done]|].
    destruct (found_dec s (dotted (take (S L) comps) +:+ "." +:+ name)) as [[n Hn]|Hn].
    - destruct (decide (k < S L)); [left; exists (S L); split; [lia|by exists n]|right; lia].
    - right. intros j Hj Hjl. destruct (decide (j = S L)) as [->|]; [done|]. apply Hno; lia. }
  - by apply (IH (length comps - j) ltac:(lia) j ltac:(lia)).
  - exists (dotted (take k comps) +:+ "." +:+ name). split; [done|]. right. split; [done|]. by exists k.
Qed.

(** No type is returned only for names the language gives no meaning to. *)
Theorem C80_nothing s p typ m scope q :
  calm s -> valid_schema s -> asks s p typ m -> typ ∉ scalar_names ->
  scope_around s p scope -> (m s).1 = Ret None -> ~ language_type s scope typ q.
Proof.
  intros Hc Hv Ha Hb Hs Hr Hl.
  destruct (asks_place s Hc Hv _ _ _ _ Ha Hs) as (n0 & d0 & Hin & _ & _ & _ & Hid).
  destruct (asks_spec s p typ m _ (history_Inv _ _ Hc) Ha Hin Hb) as [(q' & n' & _ & _ & E)|[Hno _]].
  { rewrite Hr in E. by destruct (implements_type n'). }
  destruct Hl as [typ Habs Ht|typ k Hityp Hk Ht _|first rest k Hif Hne Hir Hk Ht _];
    apply (type_found s Hc Hv) in Ht as (n & Hf & _).
  - apply (Hno typ). split; [by exists n|by left].
  - destruct (innermost s (scope ++ [n0]) typ k) as [q Hq].
    + rewrite app_length. cbn. lia.
    + exists n. rewrite take_app_le by lia. by rewrite <- dotted_snoc.
    + rewrite <- (sapp_nil_r typ). by apply ident_relative.
    + exact (Hno _ Hq).
  - destruct (innermost s (scope ++ [n0]) (first +:+ dotted rest) k) as [q Hq].
    + rewrite app_length. cbn. lia.
    + exists n. rewrite take_app_le by lia. by rewrite <- dotted_at.
    + by apply ident_relative.
    + exact (Hno _ Hq).
Qed.

(** What is left: if the innermost scope with anything by a simple name has something there that is
    neither a message nor an enum, the call does not look further out: for an enum value it returns that
    value, for a field, a service, a method, a oneof or one of its branches it panics, whatever the language
    says. *)
Theorem C80_obstructed s p typ m scope k d :
  calm s -> valid_schema s -> asks s p typ m -> typ ∉ scalar_names ->
  scope_around s p scope -> ident typ -> k <= length scope ->
  declared s (dotted (take k scope ++ [typ])) d -> data_is_type d = false ->
  (forall j d', k < j <= length scope -> ~ declared s (dotted (take j scope ++ [typ])) d') ->
  ((exists x v, d = DEnumField x v) /\
     exists n, found s (dotted (take k scope ++ [typ])) n /\ is_enum_value n /\ (m s).1 = Ret (Some n)) \/
  ((forall x v, d <> DEnumField x v) /\
     (m s).1 = Panic (PError (ENew ("node " +:+ go_proto d +:+ " does not represent a type")))).
Proof.
  intros Hc Hv Ha Hb Hs Hi Hk Hd Hnt Hin.
  destruct (asks_place s Hc Hv _ _ _ _ Ha Hs) as (n0 & d0 & Hsc & Hd0 & Hnt0 & Hns & Hid).
  destruct (declared_node_data s Hc Hv _ _ Hd) as (kk & a & pq & Hf & Hkk & Htext).
  assert (Hnone : forall n j, k < j <= S (length scope) -> ~ found s (dotted (take j (scope ++ [n0])) +:+ "." +:+ typ) n).
  { intros n j Hj Hf'. rewrite <- dotted_snoc in Hf'. destruct (decide (j <= length scope)) as [Hle|Hgt].
    - rewrite take_app_le in Hf' by lia. destruct (found_declared s Hc Hv _ _ Hf') as (d' & _ & _ & _ & Hd' & _).
      exact (Hin j d' ltac:(lia) Hd').
    - rewrite take_ge in Hf' by (rewrite app_length; cbn; lia).
      refine (nothing_below s Hc Hv _ _ _ [typ] n Hd0 Hnt0 Hns eq_refl Hid _ _ _ Hf'); [by constructor|done|by destruct scope]. }
  assert (Hden : denotes s (scope ++ [n0]) typ (dotted (take k scope ++ [typ]))).
  { split; [by exists (NAst kk a pq)|]. right. split; [rewrite <- (sapp_nil_r typ); by apply ident_relative|].
    exists k. rewrite app_length. cbn [length]. split; [lia|]. split; [rewrite take_app_le by lia; apply dotted_snoc|].
    intros j Hj Hjl n. apply Hnone. lia. }
  destruct (asks_spec s p typ m _ (history_Inv _ _ Hc) Ha Hsc Hb) as [(q' & n' & Hq & Hf' & E)|[Hno _]].
  2: { exfalso. exact (Hno _ Hden). }
  rewrite (denotes_fun _ _ _ _ _ Hden Hq) in Hf'. rewrite (found_fun _ _ _ _ Hf Hf') in E. rewrite E.
  assert (Hnamed : exists x, own_name d = Some x).
  { destruct Hd as (? & ? & f & π & t & _ & Hq1 & Hw & <-). unfold fqn in Hq1. rewrite Hw in Hq1.
    destruct (own_name (t_data t)) as [y|]; [by exists y|discriminate Hq1]. }
  destruct Hnamed as [x Hx]. clear Hd Hden E Hin.
  destruct d as [| | | | | |? []| | | | | | | | | | | |]; try discriminate Hx; try discriminate Hnt; injection Hkk as <-;
    try (right; split; [by intros ? ?|by rewrite <- Htext]).
  left. split; [by eexists _, _|]. eexists. split; [exact Hf|]. done.
Qed.

(** Input and output types of methods: wherever the language finds a message, the library returns that
    message, without exception. *)
Theorem C80_method_agrees s p typ b m scope q :
  calm s -> valid_schema s -> asks_method s p typ b m -> typ ∉ scalar_names ->
  scope_around s p scope -> language_message s scope typ q ->
  exists a pq, found s q (NAst KMessage a pq) /\ (m s).1 = Ret (b, NAst KMessage a pq).
Proof.
  intros Hc Hv Ha Hb Hs Hl.
  destruct (asks_method_place s Hc Hv _ _ _ _ _ Ha Hs) as (n0 & d0 & Hin & Hd0 & Hnt & Hns & Hid).
  destruct (language_message_denotes s Hc Hv scope typ q n0 d0 Hid Hd0 Hnt Hns Hl) as (Hden & a & pq & Hf).
  exists a, pq. split; [done|].
  exact (C17_method_message s p typ b m _ q (NAst KMessage a pq) (calm_reachable _ Hc) Ha Hin Hb Hden Hf).
Qed.

(** And for simple names only those, unless an enclosing scope contains a package by that name. *)
Theorem C80_method_simple_sound s p typ b m scope n :
  calm s -> valid_schema s -> asks_method s p typ b m -> typ ∉ scalar_names ->
  scope_around s p scope -> ident typ ->
  (forall j, j <= length scope -> ~ package_named s (dotted (take j scope ++ [typ]))) ->
  (m s).1 = Ret (b, n) -> exists q, language_message s scope typ q /\ found s q n.
Proof.
  intros Hc Hv Ha Hb Hs Hi Hnp Hr.
  destruct (asks_method_place s Hc Hv _ _ _ _ _ Ha Hs) as (n0 & d0 & Hin & Hd0 & Hnt & Hns & Hid).
  rewrite (asks_method_spec _ _ _ _ _ Ha) in Hr. pose proof (in_scope_of _ _ _ Hin) as [Hsc _].
  destruct (get_type_body_spec s p typ _ (history_Inv _ _ Hc) Hsc Hid Hb) as [(q & n' & s1 & Hq & E & G)|[_ G]];
    rewrite G in Hr; [|discriminate Hr].
  cbn [fst] in Hr.
  assert (n' = n /\ exists a pq, n = NAst KMessage a pq) as (-> & a & pq & ->).
  { destruct n' as [[]| | | | |]; cbn in Hr; try discriminate Hr. injection Hr as <-. eauto. }
  assert (Hf : found s q (NAst KMessage a pq)) by (unfold found; by rewrite E).
  exists q. split; [|done].
  destruct (found_declared s Hc Hv _ _ Hf) as (d & k' & a' & p' & Hd & [= <- <- <-] & Hk').
  assert (exists x, d = DMessage x false) as [x ->].
  { destruct Hd as (? & ? & f & π & t & _ & Hq1 & Hw & <-). unfold fqn in Hq1. rewrite Hw in Hq1.
    destruct (t_data t) as [| | | | | |? []| | | | | | | | | | | |]; try discriminate Hk'; try discriminate Hq1. by eexists. }
  destruct Hq as [_ [[Habs _]|(_ & k & Hk & -> & Hinner)]].
  { exfalso. revert Habs. rewrite <- (sapp_nil_r typ). by apply ident_relative. }
  rewrite app_length in Hk, Hinner. cbn [length] in Hk, Hinner.
  rewrite <- dotted_snoc in Hf, Hd |- *. destruct (decide (k <= length scope)) as [Hle|Hgt].
  - rewrite take_app_le in Hf, Hd |- * by lia. apply (langm_simple _ _ _ _ x); [done|done|done|].
    intros j Hj. split; [|apply Hnp; lia]. intros d Hd'. destruct (declared_node s Hc Hv _ _ Hd') as (k2 & a2 & p2 & Hf2 & _).
    specialize (Hinner j ltac:(lia) ltac:(lia) (NAst k2 a2 p2)).
    rewrite take_app_le in Hinner by lia. rewrite <- dotted_snoc in Hinner. by apply Hinner.
  - rewrite take_ge in Hf by (rewrite app_length; cbn; lia).
    exfalso. refine (nothing_below s Hc Hv _ _ _ [typ] _ Hd0 Hnt Hns eq_refl Hid _ _ _ Hf); [by constructor|done|by destruct scope].
Qed.

(** ** A schema *)

Definition lang_f := "lang.proto".
Definition lang_a_f := "lang_a.proto".
Definition lang_elems : list tree :=
  [ el lang_f 1 (DPackage "lang") [];
    el lang_f 2 (DImport lang_a_f) [];
    msg lang_f 3 "Foo" [];
    msg lang_f 4 "Outer"
      [ msg lang_f 5 "Foo" [];
        msg lang_f 6 "Inner" [ fld lang_f 7 "Foo" "a" 1; fld lang_f 8 "lang.Foo" "b" 2; fld lang_f 9 ".lang.Foo" "c" 3 ] ];
    msg lang_f 10 "Holder" [ fld lang_f 11 "Foo" "Foo" 1 ];
    msg lang_f 12 "M" [ msg lang_f 13 "a" []; fld lang_f 14 "a.B" "f" 1; fld lang_f 15 "Nope" "n" 2 ];
    el lang_f 16 (DService "Svc") [ el lang_f 17 (DRPC "Call" "Foo" false "Foo" true) [] ] ].
Definition lang_a_elems : list tree := [ el lang_a_f 1 (DPackage "lang.a") []; msg lang_a_f 2 "B" [] ].
Definition lang_files : list (string * list tree) :=
  (std_files ++ [ (lang_f, lang_elems); (lang_a_f, lang_a_elems) ])%list.
Definition lang_world : registry := Worlds.world lang_files [lang_f].

(** *** Deciding the hypotheses *)
Definition identb (c : string) : bool := negb (String.eqb c "") && no_dot c.
Lemma identb_ok c : identb c = true <-> ident c.
Proof.
  unfold identb, ident. rewrite andb_true_iff, negb_true_iff, String.eqb_neq. done.
Qed.
Definition comps_of (f : tree) : list string :=
  if String.eqb (the_package (t_kids f)) "" then [] else split_on "." (the_package (t_kids f)).
Definition check_packaged (f : tree) : bool :=
  forallb identb (comps_of f) && String.eqb (file_scope (t_kids f)) (dotted (comps_of f)).
Lemma check_packaged_ok f : check_packaged f = true -> packaged f (comps_of f).
Proof.
  unfold check_packaged. rewrite andb_true_iff, String.eqb_eq. intros [H1 H2]. split; [|done].
  apply list.Forall_forall. intros c Hc. apply identb_ok. rewrite List.forallb_forall in H1. apply H1. by apply elem_of_list_In.
Qed.
Lemma packaged_fun f c c' : packaged f c -> packaged f c' -> c' = c.
Proof. intros [H1 E1] [H2 E2]. rewrite E1 in E2. symmetry. by apply dotted_inj. Qed.
Definition check_idents (f : tree) : bool :=
  forallb (fun π => match walk f π with
                    | Some t => match own_name (t_data t) with Some n => identb n | None => true end
                    | None => true end) (all_paths [] f).
Lemma check_idents_ok f : check_idents f = true ->
  forall π t n, walk f π = Some t -> own_name (t_data t) = Some n -> ident n.
Proof.
  unfold check_idents. rewrite List.forallb_forall. intros H π t n Hw Hn.
  pose proof (all_paths_complete f [] π t Hw) as Hp. rewrite app_nil_r in Hp. apply elem_of_list_In in Hp.
  specialize (H _ Hp). rewrite Hw, Hn in H. by apply identb_ok.
Qed.
Definition packages (s : registry) : list string :=
  concat (map (fun f => map (fun k => dotted (take k (comps_of f))) (List.seq 1 (length (comps_of f)))) (heap s)).
Definition undeclared (s : registry) (q : string) : bool := forallb (fun x => negb (String.eqb x.1 q)) (declarations s).
Lemma undeclared_ok s q d : undeclared s q = true -> ~ declared s q d.
Proof.
  unfold undeclared. rewrite List.forallb_forall. intros H (path & g & f & π & t & Hl & Hq & _).
  pose proof (declarations_complete _ _ _ _ _ _ Hl Hq) as Hin. apply elem_of_list_In in Hin. specialize (H _ Hin).
  cbn in H. by rewrite String.eqb_refl in H.
Qed.
Definition check_schema (s : registry) : bool :=
  check_unique s && check_packages s && forallb (fun f => check_packaged f && check_idents f) (heap s) &&
  forallb (undeclared s) (packages s).
Lemma packages_ok s q : forallb (fun f => check_packaged f && check_idents f) (heap s) = true ->
  package_named s q -> q ∈ packages s.
Proof.
  rewrite List.forallb_forall. intros H (path & g & f & comps & k & Hl & Hp & Hk & ->).
  destruct Hl as (_ & Hg & _). apply elem_of_list_lookup_2 in Hg.
  pose proof Hg as Hg'. apply elem_of_list_In in Hg'. pose proof (H _ Hg') as Hc. apply andb_prop in Hc as [Hc _].
  apply check_packaged_ok in Hc. rewrite (packaged_fun _ _ _ Hc Hp) in Hk |- *.
  unfold packages. apply elem_of_list_In, in_concat. eexists. split; [apply in_map; exact Hg'|].
  apply in_map_iff. exists k. split; [done|]. apply in_seq. lia.
Qed.
Lemma check_schema_ok s : check_schema s = true -> valid_schema s.
Proof.
  unfold check_schema. rewrite !andb_true_iff. intros (((H1 & H2) & H3) & H4).
  split; [by apply check_unique_ok|]. split; [by apply check_packages_ok|]. split.
  - intros path g f (_ & Hg & _). apply elem_of_list_lookup_2, elem_of_list_In in Hg.
    rewrite List.forallb_forall in H3. specialize (H3 _ Hg). apply andb_prop in H3 as [Hp Hi].
    split; [exists (comps_of f); by apply check_packaged_ok|by apply check_idents_ok].
  - intros q d Hd Hp. apply (packages_ok _ _ H3) in Hp. apply elem_of_list_In in Hp.
    rewrite List.forallb_forall in H4. by apply (undeclared_ok s q d (H4 _ Hp)).
Qed.
Definition no_aggregate (s : registry) (q : string) : bool :=
  undeclared s q && negb (existsb (String.eqb q) (packages s)).
Lemma no_aggregate_ok s q : check_schema s = true -> no_aggregate s q = true -> ~ aggregate_named s q.
Proof.
  intros Hs. unfold no_aggregate. rewrite andb_true_iff, negb_true_iff. intros [Hu Hp] [(d & Hd & _)|Hpk].
  - by apply (undeclared_ok s q d).
  - unfold check_schema in Hs. rewrite !andb_true_iff in Hs. destruct Hs as ((_ & H3) & _).
    apply (packages_ok _ _ H3) in Hpk. apply elem_of_list_In in Hpk.
    apply Bool.not_true_iff_false in Hp. apply Hp. apply List.existsb_exists. exists q. split; [done|]. apply String.eqb_refl.
Qed.
Lemma declared_here s path g f π t q d : loaded s path g f -> fqn f π = Some q -> walk f π = Some t -> t_data t = d -> declared s q d.
Proof. intros Hl Hq Hw Hd. by exists path, g, f, π, t. Qed.

Definition lang_check : bool :=
  starts lang_files && check_schema lang_world &&
  forallb (undeclared lang_world)
    [".lang.Outer.Inner.Foo"; ".Foo"; ".lang.M.a.B"; ".lang.Svc.Foo"] &&
  forallb (no_aggregate lang_world) [".lang.lang"; ".lang.Outer.lang"; ".lang.Outer.Inner.lang"; ".lang.Svc.Foo"; ".Foo"] &&
  match (field_type 1 (1, [1; 5]) lang_world).1 with Ret (Some (NAst KMessage _ _)) => true | _ => false end &&
  match (field_type 1 (1, [2; 5]) lang_world).1 with Ret None => true | _ => false end &&
  match ftcache lang_world !! (1%N, (1, [0; 1; 3]) : ptr), ftcache lang_world !! (1%N, (1, [1; 1; 3]) : ptr),
        ftcache lang_world !! (1%N, (1, [2; 1; 3]) : ptr), ftcache lang_world !! (1%N, (1, [0; 4]) : ptr),
        ftcache lang_world !! (1%N, (1, [1; 5]) : ptr), ftcache lang_world !! (1%N, (1, [2; 5]) : ptr) with
  | None, None, None, None, None, None => true | _, _, _, _, _, _ => false end.
Lemma lang_checked : lang_check = true.
Proof. vm_compute. reflexivity. Qed.
Lemma lang_loaded : loaded lang_world lang_f 1 (file_tree lang_f lang_elems).
Proof. split; [|split]; vm_compute; reflexivity. Qed.

(** the facts about this world, without the world itself *)
Lemma lang_facts : exists s, calm s /\ valid_schema s /\ loaded s lang_f 1 (file_tree lang_f lang_elems) /\
  (forall d, ~ declared s ".lang.Outer.Inner.Foo" d) /\ (forall d, ~ declared s ".Foo" d) /\
  (forall d, ~ declared s ".lang.M.a.B" d) /\
  (forall d, ~ declared s ".lang.Svc.Foo" d) /\ ~ aggregate_named s ".lang.Svc.Foo" /\ ~ aggregate_named s ".Foo" /\
  ~ aggregate_named s ".lang.lang" /\ ~ aggregate_named s ".lang.Outer.lang" /\ ~ aggregate_named s ".lang.Outer.Inner.lang" /\
  (exists n, (field_type 1 (1, [1; 5]) s).1 = Ret (Some n) /\ message_or_enum n) /\
  (field_type 1 (1, [2; 5]) s).1 = Ret None /\
  (forall π, π ∈ [[0; 1; 3]; [1; 1; 3]; [2; 1; 3]; [0; 4]; [1; 5]; [2; 5]] -> ftcache s !! (1%N, (1, π) : ptr) = None).
Proof.
  exists lang_world. pose proof lang_checked as H. pose proof lang_loaded as L. unfold lang_check in H.
  assert (Hr : starts lang_files = true -> calm lang_world) by apply world_calm.
  revert H L Hr. generalize lang_world as s. intros s H L Hr. rewrite !andb_true_iff in H.
  destruct H as ((((((H1 & H2) & H3) & H4) & H5) & H7) & H6).
  split; [by apply Hr|]. split; [by apply check_schema_ok|]. split; [done|].
  cbn [forallb] in H3, H4. rewrite !andb_true_iff in H3. rewrite !andb_true_iff in H4. destruct H3 as (U1 & U2 & U3 & U4 & _), H4 as (A1 & A2 & A3 & A4 & A5 & _).
  split; [intros d; by apply undeclared_ok|]. split; [intros d; by apply undeclared_ok|]. split; [intros d; by apply undeclared_ok|]. split; [intros d; by apply undeclared_ok|].
  split; [by apply no_aggregate_ok|]. split; [by apply no_aggregate_ok|].
  split; [by apply no_aggregate_ok|]. split; [by apply no_aggregate_ok|]. split; [by apply no_aggregate_ok|].
  split.
  { destruct (field_type 1 (1, [1; 5]) s).1 as [[n|]| |]; try discriminate H5. exists n. split; [done|].
    destruct n as [[]| | | | |]; done. }
  split; [destruct (field_type 1 (1, [2; 5]) s).1 as [[n|]| |]; done|].
  intros π Hπ. rewrite !elem_of_cons, elem_of_nil in Hπ.
  destruct (ftcache s !! (1%N, (1, [0; 1; 3]) : ptr)) eqn:E1; [discriminate H6|].
  destruct (ftcache s !! (1%N, (1, [1; 1; 3]) : ptr)) eqn:E2; [discriminate H6|].
  destruct (ftcache s !! (1%N, (1, [2; 1; 3]) : ptr)) eqn:E3; [discriminate H6|].
  destruct (ftcache s !! (1%N, (1, [0; 4]) : ptr)) eqn:E4; [discriminate H6|].
  destruct (ftcache s !! (1%N, (1, [1; 5]) : ptr)) eqn:E5; [discriminate H6|].
  destruct (ftcache s !! (1%N, (1, [2; 5]) : ptr)) eqn:E6; [discriminate H6|].
  destruct Hπ as [->|[->|[->|[->|[->|[->|[]]]]]]]; done.
Qed.

(** A simple name, a compound name and an absolute one in nested messages, all three as in the language. *)
Example C80_example : exists s scope,
  calm s /\ valid_schema s /\
  (forall π, π ∈ [[0; 1; 3]; [1; 1; 3]; [2; 1; 3]] -> scope_around s (1, π) scope) /\
  asks s (1, [0; 1; 3]) "Foo" (field_type 1 (1, [0; 1; 3])) /\ language_type s scope "Foo" ".lang.Outer.Foo" /\
  (forall k d, k <= length scope -> declared s (dotted (take k scope ++ ["Foo"])) d -> data_is_type d = true) /\
  asks s (1, [1; 1; 3]) "lang.Foo" (field_type 1 (1, [1; 1; 3])) /\ language_type s scope "lang.Foo" ".lang.Foo" /\
  asks s (1, [2; 1; 3]) ".lang.Foo" (field_type 1 (1, [2; 1; 3])) /\ language_type s scope ".lang.Foo" ".lang.Foo".
Proof.
  destruct lang_facts as (s & Hc & Hv & L & U1 & U2 & _ & _ & _ & _ & A1 & A2 & A3 & _ & _ & F).
  exists s, ["lang"; "Outer"; "Inner"]. split; [done|]. split; [done|].
  assert (El : forall π t, walk (file_tree lang_f lang_elems) π = Some t -> element_at s (1, π) t).
  { intros π t Hw. exists lang_f. unfold element_of. eexists. split; [exact L|]. done. }
  assert (Foo1 : declared s ".lang.Foo" (DMessage "Foo" false)) by (eapply (declared_here s lang_f 1 _ [2]); [exact L|reflexivity..]).
  assert (Foo2 : declared s ".lang.Outer.Foo" (DMessage "Foo" false)) by (eapply (declared_here s lang_f 1 _ [0; 3]); [exact L|reflexivity..]).
  split.
  { intros π Hπ. exists lang_f, (file_tree lang_f lang_elems), ["lang"]. split; [exact L|]. split.
    - split; [by apply idents|reflexivity].
    - rewrite !elem_of_cons, elem_of_nil in Hπ. destruct Hπ as [->|[->|[->|[]]]]; split; reflexivity. }
  split; [eapply asks_field; [eapply El; reflexivity|reflexivity|apply F; set_solver]|].
  split.
  { apply (lang_simple s ["lang"; "Outer"; "Inner"] "Foo" 2).
    - by apply identb_ok.
    - cbn. lia.
    - by exists (DMessage "Foo" false).
    - intros j [Hj1 Hj2] (d & Hd & _). cbn in Hj2. assert (j = 3) as -> by lia. exact (U1 _ Hd). }
  split.
  { intros k d Hk Hd. cbn in Hk. destruct k as [|[|[|[|k]]]]; [exfalso; exact (U2 _ Hd)| | |exfalso; exact (U1 _ Hd)|lia].
    - rewrite (declared_fun s Hv _ _ _ Foo1 Hd). done.
    - rewrite (declared_fun s Hv _ _ _ Foo2 Hd). done. }
  split; [eapply asks_field; [eapply El; reflexivity|reflexivity|apply F; set_solver]|].
  split.
  { apply (lang_compound s ["lang"; "Outer"; "Inner"] "lang" ["Foo"] 0).
    - by apply identb_ok.
    - done.
    - constructor; [by apply identb_ok|constructor].
    - cbn. lia.
    - by exists (DMessage "Foo" false).
    - intros j [Hj1 Hj2]. cbn in Hj2. destruct j as [|[|[|[|j]]]]; [lia|exact A1|exact A2|exact A3|lia]. }
  split; [eapply asks_field; [eapply El; reflexivity|reflexivity|apply F; set_solver]|].
  apply lang_absolute; [by eexists|by exists (DMessage "Foo" false)].
Qed.

(** A name without a meaning. *)
Example C80_nothing_example : exists s p m scope,
  calm s /\ valid_schema s /\ asks s p "Nope" m /\ scope_around s p scope /\ (m s).1 = Ret None.
Proof.
  destruct lang_facts as (s & Hc & Hv & L & _ & _ & _ & _ & _ & _ & _ & _ & _ & _ & Hn & F).
  exists s, (1, [2; 5]), (field_type 1 (1, [2; 5])), ["lang"; "M"]. split; [done|]. split; [done|]. split.
  { eapply asks_field; [exists lang_f; unfold element_of; eexists; split; [exact L|reflexivity]|reflexivity|apply F; set_solver]. }
  split; [|done].
  exists lang_f, (file_tree lang_f lang_elems), ["lang"]. split; [exact L|]. split; [split; [by apply idents|reflexivity]|].
  split; reflexivity.
Qed.

(** The output type of a method. *)
Example C80_method_example : exists s scope,
  calm s /\ valid_schema s /\ asks_method s (1, [0; 6]) "Foo" true (method_output (1, [0; 6])) /\
  scope_around s (1, [0; 6]) scope /\ language_message s scope "Foo" ".lang.Foo" /\
  (forall j, j <= length scope -> ~ package_named s (dotted (take j scope ++ ["Foo"]))).
Proof.
  destruct lang_facts as (s & Hc & Hv & L & _ & U2 & _ & U4 & A4 & A5 & _).
  exists s, ["lang"; "Svc"]. split; [done|]. split; [done|].
  assert (Foo1 : declared s ".lang.Foo" (DMessage "Foo" false)) by (eapply (declared_here s lang_f 1 _ [2]); [exact L|reflexivity..]).
  split. { eapply asks_output; [exists lang_f; unfold element_of; eexists; split; [exact L|reflexivity]|reflexivity]. }
  split.
  { exists lang_f, (file_tree lang_f lang_elems), ["lang"]. split; [exact L|]. split; [split; [by apply idents|reflexivity]|].
    split; reflexivity. }
  split.
  - apply (langm_simple s ["lang"; "Svc"] "Foo" 1 "Foo"); [by apply identb_ok|cbn; lia|exact Foo1|].
    intros j [Hj1 Hj2]. cbn in Hj2. assert (j = 2) as -> by lia. split; [exact U4|]. intros Hp. apply A4. by right.
  - intros j Hj Hp. cbn in Hj. destruct j as [|[|[|j]]]; [| | |lia].
    + apply A5. by right.
    + destruct Hv as (_ & _ & _ & Hn). exact (Hn _ _ Foo1 Hp).
    + apply A4. by right.
Qed.

(** It is not always so.  A field named like its type: the language gives the type a meaning, the library
    panics. *)
Theorem C80_refuted_own_name : exists s p m scope,
  calm s /\ valid_schema s /\ asks s p "Foo" m /\ scope_around s p scope /\
  language_type s scope "Foo" ".lang.Foo" /\ (m s).1 = Panic (PError (ENew "node *proto.NormalField does not represent a type")).
Proof.
  destruct lang_facts as (s & Hc & Hv & L & _ & _ & _ & _ & _ & _ & _ & _ & _ & _ & _ & F).
  exists s, (1, [0; 4]), (field_type 1 (1, [0; 4])), ["lang"; "Holder"].
  assert (Ha : asks s (1, [0; 4]) "Foo" (field_type 1 (1, [0; 4]))).
  { eapply asks_field; [exists lang_f; unfold element_of; eexists; split; [exact L|reflexivity]|reflexivity|apply F; set_solver]. }
  assert (Hs : scope_around s (1, [0; 4]) ["lang"; "Holder"]).
  { exists lang_f, (file_tree lang_f lang_elems), ["lang"]. split; [exact L|]. split; [split; [by apply idents|reflexivity]|].
    split; reflexivity. }
  assert (Foo1 : declared s ".lang.Foo" (DMessage "Foo" false)) by (eapply (declared_here s lang_f 1 _ [2]); [exact L|reflexivity..]).
  assert (Foo2 : declared s ".lang.Holder.Foo" (DNormalField "Foo" "Foo" 1 false false))
    by (eapply (declared_here s lang_f 1 _ [0; 4]); [exact L|reflexivity..]).
  split; [done|]. split; [done|]. split; [done|]. split; [done|]. split.
  - apply (lang_simple s ["lang"; "Holder"] "Foo" 1).
    + by apply identb_ok.
    + cbn. lia.
    + by exists (DMessage "Foo" false).
    + intros j [Hj1 Hj2] (d & Hd & Ht). cbn in Hj2. assert (j = 2) as -> by lia.
      rewrite (declared_fun s Hv _ _ _ Foo2 Hd) in Ht. discriminate Ht.
  - destruct (C80_obstructed s (1, [0; 4]) "Foo" _ ["lang"; "Holder"] 2 (DNormalField "Foo" "Foo" 1 false false) Hc Hv Ha) as [[(x & v & E) _]|[_ E]].
    + unfold scalar_names. rewrite !not_elem_of_cons. repeat split; try discriminate. apply not_elem_of_nil.
    + exact Hs.
    + by apply identb_ok.
    + cbn. lia.
    + exact Foo2.
    + done.
    + cbn. lia.
    + discriminate E.
    + exact E.
Qed.

(** And a compound name whose first component an inner scope declares without the rest: the language rejects
    it, the library takes the type from an outer scope. *)
Theorem C80_refuted_compound : exists s p m scope n,
  calm s /\ valid_schema s /\ asks s p "a.B" m /\ scope_around s p scope /\
  (forall q, ~ language_type s scope "a.B" q) /\ (m s).1 = Ret (Some n) /\ message_or_enum n.
Proof.
  destruct lang_facts as (s & Hc & Hv & L & _ & _ & U3 & _ & _ & _ & _ & _ & _ & (n & Hn & Hm) & _ & F).
  exists s, (1, [1; 5]), (field_type 1 (1, [1; 5])), ["lang"; "M"], n.
  assert (Ma : declared s ".lang.M.a" (DMessage "a" false)) by (eapply (declared_here s lang_f 1 _ [0; 5]); [exact L|reflexivity..]).
  split; [done|]. split; [done|]. split.
  { eapply asks_field; [exists lang_f; unfold element_of; eexists; split; [exact L|reflexivity]|reflexivity|apply F; set_solver]. }
  split.
  { exists lang_f, (file_tree lang_f lang_elems), ["lang"]. split; [exact L|]. split; [split; [by apply idents|reflexivity]|].
    split; reflexivity. }
  split; [|done]. intros q Hq. inversion Hq as [t [r E] _|t k [_ Hi]|first rest k Hif Hne Hir Hk Ht Hin E]; [discriminate E|discriminate Hi|].
  assert (Hl : first :: rest = ["a"; "B"]).
  { apply dotted_inj; [by constructor|by apply idents|]. cbn [dotted]. cbn [dotted] in E. by rewrite E. }
  injection Hl as -> ->. cbn in Hk. destruct (decide (k = 2)) as [->|Hk2].
  - destruct Ht as (d & Hd & _). exact (U3 _ Hd).
  - apply (Hin 2); [cbn; lia|]. left. eexists. split; [exact Ma|by left].
Qed.
