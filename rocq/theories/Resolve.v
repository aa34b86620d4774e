(** * Name resolution: specification and proofs. *)
From Verif Require Export Iterate.

(** ** Specification *)

(** A name without dots: an identifier, a component of a qualified name. *)
Fixpoint no_dot (s : string) : bool :=
  match s with
  | EmptyString => true
  | String c r => negb (Ascii.eqb c ".") && no_dot r
  end.
Definition ident (c : string) : Prop := c <> "" /\ no_dot c = true.

Definition absolute (name : string) : Prop := exists r, name = String "." r.

(** NodeByFullName(q) gives the node [n] *)
Definition found (s : registry) (q : string) (n : node) : Prop :=
  (node_by_full_name q s).1 = Ret (Some n).
Definition unknown (s : registry) (q : string) : Prop := forall n, ~ found s q n.

(** [name] used in the scope [comps] (outermost component first) denotes the declaration [q]: [q] is
    declared, and is [name] itself if [name] is absolute, and otherwise [name] in one of the
    enclosing scopes, no inner one declaring it. *)
Definition denotes (s : registry) (comps : list string) (name q : string) : Prop :=
  (exists n, found s q n) /\
  ((absolute name /\ q = name) \/
   (~ absolute name /\ exists k, k <= length comps /\ q = dotted (take k comps) +:+ "." +:+ name /\
      forall j, k < j -> j <= length comps -> unknown s (dotted (take j comps) +:+ "." +:+ name))).

(** The names of protobuf's scalar types. *)
Definition scalar_names : list string :=
  ["double"; "float"; "int32"; "int64"; "uint32"; "uint64"; "sint32"; "sint64";
   "fixed32"; "fixed64"; "sfixed32"; "sfixed64"; "bool"; "string"; "bytes"].

(** ** Proofs *)

Lemma prefix_dot name : has_prefix name "." = true <-> absolute name.
Proof.
  unfold has_prefix, absolute. destruct name as [|c r]; cbn [String.prefix].
  - split; [done|]. by intros [r ?].
  - destruct (ascii_dec "." c) as [<-|H].
    + split; [eauto|]. destruct r; done.
    + split; [done|]. intros [r' [= -> _]]. done.
Qed.
Lemma prefix_dot_false name : has_prefix name "." = false <-> ~ absolute name.
Proof. rewrite <- prefix_dot. by destruct (has_prefix name "."). Qed.

Lemma str_take_app a b : str_take (String.length a) (a +:+ b) = a.
Proof. induction a as [|x a IH]; [by destruct b|]. rewrite sapp_cons. cbn. by rewrite IH. Qed.
Lemma last_index_none c : no_dot c = true -> last_index "." c = None.
Proof.
  induction c as [|x r IH]; [done|]. cbn. intros [H1 H2]%andb_prop. rewrite (IH H2).
  destruct (Ascii.eqb x "."); done.
Qed.
Lemma last_index_dot a c : no_dot c = true ->
  last_index "." (a +:+ "." +:+ c) = Some (String.length a).
Proof.
  intros Hc. induction a as [|x a IH].
  - rewrite sapp_nil_l. change ("." +:+ c) with (String "." c). cbn [last_index].
    by rewrite last_index_none.
  - rewrite sapp_cons. cbn [last_index]. by rewrite IH.
Qed.

Lemma dotted_length_pos comps c : String.length (dotted comps) < String.length (dotted (comps ++ [c])).
Proof. rewrite dotted_snoc, !slength_app. change (String.length ".") with 1. lia. Qed.
Lemma dotted_head comps : comps <> [] -> has_prefix (dotted comps) "." = true.
Proof. destruct comps as [|c comps]; [done|]. intros _. apply prefix_dot. eexists. reflexivity. Qed.

Lemma resolve_loop_spec reg name comps : Forall ident comps ->
  forall fuel, String.length (dotted comps) < fuel ->
  (exists k, k <= length comps /\
     defined reg (dotted (take k comps) +:+ "." +:+ name) = true /\
     (forall j, k < j -> j <= length comps -> defined reg (dotted (take j comps) +:+ "." +:+ name) = false) /\
     resolve_loop reg fuel (dotted comps) name = Some (dotted (take k comps) +:+ "." +:+ name, true)) \/
  ((forall j, j <= length comps -> defined reg (dotted (take j comps) +:+ "." +:+ name) = false) /\
   resolve_loop reg fuel (dotted comps) name = Some ("." +:+ name, false)).
Proof.
  induction comps as [|c comps IH] using rev_ind; intros Hid fuel Hf.
  - destruct fuel as [|fuel]; [lia|]. cbn [resolve_loop dotted length] in *.
    destruct (defined reg ("" +:+ "." +:+ name)) eqn:Hd.
    + left. exists 0. split; [lia|]. split; [done|]. split; [lia|done].
    + right. split; [|change (String.eqb "" "") with true; cbv iota; by rewrite sapp_nil_l in Hd; rewrite Hd].
      intros j Hj. by assert (j = 0) as -> by lia.
  - apply Forall_app in Hid as [Hid Hc]. apply Forall_cons_1 in Hc as [[_ Hc] _].
    pose proof (dotted_length_pos comps c) as Hlen.
    destruct fuel as [|fuel]; [lia|]. cbn [resolve_loop].
    assert (Hfull : take (length (comps ++ [c])) (comps ++ [c]) = (comps ++ [c])%list)
      by (apply firstn_all).
    assert (Hsub : forall j, j <= length comps -> take j (comps ++ [c]) = take j comps).
    { intros j Hj. by rewrite take_app_le. }
    rewrite app_length in *. cbn [length] in *.
    destruct (defined reg (dotted (comps ++ [c]) +:+ "." +:+ name)) eqn:Hd.
    + left. exists (length comps + 1). rewrite Hfull. split; [lia|]. split; [done|].
      split; [lia|done].
    + assert (Hne : String.eqb (dotted (comps ++ [c])) "" = false).
      { rewrite dotted_snoc. destruct (dotted comps); done. }
      rewrite Hne.
      assert (Hcut : match last_index "." (dotted (comps ++ [c])) with
                     | Some (S i) => str_take (S i) (dotted (comps ++ [c]))
                     | _ => "" end = dotted comps).
      { rewrite dotted_snoc, last_index_dot by done.
        destruct (String.length (dotted comps)) as [|i] eqn:Hl.
        - by destruct (dotted comps).
        - rewrite <- Hl. apply str_take_app. }
      rewrite Hcut. destruct (IH Hid fuel) as [(k & H1 & H2 & H3 & H4)|(H1 & H2)]; [lia| |].
      * left. exists k. rewrite Hsub by lia. split; [lia|]. split; [done|]. split; [|done].
        intros j Hkj Hj. destruct (decide (j = length comps + 1)) as [->|Hne'].
        -- by rewrite Hfull.
        -- rewrite Hsub by lia. apply H3; lia.
      * right. split; [|done]. intros j Hj.
        destruct (decide (j = length comps + 1)) as [->|Hne'].
        -- by rewrite Hfull.
        -- rewrite Hsub by lia. apply H1; lia.
Qed.

Lemma found_names s q : Inv s -> (exists n, found s q n) <-> is_Some (names s !! q).
Proof.
  intros I. split.
  - intros [n Hn]. unfold found in Hn. destruct (node_by_full_name q s) as [o s'] eqn:E.
    cbn in Hn. subst o. destruct (found_is_declared _ _ _ _ I E) as (? & ? & ? & ? & ? & p & _ & H & _). eauto.
  - intros [p Hp]. destruct (lookup_named _ _ _ I Hp) as (f & t & k & a & s' & _ & _ & _ & _ & E & _).
    exists (NAst k a p). unfold found. by rewrite E.
Qed.
Lemma unknown_names s q : Inv s -> unknown s q <-> names s !! q = None.
Proof.
  intros I. rewrite eq_None_not_Some, <- (found_names s q I). unfold unknown. naive_solver.
Qed.
Lemma defined_names s q : defined (names s) q = true <-> is_Some (names s !! q).
Proof. unfold defined. destruct (names s !! q); split; try done; by intros []. Qed.
Lemma defined_names_false s q : defined (names s) q = false <-> names s !! q = None.
Proof. unfold defined. by destruct (names s !! q). Qed.

Lemma resolve_raw_spec s comps name : Inv s -> Forall ident comps ->
  (exists q, denotes s comps name q /\
     resolve_name_raw (names s) (dotted comps) name = Some (q, true)) \/
  ((forall q, ~ denotes s comps name q) /\
   exists q, resolve_name_raw (names s) (dotted comps) name = Some (q, false)).
Proof.
  intros I Hid. unfold resolve_name_raw. destruct (has_prefix name ".") eqn:Hp.
  - apply prefix_dot in Hp. destruct (defined (names s) name) eqn:Hd.
    + left. exists name. split; [|done]. split; [|by left].
      apply (found_names _ _ I). by apply defined_names.
    + right. split; [|eauto]. intros q [Hf [[_ ->]|[Hn _]]]; [|done].
      apply (found_names _ _ I) in Hf. apply defined_names in Hf. congruence.
  - apply prefix_dot_false in Hp.
    assert (Hsc : (if negb (String.eqb (dotted comps) "") && negb (has_prefix (dotted comps) ".")
                   then "." +:+ dotted comps else dotted comps) = dotted comps).
    { destruct comps as [|c comps]; [done|]. rewrite dotted_head by done.
      by rewrite andb_false_r. }
    rewrite Hsc.
    destruct (resolve_loop_spec (names s) name comps Hid (S (String.length (dotted comps))))
      as [(k & H1 & H2 & H3 & H4)|(H1 & H2)]; [lia| |].
    + left. exists (dotted (take k comps) +:+ "." +:+ name). split; [|done].
      split; [by apply (found_names _ _ I), defined_names|]. right. split; [done|].
      exists k. split; [done|]. split; [done|]. intros j Hj1 Hj2.
      apply (unknown_names _ _ I), defined_names_false. auto.
    + right. split; [|eauto]. intros q [Hf [[Ha _]|(_ & k & Hk & -> & _)]]; [done|].
      apply (found_names _ _ I), defined_names in Hf. rewrite H1 in Hf by done. done.
Qed.

Lemma denotes_fun s comps name q q' : denotes s comps name q -> denotes s comps name q' -> q' = q.
Proof.
  intros [Hf [[Ha ->]|(Hn & k & Hk & -> & Hu)]] [Hf' [[Ha' ->]|(Hn' & k' & Hk' & -> & Hu')]]; try done.
  destruct (Nat.lt_trichotomy k k') as [H|[->|H]]; [|done|].
  - exfalso. destruct Hf' as [n Hf']. exact (Hu k' H Hk' n Hf').
  - exfalso. destruct Hf as [n Hf]. exact (Hu' k H Hk n Hf).
Qed.

Lemma resolve_denotes s comps name q : Inv s -> Forall ident comps -> denotes s comps name q ->
  resolve (dotted comps) name s = (Ret (q, true), s).
Proof.
  intros I Hid Hq. unfold resolve. rewrite rbind_get.
  destruct (resolve_raw_spec s comps name I Hid) as [(q' & Hq' & ->)|[Hn _]].
  - by rewrite (denotes_fun _ _ _ _ _ Hq Hq').
  - by apply Hn in Hq.
Qed.
Lemma resolve_unknown s comps name : Inv s -> Forall ident comps ->
  (forall q, ~ denotes s comps name q) ->
  exists q, resolve (dotted comps) name s = (Ret (q, false), s).
Proof.
  intros I Hid Hq. unfold resolve. rewrite rbind_get.
  destruct (resolve_raw_spec s comps name I Hid) as [(q' & Hq' & _)|[_ [q ->]]].
  - by apply Hq in Hq'.
  - by exists q.
Qed.
