(** * The visitor against the specification of declared names. *)
From Verif Require Export Frame Spec StrLemmas.

Lemma dotted_app l1 l2 : dotted (l1 ++ l2) = dotted l1 +:+ dotted l2.
Proof.
  induction l1 as [|n l1 IH]; [done|]. cbn [app dotted]. by rewrite IH, !sapp_assoc.
Qed.
Lemma dotted_snoc l n : dotted (l ++ [n]) = dotted l +:+ "." +:+ n.
Proof. rewrite dotted_app. cbn [dotted]. by rewrite sapp_nil_r. Qed.

(** ** The package *)

Lemma foldl_pkg_no els sc :
  forallb (fun u => negb (is_package (t_data u))) els = true -> foldl pkg_step sc els = sc.
Proof.
  revert sc. induction els as [|t els IH]; intros sc; [done|]. cbn.
  intros [Ht Hels]%andb_prop. rewrite IH by done. unfold pkg_step.
  by destruct (t_data t).
Qed.
Lemma forallb_take {A} (f : A -> bool) l i : forallb f l = true -> forallb f (take i l) = true.
Proof.
  revert i. induction l as [|x l IH]; intros [|i]; try done. cbn.
  intros [H1 H2]%andb_prop. by rewrite H1, IH.
Qed.
Lemma find_no_package els :
  forallb (fun u => negb (is_package (t_data u))) els = true -> the_package els = "".
Proof.
  intros H. unfold the_package.
  destruct (List.find _ els) as [u|] eqn:Hf; [|done].
  apply List.find_some in Hf as [Hin Hp].
  rewrite List.forallb_forall in H. specialize (H u Hin). by rewrite Hp in H.
Qed.

Lemma pkg_before_first els i t :
  package_first els = true -> els !! i = Some t -> container (t_data t) = true ->
  pkg_before els i = pkg_scope (the_package els).
Proof.
  unfold pkg_before. revert i. induction els as [|u els IH]; intros i; [done|].
  cbn [package_first]. intros Hf Hi Ht.
  destruct (is_package (t_data u)) eqn:Hu; cbn [orb] in Hf.
  - destruct i as [|i].
    + injection Hi as ->. by destruct (t_data t).
    + cbn [take foldl]. rewrite foldl_pkg_no by (by apply forallb_take).
      unfold the_package. cbn [List.find]. rewrite Hu. unfold pkg_step.
      destruct u as [[] ? ? ?]; try discriminate Hu. cbn [t_data].
      destruct (String.eqb name "") eqn:Hn; [|done].
      apply String.eqb_eq in Hn. by subst name.
  - assert (Hp : the_package (u :: els) = the_package els).
    { unfold the_package. cbn [List.find]. by rewrite Hu. }
    rewrite Hp. destruct (container (t_data u)) eqn:Hc.
    + rewrite (find_no_package els) by done. destruct i as [|i]; [done|].
      cbn [take foldl]. rewrite foldl_pkg_no by (by apply forallb_take).
      unfold pkg_step. by destruct (t_data u).
    + destruct i as [|i]; [injection Hi as ->; congruence|].
      cbn [take foldl]. assert (pkg_step "" u = "") as ->.
      { unfold pkg_step. by destruct (t_data u). }
      by apply IH.
Qed.

(** the outermost ancestor of a visible element is a container of the file *)
Lemma walk_outermost f π t :
  walk f π = Some t -> π <> [] ->
  exists u, t_kids f !! outermost π = Some u /\
    (t = u \/ (visible f π = true -> container (t_data u) = true)).
Proof.
  revert t. induction π as [|i π IH]; intros t; [done|]. cbn [walk].
  destruct (walk f π) as [w|] eqn:Hw; [|done]. intros Hi _.
  destruct π as [|j π'].
  - cbn in Hw. injection Hw as ->. exists t. unfold outermost. cbn. auto.
  - destruct (IH w eq_refl) as (u & Hu & Hc); [done|]. exists u.
    split; [exact Hu|]. right. intros Hv. cbn [visible] in Hv.
    apply andb_prop in Hv as [Hv1 Hv2].
    destruct Hc as [->|Hc].
    + cbn [walk] in Hw, Hv2. rewrite Hw in Hv2. done.
    + apply Hc. exact Hv1.
Qed.

Lemma own_name_container_top f path els i t n :
  f = file_tree path els -> wf_tree f = true ->
  els !! i = Some t -> own_name (t_data t) = Some n -> container (t_data t) = true.
Proof.
  intros -> Hwf Hi Hn. unfold file_tree in Hwf. cbn [wf_tree] in Hwf.
  rewrite List.forallb_forall in Hwf.
  assert (Hin : List.In t els) by (apply elem_of_list_In; eapply elem_of_list_lookup_2; eauto).
  specialize (Hwf t Hin). apply andb_prop in Hwf as [Ha _].
  by destruct (t_data t).
Qed.

Lemma fqn_here_fqn path els π :
  wf_tree (file_tree path els) = true -> package_first els = true ->
  fqn_here (file_tree path els) π = fqn (file_tree path els) π.
Proof.
  intros Hwf Hpf. unfold fqn_here, fqn.
  destruct (walk _ π) as [t|] eqn:Hw; [|done].
  destruct (own_name (t_data t)) as [n|] eqn:Hn; [|done].
  destruct (visible _ π) eqn:Hv; [|done].
  assert (Hne : π <> []) by (intros ->; cbn in Hw; injection Hw as <-; done).
  destruct (walk_outermost _ _ _ Hw Hne) as (u & Hu & Hc).
  cbn in Hu.
  assert (Hcu : container (t_data u) = true).
  { destruct Hc as [->|Hc]; [|auto]. eapply own_name_container_top; eauto. }
  unfold scope_at. cbn [t_kids file_tree]. rewrite (pkg_before_first _ _ _ Hpf Hu Hcu).
  by rewrite dotted_snoc, !sapp_assoc.
Qed.

(** ** The declarations below an element, as the visitor meets them *)

Section kids_decls.
  Context (decls : list nat -> tree -> list (string * list nat * bool)) (π : list nat).
  Fixpoint kids_decls (i : nat) (l : list tree) : list (string * list nat * bool) :=
    match l with
    | [] => []
    | k :: l' => (decls (i :: π) k ++ kids_decls (S i) l')%list
    end.
End kids_decls.

Fixpoint decls (sc : string) (π : list nat) (t : tree) {struct t}
  : list (string * list nat * bool) :=
  match t with
  | T d _ _ kids =>
      let q n := sc +:+ "." +:+ n in
      match d with
      | DMessage n false | DService n => (q n, π, true) :: kids_decls (decls (q n)) π 0 kids
      | DMessage _ true => kids_decls (decls sc) π 0 kids
      | DEnum n | DOneof n => (q n, π, true) :: kids_decls (decls sc) π 0 kids
      | DNormalField n _ _ _ _ | DOneOfField n _ _ | DRPC n _ _ _ _ | DMapField n _ _ _ =>
          [(q n, π, true)]
      | DEnumField n _ => [(q n, π, false)]
      | _ => []
      end
  end.

Definition add_decl (g : nat) (s : registry) (x : string * list nat * bool) : registry :=
  let '(q, π, b) := x in
  let s1 := set_names (<[q := (g, π)]> (names s)) s in
  if b then set_scopes (<[VPtr (g, π) := q]> (scopes s1)) s1 else s1.
Definition add_decls (g : nat) (l : list (string * list nat * bool)) (s : registry) : registry :=
  fold_left (add_decl g) l s.

Lemma add_decls_app g l1 l2 s : add_decls g (l1 ++ l2) s = add_decls g l2 (add_decls g l1 s).
Proof. unfold add_decls. apply fold_left_app. Qed.

(** the loop over the children of an element *)
Section visit_list.
  Context (imp : string -> R unit) (p : ptr).
  Fixpoint visit_list (v : visitor) (i : nat) (l : list tree) {struct l} : R visitor :=
    match l with
    | [] => ret v
    | k :: l' => v' <~ visit imp v (child p i) k ;; visit_list v' (S i) l'
    end.
End visit_list.

(** kinds of elements that occur below the file level *)
Definition nested (d : data) : bool :=
  match d with DProto _ | DPackage _ | DImport _ => false | _ => true end.

Lemma allowed_nested d d' : nested d = true -> allowed d d' = true -> nested d' = true.
Proof. destruct d, d'; cbn; done. Qed.

Lemma forallb_Forall {A} (f : A -> bool) l : forallb f l = true <-> Forall (fun x => f x = true) l.
Proof.
  induction l as [|x l IH]; cbn; [split; [constructor|done]|].
  rewrite andb_true_iff, IH. split; [intros []; by constructor|inversion 1; auto].
Qed.

(** Visiting an element below the file level is exactly recording its declarations. *)
Lemma visit_nested imp g t : forall v π s,
  wf_tree t = true -> nested (t_data t) = true ->
  exists v', visit imp v (g, π) t s = (Ret v', add_decls g (decls (v_scope v) π t) s) /\
             v_scope v' = v_scope v /\ v_file v' = v_file v.
Proof.
  induction t as [d ps c kids IH] using tree_nested_ind. intros v π s Hwf Hn.
  cbn [t_data] in Hn. cbn [wf_tree] in Hwf. apply forallb_Forall in Hwf.
  assert (Hk : nested d = true -> forall i v s,
    exists v', visit_list imp (g, π) v i kids s =
               (Ret v', add_decls g (kids_decls (decls (v_scope v)) π i kids) s) /\
               v_scope v' = v_scope v /\ v_file v' = v_file v).
  { intros _. clear v s. induction kids as [|k kids IHk]; intros i v s.
    - exists v. done.
    - inversion IH as [|? ? IH1 IH2]. inversion Hwf as [|? ? Hw1 Hw2]. subst.
      apply andb_prop in Hw1 as [Ha Hw].
      destruct (IH1 v (i :: π) s Hw) as (v1 & E1 & S1 & F1); [by eapply allowed_nested|].
      cbn [visit_list kids_decls]. unfold rbind. unfold child. cbn [fst snd]. rewrite E1.
      destruct (IHk IH2 Hw2 (S i) v1 (add_decls g (decls (v_scope v) (i :: π) k) s))
        as (v2 & E2 & S2 & F2).
      exists v2. rewrite E2, S1, add_decls_app. split; [done|]. split; congruence. }
  assert (Q : forall n, scoped_name v n = v_scope v +:+ "." +:+ n) by done.
  destruct d; try discriminate Hn; specialize (Hk eq_refl);
    try (by exists v; cbn; repeat split; destruct s).
  - (* message *)
    destruct is_extend.
    + destruct (Hk 0 (set_is_extend true v) s) as (v2 & E & S2 & F2).
      exists (set_scope (v_scope v) (set_is_extend false v2)).
      split; [|split; [done|exact F2]].
      change (visit imp v (g, π) (T (DMessage name true) ps c kids)) with
        (v2 <~ visit_list imp (g, π) (set_is_extend true v) 0 kids ;;
         ret (set_scope (v_scope v) (set_is_extend false v2))).
      unfold rbind. rewrite E. reflexivity.
    + set (q := v_scope v +:+ "." +:+ name).
      destruct (Hk 0 (set_scope q v) (add_decl g s (q, π, true))) as (v2 & E & S2 & F2).
      exists (set_scope (v_scope v) (set_is_extend false v2)).
      split; [|split; [done|exact F2]].
      change (visit imp v (g, π) (T (DMessage name false) ps c kids)) with
        (v1 <~ (put_name q (g, π) ;;; put_scope (VPtr (g, π)) q ;;; ret (set_scope q v)) ;;
         v2 <~ visit_list imp (g, π) v1 0 kids ;;
         ret (set_scope (v_scope v) (set_is_extend false v2))).
      unfold rbind, put_name, put_scope, modify, ret.
      change (set_scopes _ _) with (add_decl g s (q, π, true)).
      rewrite E. reflexivity.
  - (* oneof *)
    set (q := v_scope v +:+ "." +:+ name).
    destruct (Hk 0 v (add_decl g s (q, π, true))) as (v2 & E & S2 & F2).
    exists (set_scope (v_scope v) v2). split; [|split; [done|exact F2]].
    change (visit imp v (g, π) (T (DOneof name) ps c kids)) with
      (put_name q (g, π) ;;; put_scope (VPtr (g, π)) q ;;;
       v2 <~ visit_list imp (g, π) v 0 kids ;; ret (set_scope (v_scope v) v2)).
    unfold rbind, put_name, put_scope, modify, ret.
    change (set_scopes _ _) with (add_decl g s (q, π, true)).
    rewrite E. reflexivity.
  - (* enum *)
    set (q := v_scope v +:+ "." +:+ name).
    destruct (Hk 0 v (add_decl g s (q, π, true))) as (v2 & E & S2 & F2).
    exists v2. split; [|split; [exact S2|exact F2]].
    change (visit imp v (g, π) (T (DEnum name) ps c kids)) with
      (put_name q (g, π) ;;; put_scope (VPtr (g, π)) q ;;; visit_list imp (g, π) v 0 kids).
    unfold rbind, put_name, put_scope, modify, ret.
    change (set_scopes _ _) with (add_decl g s (q, π, true)).
    rewrite E. reflexivity.
  - (* service *)
    set (q := v_scope v +:+ "." +:+ name).
    destruct (Hk 0 (set_scope q v) (add_decl g s (q, π, true))) as (v2 & E & S2 & F2).
    exists (set_scope (v_scope v) v2). split; [|split; [done|exact F2]].
    change (visit imp v (g, π) (T (DService name) ps c kids)) with
      (put_name q (g, π) ;;; put_name q (g, π) ;;; put_scope (VPtr (g, π)) q ;;;
       v2 <~ visit_list imp (g, π) (set_scope q v) 0 kids ;; ret (set_scope (v_scope v) v2)).
    unfold rbind, put_name, put_scope, modify, ret.
    match goal with |- context [visit_list _ _ _ _ _ ?st] =>
      assert (st = add_decl g s (q, π, true)) as -> end.
    { cbn. unfold set_names, set_scopes. cbn. by rewrite insert_insert. }
    rewrite E. reflexivity.
Qed.

(** ** The recorded declarations are the specified ones *)

Lemma walk_app f δ π :
  walk f (δ ++ π) = match walk f π with Some u => walk u δ | None => None end.
Proof.
  induction δ as [|i δ IH]; cbn [app walk]; [by destruct (walk f π)|].
  rewrite IH. by destruct (walk f π).
Qed.
Lemma visible_app f δ π : visible f (δ ++ π) = true -> visible f π = true.
Proof. induction δ as [|i δ IH]; cbn; [done|]. intros [? _]%andb_prop. auto. Qed.
Lemma visible_tail f i π u :
  walk f π = Some u -> visible f (i :: π) = visible f π && container (t_data u).
Proof. intros H. cbn. by rewrite H. Qed.

Lemma outermost_cons i π : π <> [] -> outermost (i :: π) = outermost π.
Proof. destruct π; done. Qed.

Lemma scope_at_cons f i π u :
  π <> [] -> walk f π = Some u ->
  scope_at f (i :: π) =
  scope_at f π +:+ match scope_name (t_data u) with Some n => "." +:+ n | None => "" end.
Proof.
  intros Hne Hw. unfold scope_at. rewrite outermost_cons by done.
  cbn [enclosing]. rewrite Hw, dotted_app, sapp_assoc. f_equal. f_equal.
  destruct (scope_name (t_data u)); [|done]. cbn [dotted]. by rewrite sapp_nil_r.
Qed.

Lemma kids_decls_elem D π l i x :
  x ∈ kids_decls D π i l <-> exists j k, l !! j = Some k /\ x ∈ D ((i + j) :: π) k.
Proof.
  revert i. induction l as [|k l IH]; intros i; cbn [kids_decls].
  - split; [inversion 1|intros (j & k & Hj & _); done].
  - rewrite elem_of_app, IH. split.
    + intros [H|(j & k' & Hj & H)].
      * exists 0, k. rewrite Nat.add_0_r. done.
      * exists (S j), k'. rewrite Nat.add_succ_r. done.
    + intros ([|j] & k' & Hj & H).
      * rewrite Nat.add_0_r in H. cbn in Hj. injection Hj as ->. by left.
      * rewrite Nat.add_succ_r in H. right. by exists j, k'.
Qed.

Definition keeps_scope (d : data) : bool :=
  match d with DEnumField _ _ => false | _ => true end.

(** [π'] is an element at or below [π] declaring [q] *)
Definition declares_below (f : tree) (π : list nat) (q : string) (π' : list nat) (b : bool) : Prop :=
  (exists δ, π' = (δ ++ π)%list) /\ fqn_here f π' = Some q /\
  exists u, walk f π' = Some u /\ b = keeps_scope (t_data u).

Lemma below_split f π q π' b t :
  walk f π = Some t ->
  declares_below f π q π' b <->
  (π' = π /\ fqn_here f π = Some q /\ b = keeps_scope (t_data t)) \/
  exists i k, t_kids t !! i = Some k /\ declares_below f (i :: π) q π' b.
Proof.
  intros Hw. split.
  - intros ((δ & ->) & Hq & u & Hu & Hb).
    destruct δ as [|i δ] using rev_ind; [left|right; clear IHδ].
    + cbn in *. split; [done|]. split; [done|]. congruence.
    + rewrite <- app_assoc in *. cbn [app] in *.
      rewrite walk_app in Hu. destruct (walk f (i :: π)) as [k|] eqn:Hk; [|done].
      cbn [walk] in Hk. rewrite Hw in Hk.
      exists i, k. split; [done|]. split; [by exists δ|]. split; [done|].
      exists u. rewrite walk_app. cbn [walk]. by rewrite Hw, Hk.
  - intros [(-> & Hq & Hb)|(i & k & Hk & (δ & ->) & Hq & u & Hu & Hb)].
    + split; [by exists []|]. split; [done|]. eauto.
    + split; [exists (δ ++ [i])%list; by rewrite <- app_assoc|]. split; [done|]. eauto.
Qed.

Lemma fqn_here_self f π t :
  walk f π = Some t -> visible f π = true ->
  fqn_here f π = match own_name (t_data t) with
                 | Some n => Some (scope_at f π +:+ "." +:+ n)
                 | None => None end.
Proof. intros Hw Hv. unfold fqn_here. by rewrite Hw, Hv. Qed.

Lemma not_container_below f π t q i k π' b :
  walk f π = Some t -> container (t_data t) = false ->
  t_kids t !! i = Some k -> declares_below f (i :: π) q π' b -> False.
Proof.
  intros Hw Hc Hk ((δ & ->) & Hq & _). unfold fqn_here in Hq.
  destruct (walk f (δ ++ i :: π)); [|done].
  destruct (own_name _); [|done].
  destruct (visible f (δ ++ i :: π)) eqn:Hv; [|done].
  apply visible_app in Hv. cbn in Hv. rewrite Hw, Hc in Hv. by destruct (visible f π).
Qed.

Lemma decls_spec f t : forall π q π' b,
  walk f π = Some t -> π <> [] -> visible f π = true ->
  wf_tree t = true -> nested (t_data t) = true ->
  (q, π', b) ∈ decls (scope_at f π) π t <-> declares_below f π q π' b.
Proof.
  induction t as [d ps c kids IH] using tree_nested_ind.
  intros π q π' b Hw Hne Hv Hwf Hn. cbn [t_data] in Hn. cbn [wf_tree] in Hwf.
  apply forallb_Forall in Hwf.
  rewrite (below_split _ _ _ _ _ _ Hw), (fqn_here_self _ _ _ Hw Hv). cbn [t_data t_kids].
  assert (Hk : container d = true ->
    forall sc, sc = scope_at f π +:+ match scope_name d with Some n => "." +:+ n | None => "" end ->
    (q, π', b) ∈ kids_decls (decls sc) π 0 kids <->
    exists i k, kids !! i = Some k /\ declares_below f (i :: π) q π' b).
  { intros Hc sc ->. rewrite kids_decls_elem.
    apply exist_proper; intros j. apply exist_proper; intros k.
    assert (Hjk : kids !! j = Some k ->
      ((q, π', b) ∈ decls (scope_at f (j :: π)) (j :: π) k <-> declares_below f (j :: π) q π' b)).
    { intros Hj. rewrite Forall_forall in IH, Hwf.
      assert (Hin : List.In k kids)
        by (apply elem_of_list_In; eapply elem_of_list_lookup_2; eauto).
      destruct (andb_prop _ _ (Hwf k Hin)) as [Ha Hwk].
      apply (IH k Hin); [cbn; by rewrite Hw|done| |done|by eapply allowed_nested].
      rewrite (visible_tail _ _ _ _ Hw), Hv. done. }
    rewrite (scope_at_cons _ _ _ _ Hne Hw) in Hjk. cbn [t_data] in Hjk. cbn [Nat.add]. tauto. }
  assert (Hleaf : container d = false ->
    (exists i k, kids !! i = Some k /\ declares_below f (i :: π) q π' b) <-> False).
  { intros Hc. split; [|done]. intros (i & k & Hi & Hb).
    eapply (not_container_below f π (T d ps c kids)); eauto. }
  destruct d as [| | | | | |name []| | | | | | | | | | | |]; try discriminate Hn;
    cbn [own_name scope_name container decls keeps_scope] in *;
    first
    [ rewrite (Hk eq_refl _ eq_refl)
    | rewrite (Hk eq_refl _ (eq_sym (sapp_nil_r _)))
    | rewrite (Hleaf eq_refl)
    | rewrite elem_of_cons, (Hk eq_refl _ eq_refl)
    | rewrite elem_of_cons, (Hk eq_refl _ (eq_sym (sapp_nil_r _))) ];
    rewrite ?elem_of_cons, ?elem_of_nil.
  all: clear IH Hwf Hk Hleaf Hw Hv Hne. all: naive_solver.
Qed.
