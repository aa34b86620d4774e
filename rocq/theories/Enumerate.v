(** * Checking universally quantified hypotheses on concrete registries (for examples). *)
From Verif Require Export LoadFacts Worlds.

(** all index paths of a tree, innermost index first; [suffix] is the path of the tree itself *)
Fixpoint all_paths (suffix : list nat) (t : tree) : list (list nat) :=
  let 'T _ _ _ kids := t in
  suffix ::
  (fix go (i : nat) (l : list tree) : list (list nat) :=
     match l with
     | [] => []
     | k :: l' => (all_paths (i :: suffix) k ++ go (S i) l')%list
     end) 0 kids.
Section paths_list.
Context (suffix : list nat).
Fixpoint paths_list (i : nat) (l : list tree) : list (list nat) :=
  match l with
  | [] => []
  | k :: l' => (all_paths (i :: suffix) k ++ paths_list (S i) l')%list
  end.
End paths_list.
Lemma all_paths_unfold suffix d ps c kids :
  all_paths suffix (T d ps c kids) = suffix :: paths_list suffix 0 kids.
Proof. reflexivity. Qed.

(** [walk] one step at the outer end *)
Lemma walk_snoc t π i :
  walk t (π ++ [i])%list = match t_kids t !! i with Some k => walk k π | None => None end.
Proof.
  induction π as [|j π IH]; cbn [app walk].
  - by destruct (t_kids t !! i).
  - rewrite IH. by destruct (t_kids t !! i).
Qed.

Lemma in_paths_list suffix l i j k π :
  l !! j = Some k -> π ∈ all_paths (i + j :: suffix) k -> π ∈ paths_list suffix i l.
Proof.
  revert i j. induction l as [|x l IH]; intros i j; [done|]. cbn [paths_list].
  destruct j as [|j]; cbn.
  - intros [= ->]. rewrite Nat.add_0_r. intros H. apply elem_of_app. by left.
  - intros Hj H. apply elem_of_app. right. apply (IH (S i) j Hj).
    by replace (S i + j) with (i + S j) by lia.
Qed.
Lemma all_paths_complete t : forall suffix π u,
  walk t π = Some u -> (π ++ suffix)%list ∈ all_paths suffix t.
Proof.
  induction t as [d ps c kids IH] using tree_nested_ind. intros suffix π u.
  rewrite all_paths_unfold. destruct π as [|i π _] using rev_ind.
  - intros _. apply elem_of_cons. by left.
  - rewrite walk_snoc. cbn [t_kids]. destruct (kids !! i) as [k|] eqn:Hk; [|done]. intros Hw.
    apply elem_of_cons. right. eapply (in_paths_list suffix kids 0 i); [exact Hk|].
    cbn. rewrite <- app_assoc. cbn.
    eapply (Forall_lookup_1 _ _ _ _ IH Hk). exact Hw.
Qed.

(** all declarations of a registry: qualified name, AST number, path *)
Definition declarations (s : registry) : list (string * (nat * list nat)) :=
  concat (imap (fun g f => omap (fun π => match fqn f π with
                                          | Some q => Some (q, (g, π))
                                          | None => None end) (all_paths [] f)) (heap s)).
Definition check_unique (s : registry) : bool :=
  let l := declarations s in
  forallb (fun x => forallb (fun y =>
    if String.eqb x.1 y.1 then bool_decide (x.2 = y.2) else true) l) l.
Definition check_packages (s : registry) : bool := forallb (fun f => package_first (t_kids f)) (heap s).

Lemma declarations_complete s path g f π q :
  loaded s path g f -> fqn f π = Some q -> (q, (g, π)) ∈ declarations s.
Proof.
  intros (_ & Hf & _) Hq. unfold declarations. apply elem_of_list_In, in_concat.
  eexists. split; [apply elem_of_list_In|].
  - apply elem_of_lookup_imap. exists g, f. split; [reflexivity|done].
  - apply elem_of_list_In, elem_of_list_omap. exists π. rewrite Hq. split; [|done].
    unfold fqn in Hq. destruct (walk f π) as [u|] eqn:Hw; [|done].
    pose proof (all_paths_complete f [] π u Hw) as H. by rewrite app_nil_r in H.
Qed.
Lemma check_unique_ok s : check_unique s = true -> unique_names s.
Proof.
  intros H path1 g1 f1 π1 path2 g2 f2 π2 q L1 L2 Q1 Q2.
  pose proof (declarations_complete _ _ _ _ _ _ L1 Q1) as D1.
  pose proof (declarations_complete _ _ _ _ _ _ L2 Q2) as D2.
  unfold check_unique in H. rewrite List.forallb_forall in H.
  apply elem_of_list_In in D1, D2. specialize (H _ D1). rewrite List.forallb_forall in H.
  specialize (H _ D2). cbn in H. rewrite String.eqb_refl in H.
  apply bool_decide_eq_true in H. by injection H as -> ->.
Qed.
Lemma check_packages_ok s : check_packages s = true -> packages_first s.
Proof.
  intros H path g f (_ & Hf & _). unfold check_packages in H. rewrite List.forallb_forall in H.
  apply H, elem_of_list_In. by eapply elem_of_list_lookup_2.
Qed.

Lemma demo_unique : unique_names demo_world.
Proof. apply check_unique_ok. vm_compute. reflexivity. Qed.
Lemma demo_packages : packages_first demo_world.
Proof. apply check_packages_ok. vm_compute. reflexivity. Qed.
Lemma demo_loaded : loaded demo_world dat_f 1 (file_tree dat_f data_elems).
Proof. split; [|split]; vm_compute; reflexivity. Qed.
Lemma demo_loaded_meta : loaded demo_world meta_f 2 (file_tree meta_f meta_elems).
Proof. split; [|split]; vm_compute; reflexivity. Qed.
