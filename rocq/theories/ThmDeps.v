(** * Walking the import graph: C83. *)
From Verif Require Export Deps ThmQuick.
From Verif Require Import Worlds Frame Iterate Demo Identity Nodes LoadFacts Loading Api.
Local Open Scope go_scope.

(** ** Facts about the specification *)

Lemma imports_from_trans s p q r : imports_from s p q -> imports_from s q r -> imports_from s p r.
Proof. intros H1 H2. revert p H1. induction H2 as [x|x y z g f _ IH Hl Hz]; intros p H1; [done|].
  eapply imports_step; [by apply IH|exact Hl|exact Hz].
Qed.
Lemma imports_from_one s p q : imports s p q -> imports_from s p q.
Proof. intros (g & f & Hl & Hq). eapply imports_step; [constructor|exact Hl|exact Hq]. Qed.
Lemma imports_from_closed s p (S : string -> Prop) : S p -> (forall x y, S x -> imports s x y -> S y) ->
  forall q, imports_from s p q -> S q.
Proof.
  intros Hp Hc q H. induction H as [path|path path' path'' g f _ IH Hl Hq]; [done|].
  eapply Hc; [by apply IH|]. by exists g, f.
Qed.

(** ** The walk *)

Section walk.
  Variable e : env.
  Variable lf : nat.
  Variable s0 : registry.
  Hypothesis S0 : schema s0.
  Hypothesis C0 : complete s0.

  Notation I := (imports s0).
  Notation Rt := (imports_from s0).

  Definition state_ok (s : registry) : Prop := Inv s /\ quiet s0 s.

  Lemma import_loaded p q : I p q -> exists g f, loaded s0 q g f.
  Proof.
    intros (g & f & (Hp & Hf & Hd) & Hq).
    assert (Hlt : g < length (heap s0)) by (by apply lookup_lt_Some in Hf).
    destruct (dn_imports _ _ (C0 g Hlt) f q Hf Hq) as [g'' Hg''].
    destruct (loaded_protos s0 q g'' S0 Hg'') as [f'' Hf'']. eauto.
  Qed.

  Lemma imports_loop {C} kids (body : C -> node -> R (C * bool)) (P : list string -> C -> Prop) :
    (forall b, b ∈ kids -> heap_at s0 b.1 = Some b.2) ->
    (forall dn b path c s a, b ∈ kids -> t_data b.2 = DImport path -> state_ok s -> P dn c ->
       exists c' s', body c (NAst KImport a b.1) s = (Ret (c', true), s') /\ state_ok s' /\ P (dn ++ [path])%list c') ->
    forall dn c s, state_ok s -> P dn c ->
    exists c' s', iterate (pick_kind is_import KImport) kids C c body s = (Ret c', s') /\ state_ok s' /\
      P (dn ++ import_paths (map snd kids))%list c'.
  Proof.
    induction kids as [|b kids IH]; intros Hh Hb dn c s W HP; cbn [iterate map].
    - exists c, s. cbn. rewrite app_nil_r. done.
    - assert (IH' := IH (fun b' Hb' => Hh b' (elem_of_list_further _ _ _ Hb'))
                      (fun dn b' path c s a Hb' => Hb dn b' path c s a (elem_of_list_further _ _ _ Hb'))). clear IH.
      pose proof W as (Iv & Q).
      assert (Hhs : heap_at s b.1 = Some b.2) by (rewrite (quiet_heap_at _ _ _ Q); apply Hh; constructor).
      destruct (is_import (t_data b.2)) eqn:Hs.
      + destruct (t_data b.2) eqn:Hd; try discriminate Hs.
        destruct (wrap_as_ok KImport b.1 b.2 s Iv Hhs) as (a & s1 & E & Q1 & I1 & _); [by rewrite Hd|].
        assert (E1 : pick_kind is_import KImport b s = (Ret (Some (NAst KImport a b.1)), s1)).
        { unfold pick_kind. rewrite Hd. cbn [is_import]. by rewrite (rbind_val _ _ _ _ _ E). }
        rewrite (rbind_val _ _ _ _ _ E1).
        destruct (Hb dn b _ c s1 a (elem_of_list_here _ _) Hd) as (c' & s2 & E2 & W2 & HP2);
          [split; [done|by eapply quiet_trans]|done|].
        rewrite (rbind_val _ _ _ _ _ E2).
        destruct (IH' _ _ _ W2 HP2) as (c3 & s3 & E3 & W3 & HP3).
        exists c3, s3. split; [exact E3|]. split; [done|].
        rewrite <- app_assoc in HP3. unfold import_paths in *. cbn [omap list_omap]. rewrite Hd. exact HP3.
      + assert (E1 : pick_kind is_import KImport b s = (Ret None, s)) by (unfold pick_kind; by rewrite Hs).
        rewrite (rbind_val _ _ _ _ _ E1). destruct (IH' dn c s W HP) as (c3 & s3 & E3 & W3 & HP3).
        exists c3, s3. split; [exact E3|]. split; [done|].
        unfold import_paths in *. cbn [omap list_omap]. destruct (t_data b.2); try discriminate Hs; exact HP3.
  Qed.

  Notation st := (list string * list string)%type.
  Definition gray (c : st) (x : string) : Prop := x ∈ c.1 /\ x ∉ c.2.
  Definition ordered (c : st) : Prop :=
    NoDup c.1 /\ NoDup c.2 /\ (forall x, x ∈ c.2 -> x ∈ c.1) /\ dependency_order s0 c.2.
  (** from [c] to [c'] the walk went through files imported by [p] *)
  Definition went (p : string) (c c' : st) : Prop :=
    ordered c' /\ (forall x, gray c' x <-> gray c x) /\
    exists new, c'.1 = (c.1 ++ new)%list /\ forall x, x ∈ new -> Rt p x /\ forall y, I x y -> y ∈ c'.1.
  Definition unseen (c : st) : nat := size (dom (protos s0) ∖ list_to_set c.1 : gset string).

  Lemma went_refl p c : ordered c -> went p c c.
  Proof. intros H. split; [done|]. split; [done|]. exists []. rewrite app_nil_r. split; [done|]. by intros x ?%elem_of_nil. Qed.
  Lemma went_step p y c0 c c' : I p y -> went p c0 c -> went y c c' -> went p c0 c'.
  Proof.
    intros Hi (_ & G1 & n1 & E1 & H1) (O2 & G2 & n2 & E2 & H2). split; [done|].
    split; [intros x; by rewrite G2|]. exists (n1 ++ n2)%list. split; [by rewrite E2, E1, app_assoc|].
    intros x [Hx|Hx]%elem_of_app.
    - destruct (H1 _ Hx) as [A B]. split; [done|]. intros z Hz. rewrite E2. apply elem_of_app. left. by apply B.
    - destruct (H2 _ Hx) as [A B]. split; [|done]. eapply imports_from_trans; [by apply imports_from_one|done].
  Qed.
  Lemma unseen_app c c' new : c'.1 = (c.1 ++ new)%list -> unseen c' <= unseen c.
  Proof. intros E. unfold unseen. rewrite E. apply subseteq_size. set_solver. Qed.
  Lemma unseen_push c c' p g f : loaded s0 p g f -> p ∉ c.1 -> c'.1 = (c.1 ++ [p])%list -> unseen c' < unseen c.
  Proof.
    intros (Hp & _) Hn E. unfold unseen. rewrite E. apply subset_size. split; [set_solver|].
    intros H. assert (Hd : p ∈ dom (protos s0)) by (by eapply elem_of_dom_2).
    specialize (H p). set_solver.
  Qed.
  Lemma seen_iff (p : string) l : existsb (String.eqb p) l = true <-> p ∈ l.
  Proof.
    rewrite existsb_exists. split.
    - intros (x & Hx & ->%String.eqb_eq). by apply elem_of_list_In.
    - intros H. exists p. split; [by apply elem_of_list_In|apply String.eqb_refl].
  Qed.

  Definition next_import (fuel : nat) (c : st) (i : node) : R (st * bool) :=
    match i with
    | NAst KImport _ q => p <~ node_name q ;; c' <~ visit_file e lf fuel c p ;; ret (c', true)
    | _ => forged
    end.

  (** the part after Registry.Proto returned *)
  Lemma after_load fuel :
    (forall c p s g f, state_ok s -> loaded s0 p g f -> ordered c -> unseen c < fuel ->
       (forall x, gray c x -> Rt x p) ->
       exists c' s', visit_file e lf fuel c p s = (Ret c', s') /\ state_ok s' /\ went p c c' /\ p ∈ c'.1) ->
    forall c p s g f, state_ok s -> loaded s0 p g f -> ordered c -> p ∉ c.1 -> unseen c <= fuel ->
      (forall x, gray c x -> Rt x p) ->
      exists c' s', file_imports (root g) st ((c.1 ++ [p])%list, c.2) (next_import fuel) s = (Ret c', s') /\
        state_ok s' /\ went p c (c'.1, (c'.2 ++ [p])%list) /\ p ∈ c'.1.
  Proof.
    intros IH c p s g f W Hl O Hn Hf Hg. pose proof Hl as (Hp & Hh & Hd).
    pose proof O as (N1 & N2 & Hsub & Hdep).
    assert (Hroot : heap_at s0 (root g) = Some f) by (unfold heap_at; cbn; rewrite Hh; done).
    assert (Hroot' : heap_at s (root g) = Some f) by (by rewrite (quiet_heap_at _ _ _ (proj2 W))).
    set (c0 := ((c.1 ++ [p])%list, c.2) : st).
    assert (O0 : ordered c0).
    { split; [|split; [done|split; [|done]]].
      - apply list.NoDup_app. split; [done|]. split; [|apply NoDup_singleton]. set_solver.
      - intros x Hx. apply elem_of_app. left. by apply Hsub. }
    assert (Hu : unseen c0 < unseen c) by (by eapply unseen_push).
    set (P := fun (dn : list string) (c' : st) => went p c0 c' /\ (forall y, y ∈ dn -> y ∈ c'.1)).
    destruct (imports_loop (kids_at (root g) f) (next_import fuel) P) with (dn := [] : list string) (c := c0) (s := s)
      as (c' & s' & E & W' & (Ow & Gw & new & En & Hnew) & Hall).
    - intros b. by apply kids_heap.
    - intros dn b path c1 s1 a Hb Hdb W1 ((O1 & G1 & n1 & E1 & H1) & Hdn).
      assert (Hi : I p path).
      { exists g, f. split; [done|]. unfold import_paths. apply elem_of_list_omap. exists b.2. rewrite Hdb.
        split; [|done]. rewrite <- (kids_at_trees (root g) f). apply elem_of_list_In. apply in_map. by apply elem_of_list_In. }
      destruct (import_loaded _ _ Hi) as (g' & f' & Hl').
      destruct (IH c1 path s1 g' f') as (c2 & s2 & E2 & W2 & Wn & Hin).
      + done.
      + done.
      + done.
      + pose proof (unseen_app c0 c1 n1 E1). lia.
      + intros x Hx. apply G1 in Hx as [Hx Hx']. cbn [fst snd c0] in Hx, Hx'. apply elem_of_app in Hx as [Hx|Hx].
        * eapply imports_from_trans; [by apply Hg|by apply imports_from_one].
        * apply elem_of_list_singleton in Hx as ->. by apply imports_from_one.
      + exists c2, s2. split.
        { cbn [next_import]. assert (Hbs : heap_at s1 b.1 = Some b.2).
          { rewrite (quiet_heap_at _ _ _ (proj2 W1)). by eapply kids_heap. }
          rewrite (rbind_val _ _ _ _ _ (node_name_ok _ _ _ Hbs)), Hdb. cbn [data_name].
          by rewrite (rbind_val _ _ _ _ _ E2). }
        split; [done|]. split.
        * eapply went_step; [exact Hi| |exact Wn]. split; [done|]. split; [done|]. by exists n1.
        * intros y [Hy|Hy]%elem_of_app.
          -- destruct Wn as (_ & _ & n2 & E2' & _). rewrite E2'. apply elem_of_app. left. by apply Hdn.
          -- apply elem_of_list_singleton in Hy as ->. done.
    - done.
    - split; [by apply went_refl|]. by intros y ?%elem_of_nil.
    - exists c', s'. split.
      { unfold file_imports, iter_kids. by rewrite (rbind_val _ _ _ _ _ (kids_of_ok _ _ _ Hroot')). }
      split; [done|]. rewrite kids_at_trees in Hall. cbn [app] in Hall.
      destruct Ow as (M1 & M2 & Msub & Mdep).
      assert (Hgp : gray c' p).
      { apply Gw. split; cbn [fst snd c0]; [set_solver|]. intros H. by apply Hn, Hsub. }
      split; [|by apply Hgp]. split; [|split].
      + split; [done|]. split; [|split].
        * apply list.NoDup_app. split; [done|]. split; [|apply NoDup_singleton]. intros x Hx ->%elem_of_list_singleton. by apply Hgp.
        * intros x [Hx|Hx]%elem_of_app; [by apply Msub|]. apply elem_of_list_singleton in Hx as ->. apply Hgp.
        * intros l1 q l2 y Hq Hy. cbn [snd] in Hq.
          destruct (decide (l2 = [])) as [->|Hl2].
          -- apply app_inj_tail in Hq as [<- <-].
             assert (Hyi : y ∈ c'.1). { apply Hall. destruct Hy as (g' & f' & (Hp' & Hh' & _) & Hy). congruence. }
             destruct (decide (y ∈ c'.2)) as [Hy2|Hy2]; [by left|]. right.
             assert (Hgy : gray c0 y) by (by apply Gw). destruct Hgy as [A B]. cbn [fst snd c0] in A, B.
             apply elem_of_app in A as [A|A]; [by apply Hg|]. apply elem_of_list_singleton in A as ->. constructor.
          -- destruct (exists_last Hl2) as (l2' & z & ->).
             rewrite app_comm_cons, app_assoc in Hq. apply app_inj_tail in Hq as [Hq _]. by apply (Mdep l1 q l2').
      + intros x. split.
        * intros [Hx Hx']. cbn [fst snd] in Hx, Hx'.
          assert (Hgx : gray c0 x) by (apply Gw; split; [done|set_solver]). destruct Hgx as [A B].
          cbn [fst snd c0] in A, B. split; [|done]. apply elem_of_app in A as [A|A]; [done|]. set_solver.
        * intros [Hx Hx']. assert (Hgx : gray c' x) by (apply Gw; split; cbn [fst snd c0]; [set_solver|done]).
          destruct Hgx as [A B]. split; cbn [fst snd]; [done|]. intros [H|H]%elem_of_app; [done|].
          apply elem_of_list_singleton in H as ->. done.
      + exists (p :: new). cbn [fst]. split; [rewrite En; cbn [fst c0]; by rewrite <- app_assoc|].
        intros x [->|Hx]%elem_of_cons; [|by apply Hnew]. split; [constructor|].
        intros y (g' & f' & (Hp' & Hh' & _) & Hy). apply Hall. congruence.
  Qed.

  Lemma visit_ends fuel : forall c p s g f, state_ok s -> loaded s0 p g f -> ordered c -> unseen c < fuel ->
    (forall x, gray c x -> Rt x p) ->
    exists c' s', visit_file e lf fuel c p s = (Ret c', s') /\ state_ok s' /\ went p c c' /\ p ∈ c'.1.
  Proof.
    induction fuel as [|fuel IH]; intros c p s g f W Hl O Hf Hg; [lia|]. cbn [visit_file].
    destruct (existsb (String.eqb p) c.1) eqn:Hin.
    - exists c, s. split; [done|]. split; [done|]. split; [by apply went_refl|by apply seen_iff].
    - assert (Hn : p ∉ c.1). { intros H%seen_iff. congruence. }
      assert (E1 : proto e lf p s = (Ret (inr (NAst KFile (next s) (root g))), set_next (next s + 1)%N s)).
      { unfold proto. rewrite rbind_get. destruct Hl as (Hp & _). rewrite (q_protos _ _ (proj2 W)), Hp. reflexivity. }
      rewrite (rbind_val _ _ _ _ _ E1). cbn beta iota.
      assert (W1 : state_ok (set_next (next s + 1)%N s)).
      { destruct W as [W1 W2]. split.
        - assert (Ea : alloc s = (Ret (next s), set_next (next s + 1)%N s)) by reflexivity.
          exact (proj1 (inv_step_ret _ _ _ _ inv_step_alloc W1 Ea)).
        - eapply quiet_trans; [done|]. apply quiet_set_next. lia. }
      destruct (after_load fuel IH c p _ g f W1 Hl O Hn ltac:(lia) Hg) as (c' & s' & E & W' & Wn & Hp).
      exists (c'.1, (c'.2 ++ [p])%list), s'. split; [|done].
      change (rbind (file_imports (root g) st ((c.1 ++ [p])%list, c.2) (next_import fuel))
        (fun c' => ret (c'.1, (c'.2 ++ [p])%list)) (set_next (next s + 1)%N s) = (Ret (c'.1, (c'.2 ++ [p])%list), s')).
      by rewrite (rbind_val _ _ _ _ _ E).
  Qed.
End walk.

(** ** C83 *)

(** If Registry.Proto(path) returns a file (and no earlier call panicked), then the walk from path ends,
    whatever the import graph looks like; it produces exactly the files that are reached by following import
    statements, each of them once, path last, and every file after the files it imports, unless the two
    import each other in a cycle; and no file is loaded but those that the first call of Proto loads. *)
Theorem C83_import_order s e lf fuel path f s1 :
  calm s -> env_ok e -> proto e lf path s = (Ret (inr f), s1) -> size (protos s1) < fuel ->
  exists order s2, import_order e lf fuel path s = (Ret order, s2) /\
    NoDup order /\ (forall p, p ∈ order <-> imports_from s1 path p) /\ (exists others, order = (others ++ [path])%list) /\
    dependency_order s1 order /\
    (forall p g t, loaded s2 p g t <-> loaded s1 p g t).
Proof.
  intros Hs He E Hf. pose proof (calm_loads _ _ _ _ _ _ Hs He E) as Hs1.
  destruct (calm_complete _ Hs) as [S _]. destruct (calm_complete _ Hs1) as [S1 C1].
  destruct (proto_returns_loaded _ _ _ _ _ _ He S E) as (g & t & -> & Hl & _).
  destruct fuel as [|fuel]; [lia|].
  destruct (after_load e lf s1 S1 C1 fuel (visit_ends e lf s1 S1 C1 fuel) ([], []) path s1 g t)
    as (c' & s2 & E2 & (I2 & Q2) & (O & G & new & En & Hnew) & Hp).
  - split; [exact (history_Inv _ _ Hs1)|apply quiet_refl].
  - done.
  - split; [constructor|]. split; [constructor|]. split; [done|]. intros l1 p l2 q H. by destruct l1.
  - by apply not_elem_of_nil.
  - unfold unseen. cbn [fst]. rewrite list_to_set_nil, difference_empty_L, size_dom. lia.
  - intros x [[]%elem_of_nil _].
  - exists (c'.2 ++ [path])%list, s2. cbn [fst snd app] in *. destruct O as (N1 & N2 & Hsub & Hdep). cbn [fst snd] in *.
    assert (Hset : forall p, p ∈ (c'.2 ++ [path])%list <-> p ∈ c'.1).
    { intros p. split; [apply Hsub|]. intros H. destruct (decide (p ∈ (c'.2 ++ [path])%list)) as [|Hn]; [done|].
      exfalso. assert (Hg : gray ([], []) p) by (by apply G). destruct Hg as [[]%elem_of_nil _]. }
    split; [|split; [done|split; [|split; [by eexists|split; [done|]]]]].
    + assert (E3 : visit_file e lf (Datatypes.S fuel) ([], []) path s = (Ret (c'.1, (c'.2 ++ [path])%list), s2)).
      { cbn [visit_file fst existsb]. rewrite (rbind_val _ _ _ _ _ E). cbn beta iota.
        exact (rbind_val _ _ _ _ _ E2). }
      unfold import_order. by rewrite (rbind_val _ _ _ _ _ E3).
    + intros p. rewrite Hset, En. split; [intros H; by apply Hnew|].
      intros H. rewrite <- En. apply (imports_from_closed s1 path (fun q => q ∈ c'.1)); [done| |done].
      intros x y Hx Hy. apply (Hnew x); [by rewrite <- En|done].
    + intros p g' t'. unfold loaded. by rewrite (q_heap _ _ Q2), (q_protos _ _ Q2).
Qed.

(** If no file imports itself, directly or not, every file comes after all files it imports. *)
Theorem C83_acyclic s e lf fuel path f s1 :
  calm s -> env_ok e -> proto e lf path s = (Ret (inr f), s1) -> size (protos s1) < fuel -> acyclic s1 ->
  exists order s2, import_order e lf fuel path s = (Ret order, s2) /\
    forall before p after q, order = (before ++ p :: after)%list -> imports s1 p q -> q ∈ before.
Proof.
  intros Hs He E Hf Ha. destruct (C83_import_order _ _ _ _ _ _ _ Hs He E Hf) as (order & s2 & E2 & _ & _ & _ & Hd & _).
  exists order, s2. split; [done|]. intros l1 p l2 q Ho Hi. destruct (Hd l1 p l2 q Ho Hi) as [|Hc]; [done|].
  exfalso. exact (Ha p q Hi Hc).
Qed.

(** If Registry.Proto(path) fails, the walk fails in the same way. *)
Theorem C83_no_file s e lf fuel path :
  (forall err s1, proto e lf path s = (Ret (inl err), s1) ->
     import_order e lf (S fuel) path s = (Panic (PError err), s1)) /\
  (forall msg s1, proto e lf path s = (Panic msg, s1) -> import_order e lf (S fuel) path s = (Panic msg, s1)).
Proof.
  split; intros x s1 E; unfold import_order; cbn [visit_file fst existsb].
  - apply rbind_pan. by rewrite (rbind_val _ _ _ _ _ E).
  - apply rbind_pan. by apply rbind_pan.
Qed.

(** ** Comparing *File values *)

Section endless.
  Variable e : env.
  Variable lf : nat.
  Variable s0 : registry.
  Hypothesis S0 : schema s0.
  Hypothesis C0 : complete s0.
  Variable En : string -> Prop.
  Hypothesis Hen : forall p, En p -> exists q, imports s0 p q /\ En q.

  Definition old_file (s : registry) (n : node) : Prop := exists a p, n = NAst KFile a p /\ (a < next s)%N.
  Definition returns_or_not (A : Type) (m : outcome A * registry) (post : A -> registry -> Prop) (B : Prop) : Prop :=
    (exists x s', m = (Ret x, s') /\ post x s' /\ B) \/ exists s', m = (Diverge, s').

  Lemma old_next s s' n : (next s <= next s')%N -> old_file s n -> old_file s' n.
  Proof. intros H (a & p & -> & Ha). exists a, p. split; [done|lia]. Qed.

  Lemma visit_node_ends fuel : forall seen p g f a s,
    state_ok s0 s -> loaded s0 p g f -> Forall (old_file s) seen -> (a < next s)%N ->
    existsb (same_pointer (NAst KFile a (root g))) seen = false ->
    returns_or_not _ (visit_files e lf fuel seen (NAst KFile a (root g)) s)
      (fun seen' s' => state_ok s0 s' /\ Forall (old_file s') seen') (~ En p).
  Proof.
    induction fuel as [|fuel IH]; intros seen p g f a s W Hl Hseen Ha Hnew; cbn [visit_files]; [right; by eexists|].
    rewrite Hnew. pose proof Hl as (Hp & Hh & Hd).
    assert (Hroot : heap_at s0 (root g) = Some f) by (unfold heap_at; cbn; rewrite Hh; done).
    assert (Hroot' : heap_at s (root g) = Some f) by (by rewrite (quiet_heap_at _ _ _ (proj2 W))).
    unfold file_imports, iter_kids. rewrite (rbind_val _ _ _ _ _ (kids_of_ok _ _ _ Hroot')).
    set (body := fun (seen : list node) (i : node) => _).
    assert (Hbody : forall b path c s a', b ∈ kids_at (root g) f -> t_data b.2 = DImport path -> state_ok s0 s ->
      Forall (old_file s) c -> returns_or_not _ (body c (NAst KImport a' b.1) s)
        (fun r s' => r.2 = true /\ state_ok s0 s' /\ Forall (old_file s') r.1) (~ En path)).
    { intros b path c s1 a' Hb Hdb W1 Hc.
      assert (Hi : imports s0 p path).
      { exists g, f. split; [done|]. unfold import_paths. apply elem_of_list_omap. exists b.2. rewrite Hdb.
        split; [|done]. rewrite <- (kids_at_trees (root g) f). apply elem_of_list_In. apply in_map. by apply elem_of_list_In. }
      destruct (import_loaded s0 S0 C0 _ _ Hi) as (g' & f' & Hl').
      assert (Hbs : heap_at s1 b.1 = Some b.2).
      { rewrite (quiet_heap_at _ _ _ (proj2 W1)). by eapply kids_heap. }
      unfold body. rewrite (rbind_val _ _ _ _ _ (node_name_ok _ _ _ Hbs)), Hdb. cbn [data_name].
      set (s2 := set_next (next s1 + 1)%N s1).
      assert (E1 : proto e lf path s1 = (Ret (inr (NAst KFile (next s1) (root g'))), s2)).
      { unfold proto. rewrite rbind_get. destruct Hl' as (Hp' & _). rewrite (q_protos _ _ (proj2 W1)), Hp'. reflexivity. }
      rewrite (rbind_val _ _ _ _ _ E1). cbn beta iota.
      assert (W2 : state_ok s0 s2).
      { destruct W1 as [V1 V2]. split.
        - assert (Ea : alloc s1 = (Ret (next s1), s2)) by reflexivity.
          exact (proj1 (inv_step_ret _ _ _ _ inv_step_alloc V1 Ea)).
        - eapply quiet_trans; [done|]. apply quiet_set_next. lia. }
      destruct (IH c path g' f' (next s1) s2 W2 Hl') as [(seen' & s3 & E3 & (W3 & H3) & Hn)|(s3 & E3)].
      - eapply Forall_impl; [|exact Hc]. intros n. apply old_next. unfold s2. cbn. lia.
      - unfold s2. cbn. lia.
      - apply not_true_is_false. intros H. apply existsb_exists in H as (n & Hn & H').
        apply elem_of_list_In in Hn. rewrite list.Forall_forall in Hc. destruct (Hc n Hn) as (b' & q & -> & Hb').
        cbn [same_pointer] in H'. apply N.eqb_eq in H'. lia.
      - left. exists (seen', true), s3. by rewrite (rbind_val _ _ _ _ _ E3).
      - right. exists s3. by apply rbind_div. }
    clearbody body.
    assert (Hloop : forall kids c s, (forall b, b ∈ kids -> b ∈ kids_at (root g) f) -> state_ok s0 s -> Forall (old_file s) c ->
      returns_or_not _ (iterate (pick_kind is_import KImport) kids (list node) c body s)
        (fun seen' s' => state_ok s0 s' /\ Forall (old_file s') seen')
        (forall q, q ∈ import_paths (map snd kids) -> ~ En q)).
    { induction kids as [|b kids IHk]; intros c s1 Hk W1 Hc; cbn [iterate map].
      - left. exists c, s1. split; [done|]. split; [done|]. intros q H. by apply elem_of_nil in H.
      - pose proof W1 as (Iv & Q).
        assert (Hkb : b ∈ kids_at (root g) f) by (apply Hk; constructor).
        assert (Hk' : forall b', b' ∈ kids -> b' ∈ kids_at (root g) f) by (intros b' Hb'; apply Hk; by constructor).
        assert (Hhs : heap_at s1 b.1 = Some b.2) by (rewrite (quiet_heap_at _ _ _ Q); by eapply kids_heap).
        destruct (is_import (t_data b.2)) eqn:Hs.
        + destruct (t_data b.2) eqn:Hdb; try discriminate Hs.
          destruct (wrap_as_ok KImport b.1 b.2 s1 Iv Hhs) as (a' & s2 & E & Q1 & I1 & _); [by rewrite Hdb|].
          assert (E1 : pick_kind is_import KImport b s1 = (Ret (Some (NAst KImport a' b.1)), s2)).
          { unfold pick_kind. rewrite Hdb. cbn [is_import]. by rewrite (rbind_val _ _ _ _ _ E). }
          rewrite (rbind_val _ _ _ _ _ E1).
          match type of Hdb with _ = DImport ?q =>
            destruct (Hbody b q c s2 a' Hkb Hdb) as [([c' go] & s3 & E3 & (Hgo & W3 & H3) & Hn)|(s3 & E3)] end.
          * split; [done|by eapply quiet_trans].
          * eapply Forall_impl; [|exact Hc]. intros n. apply old_next. apply (q_next _ _ Q1).
          * cbn [fst snd] in *. subst go. rewrite (rbind_val _ _ _ _ _ E3).
            destruct (IHk c' s3 Hk' W3 H3) as [(c4 & s4 & E4 & H4 & Hn4)|(s4 & E4)].
            -- left. exists c4, s4. split; [exact E4|]. split; [done|]. intros q'.
               unfold import_paths. cbn [omap list_omap]. rewrite Hdb. intros [->|Hq]%elem_of_cons; [done|by apply Hn4].
            -- right. exists s4. exact E4.
          * right. exists s3. by apply rbind_div.
        + assert (E1 : pick_kind is_import KImport b s1 = (Ret None, s1)) by (unfold pick_kind; by rewrite Hs).
          rewrite (rbind_val _ _ _ _ _ E1). destruct (IHk c s1 Hk' W1 Hc) as [(c4 & s4 & E4 & H4 & Hn4)|(s4 & E4)].
          * left. exists c4, s4. split; [exact E4|]. split; [done|]. intros q'.
            unfold import_paths. cbn [omap list_omap]. destruct (t_data b.2); try discriminate Hs; apply Hn4.
          * right. exists s4. exact E4. }
    destruct (Hloop (kids_at (root g) f) (seen ++ [NAst KFile a (root g)])%list s) as [(c4 & s4 & E4 & H4 & Hn4)|(s4 & E4)].
    - done.
    - done.
    - apply Forall_app. split; [done|]. constructor; [|constructor]. by exists a, (root g).
    - left. exists c4, s4. split; [exact E4|]. split; [done|]. intros Hp'. destruct (Hen p Hp') as (q & (g' & f' & (Hg' & Hf' & _) & Hq) & Hq').
      apply (Hn4 q); [|done]. rewrite kids_at_trees. congruence.
    - right. exists s4. exact E4.
  Qed.
End endless.

Lemma imports_from_first s p q : imports_from s p q -> p = q \/ exists r, imports s p r /\ imports_from s r q.
Proof.
  induction 1 as [x|x y z g f _ IH Hl Hz]; [by left|]. right. destruct IH as [->|(r & Hr & Hry)].
  - exists z. split; [by exists g, f|constructor].
  - exists r. split; [done|]. eapply imports_step; [exact Hry|exact Hl|exact Hz].
Qed.

(** The walk must not compare *File values: if the files import each other in a cycle anywhere below path,
    the program that keeps *File values never ends, because every call of Registry.Proto returns a new one. *)
Theorem C83_by_pointer_refuted s e lf path f s1 p q :
  calm s -> env_ok e -> proto e lf path s = (Ret (inr f), s1) ->
  imports_from s1 path p -> imports s1 p q -> imports_from s1 q p ->
  forall fuel, (visit_files e lf fuel [] f s1).1 = Diverge.
Proof.
  intros Hs He E Hp Hpq Hqp fuel. pose proof (calm_loads _ _ _ _ _ _ Hs He E) as Hs1.
  destruct (calm_complete _ Hs) as [S _]. destruct (calm_complete _ Hs1) as [S1 C1].
  destruct (proto_returns_loaded _ _ _ _ _ _ He S E) as (g & t & -> & Hl & _).
  destruct (visit_node_ends e lf s1 S1 C1 (fun x => imports_from s1 x p)) with (fuel := fuel) (seen := [] : list node)
    (p := path) (g := g) (f := t) (a := next s) (s := s1) as [(x & s' & _ & _ & H)|(s' & E')].
  - intros x Hx. destruct (imports_from_first _ _ _ Hx) as [->|(r & Hr & Hr')]; [by exists q|by exists r].
  - split; [exact (history_Inv _ _ Hs1)|apply quiet_refl].
  - done.
  - constructor.
  - destruct (proto_ok e lf path s _ s1 He S E) as (_ & _ & P).
    inversion P as [g' Hg H1 H2|err Hp' Hr H1 H2|els s2 Hp' Hr H1 H2 (_ & _ & H3) H4 H5 H6
                    |els o s2 Hp' Hr H1 H2 H3 H4 H5 H6]; subst; [cbn; lia|cbn; lia|by edestruct H4].
  - done.
  - by destruct H.
  - by rewrite E'.
Qed.

(** ** Examples *)

Lemma acyclic_rank s (rank : string -> nat) : (forall p q, imports s p q -> rank q < rank p) -> acyclic s.
Proof.
  intros H p q Hpq Hqp. assert (Hle : rank p <= rank q).
  { clear Hpq. induction Hqp as [x|x y z g f _ IH Hl Hz]; [done|].
    assert (rank z < rank y) by (apply H; by exists g, f). lia. }
  specialize (H p q Hpq). lia.
Qed.
Definition check_rank (s : registry) (rank : string -> nat) : bool :=
  forallb (fun pg : string * nat => match heap s !! pg.2 with
    | Some f => forallb (fun q => Nat.ltb (rank q) (rank pg.1)) (import_paths (t_kids f))
    | None => true end) (map_to_list (protos s)).
Lemma check_rank_ok s rank : check_rank s rank = true -> acyclic s.
Proof.
  intros H. apply (acyclic_rank s rank). intros p q (g & f & (Hp & Hf & _) & Hq).
  unfold check_rank in H. rewrite forallb_forall in H.
  specialize (H (p, g)). rewrite <- elem_of_list_In, elem_of_map_to_list in H. specialize (H Hp). cbn [fst snd] in H.
  rewrite Hf, forallb_forall in H. specialize (H q). rewrite <- elem_of_list_In in H. specialize (H Hq).
  by apply Nat.ltb_lt.
Qed.

(** four files: the top one imports two others, which import the same file *)
Definition dia_file (f : string) (is : list string) : string * list tree :=
  (f, el f 1 (DSyntax "proto3") [] :: imap (fun i p => el f (Z.of_nat i + 2) (DImport p) []) is).
Definition dia_files : list (string * list tree) :=
  (std_files ++ [dia_file "top.proto" ["left.proto"; "right.proto"]; dia_file "left.proto" ["base.proto"];
     dia_file "right.proto" ["base.proto"; "left.proto"]; dia_file "base.proto" []])%list.
Definition dia_rank (p : string) : nat :=
  if String.eqb p "top.proto" then 4 else if String.eqb p "right.proto" then 3 else
  if String.eqb p "left.proto" then 2 else 0.

Example C83_acyclic_example :
  calm (start dia_files) /\ env_ok (table_env dia_files) /\
  (exists f s1, proto (table_env dia_files) 50 "top.proto" (start dia_files) = (Ret (inr f), s1) /\
     size (protos s1) < 10 /\ acyclic s1) /\
  (import_order (table_env dia_files) 50 10 "top.proto" (start dia_files)).1
    = Ret ["base.proto"; "left.proto"; "right.proto"; "top.proto"].
Proof.
  assert (H : starts dia_files = true) by (vm_compute; reflexivity).
  assert (Hc : match proto (table_env dia_files) 50 "top.proto" (start dia_files) with
               | (Ret (inr f), s1) => Nat.ltb (size (protos s1)) 10 && check_rank s1 dia_rank | _ => false end = true)
    by (vm_compute; reflexivity).
  assert (Ho : (import_order (table_env dia_files) 50 10 "top.proto" (start dia_files)).1
    = Ret ["base.proto"; "left.proto"; "right.proto"; "top.proto"]) by (vm_compute; reflexivity).
  split; [by apply start_history|]. split; [apply andb_prop in H as [H _]; by apply table_env_ok|].
  split; [|exact Ho]. destruct (proto (table_env dia_files) 50 "top.proto" (start dia_files)) as [[[err|f]|msg|] s1]; try discriminate Hc.
  exists f, s1. apply andb_prop in Hc as [H1 H2]. split; [reflexivity|]. split; [by apply Nat.ltb_lt|].
  by apply (check_rank_ok _ dia_rank).
Qed.

(** two files that import each other *)
Example C83_cycle_example :
  calm (start demo_files) /\ env_ok demo_env /\
  (exists f s1, proto demo_env 50 dat_f (start demo_files) = (Ret (inr f), s1) /\ size (protos s1) < 10 /\
     imports s1 dat_f meta_f /\ imports_from s1 meta_f dat_f) /\
  (import_order demo_env 50 10 dat_f (start demo_files)).1 = Ret [desc_f; meta_f; any_f; dat_f].
Proof.
  assert (Ef : exists f, (proto demo_env 50 dat_f (start demo_files)).1 = Ret (inr f)) by (eexists; vm_compute; reflexivity).
  assert (Hsz : Nat.ltb (size (protos (proto demo_env 50 dat_f (start demo_files)).2)) 10 = true) by (vm_compute; reflexivity).
  assert (Hl1 : loaded (proto demo_env 50 dat_f (start demo_files)).2 dat_f 1 (file_tree dat_f data_elems))
    by (split; [|split]; vm_compute; reflexivity).
  assert (Hl2 : loaded (proto demo_env 50 dat_f (start demo_files)).2 meta_f 2 (file_tree meta_f meta_elems))
    by (split; [|split]; vm_compute; reflexivity).
  assert (Ho : (import_order demo_env 50 10 dat_f (start demo_files)).1 = Ret [desc_f; meta_f; any_f; dat_f]) by (vm_compute; reflexivity).
  assert (Hi1 : existsb (String.eqb meta_f) (import_paths data_elems) = true) by (vm_compute; reflexivity).
  assert (Hi2 : existsb (String.eqb dat_f) (import_paths meta_elems) = true) by (vm_compute; reflexivity).
  apply seen_iff in Hi1, Hi2. apply Nat.ltb_lt in Hsz.
  assert (He : env_ok demo_env) by (apply table_env_ok; vm_compute; reflexivity).
  split; [apply start_history, demo_starts|]. split; [exact He|]. split; [|exact Ho]. clear Ho He.
  revert Ef Hsz Hl1 Hl2. destruct (proto demo_env 50 dat_f (start demo_files)) as [o s1]. cbn [fst snd].
  intros (f & ->) Hsz Hl1 Hl2. exists f, s1. split; [reflexivity|]. split; [exact Hsz|].
  split; [exact (ex_intro _ 1 (ex_intro _ (file_tree dat_f data_elems) (conj Hl1 Hi1)))|].
  apply imports_from_one. exact (ex_intro _ 2 (ex_intro _ (file_tree meta_f meta_elems) (conj Hl2 Hi2))).
Qed.
