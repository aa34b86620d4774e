(** * Going down by name and full names: C87. *)
From Verif Require Export ThmSameType.
From Verif Require Import ThmAccessors Worlds Frame Iterate Demo Identity Nodes LoadFacts Loading Loader Visit Api Routes.
Local Open Scope go_scope.

(** ** The specification *)

(** Asking a message for a field, a message or a type, a service for a method. *)
Inductive asks_inside : wkind -> ptr -> string -> R (option node) -> Prop :=
| ai_field p name : asks_inside KMessage p name (message_field p name)
| ai_message p name : asks_inside KMessage p name (message_message p name)
| ai_type p name : asks_inside KMessage p name (message_type p name)
| ai_method p name : asks_inside KService p name (service_method p name).
(** Asking an enum for a value, the OneOf of a field for a branch. *)
Inductive asks_beside : wkind -> ptr -> string -> R (option node) -> Prop :=
| ab_value p name : asks_beside KEnum p name (enum_value p name)
| ab_branch p name : asks_beside KField p name (oneof_branch p name).
(** Asking a file for a message, an enum, a type or a service. *)
Inductive asks_file (p : ptr) (name : string) : R (option node) -> Prop :=
| af_message : asks_file p name (file_message p name)
| af_enum : asks_file p name (file_enum p name)
| af_type : asks_file p name (file_type p name)
| af_service : asks_file p name (file_service p name).

(** ** Proofs *)

Lemma sapp_inj_r a b c : a +:+ c = b +:+ c -> a = b.
Proof.
  assert (L : forall x y : string, String.length (x +:+ y) = String.length x + String.length y).
  { intros x y. induction x as [|h x IH]; [done|]. rewrite sapp_cons. cbn [String.length]. by rewrite IH. }
  revert b. induction a as [|x a IH]; intros [|y b] H; [done| | |].
  - apply (f_equal String.length) in H. rewrite sapp_cons in H. cbn [String.length] in H. rewrite !L in H. cbn in H. lia.
  - apply (f_equal String.length) in H. rewrite sapp_cons in H. cbn [String.length] in H. rewrite !L in H. cbn in H. lia.
  - rewrite !sapp_cons in H. injection H as -> H. f_equal. by apply IH.
Qed.

(** what a lookup returns is the node of a child that is selected *)
Lemma find_kid_at sel p t q : find_kid sel (kids_at p t) = Some q ->
  exists i u, q = child p i /\ t_kids t !! i = Some u /\ sel (t_data u) = true.
Proof.
  assert (H : forall l, find_kid sel l = Some q -> exists u, (q, u) ∈ l /\ sel (t_data u) = true).
  { induction l as [|[q' u] l IH]; cbn; [done|]. destruct (sel (t_data u)) eqn:Hs.
    - intros [= ->]. exists u. split; [left|done].
    - intros H. destruct (IH H) as (u' & H1 & H2). exists u'. split; [by right|done]. }
  intros Hf. destruct (H _ Hf) as (u & Hin & Hs). apply elem_of_list_lookup in Hin as [i Hi].
  apply kids_at_lookup in Hi as (u' & [= -> ->] & Hi). eauto.
Qed.
Definition child_found (s s' : registry) (p : ptr) (sel : data -> bool) (n : node) : Prop :=
  exists t i u k a, heap_at s p = Some t /\ t_kids t !! i = Some u /\ sel (t_data u) = true /\
    n = NAst k a (child p i) /\ cache s' !! VPtr (child p i) = Some (Some n).
Lemma canonical_at s k a p : canonical s (NAst k a p) -> cache s !! VPtr p = Some (Some (NAst k a p)).
Proof. by intros (k' & a' & p' & [= <- <- <-] & H). Qed.
Lemma lookup_kid_found p sel k s n s' : Inv s -> lookup_kid p sel k s = (Ret (Some n), s') -> child_found s s' p sel n.
Proof.
  intros I E. unfold lookup_kid in E. apply rbind_Ret in E as (kids & s1 & E1 & E2).
  apply kids_of_ret in E1 as (-> & t & Ht & ->).
  destruct (find_kid sel (kids_at p t)) as [q|] eqn:Hf; [|discriminate].
  apply rbind_Ret in E2 as (m & s2 & E2 & E3). injection E3 as <- <-.
  destruct (wrap_as_canonical _ _ _ _ _ I E2) as (Hc & a & ->).
  destruct (find_kid_at _ _ _ _ Hf) as (i & u & -> & Hi & Hs).
  exists t, i, u, k, a. repeat split; [done..|]. by apply canonical_at.
Qed.
Lemma lookup_type_found p sel s n s' : Inv s -> lookup_type p sel s = (Ret (Some n), s') -> child_found s s' p sel n.
Proof.
  intros I E. unfold lookup_type in E. apply rbind_Ret in E as (kids & s1 & E1 & E2).
  apply kids_of_ret in E1 as (-> & t & Ht & ->).
  destruct (find_kid sel (kids_at p t)) as [q|] eqn:Hf; [|discriminate].
  destruct (find_kid_at _ _ _ _ Hf) as (i & u & -> & Hi & Hs).
  apply rbind_Ret in E2 as (v & s1 & E1 & E2). apply deref_Ret in E1 as (-> & _).
  assert (H : exists k, rbind (wrap_as k (child p i)) (fun n => ret (Some n)) s = (Ret (Some n), s')).
  { destruct (t_data v); eauto. }
  clear E2. destruct H as [k E2].
  apply rbind_Ret in E2 as (m & s2 & E2 & E3). injection E3 as <- <-.
  destruct (wrap_as_canonical _ _ _ _ _ I E2) as (Hc & a & ->).
  exists t, i, u, k, a. repeat split; [done..|]. by apply canonical_at.
Qed.

Lemma named_child s path g f π q k a :
  calm s -> unique_names s -> packages_first s -> loaded s path g f -> fqn_here f π = Some q ->
  cache s !! VPtr (g, π) = Some (Some (NAst k a (g, π))) ->
  node_by_full_name q s = (Ret (Some (NAst k a (g, π))), s).
Proof.
  intros Hc Hu Hp Hl Hq C. destruct (calm_complete _ Hc) as [S Cm].
  destruct (declared_named s path g f π q (conj S Cm) Hl Hq) as [p Hn].
  rewrite <- (loaded_fqn _ _ _ _ _ S Hl (Hp _ _ _ Hl)) in Hq.
  pose proof (unique_ptr _ _ _ _ _ _ _ S Hu Hp Hl Hq Hn) as ->.
  unfold node_by_full_name. rewrite rbind_get, Hn. by apply wrap_hit.
Qed.

Lemma inside_found k p name m s n s' : Inv s -> asks_inside k p name m -> m s = (Ret (Some n), s') ->
  child_found s s' p (fun d => bool_decide (own_name d = Some name)) n.
Proof.
  intros I Hm E.
  assert (H : exists sel, child_found s s' p sel n /\ forall d, sel d = true -> own_name d = Some name).
  { destruct Hm as [p name|p name|p name|p name].
    - eexists. split; [exact (lookup_kid_found _ _ _ _ _ _ I E)|]. intros []; cbn; try done; by intros ->%String.eqb_eq.
    - eexists. split; [exact (lookup_kid_found _ _ _ _ _ _ I E)|]. intros [| | | | | |? []| | | | | | | | | | | |]; cbn; try done; by intros ->%String.eqb_eq.
    - eexists. split; [exact (lookup_type_found _ _ _ _ _ I E)|]. intros [| | | | | |? []| | | | | | | | | | | |]; cbn; try done; by intros ->%String.eqb_eq.
    - eexists. split; [exact (lookup_kid_found _ _ _ _ _ _ I E)|]. intros []; cbn; try done; by intros ->%String.eqb_eq. }
  destruct H as (sel & (t & i & u & k' & a & H1 & H2 & H3 & H4 & H5) & H).
  exists t, i, u, k', a. split; [done|]. split; [done|]. split; [apply bool_decide_eq_true; by apply H|done].
Qed.
Lemma beside_found k p name m s n s' : Inv s -> asks_beside k p name m -> m s = (Ret (Some n), s') ->
  child_found s s' p (fun d => match d with
    | DEnumField x _ | DOneOfField x _ _ => String.eqb x name | _ => false end) n.
Proof.
  intros I Hm E.
  assert (H : exists sel, child_found s s' p sel n /\ forall d, sel d = true ->
    match d with DEnumField x _ | DOneOfField x _ _ => String.eqb x name | _ => false end = true).
  { destruct Hm as [p name|p name]; eexists; (split; [exact (lookup_kid_found _ _ _ _ _ _ I E)|]); by intros []. }
  destruct H as (sel & (t & i & u & k' & a & H1 & H2 & H3 & H4 & H5) & H).
  exists t, i, u, k', a. split; [done|]. split; [done|]. split; [by apply H|done].
Qed.
Lemma asks_inside_route k p name m : asks_inside k p name m -> route m.
Proof. destruct 1; constructor. Qed.
Lemma asks_beside_route k p name m : asks_beside k p name m -> route m.
Proof. destruct 1; constructor. Qed.
Lemma asks_file_route p name m : asks_file p name m -> route m.
Proof. destruct 1; constructor. Qed.

Section down.
  Context (s : registry) (q : string) (k : wkind) (a : N) (p : ptr) (s1 : registry).
  Context {A : Type} (c : R A) (m : R (option node)) (n : node) (s2 : registry).
  Context {B : Type} (d : R B) (s3 : registry).
  Hypothesis Hs : reachable s.
  Hypothesis E1 : node_by_full_name q s = (Ret (Some (NAst k a p)), s1).
  Hypothesis Hc : client Loads c.
  Hypothesis Hm : route m.
  Hypothesis E2 : m (c s1).2 = (Ret (Some n), s2).
  Hypothesis Hd : client Loads d.
  Hypothesis E3 : (d s2).2 = s3.

  Lemma down_steps : Inv s /\ Inv (c s1).2 /\ grows s (c s1).2 /\ grows (c s1).2 s3 /\ grows s2 s3.
  Proof.
    pose proof (reachable_Inv _ Hs) as I.
    assert (R1 : route (node_by_full_name q)) by constructor.
    destruct (inv_step_ret _ _ _ _ (client_inv_step _ _ (route_client _ R1)) I E1) as [I1 G1].
    destruct (client_inv_step _ _ Hc s1 I1) as [J1 G2].
    destruct (inv_step_ret _ _ _ _ (client_inv_step _ _ (route_client _ Hm)) J1 E2) as [I2 G3].
    destruct (client_inv_step _ _ Hd s2 I2) as [J2 G4]. rewrite E3 in J2, G4.
    split; [done|]. split; [done|]. split; [by eapply grows_trans|]. split; [by eapply grows_trans|done].
  Qed.
  Lemma down_parent : exists path f t, loaded s3 path p.1 f /\ walk f p.2 = Some t /\ heap_at (c s1).2 p = Some t /\
    fqn_here f p.2 = Some q /\ wrap_kind (t_data t) = Some k.
  Proof.
    destruct down_steps as (I & _ & G1 & G2 & _).
    destruct (found_is_declared _ _ _ _ I E1) as (path & f & t & k0 & a0 & p0 & [= <- <- <-] & _ & Hl & Hw & Hq & Hk).
    exists path, f, t. destruct Hl as (L1 & L2 & L3).
    pose proof (ext_heap_lookup _ _ _ _ _ G1 L2) as L2'.
    split; [split; [|split; [by eapply ext_heap_lookup|done]]|].
    { eapply ext_protos; [exact G2|]. by eapply ext_protos. }
    split; [done|]. split; [unfold heap_at; by rewrite L2'|]. split; done.
  Qed.
End down.

(** ** C87 *)

(** If NodeByFullName of a name is a message or service, and a member is asked for by its name there, then
    NodeByFullName of the name, a dot and the member's name is that member. *)
Theorem C87_inside s q k a p s1 {A} (c : R A) name m n s2 {B} (d : R B) s3 :
  reachable s -> node_by_full_name q s = (Ret (Some (NAst k a p)), s1) -> client Loads c ->
  asks_inside k p name m -> m (c s1).2 = (Ret (Some n), s2) -> client Loads d -> (d s2).2 = s3 ->
  calm s3 -> unique_names s3 -> packages_first s3 ->
  node_by_full_name (q +:+ "." +:+ name) s3 = (Ret (Some n), s3).
Proof.
  intros Hs E1 Hc Hm E2 Hd E3 Cm Hu Hp. pose proof (asks_inside_route _ _ _ _ Hm) as Hr.
  destruct (down_steps s q k a p s1 c m n s2 d s3 Hs E1 Hc Hr E2 Hd E3) as (I & J & _ & G2 & G3).
  destruct (down_parent s q k a p s1 c m n s2 d s3 Hs E1 Hc Hr E2 Hd E3) as (path & f & t & Hl & Hw & Ht & Hq & Hk).
  destruct (inside_found _ _ _ _ _ _ _ J Hm E2) as (t' & i & u & k' & b & Ht' & Hi & Hn & -> & C).
  rewrite Ht in Ht'. injection Ht' as <-. apply bool_decide_eq_true in Hn.
  apply (ext_cache _ _ _ G3) in C. destruct p as [g π]. cbn [fst snd child] in *.
  eapply named_child; [done..|exact Hl| |exact C]. cbn [snd].
  unfold fqn_here in Hq. rewrite Hw in Hq. destruct (own_name (t_data t)) as [own|] eqn:Ho; [|discriminate Hq].
  destruct (visible f π) eqn:Hv; [|discriminate Hq]. injection Hq as Hq.
  assert (Hne : π <> []).
  { intros ->. destruct Hl as (_ & _ & Hdf). injection Hw as <-. rewrite Hdf in Ho. discriminate Ho. }
  assert (Hwu : walk f (i :: π) = Some u) by (cbn [walk]; by rewrite Hw).
  assert (Hx : container (t_data t) = true /\ scope_name (t_data t) = Some own).
  { destruct Hm; destruct (t_data t) as [| | | | | |? []| | | | | | | | | | | |]; cbn in Hk, Ho |- *; try done; by injection Ho as ->. }
  destruct Hx as [Hcn Hsn].
  rewrite (fqn_here_self _ _ _ Hwu) by (by rewrite (visible_tail _ _ _ _ Hw), Hv, Hcn).
  rewrite (scope_at_cons _ _ _ _ Hne Hw), Hsn, Hn. by rewrite Hq.
Qed.

(** Values of enums and branches of oneofs are beside their enum or oneof: the last component of its name
    is replaced. *)
Theorem C87_beside s sc own k a p s1 {A} (c : R A) name m n s2 {B} (d : R B) s3 :
  reachable s -> node_by_full_name (sc +:+ "." +:+ own) s = (Ret (Some (NAst k a p)), s1) ->
  (node_name p s1).1 = Ret own -> client Loads c ->
  asks_beside k p name m -> m (c s1).2 = (Ret (Some n), s2) -> client Loads d -> (d s2).2 = s3 ->
  calm s3 -> unique_names s3 -> packages_first s3 ->
  node_by_full_name (sc +:+ "." +:+ name) s3 = (Ret (Some n), s3).
Proof.
  intros Hs E1 Hown Hc Hm E2 Hd E3 Cm Hu Hp. pose proof (asks_beside_route _ _ _ _ Hm) as Hr.
  destruct (down_steps s _ k a p s1 c m n s2 d s3 Hs E1 Hc Hr E2 Hd E3) as (I & J & _ & G2 & G3).
  destruct (down_parent s _ k a p s1 c m n s2 d s3 Hs E1 Hc Hr E2 Hd E3) as (path & f & t & Hl & Hw & Ht & Hq & Hk).
  destruct (beside_found _ _ _ _ _ _ _ J Hm E2) as (t' & i & u & k' & b & Ht' & Hi & Hn & -> & C).
  rewrite Ht in Ht'. injection Ht' as <-.
  assert (Hown' : data_name (t_data t) = own).
  { assert (Q : quiet s s1).
    { pose proof (query_quiet (node_by_full_name (sc +:+ "." +:+ own)) ltac:(apply cl_api; constructor) s) as Q.
      by rewrite E1 in Q. }
    unfold node_name in Hown.
    assert (H1 : heap_at s1 p = Some t).
    { rewrite (quiet_heap_at _ _ _ Q).
      destruct (found_is_declared _ _ _ _ I E1) as (path0 & f0 & t0 & k0 & a0 & p0 & [= <- <- <-] & _ & Hl0 & Hw0 & _).
      destruct Hl0 as (_ & L2 & _). unfold heap_at. rewrite L2.
      destruct (down_steps s _ k a p s1 c m (NAst k' b (child p i)) s2 d s3 Hs E1 Hc Hr E2 Hd E3) as (_ & _ & G1 & _).
      pose proof (ext_heap_lookup _ _ _ _ _ G1 L2) as L2'. unfold heap_at in Ht. rewrite L2' in Ht. exact Ht. }
    rewrite (rbind_val _ _ _ _ _ (deref_ok _ _ _ H1)) in Hown. by injection Hown. }
  assert (Hal : allowed (t_data t) (t_data u) = true).
  { apply (kids_allowed _ p t (child p i, u) J Ht). unfold kids_at. apply elem_of_list_lookup. exists i.
    rewrite list_lookup_imap, Hi. done. }
  apply (ext_cache _ _ _ G3) in C. destruct p as [g π]. cbn [fst snd child] in *.
  eapply named_child; [done..|exact Hl| |exact C]. cbn [snd].
  assert (Hx : container (t_data t) = true /\ scope_name (t_data t) = None /\ own_name (t_data t) = Some own).
  { destruct (t_data u); try discriminate Hn; destruct (t_data t); try discriminate Hal; cbn in Hown' |- *; by subst. }
  destruct Hx as (Hcn & Hsn & Ho).
  unfold fqn_here in Hq. rewrite Hw, Ho in Hq.
  destruct (visible f π) eqn:Hv; [|discriminate Hq]. injection Hq as Hq.
  assert (Hsc : scope_at f π = sc) by (by eapply sapp_inj_r).
  assert (Hne : π <> []).
  { intros ->. destruct Hl as (_ & _ & Hdf). injection Hw as <-. rewrite Hdf in Ho. discriminate Ho. }
  assert (Hwu : walk f (i :: π) = Some u) by (cbn [walk]; by rewrite Hw).
  rewrite (fqn_here_self _ _ _ Hwu) by (by rewrite (visible_tail _ _ _ _ Hw), Hv, Hcn).
  rewrite (scope_at_cons _ _ _ _ Hne Hw), Hsn, Hsc.
  assert (Hsn' : own_name (t_data u) = Some name).
  { destruct (t_data u); try discriminate Hn; cbn in Hn |- *; by apply String.eqb_eq in Hn as ->. }
  rewrite Hsn'. by rewrite sapp_nil_r.
Qed.

(** The top level: what a file gives for a name, unless it is an extend block, is found under the name of
    the package, a dot and the name. *)
Theorem C87_file s path g f {A} (c : R A) name m k a p s2 {B} (d : R B) s3 pkg :
  reachable s -> loaded s path g f -> client Loads c ->
  asks_file (root g) name m -> m (c s).2 = (Ret (Some (NAst k a p)), s2) -> client Loads d -> (d s2).2 = s3 ->
  calm s3 -> unique_names s3 -> packages_first s3 ->
  (file_package (root g) s3).1 = Ret pkg -> (k = KMessage -> (message_is_extension p s3).1 = Ret false) ->
  node_by_full_name (pkg_scope pkg +:+ "." +:+ name) s3 = (Ret (Some (NAst k a p)), s3).
Proof.
  intros Hs Hl Hc Hm E2 Hd E3 Cm Hu Hp Hpk Hne. pose proof (asks_file_route _ _ _ Hm) as Hr.
  pose proof (reachable_Inv _ Hs) as I.
  destruct (client_inv_step _ _ Hc s I) as [J G1].
  destruct (inv_step_ret _ _ _ _ (client_inv_step _ _ (route_client _ Hr)) J E2) as [I2 G2].
  destruct (client_inv_step _ _ Hd s2 I2) as [I3 G3]. rewrite E3 in I3, G3.
  assert (Hl3 : loaded s3 path g f).
  { destruct Hl as (L1 & L2 & L3). split; [|split; [|done]].
    - eapply ext_protos; [exact G3|]. eapply ext_protos; [exact G2|]. by eapply ext_protos.
    - eapply ext_heap_lookup; [exact G3|]. eapply ext_heap_lookup; [exact G2|]. by eapply ext_heap_lookup. }
  assert (H : exists sel, child_found (c s).2 s2 (root g) sel (NAst k a p) /\ forall d0, sel d0 = true ->
    (exists e, d0 = DMessage name e) \/ d0 = DEnum name \/ d0 = DService name).
  { destruct Hm.
    - eexists. split; [exact (lookup_kid_found _ _ _ _ _ _ J E2)|]. intros []; cbn; try done; intros ->%String.eqb_eq; eauto.
    - eexists. split; [exact (lookup_kid_found _ _ _ _ _ _ J E2)|]. intros []; cbn; try done; intros ->%String.eqb_eq; eauto.
    - eexists. split; [exact (lookup_type_found _ _ _ _ _ J E2)|]. intros []; cbn; try done; intros ->%String.eqb_eq; eauto.
    - eexists. split; [exact (lookup_kid_found _ _ _ _ _ _ J E2)|]. intros []; cbn; try done; intros ->%String.eqb_eq; eauto. }
  destruct H as (sel & (t & i & u & k' & b & Ht & Hi & Hsel & Heq & C) & Hx). apply Hx in Hsel.
  injection Heq as -> -> ->. unfold child, root in *. cbn [fst snd] in *.
  assert (t = f) as ->.
  { pose proof (ext_heap_lookup _ _ _ _ _ G1 (proj1 (proj2 Hl))) as L. unfold heap_at in Ht. cbn in Ht. rewrite L in Ht.
    cbn in Ht. by injection Ht. }
  assert (Hwu : walk f [i] = Some u) by (cbn [walk]; exact Hi).
  assert (Hu3 : heap_at s3 (g, [i]) = Some u) by (unfold heap_at; cbn [fst snd]; by rewrite (proj1 (proj2 Hl3))).
  assert (Hown : own_name (t_data u) = Some name).
  { pose proof (nd_cache _ (proj2 I2) _ _ C) as (p' & k0 & a0 & t0 & [= <-] & [= <- <-] & Ht0 & Hw0).
    assert (heap_at s3 (g, [i]) = Some t0).
    { unfold heap_at in Ht0 |- *. cbn [fst snd] in *. destruct (heap s2 !! g) as [f2|] eqn:H2; [|discriminate Ht0].
      rewrite (ext_heap_lookup _ _ _ _ _ G3 H2). exact Ht0. }
    assert (t0 = u) as -> by congruence.
    destruct Hsel as [[e He]|[He|He]]; rewrite He in *; [|done|done]. destruct e; [|done].
    exfalso. cbn in Hw0. injection Hw0 as <-. specialize (Hne eq_refl). unfold message_is_extension in Hne.
    rewrite (rbind_val _ _ _ _ _ (deref_ok _ _ _ Hu3)), He in Hne. discriminate Hne. }
  assert (Hpkg : pkg = the_package (t_kids f)).
  { unfold file_package in Hpk.
    assert (Hrt : heap_at s3 (g, []) = Some f) by (unfold heap_at; cbn [fst snd]; by rewrite (proj1 (proj2 Hl3))).
    rewrite (rbind_val _ _ _ _ _ (deref_ok _ _ _ Hrt)) in Hpk. injection Hpk as <-. apply package_of_the. }
  apply (ext_cache _ _ _ G3) in C.
  eapply named_child; [done..|exact Hl3| |exact C].
  rewrite <- (loaded_fqn _ _ _ _ _ (proj1 I3) Hl3 (Hp _ _ _ Hl3)).
  unfold fqn. rewrite Hwu, Hown. cbn [visible enclosing walk]. destruct Hl3 as (_ & _ & Hdf). rewrite Hdf.
  cbn [andb container scope_name app dotted]. rewrite sapp_nil_r, Hpkg. done.
Qed.

Lemma loaded_back s s' path g f : quiet s s' -> loaded s' path g f -> loaded s path g f.
Proof. intros Q (L1 & L2 & L3). rewrite (q_protos _ _ Q) in L1. rewrite (q_heap _ _ Q) in L2. done. Qed.
Lemma orderly_back s s' : quiet s s' -> unique_names s -> packages_first s -> unique_names s' /\ packages_first s'.
Proof.
  intros Q U P. split.
  - intros path1 g1 f1 π1 path2 g2 f2 π2 q L1 L2. apply (U path1 g1 f1 π1 path2 g2 f2 π2 q); by eapply loaded_back.
  - intros path g f L. apply (P path g). by eapply loaded_back.
Qed.
Definition orderly (s : registry) : Prop := calm s /\ unique_names s /\ packages_first s.
Lemma orderly_after {A} (m : R A) s : client Queries m -> orderly s -> orderly (m s).2.
Proof.
  intros Hm (Hc & Hu & Hp). split; [apply (hist_client CalmLoads _ _ s); [done|by apply client_query]|].
  apply (orderly_back s); [by apply query_quiet|done|done].
Qed.
Lemma orderly_demo : orderly demo_world.
Proof. exact (conj demo_calm (conj demo_unique demo_packages)). Qed.
Lemma orderly_down {A B} (m : R A) (m' : R B) : client Queries m -> client Queries m' -> orderly (m' (m demo_world).2).2.
Proof. intros. apply orderly_after; [done|]. apply orderly_after; [done|]. apply orderly_demo. Qed.
(** the enum in Message, and a value of it *)
Example C87_example : exists a b n1 n2,
  let s1 := (node_by_full_name ".pb.Message" demo_world).2 in
  let t1 := (node_by_full_name ".pb.Message.InnerEnum" demo_world).2 in
  (node_by_full_name ".pb.Message" demo_world).1 = Ret (Some (NAst KMessage a (1, [6]))) /\
  asks_inside KMessage (1, [6]) "InnerEnum" (message_type (1, [6]) "InnerEnum") /\
  (message_type (1, [6]) "InnerEnum" s1).1 = Ret (Some n1) /\
  calm (message_type (1, [6]) "InnerEnum" s1).2 /\ unique_names (message_type (1, [6]) "InnerEnum" s1).2 /\
  packages_first (message_type (1, [6]) "InnerEnum" s1).2 /\
  (node_by_full_name ".pb.Message.InnerEnum" (message_type (1, [6]) "InnerEnum" s1).2).1 = Ret (Some n1) /\
  (node_by_full_name ".pb.Message.InnerEnum" demo_world).1 = Ret (Some (NAst KEnum b (1, [12; 6]))) /\
  (node_name (1, [12; 6]) t1).1 = Ret "InnerEnum" /\
  (enum_value (1, [12; 6]) "INNER_ENUM_VALUE" t1).1 = Ret (Some n2) /\
  calm (enum_value (1, [12; 6]) "INNER_ENUM_VALUE" t1).2 /\ unique_names (enum_value (1, [12; 6]) "INNER_ENUM_VALUE" t1).2 /\
  packages_first (enum_value (1, [12; 6]) "INNER_ENUM_VALUE" t1).2 /\
  (node_by_full_name ".pb.Message.INNER_ENUM_VALUE" (enum_value (1, [12; 6]) "INNER_ENUM_VALUE" t1).2).1 = Ret (Some n2).
Proof.
  pose proof (orderly_down (node_by_full_name ".pb.Message") (message_type (1, [6]) "InnerEnum")
    ltac:(apply cl_api; constructor) ltac:(apply cl_api; constructor)) as (A1 & A2 & A3).
  pose proof (orderly_down (node_by_full_name ".pb.Message.InnerEnum") (enum_value (1, [12; 6]) "INNER_ENUM_VALUE")
    ltac:(apply cl_api; constructor) ltac:(apply cl_api; constructor)) as (B1 & B2 & B3).
  cbv zeta. revert A1 A2 A3 B1 B2 B3.
  assert (X : exists a b n1 n2,
    (node_by_full_name ".pb.Message" demo_world).1 = Ret (Some (NAst KMessage a (1, [6]))) /\
    (message_type (1, [6]) "InnerEnum" (node_by_full_name ".pb.Message" demo_world).2).1 = Ret (Some n1) /\
    (node_by_full_name ".pb.Message.InnerEnum" (message_type (1, [6]) "InnerEnum" (node_by_full_name ".pb.Message" demo_world).2).2).1 = Ret (Some n1) /\
    (node_by_full_name ".pb.Message.InnerEnum" demo_world).1 = Ret (Some (NAst KEnum b (1, [12; 6]))) /\
    (node_name (1, [12; 6]) (node_by_full_name ".pb.Message.InnerEnum" demo_world).2).1 = Ret "InnerEnum" /\
    (enum_value (1, [12; 6]) "INNER_ENUM_VALUE" (node_by_full_name ".pb.Message.InnerEnum" demo_world).2).1 = Ret (Some n2) /\
    (node_by_full_name ".pb.Message.INNER_ENUM_VALUE" (enum_value (1, [12; 6]) "INNER_ENUM_VALUE" (node_by_full_name ".pb.Message.InnerEnum" demo_world).2).2).1 = Ret (Some n2)).
  { eexists _, _, _, _. split; [vm_compute; reflexivity|]. split; [vm_compute; reflexivity|]. split; [vm_compute; reflexivity|].
    split; [vm_compute; reflexivity|]. split; [vm_compute; reflexivity|]. split; [vm_compute; reflexivity|]. vm_compute; reflexivity. }
  destruct X as (a & b & n1 & n2 & X1 & X2 & X3 & X4 & X5 & X6 & X7). intros A1 A2 A3 B1 B2 B3. exists a, b, n1, n2.
  exact (conj X1 (conj (ai_type _ _) (conj X2 (conj A1 (conj A2 (conj A3 (conj X3 (conj X4 (conj X5 (conj X6
    (conj B1 (conj B2 (conj B3 X7))))))))))))).
Qed.
(** the message of a file *)
Example C87_file_example : exists f a,
  loaded demo_world "data.proto" 1 f /\
  asks_file (root 1) "Message" (file_message (root 1) "Message") /\
  (file_message (root 1) "Message" demo_world).1 = Ret (Some (NAst KMessage a (1, [6]))) /\
  (file_package (root 1) (file_message (root 1) "Message" demo_world).2).1 = Ret "pb" /\
  (message_is_extension (1, [6]) (file_message (root 1) "Message" demo_world).2).1 = Ret false /\
  (calm (file_message (root 1) "Message" demo_world).2 /\ unique_names (file_message (root 1) "Message" demo_world).2 /\
   packages_first (file_message (root 1) "Message" demo_world).2) /\
  (node_by_full_name ".pb.Message" (file_message (root 1) "Message" demo_world).2).1 = Ret (Some (NAst KMessage a (1, [6]))).
Proof.
  assert (H : calm (file_message (root 1) "Message" demo_world).2 /\ unique_names (file_message (root 1) "Message" demo_world).2 /\
   packages_first (file_message (root 1) "Message" demo_world).2).
  { apply (orderly_after (file_message (root 1) "Message") demo_world); [apply cl_api; constructor|apply orderly_demo]. }
  assert (X : exists f a, loaded demo_world "data.proto" 1 f /\
    (file_message (root 1) "Message" demo_world).1 = Ret (Some (NAst KMessage a (1, [6]))) /\
    (file_package (root 1) (file_message (root 1) "Message" demo_world).2).1 = Ret "pb" /\
    (message_is_extension (1, [6]) (file_message (root 1) "Message" demo_world).2).1 = Ret false /\
    (node_by_full_name ".pb.Message" (file_message (root 1) "Message" demo_world).2).1 = Ret (Some (NAst KMessage a (1, [6])))).
  { clear H. eexists _, _. split; [split; [|split]; vm_compute; reflexivity|]. split; [vm_compute; reflexivity|].
    split; [vm_compute; reflexivity|]. split; [vm_compute; reflexivity|]. vm_compute; reflexivity. }
  destruct X as (f & a & X1 & X2 & X3 & X4 & X5). exists f, a.
  exact (conj X1 (conj (af_message _ _) (conj X2 (conj X3 (conj X4 (conj H X5)))))).
Qed.
