(** * Comparing the types of two declarations: C86. *)
From Verif Require Export ThmTakeover.
From Verif Require Import Worlds Frame Iterate Demo Identity Nodes LoadFacts Loading Loader Visit Api Routes.
Local Open Scope go_scope.

(** ** The specification *)

(** The calls that give the message, enum or scalar that a declaration names [typ] in the scope [comps]:
    MessageField.Type (for a repeated field its element type), OneOfBranch.Type, Method.Input,
    Method.Output, and Map.Value, which looks the name up in the root scope. *)
Inductive reads_type (s : registry) (comps : list string) (typ : string) : R (option node) -> Prop :=
| reads_field p m : asks s p typ m -> in_scope s p comps -> reads_type s comps typ m
| reads_method p b m : asks_method s p typ b m -> in_scope s p comps ->
    reads_type s comps typ (r <~ m ;; ret (Some r.2))
| reads_map p t name kt num : element_at s p t -> t_data t = DMapField name kt typ num -> comps = [] ->
    reads_type s comps typ (just (map_value p)).

(** ** Proofs *)

Lemma reads_route s comps typ m : reads_type s comps typ m -> route m.
Proof.
  destruct 1 as [p m [a q t name ty sq opt H1 H2 H3|a q t name ty sq opt H1 H2 H3|q t name ty sq H1 H2] Hi
                |p b m [q t name req sreq rett sret H1 H2|q t name req sreq rett sret H1 H2] Hi|]; constructor.
Qed.
Lemma reads_spec s comps typ m n s1 : reachable s -> reads_type s comps typ m ->
  m s = (Ret (Some n), s1) ->
  (typ ∈ scalar_names /\ exists b, n = NBuiltin b /\ builtin_string b = typ) \/
  (typ ∉ scalar_names /\ declaration_node n /\ exists q, denotes s comps typ q /\ found s q n).
Proof.
  intros Hs Hr E. pose proof (reachable_Inv _ Hs) as I.
  destruct (decide (typ ∈ scalar_names)) as [Hb|Hb]; [left|right]; (split; [done|]).
  - destruct Hr as [p m Ha Hsc|p b m Ha Hsc|p t name kt num Ht Hd _].
    + destruct (C16_scalars_not_shadowed s p typ m Ha Hb) as (b & E1 & Hx). rewrite E in E1. injection E1 as ->. eauto.
    + exfalso. pose proof (asks_method_spec _ _ _ _ _ Ha) as Hm.
      destruct (builtin_some _ Hb) as (b' & Hbt & _).
      assert (G : get_type_body p typ s = (Ret (Some (NBuiltin b')), s)) by (unfold get_type_body; by rewrite Hbt).
      rewrite G in Hm. cbn in Hm. unfold rbind in E. destruct (m s) as [[]]; cbn in Hm; congruence.
    + destruct (builtin_some _ Hb) as (b' & Hbt & Hx). apply element_heap in Ht. unfold just, map_value in E.
      assert (G : map_value p s = (Ret (NBuiltin b'), s)).
      { unfold map_value. by rewrite (rbind_val _ _ _ _ _ (deref_ok _ _ _ Ht)), Hd, Hbt. }
      unfold map_value in G. rewrite (rbind_val _ _ _ _ _ G) in E. injection E as <- _. eauto.
  - assert (H : exists q, denotes s comps typ q /\ found s q n /\ implements_type n = true).
    { destruct Hr as [p m Ha Hsc|p b m Ha Hsc|p t name kt num Ht Hd ->].
      - destruct (asks_spec _ _ _ _ _ I Ha Hsc Hb) as [(q & n0 & Hq & Hf & E1)|[_ E1]]; rewrite E in E1; cbn in E1.
        + destruct (implements_type n0) eqn:Hi; [|discriminate E1]. injection E1 as ->. eauto.
        + discriminate E1.
      - pose proof (asks_method_spec _ _ _ _ _ Ha) as Hm. apply in_scope_of in Hsc as [Hsc Hid].
        destruct (get_type_body_spec s p typ comps I Hsc Hid Hb) as [(q & n0 & s0 & Hq & E0 & G)|[_ G]];
          rewrite G in Hm; cbn in Hm; unfold rbind in E; destruct (m s) as [[r| |] s2]; cbn in Hm, E;
          try discriminate E; [|discriminate Hm].
        injection E as E _. exists q.
        destruct (implements_type n0) eqn:Hi; [|discriminate Hm].
        assert (n = n0) as ->. { destruct n0 as [[]| | | | |]; try discriminate Hm. injection Hm as ->. by subst n. }
        split; [done|]. split; [|done]. unfold found. by rewrite E0.
      - apply rbind_Ret in E as (n' & s2 & E & E'). injection E' as -> _.
        destruct (has_prefix typ ".") eqn:Hab.
        { apply prefix_dot in Hab. destruct (C49_absolute_panics s p t name kt typ num Hs Ht Hd Hab) as [msg Hx].
          rewrite E in Hx. discriminate Hx. }
        apply prefix_dot_false in Hab. destruct (C49_map_value s p t name kt typ num Hs Ht Hd Hb Hab) as [V1 V2].
        assert (Hf : exists n0, found s ("." +:+ typ) n0 /\ message_or_enum n0).
        { destruct (names s !! ("." +:+ typ)) as [q|] eqn:Hn.
          - destruct (proj2 (found_names s ("." +:+ typ) I)) as [n0 Hf]; [by eexists|].
            exists n0. split; [done|]. destruct (found_kind _ _ _ I Hf) as (k & a & q0 & ->).
            assert (D : message_or_enum (NAst k a q0) \/ ~ message_or_enum (NAst k a q0)) by (destruct k; cbn; tauto).
            destruct D as [D|D]; [done|]. exfalso. destruct V2 as [msg V2].
            { intros n1 F1. by rewrite (found_fun _ _ _ _ Hf F1). }
            rewrite E in V2. discriminate V2.
          - exfalso. destruct V2 as [msg V2].
            { intros n0 F0 _. by apply (proj2 (unknown_names s ("." +:+ typ) I) Hn n0). }
            rewrite E in V2. discriminate V2. }
        destruct Hf as (n0 & Hf & Hm). specialize (V1 n0 Hf Hm). rewrite E in V1. injection V1 as ->.
        exists ("." +:+ typ). split; [|split; [done|by destruct n0 as [[]| | | | |]]].
        split; [eauto|]. right. split; [done|]. exists 0. split; [lia|]. split; [done|].
        intros j H1 H2. cbn in H2. lia. }
    destruct H as (q & Hq & Hf & Hi). split; [|eauto].
    destruct (is_type_cases n Hi (found_kind _ _ _ I Hf)) as [H|H]; [eauto| |]; destruct n as [[]| | | | |]; done.
Qed.
Lemma denotes_quiet s s' comps name q : Inv s -> Inv s' -> quiet s s' -> denotes s' comps name q -> denotes s comps name q.
Proof.
  intros I I' Q [Hf H]. apply (found_names _ _ I') in Hf. rewrite (q_names _ _ Q) in Hf.
  split; [by apply (found_names _ _ I)|].
  destruct H as [H|(Ha & k & Hk & -> & H)]; [by left|right]. split; [done|]. exists k. split; [done|]. split; [done|].
  intros j H1 H2. specialize (H j H1 H2). apply (unknown_names _ _ I') in H. rewrite (q_names _ _ Q) in H.
  by apply (unknown_names _ _ I).
Qed.
Lemma reads_query s comps typ m : reads_type s comps typ m -> client Queries m.
Proof.
  destruct 1 as [p m [a q t name ty sq opt H1 H2 H3|a q t name ty sq opt H1 H2 H3|q t name ty sq H1 H2] Hi
                |p b m [q t name req sreq rett sret H1 H2|q t name req sreq rett sret H1 H2] Hi|];
    first [apply cl_api; constructor | apply cl_bind; [apply cl_api; constructor|intros ?; apply cl_ret]].
Qed.

(** ** C86 *)

(** The types of two declarations, obtained at any two moments between which no file is loaded, are ==
    exactly if both declare the same scalar type, or the two names denote the same declaration, each in
    its scope. *)
Theorem C86_same_type_exact s typ1 m1 comps1 n1 s1 {A} (c : R A) s2 typ2 m2 comps2 n2 s3 :
  reachable s -> reads_type s comps1 typ1 m1 -> m1 s = (Ret (Some n1), s1) ->
  client Queries c -> (c s1).2 = s2 ->
  reads_type s2 comps2 typ2 m2 -> m2 s2 = (Ret (Some n2), s3) ->
  go_eq n1 n2 <->
  (typ1 ∈ scalar_names /\ typ2 = typ1) \/
  (typ1 ∉ scalar_names /\ typ2 ∉ scalar_names /\ exists q, denotes s comps1 typ1 q /\ denotes s comps2 typ2 q).
Proof.
  intros Hs R1 E1 Hc E2 R2 E3. pose proof (reachable_Inv _ Hs) as I.
  assert (Hs1 : reachable s1).
  { assert (H : reachable (m1 s).2).
    { apply (hist_client Loads _ _ s); [exact Hs|]. by apply route_client, (reads_route _ _ _ _ R1). }
    by rewrite E1 in H. }
  pose proof (client_loads _ _ Hc) as Hcl.
  assert (Hs2 : reachable s2) by (rewrite <- E2; apply (hist_client Loads _ _ s1); [exact Hs1|exact Hcl]).
  pose proof (reachable_Inv _ Hs2) as I2.
  assert (Q : quiet s s2).
  { pose proof (query_quiet _ (reads_query _ _ _ _ R1) s) as Q1. rewrite E1 in Q1. cbn [snd] in Q1.
    pose proof (query_quiet _ Hc s1) as Q2. rewrite E2 in Q2. by eapply quiet_trans. }
  destruct (reads_spec _ _ _ _ _ _ Hs R1 E1) as [(B1 & b1 & -> & N1)|(B1 & D1 & q1 & Q1 & F1)];
    destruct (reads_spec _ _ _ _ _ _ Hs2 R2 E3) as [(B2 & b2 & -> & N2)|(B2 & D2 & q2 & Q2 & F2)].
  - cbn. split; [intros ->; left; by subst|]. intros [[_ H]|[H _]]; [|done].
    assert (H1 : builtin_type typ1 = Some b1) by (by apply C46_builtins_one_to_one).
    assert (H2 : builtin_type typ2 = Some b2) by (by apply C46_builtins_one_to_one).
    rewrite H in H2. congruence.
  - destruct n2; cbn; (split; [done|]); intros [[_ ->]|[H _]]; done.
  - destruct n1; cbn; (split; [done|]); intros [[? _]|(_ & H & _)]; done.
  - destruct (found_kind _ _ _ I F1) as (k1 & a1 & p1' & ->). destruct (found_kind _ _ _ I2 F2) as (k2 & a2 & p2' & ->).
    rewrite (C20_equality_decides_types m1 m2 s s1 s2 s3 c k1 k2 a1 a2 p1' p2' Hs (reads_route _ _ _ _ R1) E1 Hcl E2
      (reads_route _ _ _ _ R2) E3 D1 D2).
    apply (denotes_quiet s s2 _ _ _ I I2 Q) in Q2.
    destruct (found_at _ _ _ _ _ I F1) as [M1 _], (found_at _ _ _ _ _ I2 F2) as [M2 _]. rewrite (q_names _ _ Q) in M2.
    split.
    + intros <-. right. split; [done|]. split; [done|].
      destruct (sc_names _ (proj1 I) _ _ M1) as (f & Hf & Hq1). destruct (sc_names _ (proj1 I) _ _ M2) as (f' & Hf' & Hq2).
      assert (f' = f) as -> by congruence. assert (q2 = q1) as -> by congruence. eauto.
    + intros [[? _]|(_ & _ & q & H1 & H2)]; [done|].
      pose proof (denotes_fun _ _ _ _ _ Q1 H1) as ->. pose proof (denotes_fun _ _ _ _ _ Q2 H2) as ->. congruence.
Qed.
(** InnerMessage as the type of a field of Message, and Message.InnerMessage as the result of a method,
    in the other order: the same declaration *)
Example C86_example : exists n1 n2 s1 s3,
  reads_type demo_world ["pb"; "Message"; "inner_msg"] "InnerMessage" (field_type 0 (1, [6; 6])) /\
  field_type 0 (1, [6; 6]) demo_world = (Ret (Some n1), s1) /\
  reads_type s1 ["pb"; "Service"; "MethodUU"] "Message.InnerMessage" (r <~ method_output (1, [1; 7]) ;; ret (Some r.2)) /\
  (r <~ method_output (1, [1; 7]) ;; ret (Some r.2)) s1 = (Ret (Some n2), s3) /\
  go_eq n1 n2.
Proof.
  assert (Hn : exists n1, (field_type 0 (1, [6; 6]) demo_world).1 = Ret (Some n1) /\
    exists n2, ((r <~ method_output (1, [1; 7]) ;; ret (Some r.2)) (field_type 0 (1, [6; 6]) demo_world).2).1 = Ret (Some n2) /\
      go_eq n1 n2).
  { eexists. split; [vm_compute; reflexivity|]. eexists. split; [vm_compute; reflexivity|]. vm_compute. split; reflexivity. }
  assert (Sc1 : in_scope demo_world (1, [6; 6]) ["pb"; "Message"; "inner_msg"]).
  { split; [exists KField, 0%N; split; [constructor|vm_compute; reflexivity]|apply idents; reflexivity]. }
  assert (Sc2 : in_scope (field_type 0 (1, [6; 6]) demo_world).2 (1, [1; 7]) ["pb"; "Service"; "MethodUU"]).
  { split; [exists KMethod, 0%N; split; [repeat constructor|vm_compute; reflexivity]|apply idents; reflexivity]. }
  assert (A1 : reads_type demo_world ["pb"; "Message"; "inner_msg"] "InnerMessage" (field_type 0 (1, [6; 6]))).
  { eapply reads_field; [|exact Sc1]. eapply asks_field; [apply demo_element; vm_compute; reflexivity|reflexivity|vm_compute; reflexivity]. }
  assert (Q : quiet demo_world (field_type 0 (1, [6; 6]) demo_world).2).
  { apply (query_quiet (field_type 0 (1, [6; 6]))). apply cl_api. constructor. }
  assert (A2 : reads_type (field_type 0 (1, [6; 6]) demo_world).2 ["pb"; "Service"; "MethodUU"] "Message.InnerMessage"
    (r <~ method_output (1, [1; 7]) ;; ret (Some r.2))).
  { eapply reads_method; [|exact Sc2]. eapply asks_output;
      [apply (quiet_element _ _ _ _ Q), demo_element; vm_compute; reflexivity|reflexivity]. }
  destruct Hn as (n1 & E1 & n2 & E2 & Hg). exists n1, n2. eexists _, _.
  split; [exact A1|]. split; [apply by_outcome; exact E1|].
  split; [exact A2|]. split; [apply by_outcome; exact E2|exact Hg].
Qed.

(** The values MessageField.Type makes for the field: Repeated, OneOf and Map. *)
Definition of_the_field (n : node) : Prop :=
  match n with NRepeated _ _ | NAst (KOneOf | KMap) _ _ => True | _ => False end.

Definition own_types (s : registry) : Prop := forall k1 k2 n1 n2,
  ftcache s !! k1 = Some (Some n1) -> ftcache s !! k2 = Some (Some n2) -> of_the_field n1 ->
  addr n1 = addr n2 -> k1 = k2.
Definition own_step (s s' : registry) : Prop := Inv s -> Inv s' /\ (own_types s -> own_types s').
Lemma own_refl s : own_step s s.
Proof. by intros I. Qed.
Lemma own_trans s1 s2 s3 : own_step s1 s2 -> own_step s2 s3 -> own_step s1 s3.
Proof. intros A B I. destruct (A I) as [I2 H2]. destruct (B I2) as [I3 H3]. auto. Qed.
Lemma own_same {A} (m : R A) : keeps inv_step m -> (forall s, ftcache (m s).2 = ftcache s) -> keeps own_step m.
Proof.
  intros K H s I. destruct (K s I) as [I' _]. split; [done|]. unfold own_types. by rewrite H.
Qed.
Lemma own_alloc : keeps own_step alloc.
Proof. apply own_same; [apply inv_step_alloc|done]. Qed.
Lemma own_wrap v : keeps own_step (wrap v).
Proof.
  apply own_same; [apply inv_step_wrap|]. intros s. unfold wrap. rewrite rbind_get.
  destruct (cache s !! v); [done|]. destruct v as [| | |p]; try done. destruct (heap_at s p); [|done].
  destruct (wrap_kind _); [|done]. by rewrite rbind_alloc.
Qed.
Lemma own_field_type a p : keeps own_step (field_type a p).
Proof.
  intros s I. destruct (inv_step_field_type a p s I) as [I' _]. split; [done|]. intros H.
  rewrite field_type_unfold. destruct (ftcache s !! (a, p)) as [res|] eqn:Hc; [done|].
  pose proof (keeps_field_type_body own_step own_refl own_trans own_alloc own_wrap p s I) as [I1 H1].
  specialize (H1 H). destruct (field_type_body p s) as [[res|m|] s1] eqn:E; cbn [snd] in *; [| |done].
  - destruct res as [n|].
    + destruct (field_type_body_ret _ _ _ _ (proj2 I) E) as (_ & _ & _ & F).
      assert (Hnew : of_the_field n -> forall k x, ftcache s1 !! k = Some (Some x) -> addr n <> addr x).
      { intros Hn k x Hx He. destruct F as [F|[F|(b & Hb & _ & F)]].
        - destruct F as (k0 & b & q & -> & F). destruct (nd_cache _ (proj2 I1) _ _ F) as (q' & k' & b' & t & _ & [= <- <- <-] & _ & W).
          destruct k0; try done; destruct (t_data t); done.
        - destruct n as [[]| | | | |]; done.
        - apply (F x); [right; eauto|]. congruence. }
      intros k1 k2 n1 n2 H2 H3 Hn He. cbn in H2, H3.
      apply lookup_insert_Some in H2 as [[<- [= <-]]|[Hk2 H2]]; apply lookup_insert_Some in H3 as [[<- [= <-]]|[Hk3 H3]].
      * done.
      * exfalso. by eapply Hnew.
      * exfalso.
        assert (HX : stored (set_ftcache (<[(a, p) := Some n]> (ftcache s1)) s1) n) by (right; exists (a, p); cbn; by rewrite lookup_insert).
        assert (HY : stored (set_ftcache (<[(a, p) := Some n]> (ftcache s1)) s1) n1) by (right; exists k1; cbn; by rewrite lookup_insert_ne).
        rewrite field_type_unfold, Hc, E in I'. cbn [snd] in I'.
        assert (n1 = n) as ->; [|by eapply Hnew]. apply (nd_inj _ (proj2 I')); [done|done| |done].
        destruct n1 as [[]| | | | |]; done.
      * by eapply H1.
    + intros k1 k2 n1 n2 H2 H3. cbn in H2, H3.
      apply lookup_insert_Some in H2 as [[_ H2]|[_ H2]]; [discriminate H2|].
      apply lookup_insert_Some in H3 as [[_ H3]|[_ H3]]; [discriminate H3|]. by eapply H1.
  - intros k1 k2 n1 n2 H2 H3. cbn in H2, H3.
    apply lookup_insert_Some in H2 as [[_ H2]|[_ H2]]; [discriminate H2|].
    apply lookup_insert_Some in H3 as [[_ H3]|[_ H3]]; [discriminate H3|]. by eapply H1.
Qed.
Lemma client_own {A} (m : R A) : client Loads m -> keeps own_step m.
Proof.
  assert (Hp : forall e fuel path, env_ok e -> keeps own_step (proto e fuel path)).
  { intros e fuel path He. apply own_same; [|intros; apply proto_stored].
    apply client_inv_step with (b := Loads). by apply cl_proto. }
  apply (keeps_client own_step own_refl own_trans own_alloc own_wrap own_field_type).
  - intros _ e fuel path. apply Hp.
  - intros _ e fuel path He. apply keeps_proto_or_exit; [apply own_refl|by apply Hp].
Qed.
Lemma reachable_own s : reachable s -> own_types s.
Proof.
  induction 1 as [e fuel s He E|A m s H IH Hm].
  - destruct (new_registry_ok _ _ _ He E) as (_ & _ & Hf & _). intros k1 k2 n1 n2 H. rewrite Hf in H.
    by rewrite lookup_empty in H.
  - by apply (client_own m Hm s (reachable_Inv _ H)).
Qed.

(** The Repeated, OneOf and Map values MessageField.Type gives are ==, whatever is done and loaded
    before, between and after, exactly if they are the type of the same field. *)
Theorem C86_field_values_exact m1 s0 a1 p1 s1 {A} (c1 : R A) n1 s2 {B} (c2 : R B) m2 s3 a2 p2 {C} (c3 : R C) n2 s4 :
  reachable s0 -> route m1 -> m1 s0 = (Ret (Some (NAst KField a1 p1)), s1) -> client Loads c1 ->
  field_type a1 p1 (c1 s1).2 = (Ret (Some n1), s2) -> of_the_field n1 -> client Loads c2 ->
  route m2 -> m2 (c2 s2).2 = (Ret (Some (NAst KField a2 p2)), s3) -> client Loads c3 ->
  field_type a2 p2 (c3 s3).2 = (Ret (Some n2), s4) ->
  go_eq n1 n2 <-> p1 = p2.
Proof.
  intros Hs M1 E1 C1 T1 Hn C2 M2 E2 C3 T2. pose proof (reachable_Inv _ Hs) as I0.
  destruct (inv_step_ret _ _ _ _ (client_inv_step _ _ (route_client _ M1)) I0 E1) as [I1 _].
  destruct (client_inv_step _ _ C1 s1 I1) as [J1 G1].
  destruct (inv_step_ret _ _ _ _ (inv_step_field_type a1 p1) J1 T1) as [I2 G2].
  destruct (client_inv_step _ _ C2 s2 I2) as [J2 G3].
  destruct (inv_step_ret _ _ _ _ (client_inv_step _ _ (route_client _ M2)) J2 E2) as [I3 G4].
  destruct (client_inv_step _ _ C3 s3 I3) as [J3 G5].
  destruct (inv_step_ret _ _ _ _ (inv_step_field_type a2 p2) J3 T2) as [I4 G6].
  pose proof (field_type_ret _ _ _ _ _ T1) as F1. pose proof (field_type_ret _ _ _ _ _ T2) as F2.
  apply (ext_ftcache _ _ _ G3), (ext_ftcache _ _ _ G4), (ext_ftcache _ _ _ G5) in F1.
  split.
  - intros Hq.
    assert (Hs4 : reachable s4).
    { eapply client_reachable; [|apply cl_api; constructor|exact T2].
      apply (hist_client Loads _ _ s3); [|exact C3].
      eapply client_reachable; [|exact (route_client _ M2)|exact E2].
      apply (hist_client Loads _ _ s2); [|exact C2].
      eapply client_reachable; [|apply cl_api; constructor|exact T1].
      apply (hist_client Loads _ _ s1); [|exact C1].
      exact (client_reachable m1 s0 _ s1 Hs (route_client _ M1) E1). }
    apply (ext_ftcache _ _ _ G6) in F1.
    assert (Ha : addr n1 = addr n2).
    { assert (Hx : exists b, addr n1 = Some b) by (destruct n1 as [[]| | | | |]; try done; by eexists).
      destruct Hx as [b Hx]. rewrite Hx. by rewrite (go_eq_addr _ _ _ Hq Hx). }
    by injection (reachable_own _ Hs4 _ _ _ _ F1 F2 Hn Ha) as _ ->.
  - intros <-.
    destruct (route_handed _ _ _ _ M1 I0 E1) as [X1|[X1|[_ X1]]]; [|done|done].
    destruct (route_handed _ _ _ _ M2 J2 E2) as [X2|[X2|[_ X2]]]; [|done|done].
    apply (canonical_ext _ _ _ _ G1), (canonical_ext _ _ _ _ G2), (canonical_ext _ _ _ _ G3), (canonical_ext _ _ _ _ G4) in X1.
    destruct X1 as (k & a & q & Hx & X1), X2 as (k' & a' & q' & Hx' & X2).
    injection Hx as <- <- <-. injection Hx' as <- <- <-. rewrite X1 in X2. injection X2 as <-.
    rewrite field_type_unfold, F1 in T2. injection T2 as <- _.
    destruct n1 as [[]| | | | |]; done.
Qed.
(** the type of a map field of Message, read twice, and the type of the oneof after it *)
Example C86_field_values_example : exists a1 a2 n1 n2 n3,
  let m1 := node_by_full_name ".pb.Message.map_field" in
  let m2 := node_by_full_name ".pb.Message.payload" in
  let s1 := (m1 demo_world).2 in
  let s2 := (field_type a1 (1, [9; 6]) s1).2 in
  let s3 := (m2 s2).2 in
  route m1 /\ (m1 demo_world).1 = Ret (Some (NAst KField a1 (1, [9; 6]))) /\
  (field_type a1 (1, [9; 6]) s1).1 = Ret (Some n1) /\ of_the_field n1 /\
  route m2 /\ (m2 s2).1 = Ret (Some (NAst KField a2 (1, [10; 6]))) /\
  (field_type a2 (1, [10; 6]) s3).1 = Ret (Some n2) /\
  (m1 s2).1 = Ret (Some (NAst KField a1 (1, [9; 6]))) /\
  (field_type a1 (1, [9; 6]) (m1 s2).2).1 = Ret (Some n3) /\ go_eq n1 n3 /\ ~ go_eq n1 n2.
Proof.
  eexists _, _, _, _, _. cbv zeta. split; [constructor|]. split; [vm_compute; reflexivity|].
  split; [vm_compute; reflexivity|]. split; [exact I|]. split; [constructor|].
  split; [vm_compute; reflexivity|]. split; [vm_compute; reflexivity|]. split; [vm_compute; reflexivity|].
  split; [vm_compute; reflexivity|]. split; [vm_compute; split; reflexivity|].
  vm_compute. intros [H _]. discriminate H.
Qed.

(** If a file is loaded in between, the same name in the same message can give two nodes that are not ==:
    the loaded file may declare the name again. *)
Definition twin_elems : list tree :=
  [ el "one.proto" 1 (DPackage "p") []; msg "one.proto" 2 "M" [];
    msg "one.proto" 3 "H" [ fld "one.proto" 4 "M" "a" 1; fld "one.proto" 5 "M" "b" 2;
      el "one.proto" 6 (DMapField "c" "string" "p.M" 3) [] ] ].
Definition twin_files : list (string * list tree) :=
  (std_files ++ [("one.proto", twin_elems); ("x/one.proto", copy_elems "x/one.proto")])%list.
Definition twin_env := table_env twin_files.
Definition twin_world : registry := (proto twin_env 50 "one.proto" (start twin_files)).2.
Lemma twin_starts : starts twin_files = true.
Proof. vm_compute. reflexivity. Qed.
Lemma twin_env_ok : env_ok twin_env.
Proof. apply table_env_ok. vm_compute. reflexivity. Qed.
Definition twin_before : registry := (field_type 0 (1, [0; 2]) twin_world).2.
Definition twin_after : registry := (proto twin_env 50 "x/one.proto" twin_before).2.
Lemma twin_reachable : reachable twin_world.
Proof.
  unfold twin_world. apply (hist_client Loads _ _ (start twin_files)); [apply (start_history _ _ twin_starts)|].
  by apply cl_proto; [|exact twin_env_ok].
Qed.
Theorem C86_load_in_between_refuted :
  ~ (forall s typ m1 comps1 n1 s1 A (c : R A) s2 m2 comps2 n2 s3 q,
       reachable s -> reads_type s comps1 typ m1 -> m1 s = (Ret (Some n1), s1) ->
       client Loads c -> (c s1).2 = s2 ->
       reads_type s2 comps2 typ m2 -> m2 s2 = (Ret (Some n2), s3) ->
       denotes s comps1 typ q -> denotes s2 comps2 typ q -> go_eq n1 n2).
Proof.
  assert (E : exists n1, (field_type 0 (1, [0; 2]) twin_world).1 = Ret (Some n1) /\
    exists n2, (field_type 1 (1, [1; 2]) twin_after).1 = Ret (Some n2) /\ ~ go_eq n1 n2).
  { eexists. split; [vm_compute; reflexivity|]. eexists. split; [vm_compute; reflexivity|].
    vm_compute. intros [_ H]. discriminate H. }
  assert (Hs2 : reachable twin_after).
  { unfold twin_after, twin_before.
    apply (hist_client Loads _ _ (field_type 0 (1, [0; 2]) twin_world).2); [|by apply cl_proto; [|exact twin_env_ok]].
    apply (hist_client Loads _ _ twin_world); [exact twin_reachable|]. apply cl_api. constructor. }
  assert (A1 : asks twin_world (1, [0; 2]) "M" (field_type 0 (1, [0; 2]))).
  { eapply asks_field; [apply heap_element; [exact (reachable_Inv _ twin_reachable)|vm_compute; reflexivity]|
      reflexivity|vm_compute; reflexivity]. }
  assert (A2 : asks twin_after (1, [1; 2]) "M" (field_type 1 (1, [1; 2]))).
  { eapply asks_field; [apply heap_element; [exact (reachable_Inv _ Hs2)|vm_compute; reflexivity]|
      reflexivity|vm_compute; reflexivity]. }
  assert (Sc1 : in_scope twin_world (1, [0; 2]) ["p"; "H"; "a"]).
  { split; [exists KField, 0%N; split; [constructor|vm_compute; reflexivity]|apply idents; reflexivity]. }
  assert (Sc2 : in_scope twin_after (1, [1; 2]) ["p"; "H"; "b"]).
  { split; [exists KField, 0%N; split; [constructor|vm_compute; reflexivity]|apply idents; reflexivity]. }
  assert (D1 : denotes twin_world ["p"; "H"; "a"] "M" ".p.M").
  { split; [apply (found_names _ _ (reachable_Inv _ twin_reachable)); eexists; vm_compute; reflexivity|].
    right. split; [intros [r H]; discriminate H|]. exists 1. split; [cbn; lia|]. split; [reflexivity|].
    intros j H1 H2. apply (unknown_names _ _ (reachable_Inv _ twin_reachable)).
    assert (Hj : j = 2 \/ j = 3) by (cbn in H2; lia). destruct Hj as [->| ->]; vm_compute; reflexivity. }
  assert (D2 : denotes twin_after ["p"; "H"; "b"] "M" ".p.M").
  { split; [apply (found_names _ _ (reachable_Inv _ Hs2)); eexists; vm_compute; reflexivity|].
    right. split; [intros [r H]; discriminate H|]. exists 1. split; [cbn; lia|]. split; [reflexivity|].
    intros j H1 H2. apply (unknown_names _ _ (reachable_Inv _ Hs2)).
    assert (Hj : j = 2 \/ j = 3) by (cbn in H2; lia). destruct Hj as [->| ->]; vm_compute; reflexivity. }
  destruct E as (n1 & E1 & n2 & E2 & Hne). intros H. apply Hne.
  apply (H twin_world "M" (field_type 0 (1, [0; 2])) ["p"; "H"; "a"] n1 twin_before _
           (proto twin_env 50 "x/one.proto") twin_after (field_type 1 (1, [1; 2])) ["p"; "H"; "b"] n2
           (field_type 1 (1, [1; 2]) twin_after).2 ".p.M"
           twin_reachable (reads_field _ _ _ _ _ A1 Sc1) (by_outcome _ _ E1)
           (cl_proto Loads _ _ _ eq_refl twin_env_ok) eq_refl
           (reads_field _ _ _ _ _ A2 Sc2) (by_outcome _ _ E2) D1 D2).
Qed.

(** M as the type of the field a and p.M as the value type of the map c *)
Example C86_map_example : exists n1 n2 s1 s3,
  reachable twin_world /\ reads_type twin_world ["p"; "H"; "a"] "M" (field_type 0 (1, [0; 2])) /\
  field_type 0 (1, [0; 2]) twin_world = (Ret (Some n1), s1) /\
  reads_type s1 [] "p.M" (just (map_value (1, [2; 2]))) /\
  just (map_value (1, [2; 2])) s1 = (Ret (Some n2), s3) /\ go_eq n1 n2.
Proof.
  assert (Hn : exists n1, (field_type 0 (1, [0; 2]) twin_world).1 = Ret (Some n1) /\
    exists n2, (just (map_value (1, [2; 2])) twin_before).1 = Ret (Some n2) /\ go_eq n1 n2).
  { eexists. split; [vm_compute; reflexivity|]. eexists. split; [vm_compute; reflexivity|]. vm_compute. split; reflexivity. }
  assert (A1 : asks twin_world (1, [0; 2]) "M" (field_type 0 (1, [0; 2]))).
  { eapply asks_field; [apply heap_element; [exact (reachable_Inv _ twin_reachable)|vm_compute; reflexivity]|
      reflexivity|vm_compute; reflexivity]. }
  assert (Sc1 : in_scope twin_world (1, [0; 2]) ["p"; "H"; "a"]).
  { split; [exists KField, 0%N; split; [constructor|vm_compute; reflexivity]|apply idents; reflexivity]. }
  assert (Hb : reachable twin_before).
  { apply (hist_client Loads _ _ twin_world); [exact twin_reachable|]. apply cl_api. constructor. }
  assert (A2 : reads_type twin_before [] "p.M" (just (map_value (1, [2; 2])))).
  { eapply reads_map; [apply heap_element; [exact (reachable_Inv _ Hb)|vm_compute; reflexivity]|reflexivity|reflexivity]. }
  destruct Hn as (n1 & E1 & n2 & E2 & Hg). exists n1, n2. eexists _, _.
  split; [exact twin_reachable|]. split; [exact (reads_field _ _ _ _ _ A1 Sc1)|]. split; [apply by_outcome; exact E1|].
  split; [exact A2|]. split; [apply by_outcome; exact E2|exact Hg].
Qed.
