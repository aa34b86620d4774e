(** * Going up and full names: C88. *)
From Verif Require Export ThmDescend.
From Verif Require Import ThmAccessors Worlds Frame Iterate Demo Identity Nodes LoadFacts Loading Loader Visit Api Routes.
Local Open Scope go_scope.

(** ** The specification *)

(** [m] is what the scope [sc] stands for in [s]: the file of the package, or the message or service whose
    full name is [sc]; an enum or oneof stands in [sc] itself.  Extend blocks have no name. *)
Definition stands_for (s : registry) (sc : string) (m : node) : Prop :=
  match m with
  | NAst KFile _ p => exists pkg, (file_package p s).1 = Ret pkg /\ sc = pkg_scope pkg
  | NAst KMessage _ p => (message_is_extension p s).1 = Ret true \/ node_by_full_name sc s = (Ret (Some m), s)
  | NAst KService _ _ => node_by_full_name sc s = (Ret (Some m), s)
  | NAst KEnum _ p | NAst KField _ p =>
      exists own, (node_name p s).1 = Ret own /\ node_by_full_name (sc +:+ "." +:+ own) s = (Ret (Some m), s)
  | _ => False
  end.

(** ** Proofs *)

Lemma own_data_name d x : own_name d = Some x -> data_name d = x.
Proof. destruct d as [| | | | | |? []| | | | | | | | | | | |]; cbn; congruence. Qed.

(** ** C88 *)

(** If NodeByFullName of a name is a node and its NodeParent is asked for, the last component of the name
    is the name of the node, and what is before it is what the parent stands for. *)
Theorem C88_up s q k a p s1 own {A} (c : R A) m s2 {B} (d : R B) s3 :
  reachable s -> node_by_full_name q s = (Ret (Some (NAst k a p)), s1) -> (node_name p s1).1 = Ret own ->
  client Loads c -> node_parent (NAst k a p) (c s1).2 = (Ret (Some m), s2) -> client Loads d -> (d s2).2 = s3 ->
  calm s3 -> unique_names s3 -> packages_first s3 ->
  exists sc, q = sc +:+ "." +:+ own /\ stands_for s3 sc m.
Proof.
  intros Hs E1 Hown Hc E2 Hd E3 Cm Hu Hp.
  pose proof (reachable_Inv _ Hs) as I.
  assert (R1 : route (node_by_full_name q)) by constructor.
  assert (R2 : route (node_parent (NAst k a p))) by constructor.
  destruct (inv_step_ret _ _ _ _ (client_inv_step _ _ (route_client _ R1)) I E1) as [I1 G1].
  destruct (client_inv_step _ _ Hc s1 I1) as [J1 G2].
  destruct (inv_step_ret _ _ _ _ (client_inv_step _ _ (route_client _ R2)) J1 E2) as [I2 G3].
  destruct (client_inv_step _ _ Hd s2 I2) as [J2 G4]. rewrite E3 in J2, G4.
  destruct (found_is_declared _ _ _ _ I E1) as (path & f & t & k0 & a0 & p0 & [= <- <- <-] & _ & Hl & Hw & Hq & Hk).
  destruct p as [g π]. cbn [fst snd] in *.
  assert (Hl3 : loaded s3 path g f /\ heap s1 !! g = Some f).
  { destruct Hl as (L1 & L2 & L3). split; [split; [|split; [|done]]|by eapply ext_heap_lookup].
    - eapply ext_protos; [exact G4|]. eapply ext_protos; [exact G3|]. eapply ext_protos; [exact G2|]. by eapply ext_protos.
    - eapply ext_heap_lookup; [exact G4|]. eapply ext_heap_lookup; [exact G3|]. eapply ext_heap_lookup; [exact G2|].
      by eapply ext_heap_lookup. }
  destruct Hl3 as [Hl3 Hh1].
  unfold fqn_here in Hq. rewrite Hw in Hq. destruct (own_name (t_data t)) as [x|] eqn:Ho; [|discriminate Hq].
  destruct (visible f π) eqn:Hv; [|discriminate Hq]. injection Hq as Hq.
  assert (x = own) as ->.
  { unfold node_name in Hown. assert (H : heap_at s1 (g, π) = Some t) by (unfold heap_at; cbn [fst snd]; by rewrite Hh1).
    rewrite (rbind_val _ _ _ _ _ (deref_ok _ _ _ H)) in Hown. injection Hown as Hown. rewrite <- Hown. symmetry. by apply own_data_name. }
  exists (scope_at f π). split; [done|].
  destruct π as [|i π].
  { exfalso. destruct Hl as (_ & _ & Hdf). injection Hw as <-. rewrite Hdf in Ho. discriminate Ho. }
  assert (Ew : wrap (VPtr (g, π)) (c s1).2 = (Ret (Some m), s2)).
  { destruct k; try discriminate E2; exact E2. }
  destruct (wrap_ret _ _ _ _ (proj2 J1) Ew) as (p' & k' & a' & t' & [= <-] & -> & Ht' & Hk' & C).
  assert (Hw' : walk f π = Some t').
  { pose proof (ext_heap_lookup _ _ _ _ _ G2 Hh1) as H. unfold heap_at in Ht'. cbn [fst snd] in Ht'. by rewrite H in Ht'. }
  rewrite (visible_tail _ _ _ _ Hw') in Hv. apply andb_true_iff in Hv as [Hv Hcn].
  apply (ext_cache _ _ _ G4) in C.
  assert (H3 : heap_at s3 (g, π) = Some t') by (unfold heap_at; cbn [fst snd]; by rewrite (proj1 (proj2 Hl3))).
  destruct π as [|j π].
  { injection Hw' as <-. pose proof Hl3 as (_ & _ & Hdf). rewrite Hdf in Hk'. injection Hk' as <-.
    cbn [stands_for]. unfold file_package. rewrite (rbind_val _ _ _ _ _ (deref_ok _ _ _ H3)).
    eexists. split; [reflexivity|]. rewrite package_of_the.
    pose proof (loaded_fqn _ _ _ _ [i] (proj1 J2) Hl3 (Hp _ _ _ Hl3)) as F.
    unfold fqn, fqn_here in F. rewrite Hw, Ho in F. cbn [visible walk] in F. rewrite Hdf in F. cbn [andb container] in F.
    injection F as F. cbn [enclosing walk] in F. rewrite Hdf in F. cbn [scope_name app dotted] in F.
    rewrite sapp_nil_r in F. apply sapp_inj_r in F. done. }
  assert (Hne : j :: π <> []) by done.
  rewrite (scope_at_cons _ _ _ _ Hne Hw').
  pose proof (fqn_here_self _ _ _ Hw' Hv) as F.
  assert (Hnc := fun q' Hq' => named_child s3 path g f (j :: π) q' k' a' Cm Hu Hp Hl3 Hq' C).
  assert (Hnm : (node_name (g, j :: π) s3).1 = Ret (data_name (t_data t'))).
  { unfold node_name. by rewrite (rbind_val _ _ _ _ _ (deref_ok _ _ _ H3)). }
  assert (Hext : (message_is_extension (g, j :: π) s3).1 = Ret (match t_data t' with DMessage _ true => true | _ => false end) \/
                 wrap_kind (t_data t') <> Some KMessage).
  { destruct (t_data t') eqn:Hd'; try (right; done). left. unfold message_is_extension.
    rewrite (rbind_val _ _ _ _ _ (deref_ok _ _ _ H3)), Hd'. match goal with |- context[if ?b then _ else _] => by destruct b end. }
  destruct (parent_allowed _ _ _ _ _ J2 H3) as (u & _ & _ & Hal).
  destruct (t_data t') as [x| | | | | |x [] | |x| | |x| |x| | | | |] eqn:Hd'; try discriminate Hcn.
  all: cbn in Hk'; injection Hk' as <-; cbn [own_name scope_name stands_for data_name] in *.
  - by destruct (t_data u).
  - left. destruct Hext as [H|H]; [exact H|done].
  - right. by apply Hnc.
  - exists x. split; [done|]. rewrite sapp_nil_r. by apply Hnc.
  - exists x. split; [done|]. rewrite sapp_nil_r. by apply Hnc.
  - by apply Hnc.
Qed.
(** from the enum value up to its enum: the full name of the value is beside that of the enum *)
Example C88_example : exists a1 a2,
  let v := NAst KEnumValue a1 (1, [1; 12; 6]) in
  let s1 := (node_by_full_name ".pb.Message.INNER_ENUM_VALUE" demo_world).2 in
  let s2 := (node_parent v s1).2 in
  (node_by_full_name ".pb.Message.INNER_ENUM_VALUE" demo_world).1 = Ret (Some v) /\
  (node_name (1, [1; 12; 6]) s1).1 = Ret "INNER_ENUM_VALUE" /\
  (node_parent v s1).1 = Ret (Some (NAst KEnum a2 (1, [12; 6]))) /\
  (node_name (1, [12; 6]) s2).1 = Ret "InnerEnum" /\
  (node_by_full_name ".pb.Message.InnerEnum" s2).1 = Ret (Some (NAst KEnum a2 (1, [12; 6]))) /\
  (calm s2 /\ unique_names s2 /\ packages_first s2).
Proof.
  assert (X : exists a1 a2,
    let v := NAst KEnumValue a1 (1, [1; 12; 6]) in
    let s1 := (node_by_full_name ".pb.Message.INNER_ENUM_VALUE" demo_world).2 in
    let s2 := (node_parent v s1).2 in
    (node_by_full_name ".pb.Message.INNER_ENUM_VALUE" demo_world).1 = Ret (Some v) /\
    (node_name (1, [1; 12; 6]) s1).1 = Ret "INNER_ENUM_VALUE" /\
    (node_parent v s1).1 = Ret (Some (NAst KEnum a2 (1, [12; 6]))) /\
    (node_name (1, [12; 6]) s2).1 = Ret "InnerEnum" /\
    (node_by_full_name ".pb.Message.InnerEnum" s2).1 = Ret (Some (NAst KEnum a2 (1, [12; 6])))).
  { cbv zeta. eexists _, _. split; [vm_compute; reflexivity|]. split; [vm_compute; reflexivity|].
    split; [vm_compute; reflexivity|]. split; [vm_compute; reflexivity|]. vm_compute; reflexivity. }
  destruct X as (a1 & a2 & X1 & X2 & X3 & X4 & X5). exists a1, a2.
  exact (conj X1 (conj X2 (conj X3 (conj X4 (conj X5
    (orderly_down (node_by_full_name ".pb.Message.INNER_ENUM_VALUE") (node_parent (NAst KEnumValue a1 (1, [1; 12; 6])))
      ltac:(apply cl_api; constructor) ltac:(apply cl_api; constructor))))))).
Qed.
