(** * C47-C53: names, positions, comments and descriptions of types and nodes. *)
From Verif Require Export ThmTypes ThmNavigation.

(** ** C47 *)

(** The calls that ask for the type of the element [p] with declared type name [typ], [rep] telling
    whether it is a repeated field. *)
Inductive asks_type (s : registry) : ptr -> string -> bool -> R (option node) -> Prop :=
| at_field a p t name typ seq rep opt :
    element_at s p t -> t_data t = DNormalField name typ seq rep opt ->
    ftcache s !! (a, p) = None -> asks_type s p typ rep (field_type a p)
| at_branch p t name typ seq :
    element_at s p t -> t_data t = DOneOfField name typ seq -> asks_type s p typ false (branch_type p).

(** how the name of a type is written *)
Definition type_text (rep : bool) (name : string) : string :=
  if rep then "repeated " +:+ name else name.

(** asking for the type of an element asks for the element type *)
Lemma asks_type_asks s p typ rep m : Inv s -> asks_type s p typ rep m ->
  exists m', asks s p typ m' /\
    forall n s1, m s = (Ret (Some n), s1) ->
      if rep then exists b o, n = NRepeated b o /\ (m' s).1 = Ret o else (m' s).1 = Ret (Some n).
Proof.
  intros I. destruct 1 as [a p t name typ seq [] opt Ht Hd Hn|p t name typ seq Ht Hd].
  - eexists. split; [eapply asks_repeated; eauto|]. intros n s1 E. cbn.
    unfold rbind. rewrite E. pose proof E as E'. apply field_type_ret in E.
    destruct (inv_step_ret _ _ _ _ (inv_step_field_type a p) I E') as [I1 G].
    destruct (nd_ftcache _ (proj2 I1) _ _ _ E) as (t' & Ht' & Hsh).
    assert (t' = t) as -> by (pose proof (ext_heap_at _ _ _ _ _ G (element_heap _ _ _ Ht)); congruence).
    rewrite Hd in Hsh. destruct Hsh as (b & o & -> & _). eauto.
  - eexists. split; [eapply asks_field; eauto|]. intros n s1 E. by rewrite E.
  - eexists. split; [eapply asks_branch; eauto|]. intros n s1 E. by rewrite E.
Qed.

(** NodeIndex of a message or enum found under a name is that name *)
Lemma found_index s q n : calm s -> found s q n -> message_or_enum n ->
  exists k a p t, n = NAst k a p /\ heap_at s p = Some t /\ scope_of s (VPtr p) = q.
Proof.
  intros Hs Hf Hm. pose proof (reachable_Inv _ (calm_reachable _ Hs)) as I. unfold found in Hf.
  destruct (node_by_full_name q s) as [o s1] eqn:E. cbn in Hf. subst o.
  destruct (found_is_declared _ _ _ _ I E) as (path & f & t & k & a & p & -> & _ & Hl & Ht & Hq & Hk).
  exists k, a, p, t. split; [done|]. split; [destruct Hl as (_ & Hf & _); unfold heap_at; by rewrite Hf|].
  destruct p as [g π]. cbn [fst snd] in *.
  assert (Hks : keeps_scope (t_data t) = true) by (destruct k; try done; destruct (t_data t); done).
  pose proof (index_scope s path g f π q t k a Hs Hl Hq Ht Hks (or_introl Hk)) as Hi.
  unfold node_index in Hi. rewrite rbind_get in Hi. destruct k; try done; by injection Hi.
Qed.

(** The name of a message or enum is its fully qualified name, now and forever. *)
Theorem C47_found_name s q n {A} (c : R A) s1 :
  calm s -> found s q n -> message_or_enum n -> client Loads c -> (c s).2 = s1 ->
  type_name n s1 = (Ret q, s1).
Proof.
  intros Hs Hf Hm Hc E. destruct (found_index _ _ _ Hs Hf Hm) as (k & a & p & t & -> & Ht & Hq).
  pose proof (later_index s c s1 KMessage 0%N p t (calm_reachable _ Hs) Hc E Ht) as Hi.
  unfold node_index in Hi. rewrite !rbind_get in Hi. cbn in Hi. injection Hi as Hi.
  destruct k; try done; cbn [type_name]; rewrite rbind_get; by rewrite Hi, Hq.
Qed.

(** The type of a field or oneof branch is named by what its type name denotes ... *)
Theorem C47_type_name s p typ rep m comps q n s1 {A} (c : R A) s2 :
  calm s -> asks_type s p typ rep m -> in_scope s p comps -> typ ∉ scalar_names ->
  denotes s comps typ q -> m s = (Ret (Some n), s1) -> ~ (exists n', found s q n' /\ is_enum_value n') ->
  client Loads c -> (c s1).2 = s2 ->
  type_name n s2 = (Ret (type_text rep q), s2).
Proof.
  intros Hs Ha Hsc Hb Hd E Hne Hc Ec. pose proof (reachable_Inv _ (calm_reachable _ Hs)) as I.
  assert (Hm : client Loads m).
  { destruct Ha; apply cl_api; constructor. }
  destruct (asks_type_asks _ _ _ _ _ I Ha) as (m' & Ha' & Hn). specialize (Hn _ _ E).
  destruct (asks_spec _ _ _ _ _ I Ha' Hsc Hb) as [(q' & n' & Hq & Hf & E')|[Hno _]]; [|by apply Hno in Hd].
  pose proof (denotes_fun _ _ _ _ _ Hd Hq) as ->.
  assert (Hme : implements_type n' = true -> message_or_enum n').
  { intros Hi. destruct (is_type_cases n' Hi (found_kind _ _ _ I Hf)) as [H|H]; [eauto|done|].
    exfalso. eauto. }
  assert (Hnm : implements_type n' = true -> type_name n' s2 = (Ret q, s2)).
  { intros Hi. eapply (C47_found_name s q n' (rbind m (fun _ => c))); [done|done|by apply Hme| |].
    - by apply cl_bind.
    - unfold rbind. by rewrite E. }
  destruct rep; cbn [type_text].
  - destruct Hn as (b & o & -> & Ho). rewrite E' in Ho. destruct (implements_type n') eqn:Hi; [|done].
    injection Ho as <-. cbn [type_name]. by rewrite (rbind_val _ _ _ _ _ (Hnm eq_refl)).
  - rewrite E' in Hn. destruct (implements_type n'); [|done]. injection Hn as <-. by apply Hnm.
Qed.

(** ... by its type name if that is a scalar ... *)
Theorem C47_scalar_name s p typ rep m n s1 s2 :
  reachable s -> asks_type s p typ rep m -> typ ∈ scalar_names -> m s = (Ret (Some n), s1) ->
  type_name n s2 = (Ret (type_text rep typ), s2).
Proof.
  intros Hs Ha Hb E. destruct (asks_type_asks _ _ _ _ _ (reachable_Inv _ Hs) Ha) as (m' & Ha' & Hn).
  specialize (Hn _ _ E). destruct (C16_scalars_not_shadowed _ _ _ _ Ha' Hb) as (b & E' & <-).
  destruct rep; cbn [type_text].
  - destruct Hn as (x & o & -> & Ho). rewrite E' in Ho. injection Ho as <-. done.
  - rewrite E' in Hn. injection Hn as <-. done.
Qed.

(** ... and "oneof" for a oneof; TypeName panics on the type of a map field. *)
Theorem C47_oneof_and_map s a p t n s1 s2 :
  reachable s -> element_at s p t -> field_type a p s = (Ret (Some n), s1) ->
  match t_data t with
  | DOneof _ => type_name n s2 = (Ret "oneof", s2)
  | DMapField _ _ _ _ => exists msg, type_name n s2 = (Panic msg, s2)
  | _ => True
  end.
Proof.
  intros Hs Ht E. pose proof (reachable_Inv _ Hs) as I.
  destruct (inv_step_ret _ _ _ _ (inv_step_field_type a p) I E) as [I1 G].
  apply field_type_ret in E. destruct (nd_ftcache _ (proj2 I1) _ _ _ E) as (t' & Ht' & Hsh).
  assert (t' = t) as -> by (pose proof (ext_heap_at _ _ _ _ _ G (element_heap _ _ _ Ht)); congruence).
  destruct (t_data t); try done; destruct Hsh as [b ->]; [done|]. by eexists.
Qed.


(** TypeName panics on enum values (which Type accepts as types) and on Repeated types whose element
    type could not be resolved: the last two are refutations of totality. *)
Theorem C47_total_refuted :
  (exists s p typ m n msg, calm s /\ asks_type s p typ false m /\ (m s).1 = Ret (Some n) /\
     (type_name n (m s).2).1 = Panic msg) /\
  (exists s p typ m n msg, calm s /\ asks_type s p typ true m /\ (m s).1 = Ret (Some n) /\
     (type_name n (m s).2).1 = Panic msg).
Proof.
  split.
  - exists clash_world, (1, [0; 5]), "VAL", (field_type 0 (1, [0; 5])). eexists _, _.
    split; [apply world_calm; vm_compute; reflexivity|].
    split; [eapply at_field; [apply clash_element; vm_compute; reflexivity|reflexivity|vm_compute; reflexivity]|].
    split; [vm_compute; reflexivity|vm_compute; reflexivity].
  - exists lost_world, (1, [0; 0]), "Lost", (field_type 0 (1, [0; 0])). eexists _, _.
    split; [apply world_calm; vm_compute; reflexivity|].
    split; [eapply at_field; [apply lost_element; vm_compute; reflexivity|reflexivity|vm_compute; reflexivity]|].
    split; [vm_compute; reflexivity|vm_compute; reflexivity].
Qed.
(** [inner_msg] of the demo schema: declared as InnerMessage, resolved in its own message *)
Example C47_example :
  asks_type demo_world (1, [6; 6]) "InnerMessage" false (field_type 0 (1, [6; 6])) /\
  in_scope demo_world (1, [6; 6]) ["pb"; "Message"; "inner_msg"] /\
  denotes demo_world ["pb"; "Message"; "inner_msg"] "InnerMessage" ".pb.Message.InnerMessage" /\
  (exists n, (field_type 0 (1, [6; 6]) demo_world).1 = Ret (Some n)) /\
  asks_type demo_world (1, [3; 6]) "bool" true (field_type 0 (1, [3; 6])).
Proof.
  assert (Hf : found demo_world ".pb.Message.InnerMessage" (NAst KMessage 1 (1, [11; 6])))
    by (unfold found; vm_compute; reflexivity).
  split; [eapply at_field; [apply demo_element; vm_compute; reflexivity|reflexivity|vm_compute; reflexivity]|].
  split. { split; [exists KField, 0%N; split; [repeat constructor|vm_compute; reflexivity]|].
           apply idents; reflexivity. }
  split. { split; [eexists; exact Hf|]. right. split; [intros [r ?]; discriminate|]. exists 2.
    split; [cbn; lia|]. split; [reflexivity|]. intros j H1 H2. cbn in H2.
    apply unknown_names; [apply reachable_Inv, demo_reachable|].
    assert (j = 3) as -> by lia; vm_compute; reflexivity. }
  split; [eexists; vm_compute; reflexivity|].
  eapply at_field; [apply demo_element; vm_compute; reflexivity|reflexivity|vm_compute; reflexivity].
Qed.

(** ** C48 *)

(** TypeIsDefined never panics and changes nothing; on a message or enum obtained from the registry
    at any time it says whether NodeByFullName now gives that very node. *)
Theorem C48_exact m s n s1 {A} (c : R A) s2 q :
  reachable s -> route m -> m s = (Ret (Some n), s1) -> message_or_enum n ->
  client Loads c -> (c s1).2 = s2 ->
  exists b, type_is_defined n q s2 = (Ret b, s2) /\ (b = true <-> found s2 q n).
Proof.
  intros Hs Hm E Hme Hc E2. pose proof (reachable_Inv _ Hs) as I0.
  destruct (inv_step_ret _ _ _ _ (client_inv_step _ _ (route_client _ Hm)) I0 E) as [I1 G1].
  destruct (client_inv_step _ _ Hc s1 I1) as [I2 G2]. rewrite E2 in I2, G2.
  destruct (route_handed _ _ _ _ Hm I0 E) as [C1|[C1|[_ C1]]].
  2,3: by destruct n as [[]| | | | |].
  apply (canonical_ext _ _ _ _ G2) in C1. destruct C1 as (k & a & p & -> & C1).
  exists (bool_decide (names s2 !! q = Some p)). split.
  { unfold type_is_defined. rewrite rbind_get. destruct k; done. }
  rewrite bool_decide_eq_true. split.
  - intros Hq. unfold found, node_by_full_name. rewrite rbind_get, Hq. by rewrite (wrap_hit _ _ _ C1).
  - unfold found. destruct (node_by_full_name q s2) as [o s3] eqn:Eq. cbn. intros ->.
    by destruct (found_is_declared _ _ _ _ I2 Eq) as (? & ? & ? & k' & a' & p' & [= <- <- <-] & H & _).
Qed.
Theorem C48_other_types s n q : ~ message_or_enum n -> type_is_defined n q s = (Ret false, s).
Proof. intros H. unfold type_is_defined. rewrite rbind_get. destruct n as [[]| | | | |]; try done; by destruct H. Qed.
(** The four predicates for well known types. *)
Theorem C48_well_known m s n s1 {A} (c : R A) s2 pred q :
  reachable s -> route m -> m s = (Ret (Some n), s1) -> client Loads c -> (c s1).2 = s2 ->
  (pred, q) ∈ [(type_is_any, ".google.protobuf.Any"); (type_is_empty, ".google.protobuf.Empty");
               (type_is_timestamp, ".google.protobuf.Timestamp");
               (type_is_duration, ".google.protobuf.Duration")] ->
  exists b, pred n s2 = (Ret b, s2) /\ (b = true <-> message_or_enum n /\ found s2 q n).
Proof.
  intros Hs Hm E Hc E2 Hp.
  assert (pred n s2 = type_is_defined n q s2) as ->.
  { rewrite !elem_of_cons, elem_of_nil in Hp. by destruct Hp as [[= -> ->]|[[= -> ->]|[[= -> ->]|[[= -> ->]|[]]]]]. }
  assert (Hd : message_or_enum n \/ ~ message_or_enum n).
  { destruct n as [[]| | | | |]; cbn; try (by left); right; intros []. }
  destruct Hd as [Hd|Hd].
  - destruct (C48_exact m s n s1 c s2 q) as (b & Hb & Hi); try done. exists b. split; [done|]. rewrite Hi. tauto.
  - exists false. rewrite (C48_other_types _ _ _ Hd). split; [done|]. split; [done|]. tauto.
Qed.
Example C48_example :
  exists n, (field_type 0 (1, [4; 6]) demo_world).1 = Ret (Some n) /\ message_or_enum n /\
    (type_is_any n (field_type 0 (1, [4; 6]) demo_world).2).1 = Ret true /\
    (type_is_empty n (field_type 0 (1, [4; 6]) demo_world).2).1 = Ret false.
Proof.
  eexists. split; [vm_compute; reflexivity|]. split; [exact I|]. split; [vm_compute; reflexivity|vm_compute; reflexivity].
Qed.

(** ** C49 *)

(** The value type of a map: a scalar is C16; any other name is only looked up at the root, and
    Value panics if no message or enum has that name. *)
Theorem C49_map_value s p t name kt vt num :
  reachable s -> element_at s p t -> t_data t = DMapField name kt vt num ->
  vt ∉ scalar_names -> ~ absolute vt ->
  (forall n, found s ("." +:+ vt) n -> message_or_enum n -> (map_value p s).1 = Ret n) /\
  ((forall n, found s ("." +:+ vt) n -> ~ message_or_enum n) -> exists msg, (map_value p s).1 = Panic msg).
Proof.
  intros Hs Ht%element_heap Hd Hb Ha. pose proof (reachable_Inv _ Hs) as I.
  unfold map_value. rewrite (rbind_val _ _ _ _ _ (deref_ok _ _ _ Ht)), Hd, (builtin_none _ Hb).
  apply prefix_dot_false in Ha. rewrite Ha. cbn [negb]. rewrite rbind_get.
  destruct (names s !! ("." +:+ vt)) as [obj|] eqn:Hn.
  - destruct (lookup_named _ _ _ I Hn) as (f & u & k & a & s' & Hf & _ & Hw & Hk & E & _).
    assert (Hu : heap_at s obj = Some u) by (unfold heap_at; by rewrite Hf).
    rewrite (rbind_val _ _ _ _ _ (deref_ok _ _ _ Hu)).
    assert (Ew : wrap (VPtr obj) s = (Ret (Some (NAst k a obj)), s')).
    { unfold node_by_full_name in E. by rewrite rbind_get, Hn in E. }
    assert (Hfd : found s ("." +:+ vt) (NAst k a obj)) by (unfold found; by rewrite E).
    split.
    + intros n Hn' Hme. rewrite (found_fun _ _ _ _ Hfd Hn') in *.
      destruct (t_data u); try discriminate Hk; injection Hk as <-; try done;
        unfold wrap_as; by rewrite (rbind_val _ _ _ _ _ Ew).
    + intros Hno. specialize (Hno _ Hfd).
      destruct (t_data u); try discriminate Hk; injection Hk as <-; try (eexists; reflexivity); exfalso; by apply Hno.
  - assert (Hno : forall n, ~ found s ("." +:+ vt) n) by (by apply unknown_names).
    split; [|intros _; eexists; reflexivity]. intros n Hf. exfalso. by apply (Hno n).
Qed.
Lemma fqn_here_nonempty f π : fqn_here f π <> Some "".
Proof.
  unfold fqn_here. destruct (walk f π) as [t|]; [|done]. destruct (own_name (t_data t)); [|done].
  destruct (visible f π); [|done]. intros [= H]. by destruct (scope_at f π).
Qed.
(** A value type written with a leading dot always panics. *)
Theorem C49_absolute_panics s p t name kt vt num :
  reachable s -> element_at s p t -> t_data t = DMapField name kt vt num -> absolute vt ->
  exists msg, (map_value p s).1 = Panic msg.
Proof.
  intros Hs Ht%element_heap Hd [r ->]. pose proof (reachable_Inv _ Hs) as I.
  unfold map_value. rewrite (rbind_val _ _ _ _ _ (deref_ok _ _ _ Ht)), Hd.
  assert (String "." r ∉ scalar_names) as Hb.
  { unfold scalar_names. rewrite !elem_of_cons, elem_of_nil. naive_solver discriminate. }
  rewrite (builtin_none _ Hb).
  assert (has_prefix (String "." r) "." = true) as -> by (apply prefix_dot; by eexists).
  cbn [negb]. rewrite rbind_get. destruct (names s !! "") as [p'|] eqn:Hq; [|eexists; reflexivity].
  exfalso. destruct (sc_names _ (proj1 I) _ _ Hq) as (f & Hf & Hfq). by apply fqn_here_nonempty in Hfq.
Qed.
(** So Value differs from the type of a plain field with the same type name at the same place. *)
Definition maps_f := "maps.proto".
Definition maps_files : list (string * list tree) :=
  (std_files ++
   [ (maps_f, [ el maps_f 1 (DPackage "p") []; msg maps_f 2 "V" [];
                msg maps_f 3 "M" [ fld maps_f 4 "V" "f" 1;
                                   el maps_f 5 (DMapField "m" "string" "V" 2) [];
                                   fld maps_f 6 ".p.V" "g" 3;
                                   el maps_f 7 (DMapField "n" "string" ".p.V" 4) [];
                                   el maps_f 8 (DMapField "o" "string" "p.V" 5) [] ] ]) ])%list.
Definition maps_world : registry := world maps_files [maps_f].
Lemma maps_reachable : reachable maps_world.
Proof. apply world_reachable. vm_compute. reflexivity. Qed.
Lemma maps_element p t : heap_at maps_world p = Some t -> element_at maps_world p t.
Proof. apply heap_element, reachable_Inv, maps_reachable. Qed.
Theorem C49_same_as_field_refuted : forall vt pf pm,
  (vt, pf, pm) ∈ [("V", (1, [0; 2]), (1, [1; 2])); (".p.V", (1, [2; 2]), (1, [3; 2]))] ->
  exists s tf tm n msg, reachable s /\ element_at s pf tf /\ element_at s pm tm /\
    (exists num, t_data tf = DNormalField (data_name (t_data tf)) vt num false false) /\
    (exists num, t_data tm = DMapField (data_name (t_data tm)) "string" vt num) /\
    (field_type 0 pf s).1 = Ret (Some n) /\ message_or_enum n /\ (map_value pm s).1 = Panic msg.
Proof.
  intros vt pf pm H. exists maps_world. rewrite !elem_of_cons, elem_of_nil in H.
  destruct H as [[= -> -> ->]|[[= -> -> ->]|[]]]; eexists _, _, _, _; (split; [apply maps_reachable|]);
    (split; [apply maps_element; vm_compute; reflexivity|]);
    (split; [apply maps_element; vm_compute; reflexivity|]);
    (split; [eexists; reflexivity|]); (split; [eexists; reflexivity|]);
    (split; [vm_compute; reflexivity|]); (split; [exact I|]); vm_compute; reflexivity.
Qed.
Example C49_example :
  exists t n, element_at maps_world (1, [4; 2]) t /\ t_data t = DMapField "o" "string" "p.V" 5 /\
    ~ absolute "p.V" /\ found maps_world ("." +:+ "p.V") n /\ message_or_enum n.
Proof.
  eexists _, _. split; [apply maps_element; vm_compute; reflexivity|]. split; [reflexivity|].
  split; [intros [r ?]; discriminate|]. split; [unfold found; vm_compute; reflexivity|exact I].
Qed.
