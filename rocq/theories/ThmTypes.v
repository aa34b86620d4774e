(** * Theorems on types: C14 - C18, C22, C46. *)
From Verif Require Export ThmIdentity TypeUse.

Lemma idents l : forallb (fun c => negb (String.eqb c "") && no_dot c) l = true -> Forall ident l.
Proof.
  intros H. apply Forall_forall. intros c Hc. rewrite List.forallb_forall in H.
  apply H in Hc. apply andb_prop in Hc as [H1 H2]. split; [|done].
  intros ->. discriminate H1.
Qed.

(** ** C14 *)

(** A relative type name denotes the declaration of that name in the innermost scope that has one:
    no scope between the place of use and [take k comps] declares it. *)
Theorem C14_innermost_scope s p typ m comps k n :
  reachable s -> asks s p typ m -> in_scope s p comps ->
  typ ∉ scalar_names -> ~ absolute typ ->
  k <= length comps -> found s (dotted (take k comps) +:+ "." +:+ typ) n ->
  (forall j, k < j -> j <= length comps -> unknown s (dotted (take j comps) +:+ "." +:+ typ)) ->
  message_or_enum n -> (m s).1 = Ret (Some n).
Proof.
  intros Hs Ha Hsc Hb Habs Hk Hf Hin Hn. pose proof (reachable_Inv _ Hs) as I.
  assert (Hd : denotes s comps typ (dotted (take k comps) +:+ "." +:+ typ)).
  { split; [eauto|]. right. split; [done|]. exists k. done. }
  destruct (asks_spec _ _ _ _ _ I Ha Hsc Hb) as [(q & n' & Hq & Hf' & ->)|[Hno _]].
  - pose proof (denotes_fun _ _ _ _ _ Hd Hq) as ->.
    rewrite (found_fun _ _ _ _ Hf Hf') in *. by destruct n as [[]| | | | |].
  - by apply Hno in Hd.
Qed.

(** ... and it is unresolved only if no enclosing scope, the root included, declares it. *)
Theorem C14_unresolved_only_if_undeclared s p typ m comps :
  reachable s -> asks s p typ m -> in_scope s p comps ->
  typ ∉ scalar_names -> ~ absolute typ ->
  (m s).1 = Ret None <->
  forall j, j <= length comps -> unknown s (dotted (take j comps) +:+ "." +:+ typ).
Proof.
  intros Hs Ha Hsc Hb Habs. pose proof (reachable_Inv _ Hs) as I.
  destruct (asks_spec _ _ _ _ _ I Ha Hsc Hb) as [(q & n & Hq & Hf & ->)|[Hno ->]].
  - split; [by destruct (implements_type n)|]. intros H. exfalso.
    destruct Hq as [_ [[? _]|(_ & k & Hk & -> & _)]]; [done|]. exact (H k Hk n Hf).
  - split; [|done]. intros _ j Hj. remember (length comps - j) as i eqn:Hi.
    revert j Hj Hi. induction i as [i IH] using lt_wf_ind. intros j Hj -> n Hf. apply (Hno (dotted (take j comps) +:+ "." +:+ typ)). split; [eauto|].
    right. split; [done|]. exists j. split; [done|]. split; [done|]. intros j' Hj1 Hj2.
    apply (IH (length comps - j')); [lia|done|done].
Qed.

(** InnerMessage is found two scopes out (k = 2 of 3), google.protobuf.Any at the root (k = 0) *)
Example C14_example :
  let s := demo_world in
  asks s (1, [6; 6]) "InnerMessage" (field_type 0 (1, [6; 6])) /\
  in_scope s (1, [6; 6]) ["pb"; "Message"; "inner_msg"] /\
  (exists n, found s ".pb.Message.InnerMessage" n /\ message_or_enum n) /\
  unknown s ".pb.Message.inner_msg.InnerMessage" /\
  asks s (1, [4; 6]) "google.protobuf.Any" (field_type 0 (1, [4; 6])) /\
  in_scope s (1, [4; 6]) ["pb"; "Message"; "any"] /\
  (exists n, found s ".google.protobuf.Any" n /\ message_or_enum n).
Proof.
  split; [eapply asks_field; [apply demo_element; vm_compute; reflexivity|reflexivity|vm_compute; reflexivity]|].
  split; [split; [exists KField, 0%N; split; [constructor|vm_compute; reflexivity]|apply idents; reflexivity]|].
  split; [eexists; split; [unfold found; vm_compute; reflexivity|exact I]|].
  split; [apply unknown_names; [apply reachable_Inv, demo_reachable|vm_compute; reflexivity]|].
  split; [eapply asks_field; [apply demo_element; vm_compute; reflexivity|reflexivity|vm_compute; reflexivity]|].
  split; [split; [exists KField, 0%N; split; [constructor|vm_compute; reflexivity]|apply idents; reflexivity]|].
  eexists; split; [unfold found; vm_compute; reflexivity|exact I].
Qed.

(** ** C15 *)

(** A name with a leading dot is looked up as it is, whatever the scope. *)
Theorem C15_absolute_name s p typ m comps n :
  reachable s -> asks s p typ m -> in_scope s p comps -> absolute typ ->
  found s typ n -> message_or_enum n -> (m s).1 = Ret (Some n).
Proof.
  intros Hs Ha Hsc Habs Hf Hn. pose proof (reachable_Inv _ Hs) as I.
  assert (Hb : typ ∉ scalar_names).
  { destruct Habs as [r ->]. unfold scalar_names. rewrite !elem_of_cons, elem_of_nil. naive_solver. }
  assert (Hd : denotes s comps typ typ) by (split; [eauto|by left]).
  destruct (asks_spec _ _ _ _ _ I Ha Hsc Hb) as [(q & n' & Hq & Hf' & ->)|[Hno _]].
  - pose proof (denotes_fun _ _ _ _ _ Hd Hq) as ->.
    rewrite (found_fun _ _ _ _ Hf Hf') in *. by destruct n as [[]| | | | |].
  - by apply Hno in Hd.
Qed.
Theorem C15_absolute_unknown s p typ m comps :
  reachable s -> asks s p typ m -> in_scope s p comps -> absolute typ ->
  (m s).1 = Ret None <-> unknown s typ.
Proof.
  intros Hs Ha Hsc Habs. pose proof (reachable_Inv _ Hs) as I.
  assert (Hb : typ ∉ scalar_names).
  { destruct Habs as [r ->]. unfold scalar_names. rewrite !elem_of_cons, elem_of_nil. naive_solver. }
  destruct (asks_spec _ _ _ _ _ I Ha Hsc Hb) as [(q & n' & Hq & Hf' & ->)|[Hno ->]].
  - split; [by destruct (implements_type n')|]. intros H. exfalso.
    destruct Hq as [_ [[_ ->]|[? _]]]; [|done]. exact (H n' Hf').
  - split; [|done]. intros _ n Hf. apply (Hno typ). split; [eauto|by left].
Qed.

Definition abs_f := "abs.proto".
Definition abs_files : list (string * list tree) :=
  (std_files ++
   [ (abs_f, [ el abs_f 1 (DPackage "a.b") [];
               msg abs_f 2 "M" [ fld abs_f 3 ".a.b.M" "self" 1; fld abs_f 4 ".M" "none" 2;
                                 msg abs_f 5 "M" []; fld abs_f 6 "M" "inner" 3 ] ]) ])%list.
Example C15_example :
  let s := world abs_files [abs_f] in
  reachable s /\ in_scope s (1, [0; 1]) ["a"; "b"; "M"; "self"] /\
  absolute ".a.b.M" /\ found s ".a.b.M" (NAst KMessage 1 (1, [1])) /\
  (field_type 7 (1, [0; 1]) s).1 = Ret (Some (NAst KMessage 1 (1, [1]))) /\
  (field_type 7 (1, [1; 1]) s).1 = Ret None /\
  (field_type 7 (1, [3; 1]) s).1 = Ret (Some (NAst KMessage 1 (1, [2; 1]))).
Proof.
  split; [apply world_reachable; vm_compute; reflexivity|].
  split. { split; [exists KField, 0%N; split; [constructor|vm_compute; reflexivity]|].
           apply idents; reflexivity. }
  split; [eexists; reflexivity|]. split; [unfold found; vm_compute; reflexivity|].
  split; [vm_compute; reflexivity|]. split; [vm_compute; reflexivity|vm_compute; reflexivity].
Qed.

(** ** C16 *)

(** A scalar type name denotes the builtin type of that name in every registry whatsoever. *)
Theorem C16_scalars_not_shadowed s p typ m :
  asks s p typ m -> typ ∈ scalar_names ->
  exists b, (m s).1 = Ret (Some (NBuiltin b)) /\ builtin_string b = typ.
Proof.
  intros Ha Hb. destruct (builtin_some _ Hb) as (b & Hbt & Hs). exists b. split; [|done].
  pose proof (asks_outcome _ _ _ _ Ha) as Ho.
  assert (G : get_type_body p typ s = (Ret (Some (NBuiltin b)), s)) by (unfold get_type_body; by rewrite Hbt).
  rewrite G in Ho. by destruct Ho as [Ho|Ho].
Qed.
Theorem C16_map_value_not_shadowed s p t name kt typ seq :
  element_at s p t -> t_data t = DMapField name kt typ seq -> typ ∈ scalar_names ->
  exists b, map_value p s = (Ret (NBuiltin b), s) /\ builtin_string b = typ.
Proof.
  intros Ht%element_heap Hd Hb. destruct (builtin_some _ Hb) as (b & Hbt & Hs). exists b.
  split; [|done]. unfold map_value. rewrite (rbind_val _ _ _ _ _ (deref_ok _ _ _ Ht)), Hd. by rewrite Hbt.
Qed.
(** The type of a repeated field is a Repeated, that of a oneof or map field a OneOf or Map, of other
    fields neither. *)
Theorem C16_repeated_type s a p t name typ seq rep opt n s1 :
  reachable s -> element_at s p t -> t_data t = DNormalField name typ seq rep opt ->
  field_type a p s = (Ret (Some n), s1) -> (exists b e, n = NRepeated b e) <-> rep = true.
Proof.
  intros Hs Ht%element_heap Hd E. pose proof (reachable_Inv _ Hs) as I.
  destruct (inv_step_ret _ _ _ _ (inv_step_field_type a p) I E) as [I1 G].
  apply field_type_ret in E. destruct (nd_ftcache _ (proj2 I1) _ _ _ E) as (t' & Ht' & Hsh).
  assert (t' = t) as -> by (pose proof (ext_heap_at _ _ _ _ _ G Ht); congruence).
  rewrite Hd in Hsh. destruct rep.
  - destruct Hsh as (b & e & -> & _). split; [done|]. eauto.
  - split; [|done]. intros (b & e & ->). destruct Hsh as [[? ?]|[(? & ? & ? & ? & _) _]]; done.
Qed.

(** a message called string does not shadow the builtin *)
Definition shadow_f := "shadow.proto".
Definition shadow_files : list (string * list tree) :=
  (std_files ++
   [ (shadow_f, [ el shadow_f 1 (DPackage "p") []; msg shadow_f 2 "string" [];
                  msg shadow_f 3 "M" [ fld shadow_f 4 "string" "f" 1; rfld shadow_f 5 "string" "g" 2;
                                       el shadow_f 6 (DMapField "m" "string" "string" 3) [] ] ]) ])%list.
Example C16_example :
  let s := world shadow_files [shadow_f] in
  asks s (1, [0; 2]) "string" (field_type 0 (1, [0; 2])) /\
  asks s (1, [1; 2]) "string" (ty <~ field_type 0 (1, [1; 2]) ;; ret (element_type ty)) /\
  (exists n, found s ".p.string" n) /\
  (field_type 0 (1, [0; 2]) s).1 = Ret (Some (NBuiltin BString)) /\
  (map_value (1, [2; 2]) s).1 = Ret (NBuiltin BString).
Proof.
  assert (Hs : reachable (world shadow_files [shadow_f])) by (apply world_reachable; vm_compute; reflexivity).
  assert (He : forall p t, heap_at (world shadow_files [shadow_f]) p = Some t -> element_at (world shadow_files [shadow_f]) p t)
    by (intros p t; apply heap_element, reachable_Inv, Hs).
  split; [eapply asks_field; [apply He; vm_compute; reflexivity|reflexivity|vm_compute; reflexivity]|].
  split; [eapply asks_repeated; [apply He; vm_compute; reflexivity|reflexivity|vm_compute; reflexivity]|].
  split; [eexists; unfold found; vm_compute; reflexivity|]. split; [vm_compute; reflexivity|vm_compute; reflexivity].
Qed.

(** ** C17 *)

(** The complete answer for names that are not scalars: with [q] the declaration the name denotes,
    the type is the node of [q] if [q] is a message or an enum (or an enum value), the call panics if
    [q] is anything else, and nil is returned if the name denotes nothing. *)
Theorem C17_type_of_field s p typ m comps q n :
  reachable s -> asks s p typ m -> in_scope s p comps -> typ ∉ scalar_names ->
  denotes s comps typ q -> found s q n ->
  (message_or_enum n \/ is_enum_value n -> (m s).1 = Ret (Some n)) /\
  (~ (message_or_enum n \/ is_enum_value n) ->
     exists k a pq t, n = NAst k a pq /\ element_at s pq t /\
       (m s).1 = Panic (PError (ENew ("node " +:+ go_proto (t_data t) +:+ " does not represent a type")))).
Proof.
  intros Hs Ha Hsc Hb Hd Hf. pose proof (reachable_Inv _ Hs) as I.
  destruct (asks_spec _ _ _ _ _ I Ha Hsc Hb) as [(q' & n' & Hq & Hf' & E)|[Hno _]]; [|by apply Hno in Hd].
  pose proof (denotes_fun _ _ _ _ _ Hd Hq) as ->. rewrite (found_fun _ _ _ _ Hf Hf') in *. rewrite E.
  split.
  - intros [H|H]; destruct n as [[]| | | | |]; try done.
  - intros H. destruct (implements_type n) eqn:Hi.
    + exfalso. apply H. apply is_type_cases; [done|by eapply found_kind|eauto].
    + destruct (node_by_full_name q s) as [o s1] eqn:En. unfold found in Hf. rewrite En in Hf. cbn in Hf. subst o.
      destruct (found_is_declared _ _ _ _ I En) as (path & f & t & k & a & pq & -> & _ & Hl & Hw & _).
      exists k, a, pq, t. split; [done|]. split; [by exists path, f|]. unfold no_type, not_a_type, go_visitee.
      unfold heap_at. destruct Hl as (_ & -> & _). by rewrite Hw.
Qed.

(** Input and output of methods: the message, or a panic. *)
Inductive asks_method (s : registry) : ptr -> string -> bool -> R (bool * node) -> Prop :=
| asks_input p t name req sreq rett sret :
    element_at s p t -> t_data t = DRPC name req sreq rett sret -> asks_method s p req sreq (method_input p)
| asks_output p t name req sreq rett sret :
    element_at s p t -> t_data t = DRPC name req sreq rett sret -> asks_method s p rett sret (method_output p).

Lemma asks_method_spec s p typ b m : asks_method s p typ b m ->
  (m s).1 = match (get_type_body p typ s).1 with
            | Ret (Some (NAst KMessage a q)) => Ret (b, NAst KMessage a q)
            | Ret o => Panic (conversion "core.Type" (go_any o) "*core.Message")
            | Panic e => Panic e
            | Diverge => Diverge
            end.
Proof.
  assert (H : forall o (s1 : registry),
    ((x <~ assert_kind "core.Type" KMessage o ;; ret (b, x)) s1).1 =
    match o with Some (NAst KMessage a q) => Ret (b, NAst KMessage a q) | _ => Panic (conversion "core.Type" (go_any o) "*core.Message") end).
  { intros o s1. by destruct o as [[[]| | | | |]|]. }
  destruct 1 as [p t name req sreq rett sret Ht%element_heap Hd|p t name req sreq rett sret Ht%element_heap Hd];
    unfold method_input, method_output; rewrite (rbind_val _ _ _ _ _ (deref_ok _ _ _ Ht)), Hd;
    unfold rbind at 1; rewrite (get_type_plain s p t _ Ht) by (by rewrite Hd);
    match goal with |- context [get_type_body p ?ty s] => destruct (get_type_body p ty s) as [[o|e|] s1] end;
    try done; cbn [fst]; rewrite H; by destruct o as [[[]| | | | |]|].
Qed.

Theorem C17_method_message s p typ b m comps q n :
  reachable s -> asks_method s p typ b m -> in_scope s p comps -> typ ∉ scalar_names ->
  denotes s comps typ q -> found s q n ->
  match n with
  | NAst KMessage _ _ => (m s).1 = Ret (b, n)
  | _ => exists msg, (m s).1 = Panic msg
  end.
Proof.
  intros Hs Ha Hsc Hb Hd Hf. pose proof (reachable_Inv _ Hs) as I. rewrite (asks_method_spec _ _ _ _ _ Ha).
  apply in_scope_of in Hsc as [Hsc Hid].
  destruct (get_type_body_spec s p typ comps I Hsc Hid Hb) as [(q' & n' & s1 & Hq & E & ->)|[Hn _]];
    [|by apply Hn in Hd].
  pose proof (denotes_fun _ _ _ _ _ Hd Hq) as ->.
  assert (n' = n) as ->. { unfold found in Hf. rewrite E in Hf. by injection Hf. }
  cbn [fst]. destruct n as [[]| | | | |]; cbn; eauto.
Qed.

Example C17_example :
  asks_method demo_world (1, [1; 7]) "Message.InnerMessage" false (method_output (1, [1; 7])) /\
  in_scope demo_world (1, [1; 7]) ["pb"; "Service"; "MethodUU"] /\
  denotes demo_world ["pb"; "Service"; "MethodUU"] "Message.InnerMessage" ".pb.Message.InnerMessage" /\
  found demo_world ".pb.Message.InnerMessage" (NAst KMessage 1 (1, [11; 6])).
Proof.
  assert (Hf : found demo_world ".pb.Message.InnerMessage" (NAst KMessage 1 (1, [11; 6])))
    by (unfold found; vm_compute; reflexivity).
  split; [eapply asks_output; [apply demo_element; vm_compute; reflexivity|reflexivity]|].
  split. { split; [exists KMethod, 0%N; split; [repeat constructor|vm_compute; reflexivity]|].
           apply idents; reflexivity. }
  split; [|exact Hf]. split; [eexists; exact Hf|]. right. split; [intros [r ?]; discriminate|]. exists 1.
  split; [cbn; lia|]. split; [reflexivity|]. intros j H1 H2. cbn in H2.
  apply unknown_names; [apply reachable_Inv, demo_reachable|].
  assert (j = 2 \/ j = 3) as [-> | ->] by lia; vm_compute; reflexivity.
Qed.

(** protobuf itself skips declarations that are not types; here a field with the name of its own type
    makes Type panic although the type exists. *)
Definition clash_f := "clash.proto".
Definition clash_files : list (string * list tree) :=
  (std_files ++
   [ (clash_f, [ el clash_f 1 (DPackage "p") []; msg clash_f 2 "Foo" [];
                 msg clash_f 3 "M" [ fld clash_f 4 "Foo" "Foo" 1 ];
                 el clash_f 5 (DService "S") [ el clash_f 6 (DRPC "Foo" "Foo" false "Foo" false) [] ];
                 el clash_f 7 (DEnum "E") [ el clash_f 8 (DEnumField "VAL" 0) [] ];
                 msg clash_f 9 "N" [ fld clash_f 10 "VAL" "v" 1 ] ]) ])%list.
Definition clash_world : registry := world clash_files [clash_f].
Lemma clash_reachable : reachable clash_world.
Proof. apply world_reachable. vm_compute. reflexivity. Qed.
Lemma clash_element p t : heap_at clash_world p = Some t -> element_at clash_world p t.
Proof. apply heap_element, reachable_Inv, clash_reachable. Qed.

Theorem C17_name_clash_refuted :
  exists s p typ m n msg, reachable s /\ asks s p typ m /\
    in_scope s p ["p"; "M"; "Foo"] /\ found s ".p.Foo" n /\ message_or_enum n /\ typ = "Foo" /\
    (m s).1 = Panic msg /\
    (exists p' msg', (method_input p' s).1 = Panic msg').
Proof.
  exists clash_world, (1, [0; 2]), "Foo", (field_type 0 (1, [0; 2])). eexists _, _.
  split; [apply clash_reachable|].
  split; [eapply asks_field; [apply clash_element; vm_compute; reflexivity|reflexivity|vm_compute; reflexivity]|].
  split. { split; [exists KField, 0%N; split; [constructor|vm_compute; reflexivity]|].
           apply idents; reflexivity. }
  split; [unfold found; vm_compute; reflexivity|]. split; [exact I|]. split; [reflexivity|].
  split; [vm_compute; reflexivity|]. exists (1, [0; 3]). eexists. vm_compute. reflexivity.
Qed.
(** An enum value is accepted as the type of a field. *)
Theorem C17_enum_value_refuted :
  exists s p typ m n, reachable s /\ asks s p typ m /\ (m s).1 = Ret (Some n) /\ is_enum_value n.
Proof.
  exists clash_world, (1, [0; 5]), "VAL", (field_type 0 (1, [0; 5])). eexists.
  split; [apply clash_reachable|].
  split; [eapply asks_field; [apply clash_element; vm_compute; reflexivity|reflexivity|vm_compute; reflexivity]|].
  split; [vm_compute; reflexivity|exact I].
Qed.

(** ** C18 *)

(** A type name that denotes nothing gives nil for fields, for the element type of repeated fields and
    for branches; the input and output of methods panic. *)
Theorem C18_unresolved s p typ m comps :
  reachable s -> asks s p typ m -> in_scope s p comps -> typ ∉ scalar_names ->
  (m s).1 = Ret None <-> forall q, ~ denotes s comps typ q.
Proof.
  intros Hs Ha Hsc Hb. pose proof (reachable_Inv _ Hs) as I.
  destruct (asks_spec _ _ _ _ _ I Ha Hsc Hb) as [(q & n & Hq & _ & ->)|[Hno ->]]; [|done].
  split; [by destruct (implements_type n)|]. intros H. by apply H in Hq.
Qed.
Theorem C18_method_unresolved_panics s p typ b m comps :
  reachable s -> asks_method s p typ b m -> in_scope s p comps -> typ ∉ scalar_names ->
  (forall q, ~ denotes s comps typ q) -> exists msg, (m s).1 = Panic msg.
Proof.
  intros Hs Ha Hsc Hb Hno. pose proof (reachable_Inv _ Hs) as I. rewrite (asks_method_spec _ _ _ _ _ Ha).
  apply in_scope_of in Hsc as [Hsc Hid].
  destruct (get_type_body_spec s p typ comps I Hsc Hid Hb) as [(q' & n' & s1 & Hq & _)|[_ ->]];
    [by apply Hno in Hq|]. cbn. eauto.
Qed.
(** The type of a repeated field with an unresolved element type is not nil but a Repeated without
    element type, on which NodeParent, Pos and TypeName panic. *)
Definition lost_f := "lost.proto".
Definition lost_files : list (string * list tree) :=
  (std_files ++ [ (lost_f, [ msg lost_f 2 "M" [ rfld lost_f 4 "Lost" "f" 1; fld lost_f 5 "Lost" "g" 2 ];
                             el lost_f 6 (DService "S") [ el lost_f 7 (DRPC "R" "Lost" false "M" false) [] ] ]) ])%list.
Definition lost_world : registry := world lost_files [lost_f].
Lemma lost_reachable : reachable lost_world.
Proof. apply world_reachable. vm_compute. reflexivity. Qed.
Lemma lost_element p t : heap_at lost_world p = Some t -> element_at lost_world p t.
Proof. apply heap_element, reachable_Inv, lost_reachable. Qed.
Theorem C18_repeated_refuted :
  exists s a p n s1, reachable s /\ unknown s ".Lost" /\
    (exists t, element_at s p t /\ t_data t = DNormalField "f" "Lost" 1 true false) /\
    field_type a p s = (Ret (Some n), s1) /\ n = NRepeated 1 None /\
    (exists m1 m2 m3, (node_parent n s1).1 = Panic m1 /\ (pos n s1).1 = Panic m2 /\ (type_name n s1).1 = Panic m3).
Proof.
  exists lost_world, 7%N, (1, [0; 0]). eexists _, _. split; [apply lost_reachable|].
  split; [apply unknown_names; [apply reachable_Inv, lost_reachable|vm_compute; reflexivity]|].
  split; [eexists; split; [apply lost_element; vm_compute; reflexivity|reflexivity]|].
  split; [apply by_outcome; vm_compute; reflexivity|]. split; [reflexivity|].
  eexists _, _, _. split; [vm_compute; reflexivity|]. split; [vm_compute; reflexivity|vm_compute; reflexivity].
Qed.
Example C18_example :
  asks lost_world (1, [1; 0]) "Lost" (field_type 7 (1, [1; 0])) /\
  in_scope lost_world (1, [1; 0]) ["M"; "g"] /\ (field_type 7 (1, [1; 0]) lost_world).1 = Ret None /\
  asks_method lost_world (1, [0; 1]) "Lost" false (method_input (1, [0; 1])) /\
  in_scope lost_world (1, [0; 1]) ["S"; "R"].
Proof.
  split; [eapply asks_field; [apply lost_element; vm_compute; reflexivity|reflexivity|vm_compute; reflexivity]|].
  split. { split; [exists KField, 0%N; split; [constructor|vm_compute; reflexivity]|].
           apply idents; reflexivity. }
  split; [vm_compute; reflexivity|].
  split; [eapply asks_input; [apply lost_element; vm_compute; reflexivity|reflexivity]|].
  split; [exists KMethod, 0%N; split; [repeat constructor|vm_compute; reflexivity]|].
  apply idents; reflexivity.
Qed.

(** ** C22 *)

(** The comparison linters write, field.Type(r) == r.NodeByFullName(q), is exact: for a field that is
    not repeated and whose type was not asked before, it holds exactly if the declared type name
    denotes [q]. *)
Theorem C22_type_comparison_exact s a p t name typ seq opt comps n s1 q n' s2 :
  reachable s -> element_at s p t -> t_data t = DNormalField name typ seq false opt ->
  ftcache s !! (a, p) = None -> in_scope s p comps ->
  field_type a p s = (Ret (Some n), s1) -> node_by_full_name q s1 = (Ret (Some n'), s2) ->
  go_eq n n' <-> typ ∉ scalar_names /\ denotes s comps typ q.
Proof.
  intros Hs Ht Hd Hnew Hsc E1 E2. pose proof (reachable_Inv _ Hs) as I.
  assert (Ha : asks s p typ (field_type a p)) by (by eapply asks_field).
  assert (Q : quiet s s1) by (pose proof (quiet_field_type a p s) as Q; by rewrite E1 in Q).
  assert (I1 : Inv s1) by (exact (proj1 (inv_step_ret _ _ _ _ (inv_step_field_type a p) I E1))).
  destruct (decide (typ ∈ scalar_names)) as [Hb|Hb].
  { destruct (C16_scalars_not_shadowed s p typ _ Ha Hb) as (b & E & _). rewrite E1 in E. injection E as ->.
    split; [|tauto]. destruct (found_kind s1 q n' I1) as (? & ? & ? & ->); [unfold found; by rewrite E2|done]. }
  destruct (asks_spec _ _ _ _ _ I Ha Hsc Hb) as [(q' & n0 & Hq & Hf & E)|[Hno E]];
    [|rewrite E1 in E; discriminate E].
  rewrite E1 in E. cbn in E. destruct (implements_type n0); [|discriminate E]. injection E as ->.
  unfold found in Hf. destruct (node_by_full_name q' s) as [o s3] eqn:E3. cbn in Hf. subst o.
  destruct (found_is_declared _ _ _ _ I E3) as (path & f & u & k & b & pq & -> & Hn1 & Hl & _ & Hfq & _).
  destruct (found_is_declared _ _ _ _ I1 E2) as (path' & f' & u' & k' & b' & pq' & -> & Hn2 & Hl' & _ & Hfq' & _).
  split.
  - intros Heq. split; [done|].
    assert (pq = pq') as <-.
    { apply (C20_equal_nodes_same_element (field_type a p) (node_by_full_name q) s s1 s1 s2 (ret tt) k k' b b');
        try done; try (apply src_route; constructor). constructor. }
    assert (f' = f) as ->.
    { destruct Hl as (_ & Hf & _), Hl' as (_ & Hf' & _). rewrite (q_heap _ _ Q) in Hf'. congruence. }
    assert (q = q') as -> by congruence. done.
  - intros [_ Hq']. pose proof (denotes_fun _ _ _ _ _ Hq Hq') as ->.
    rewrite (q_names _ _ Q) in Hn2. assert (pq' = pq) as -> by congruence.
    assert (Hrt : NAst k b pq = NAst k' b' pq).
    { apply (C19_one_node_per_declaration (field_type a p) (node_by_full_name q') s s1 s1 s2 (ret tt)); try done;
        try constructor.
      - destruct (asks_spec _ _ _ _ _ I Ha Hsc Hb) as [(q1 & n1 & _ & Hf1 & E4)|[_ E4]];
          rewrite E1 in E4; cbn in E4; [|discriminate E4].
        destruct (implements_type n1) eqn:Hi; [|discriminate E4]. injection E4 as <-.
        destruct (is_type_cases _ Hi) as [H|H]; [eauto|eauto| |]; destruct k; done.
      - destruct (found_kind s1 q' (NAst k' b' pq) I1) as (? & ? & ? & _); [unfold found; by rewrite E2|].
        unfold node_by_full_name in E2. rewrite rbind_get in E2.
        destruct (wrap_ret _ _ _ _ (proj2 I1) E2) as (? & ? & ? & u2 & _ & [= <- <- <-] & _ & Hw & _).
        destruct k'; try done; destruct (t_data u2); done. }
    by injection Hrt as -> ->.
Qed.
Example C22_example :
  ftcache demo_world !! (0%N, (1, [6; 6])) = None /\
  (exists n s1 n' s2, field_type 0 (1, [6; 6]) demo_world = (Ret (Some n), s1) /\
     node_by_full_name ".pb.Message" s1 = (Ret (Some n'), s2)).
Proof.
  split; [vm_compute; reflexivity|]. eexists _, _, _, _.
  split; apply by_outcome; vm_compute; reflexivity.
Qed.

(** ** C46 *)

(** The scalar names and the builtin types correspond one to one: every builtin is found by its
    String() and by no other name. *)
Theorem C46_builtins_one_to_one name b :
  builtin_type name = Some b <-> builtin_string b = name.
Proof.
  split.
  - intros H. destruct (decide (name ∈ scalar_names)) as [Hb|Hb].
    + destruct (builtin_some _ Hb) as (b' & Hb' & <-). congruence.
    + by rewrite (builtin_none _ Hb) in H.
  - intros <-. by destruct b.
Qed.
(** Exactly the scalar names are builtin. *)
Theorem C46_scalar_names name : (exists b, builtin_type name = Some b) <-> name ∈ scalar_names.
Proof.
  split.
  - intros [b H]. destruct (decide (name ∈ scalar_names)) as [Hb|Hb]; [done|].
    by rewrite (builtin_none _ Hb) in H.
  - intros H. destruct (builtin_some _ H) as (b & Hb & _). eauto.
Qed.
(** Map keys: all scalars but bytes. *)
Theorem C46_map_keys s p t name kt typ seq :
  element_at s p t -> t_data t = DMapField name kt typ seq ->
  (exists b, map_key p s = (Ret b, s) /\ builtin_string b = kt) <-> kt ∈ scalar_names /\ kt <> "bytes".
Proof.
  intros Ht%element_heap Hd. unfold map_key. rewrite (rbind_val _ _ _ _ _ (deref_ok _ _ _ Ht)), Hd.
  split.
  - intros (b & E & Hb). split.
    + apply C46_scalar_names. exists b. by apply C46_builtins_one_to_one.
    + intros ->. discriminate E.
  - intros [Hs Hne]. destruct (builtin_some _ Hs) as (b & Hb & Hst). exists b. split; [|done].
    unfold builtin_type in Hb. destruct (builtin_comparable kt); [by injection Hb as ->|].
    destruct (String.eqb_spec kt "bytes"); done.
Qed.
