(** * Theorems on the identity of nodes: C07, C19 - C21, C23. *)
From Verif Require Export Identity Worlds Enumerate ThmLoading.

(** ** C19 *)

(** Whatever two API calls (or loop steps) hand out for the same AST element, at two moments of any
    history, is the same node. *)
Theorem C19_one_node_per_declaration m1 m2 s0 s1 s2 s3 {A} (c : R A) k1 k2 a1 a2 p :
  reachable s0 -> route m1 -> m1 s0 = (Ret (Some (NAst k1 a1 p)), s1) ->
  client Loads c -> (c s1).2 = s2 ->
  route m2 -> m2 s2 = (Ret (Some (NAst k2 a2 p)), s3) ->
  declaration_node (NAst k1 a1 p) -> declaration_node (NAst k2 a2 p) ->
  NAst k1 a1 p = NAst k2 a2 p.
Proof. exact (same_declaration_same_node m1 m2 s0 s1 s2 s3 c k1 k2 a1 a2 p). Qed.

(** the second message of the file in a loop that breaks at once, then Type of a field, with a
    recovered panic in between *)
Definition second_message : R (option node) :=
  kth_of_loop 1 (file_messages (root 1)) unit tt (fun _ _ => ret (tt, true)).
Definition type_of_local_msg : R (option node) := field_type 77 (1, [5; 6]).
Example C19_example :
  let s1 := (second_message demo_world).2 in
  let s2 := (recover (node_by_full_name ".no.such") s1).2 in
  route second_message /\ route type_of_local_msg /\
  client Loads (recover (node_by_full_name ".no.such")) /\
  (exists a, (second_message demo_world).1 = Ret (Some (NAst KMessage a (1, [8])))) /\
  (exists a, (type_of_local_msg s2).1 = Ret (Some (NAst KMessage a (1, [8])))).
Proof.
  split; [apply r_iterator; [constructor|intros; constructor]|]. split; [constructor|].
  split; [apply cl_recover, cl_api; constructor|].
  split; eexists; vm_compute; reflexivity.
Qed.

(** ** C20 *)

(** Two nodes handed out by API calls (Registry.Proto included) that are == are the same Go object
    for the same AST element; in particular nodes of different elements are never ==. *)
Theorem C20_equal_nodes_same_element m1 m2 s0 s1 s2 s3 {A} (c : R A) k1 k2 a1 a2 p1 p2 :
  reachable s0 -> source m1 -> m1 s0 = (Ret (Some (NAst k1 a1 p1)), s1) ->
  client Loads c -> (c s1).2 = s2 ->
  source m2 -> m2 s2 = (Ret (Some (NAst k2 a2 p2)), s3) ->
  go_eq (NAst k1 a1 p1) (NAst k2 a2 p2) -> p1 = p2.
Proof.
  intros Hs Hm1 E1 Hc E2 Hm2 E3 Hq.
  pose proof (equal_nodes_same_element m1 m2 s0 s1 s2 s3 c _ _ Hs Hm1 E1 Hc E2 Hm2 E3
    (ex_intro _ _ eq_refl) Hq) as H.
  by injection H.
Qed.

(** == decides identity of declarations: messages and enums obtained by any routes are == exactly
    if they are the same element of the same file. *)
Theorem C20_equality_decides_types m1 m2 s0 s1 s2 s3 {A} (c : R A) k1 k2 a1 a2 p1 p2 :
  reachable s0 -> route m1 -> m1 s0 = (Ret (Some (NAst k1 a1 p1)), s1) ->
  client Loads c -> (c s1).2 = s2 ->
  route m2 -> m2 s2 = (Ret (Some (NAst k2 a2 p2)), s3) ->
  declaration_node (NAst k1 a1 p1) -> declaration_node (NAst k2 a2 p2) ->
  go_eq (NAst k1 a1 p1) (NAst k2 a2 p2) <-> p1 = p2.
Proof.
  intros Hs Hm1 E1 Hc E2 Hm2 E3 D1 D2. split.
  - apply (C20_equal_nodes_same_element m1 m2 s0 s1 s2 s3 c); try done; by constructor.
  - intros <-. pose proof (C19_one_node_per_declaration m1 m2 s0 s1 s2 s3 c _ _ _ _ _
      Hs Hm1 E1 Hc E2 Hm2 E3 D1 D2) as H. by injection H as -> ->.
Qed.

Example C20_example :
  let s1 := (second_message demo_world).2 in
  (exists a, (second_message demo_world).1 = Ret (Some (NAst KMessage a (1, [8])))) /\
  (exists a, (node_by_full_name ".pb.Message" s1).1 = Ret (Some (NAst KMessage a (1, [6])))) /\
  source second_message /\ source (node_by_full_name ".pb.Message").
Proof.
  split; [eexists; vm_compute; reflexivity|]. split; [eexists; vm_compute; reflexivity|].
  split; apply src_route; [|constructor]. apply r_iterator; [constructor|intros; constructor].
Qed.

(** ** C21 *)

(** The type of a field, nil included, is the same forever and asking for it again changes
    nothing. *)
Theorem C21_field_type_fixed a p s o s1 {A} (c : R A) s2 :
  reachable s -> field_type a p s = (Ret o, s1) -> client Loads c -> (c s1).2 = s2 ->
  field_type a p s2 = (Ret o, s2).
Proof. exact (field_type_fixed a p s o s1 c s2). Qed.

(** A type that could not be resolved stays nil although a later Proto loads its file. *)
Definition late_f := "late.proto".
Definition user_f := "user.proto".
Definition late_files : list (string * list tree) :=
  (std_files ++
   [ (user_f, [ el user_f 1 (DPackage "u") []; msg user_f 2 "M" [ fld user_f 3 "Later" "f" 1 ] ]);
     (late_f, [ el late_f 1 (DPackage "u") []; msg late_f 2 "Later" [] ]) ])%list.
Example C21_example :
  let s := world late_files [user_f] in
  let r := field_type 9 (1, [0; 1]) s in
  let s2 := (proto (table_env late_files) 50 late_f r.2).2 in
  reachable s /\ r.1 = Ret None /\ client Loads (proto (table_env late_files) 50 late_f) /\
  (exists n, (node_by_full_name ".u.Later" s2).1 = Ret (Some n)) /\
  (field_type 9 (1, [0; 1]) s2).1 = Ret None /\
  (** a MessageField obtained only now sees the type *)
  (exists n, (field_type 10 (1, [0; 1]) s2).1 = Ret (Some n)).
Proof.
  split; [apply world_reachable; vm_compute; reflexivity|].
  split; [vm_compute; reflexivity|].
  split; [apply cl_proto; [done|]; apply table_env_ok; vm_compute; reflexivity|].
  split; [eexists; vm_compute; reflexivity|]. split; [vm_compute; reflexivity|].
  eexists; vm_compute; reflexivity.
Qed.

(** ** C07 *)

(** For every declaration node other than files, obtained by any route at any time: looking up its
    index gives back that node. *)
Theorem C07_lookup_inverts_index m s k a p s1 {A} (c : R A) s2 q :
  reachable s -> route m -> m s = (Ret (Some (NAst k a p)), s1) ->
  declaration_node (NAst k a p) -> k <> KFile ->
  client Loads c -> (c s1).2 = s2 -> calm s2 -> unique_names s2 -> packages_first s2 ->
  (node_index (NAst k a p) s2).1 = Ret q -> q <> "" ->
  node_by_full_name q s2 = (Ret (Some (NAst k a p)), s2).
Proof.
  intros Hs Hm E1 D1 Hk Hc E2 Hcalm Hu Hpf Ei Hq. pose proof (reachable_Inv _ Hs) as I0.
  destruct (inv_step_ret _ _ _ _ (client_inv_step _ _ (route_client _ Hm)) I0 E1) as [I1 G1].
  destruct (client_inv_step _ _ Hc s1 I1) as [I2 G2]. rewrite E2 in I2, G2.
  destruct (route_handed _ _ _ _ Hm I0 E1) as [C1|[C1|[_ C1]]]; [|done|done].
  apply (canonical_ext _ _ _ _ G2) in C1. destruct C1 as (k' & a' & p' & Heq & C1).
  injection Heq as <- <- <-.
  assert (Hi : scope_of s2 (VPtr p) = q).
  { unfold node_index in Ei. rewrite rbind_get in Ei. destruct k; cbn in Ei; congruence. }
  unfold scope_of in Hi. destruct (scopes s2 !! VPtr p) as [q'|] eqn:Hsc; [|by subst q].
  cbn in Hi. subst q'. destruct I2 as [S2 N2].
  destruct (nd_cache _ N2 _ _ C1) as (p' & k' & a' & t & [= <-] & [= <- <-] & Ht & Hw).
  destruct (sc_scopes _ S2 _ _ Hsc) as (f & Hf & [[Hnil _]|(Hfq & u & Hu' & Hku)]).
  { exfalso. unfold heap_at in Ht. rewrite Hf, Hnil in Ht. cbn in Ht. injection Ht as <-.
    destruct (sc_heap _ S2 _ _ Hf) as (path & els & -> & _). cbn in Hw. congruence. }
  destruct (heap_loaded _ _ _ S2 Hf) as [path Hl].
  destruct (calm_complete _ Hcalm) as [_ C].
  assert (Hlt : p.1 < length (heap s2)) by (by apply lookup_lt_Some in Hf).
  destruct (dn_names _ _ (C _ Hlt) f p.2 q Hf Hfq) as [pq Hpq].
  rewrite <- (loaded_fqn _ _ _ _ _ S2 Hl (Hpf _ _ _ Hl)) in Hfq.
  pose proof (unique_ptr _ _ _ _ _ _ _ S2 Hu Hpf Hl Hfq Hpq) as ->.
  unfold node_by_full_name. rewrite rbind_get, Hpq. destruct p as [g π]. cbn [fst snd].
  by apply wrap_hit.
Qed.

Example C07_example :
  route second_message /\ (exists a s1, second_message demo_world = (Ret (Some (NAst KMessage a (1, [8]))), s1)) /\
  calm demo_world /\ unique_names demo_world /\ packages_first demo_world /\
  (node_index (NAst KMessage 0 (1, [8])) demo_world).1 = Ret ".pb.EnumValuePayload".
Proof.
  split; [apply r_iterator; [constructor|intros; constructor]|].
  split; [eexists _, _; apply by_outcome; vm_compute; reflexivity|].
  split; [apply demo_calm|]. split; [apply demo_unique|]. split; [apply demo_packages|].
  vm_compute. reflexivity.
Qed.

(** The types of oneof and map fields are excluded for a reason: their index is that of the field,
    and looking it up gives the MessageField. *)
Theorem C07_oneof_type_refuted :
  exists s m n s1 q n' s2,
    calm s /\ unique_names s /\ packages_first s /\ route m /\ m s = (Ret (Some n), s1) /\
    (node_index n s1).1 = Ret q /\ q <> "" /\ node_by_full_name q s1 = (Ret (Some n'), s2) /\
    ~ go_eq n n'.
Proof.
  exists demo_world, (field_type 9 (1, [10; 6])). eexists _, _, _, _, _.
  split; [apply demo_calm|]. split; [apply demo_unique|]. split; [apply demo_packages|].
  split; [constructor|]. split; [apply by_outcome; vm_compute; reflexivity|].
  split; [vm_compute; reflexivity|]. split; [discriminate|].
  split; [apply by_outcome; vm_compute; reflexivity|]. by intros [? _].
Qed.

(** So are files: a package is not a declaration. *)
Theorem C07_file_refuted :
  exists s m n s1 q msg s2,
    calm s /\ unique_names s /\ packages_first s /\ route m /\ m s = (Ret (Some n), s1) /\
    (node_index n s1).1 = Ret q /\ q <> "" /\ node_by_full_name q s1 = (Panic msg, s2).
Proof.
  exists demo_world, (node_file (NAst KMessage 0 (1, [8]))). eexists _, _, _, _, _.
  split; [apply demo_calm|]. split; [apply demo_unique|]. split; [apply demo_packages|].
  split; [constructor|]. split; [apply by_outcome; vm_compute; reflexivity|].
  split; [vm_compute; reflexivity|]. split; [discriminate|].
  apply by_outcome; vm_compute; reflexivity.
Qed.
