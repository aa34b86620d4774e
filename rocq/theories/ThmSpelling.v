(** * One file under two spellings of its path (C03) *)
From Verif Require Export ThmResolvers ThmIterators.
Local Open Scope go_scope.

(** The directory r with descriptor.proto and

      a.proto:  syntax = "proto3"; package p; message A {}
      m.proto:  syntax = "proto3"; package p; import "./a.proto"; message M { A a = 1; } *)
Definition sp_os : os_view :=
  mkOs (fun f => if String.eqb f "r" then SOk true
                 else if String.eqb f "r/google/protobuf/descriptor.proto" || String.eqb f "r/a.proto" ||
                         String.eqb f "r/m.proto" then SOk false
                 else SError enoent) (inl (ENew "not found")).
Definition sp_a (path : string) : list tree :=
  [ el path 1 (DSyntax "proto3") []; el path 2 (DPackage "p") []; msg path 3 "A" [] ].
Definition sp_m (path : string) : list tree :=
  [ el path 1 (DSyntax "proto3") []; el path 2 (DPackage "p") []; el path 3 (DImport "./a.proto") [];
    msg path 4 "M" [ fld path 4 "A" "a" 1 ] ].
Definition sp_env : env :=
  mkEnv (env_resolvers sp_os [PRRoot "r"])
    (fun name path =>
       if String.eqb name "r/a.proto" then inr (sp_a path)
       else if String.eqb name "r/m.proto" then inr (sp_m path)
       else if String.eqb name "r/google/protobuf/descriptor.proto" && String.eqb path desc_f then inr descriptor_elems
       else inl enoent).

Lemma sp_env_ok : env_ok sp_env.
Proof.
  intros name path els. cbn [sp_env e_read].
  destruct (String.eqb name "r/a.proto"); [intros [= <-]; unfold sp_a, parser_output; cbn; by rewrite ?String.eqb_refl|].
  destruct (String.eqb name "r/m.proto"); [intros [= <-]; unfold sp_m, parser_output; cbn; by rewrite ?String.eqb_refl|].
  destruct (String.eqb name "r/google/protobuf/descriptor.proto"); [|done].
  destruct (String.eqb_spec path desc_f) as [->|]; [|done]. intros H. injection H as <-. vm_compute. reflexivity.
Qed.

Definition sp_new : registry := match new_registry sp_env 50 with Ret (inr s) => s | _ => empty_registry end.
Definition sp_one : registry := (proto sp_env 50 "a.proto" sp_new).2.
Definition sp_asked : registry := (node_by_full_name ".p.A" sp_one).2.
Definition sp_two : registry := (proto sp_env 50 "m.proto" sp_asked).2.

(** "Parsed at most once" is about one spelling of the path: a resolver may serve two spellings from
    one file, which then is loaded twice, with different nodes for the same message.  Here a program
    loads a.proto and gets the node of p.A, then loads m.proto, which imports the same file as
    ./a.proto: p.A now stands for the second copy, and the type of M.a is not the node the program
    has got. *)
Theorem C03_spelling_refuted :
  exists os rs e s0 s1 s1' s2 f1 f2 n1 n2 n3 g1 g2 els1 els2,
    unix os /\ built os [WithRoot ["r"]] = inr rs /\ e_resolvers e = env_resolvers os rs /\ env_ok e /\
    serves e "a.proto" "r/a.proto" /\ serves e "./a.proto" "r/a.proto" /\
    new_registry e 50 = Ret (inr s0) /\
    proto e 50 "a.proto" s0 = (Ret (inr f1), s1) /\ node_by_full_name ".p.A" s1 = (Ret (Some n1), s1') /\
    proto e 50 "m.proto" s1' = (Ret (inr f2), s2) /\ (node_by_full_name ".p.A" s2).1 = Ret (Some n2) /\
    loaded s2 "a.proto" g1 (file_tree "a.proto" els1) /\ loaded s2 "./a.proto" g2 (file_tree "./a.proto" els2) /\
    g1 <> g2 /\ element_ptr n1 = Some (g1, [2]) /\ element_ptr n2 = Some (g2, [2]) /\
    (exists a p t, element_at s2 p t /\ t_data t = DNormalField "a" "A" 1 false false /\
      (field_type a p s2).1 = Ret (Some n3)) /\ ~ go_eq n3 n1.
Proof.
  assert (Hux : unix sp_os) by (by eexists).
  assert (He : e_resolvers sp_env = env_resolvers sp_os [PRRoot "r"]) by reflexivity.
  assert (H0 : new_registry sp_env 50 = Ret (inr sp_new)).
  { assert (match new_registry sp_env 50 with Ret (inr s) => true | _ => false end = true) as H by (vm_compute; reflexivity).
    unfold sp_new. revert H. generalize (new_registry sp_env 50). clear. intros [[e|s]|m|] H; done. }
  assert (H1 : exists f1, proto sp_env 50 "a.proto" sp_new = (Ret (inr f1), sp_one)).
  { assert (exists f1, (proto sp_env 50 "a.proto" sp_new).1 = Ret (inr f1)) as [f1 H] by (eexists; vm_compute; reflexivity).
    exists f1. unfold sp_one. revert H. generalize (proto sp_env 50 "a.proto" sp_new). clear. intros [o s] H. cbn in *. by rewrite H. }
  assert (H2 : exists f2, proto sp_env 50 "m.proto" sp_asked = (Ret (inr f2), sp_two)).
  { assert (exists f2, (proto sp_env 50 "m.proto" sp_asked).1 = Ret (inr f2)) as [f2 H] by (eexists; vm_compute; reflexivity).
    exists f2. unfold sp_two. revert H. generalize (proto sp_env 50 "m.proto" sp_asked). clear. intros [o s] H. cbn in *. by rewrite H. }
  assert (N1 : node_by_full_name ".p.A" sp_one = (Ret (Some (NAst KMessage 1 (1, [2]))), sp_asked)).
  { assert ((node_by_full_name ".p.A" sp_one).1 = Ret (Some (NAst KMessage 1 (1, [2])))) as H by (vm_compute; reflexivity).
    unfold sp_asked. revert H. generalize (node_by_full_name ".p.A" sp_one). clear. intros [o s] H. cbn in *. by rewrite H. }
  assert (N2 : exists a, (node_by_full_name ".p.A" sp_two).1 = Ret (Some (NAst KMessage a (3, [2])))) by (eexists; vm_compute; reflexivity).
  assert (N3 : (field_type 0 (2, [0; 3]) sp_two).1 = Ret (Some (NAst KMessage 3 (3, [2])))) by (vm_compute; reflexivity).
  assert (L1 : loaded sp_two "a.proto" 1 (file_tree "a.proto" (sp_a "a.proto")))
    by (split; [|split]; vm_compute; reflexivity).
  assert (L2 : loaded sp_two "./a.proto" 3 (file_tree "./a.proto" (sp_a "./a.proto")))
    by (split; [|split]; vm_compute; reflexivity).
  assert (Hh : heap_at sp_two (2, [0; 3]) = Some (fld "m.proto" 4 "A" "a" 1)) by (vm_compute; reflexivity).
  assert (Sv1 : serves sp_env "a.proto" "r/a.proto").
  { exists [], (resolver_string (PRRoot "r"), resolver_resolve sp_os (PRRoot "r")), []. split; [done|]. split; [constructor|].
    vm_compute. reflexivity. }
  assert (Sv2 : serves sp_env "./a.proto" "r/a.proto").
  { exists [], (resolver_string (PRRoot "r"), resolver_resolve sp_os (PRRoot "r")), []. split; [done|]. split; [constructor|].
    vm_compute. reflexivity. }
  assert (Hb : built sp_os [WithRoot ["r"]] = inr [PRRoot "r"]) by (vm_compute; reflexivity).
  pose proof sp_env_ok as Hok.
  revert H0 H1 H2 N1 N2 N3 L1 L2 Hh Sv1 Sv2 Hb Hux He Hok.
  generalize sp_os sp_env sp_new sp_one sp_asked sp_two. clear.
  intros os e s0 s1 s1' s2 H0 [f1 H1] [f2 H2] N1 [a2 N2] N3 L1 L2 Hh Sv1 Sv2 Hb Hux He Hok.
  assert (Hr : reachable s2).
  { assert (R0 : reachable s0) by (by eapply hist_new).
    assert (R1 : reachable s1).
    { replace s1 with (proto e 50 "a.proto" s0).2 by (by rewrite H1). apply hist_client; [exact R0|by apply cl_proto]. }
    assert (R1' : reachable s1').
    { replace s1' with (node_by_full_name ".p.A" s1).2 by (by rewrite N1). apply hist_client; [exact R1|apply cl_api; constructor]. }
    replace s2 with (proto e 50 "m.proto" s1').2 by (by rewrite H2). apply hist_client; [exact R1'|by apply cl_proto]. }
  exists os, [PRRoot "r"], e, s0, s1, s1', s2, f1, f2, (NAst KMessage 1 (1, [2])), (NAst KMessage a2 (3, [2])),
    (NAst KMessage 3 (3, [2])), 1, 3, (sp_a "a.proto"), (sp_a "./a.proto").
  repeat (split; [first [assumption|reflexivity|discriminate]|]).
  split; [|intros [_ Hg]; discriminate Hg].
  exists 0%N, (2, [0; 3]), (fld "m.proto" 4 "A" "a" 1). split; [|split; [reflexivity|exact N3]].
  apply heap_element; [by apply reachable_Inv|exact Hh].
Qed.
