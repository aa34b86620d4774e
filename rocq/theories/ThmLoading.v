(** * Theorems on loading files: C01 - C06, C08 - C13. *)
From Verif Require Export Iterate LoadFacts Worlds Enumerate.

(** Examples evaluate outcomes, never whole registries. *)
Lemma by_outcome {A} (r : outcome A * registry) o : r.1 = o -> r = (o, r.2).
Proof. destruct r. cbn. by intros ->. Qed.
Definition returns {A} (o : outcome A) : option A := match o with Ret x => Some x | _ => None end.
Lemma by_returns {A} (r : outcome A * registry) x : returns r.1 = Some x -> r = (Ret x, r.2).
Proof. destruct r as [[]]; cbn; congruence. Qed.

(** ** C01 *)

(** A file that Proto returned once is returned again after any client program, with the same AST,
    without looking at resolvers or files ([available] holds for every environment). *)
Theorem C01_stays_loaded s e fuel path f s1 {A} (m : R A) o s2 :
  reachable s -> env_ok e -> proto e fuel path s = (Ret (inr f), s1) ->
  client Loads m -> m s1 = (o, s2) ->
  exists g a a' t,
    f = NAst KFile a (root g) /\ loaded s1 path g t /\
    available s2 path (NAst KFile a' (root g)) /\ loaded s2 path g t.
Proof. exact (stays_loaded s e fuel path f s1 m o s2). Qed.

Example C01_example :
  let r := proto demo_env 50 dat_f (start demo_files) in
  let m := recover (node_by_full_name ".no.such") in
  reachable (start demo_files) /\ env_ok demo_env /\ client Loads m /\
  (exists f, r.1 = Ret (inr f)) /\
  (exists msg, (m r.2).1 = Ret (inl msg)) /\
  is_Some (protos (m r.2).2 !! dat_f).
Proof.
  split; [apply start_history, demo_starts|]. split; [apply demo_env_ok|].
  split; [apply cl_recover, cl_api; constructor|].
  split; [eexists; vm_compute; reflexivity|].
  split; [eexists; vm_compute; reflexivity|]. eexists. vm_compute. reflexivity.
Qed.

(** ** C02 *)

(** Loading terminates, with one and the same result for every bound on the recursion depth from
    the size of the import closure on. *)
Theorem C02_load_terminates e U path s :
  env_ok e -> closed_under_imports e U -> path ∈ U ->
  exists o s', o <> Diverge /\ forall fuel, length U <= fuel -> proto e fuel path s = (o, s').
Proof. exact (load_terminates e U path s). Qed.

(** data.proto and meta.proto import each other *)
Example C02_example :
  closed_under_imports demo_env [desc_f; any_f; dat_f; meta_f] /\
  meta_f ∈ import_paths data_elems /\ dat_f ∈ import_paths meta_elems /\
  (exists f, (proto demo_env 4 dat_f (start demo_files)).1 = Ret (inr f)).
Proof.
  split.
  - intros path els path' Hin (name & Hs & _ & Hr) Hi.
    apply serves_find in Hs. cbn in Hs, Hr.
    repeat (apply elem_of_cons in Hin as [->|Hin]; [cbn in Hs; injection Hs as <-; cbn in Hr;
      injection Hr as <-; cbn in Hi; set_solver|]).
    by apply elem_of_nil in Hin.
  - split; [cbn; set_solver|]. split; [cbn; set_solver|]. eexists. vm_compute. reflexivity.
Qed.

(** ** C03 *)

(** Two files in the memory of a registry, parsed under the same path, are one and the same. *)
Theorem C03_parsed_once s g1 g2 path els1 els2 :
  reachable s -> heap s !! g1 = Some (file_tree path els1) ->
  heap s !! g2 = Some (file_tree path els2) -> g1 = g2.
Proof. exact (parsed_once s g1 g2 path els1 els2). Qed.

Example C03_example :
  reachable demo_world /\ heap demo_world !! 1 = Some (file_tree dat_f data_elems) /\
  length (heap demo_world) = 4.
Proof. split; [apply demo_reachable|]. split; [vm_compute; reflexivity|vm_compute; reflexivity]. Qed.

(** ** C04 *)

(** As long as no call of Proto panicked: a returned file comes with all files it transitively
    imports. *)
Theorem C04_imports_available s e fuel path f s1 path' :
  calm s -> env_ok e -> proto e fuel path s = (Ret (inr f), s1) ->
  imports_from s1 path path' -> exists n, available s1 path' n.
Proof.
  intros Hs He E Hi. pose proof (calm_loads _ _ _ _ _ _ Hs He E) as Hs1.
  destruct (calm_complete _ Hs) as [S _].
  destruct (proto_returns_loaded _ _ _ _ _ _ He S E) as (g & t & _ & Ht & _).
  destruct (imports_loaded _ _ _ _ _ Hs1 Ht Hi) as (g' & f' & Hl).
  eexists. by eapply loaded_available.
Qed.

Example C04_example :
  calm (start demo_files) /\
  (exists f, (proto demo_env 50 dat_f (start demo_files)).1 = Ret (inr f)) /\
  imports_from (proto demo_env 50 dat_f (start demo_files)).2 dat_f desc_f.
Proof.
  split; [apply start_history, demo_starts|].
  split; [eexists; vm_compute; reflexivity|].
  eapply (imports_step _ _ meta_f _ 2 (file_tree meta_f meta_elems)).
  - eapply (imports_step _ _ dat_f _ 1 (file_tree dat_f data_elems)); [constructor| |cbn; set_solver].
    split; [|split]; vm_compute; reflexivity.
  - split; [|split]; vm_compute; reflexivity.
  - cbn. set_solver.
Qed.

(** A file that imports a file nobody has. *)
Definition broken_f := "broken.proto".
Definition broken_elems : list tree :=
  [ el broken_f 1 (DPackage "br") []; el broken_f 2 (DImport "missing.proto") [];
    msg broken_f 3 "M" [] ].
Definition broken_files : list (string * list tree) :=
  (std_files ++ [(broken_f, broken_elems)])%list.
Definition broken_env := table_env broken_files.
(** the registry after a first, recovered, attempt *)
Definition after_panic : registry := (recover (proto broken_env 50 broken_f) (start broken_files)).2.
Lemma broken_env_ok : env_ok broken_env.
Proof. apply table_env_ok. vm_compute. reflexivity. Qed.
Lemma broken_starts : starts broken_files = true.
Proof. vm_compute. reflexivity. Qed.
Lemma after_panic_reachable : reachable after_panic.
Proof.
  apply (hist_client Loads _ (recover (proto broken_env 50 broken_f))).
  - apply start_history, broken_starts.
  - apply cl_recover, cl_proto; [done|apply broken_env_ok].
Qed.

(** Without the assumption the property fails: after a recovered panic Proto returns a file whose
    import is not available and whose message cannot be looked up. *)
Theorem C04_after_panic_refuted :
  exists s e fuel path f s1 path',
    reachable s /\ env_ok e /\ proto e fuel path s = (Ret (inr f), s1) /\
    imports_from s1 path path' /\ (forall n, ~ available s1 path' n) /\
    exists g t π q, loaded s1 path g t /\ package_first (t_kids t) = true /\ fqn t π = Some q /\
      exists msg s2, node_by_full_name q s1 = (Panic msg, s2).
Proof.
  exists after_panic, broken_env, 50, broken_f, (NAst KFile 0 (root 1)),
    (proto broken_env 50 broken_f after_panic).2, "missing.proto".
  split; [apply after_panic_reachable|]. split; [apply broken_env_ok|].
  split; [apply by_outcome; vm_compute; reflexivity|]. split.
  { eapply (imports_step _ _ broken_f _ 1 (file_tree broken_f broken_elems)); [constructor| |cbn; set_solver].
    split; [|split]; vm_compute; reflexivity. }
  split.
  { intros n [s' H]. specialize (H broken_env 50). apply (f_equal fst) in H. vm_compute in H. discriminate H. }
  exists 1, (file_tree broken_f broken_elems), [2], ".br.M".
  split; [split; [|split]; vm_compute; reflexivity|].
  split; [vm_compute; reflexivity|]. split; [vm_compute; reflexivity|].
  eexists _, _. apply by_outcome. vm_compute. reflexivity.
Qed.

(** ** C05 *)

(** Every declaration of a returned file and of the files it transitively imports is found by its
    fully qualified name. *)
Theorem C05_declarations_found s e fuel path f s1 path' g t π q :
  calm s -> env_ok e -> proto e fuel path s = (Ret (inr f), s1) ->
  imports_from s1 path path' -> loaded s1 path' g t -> package_first (t_kids t) = true ->
  fqn t π = Some q ->
  exists n s2, node_by_full_name q s1 = (Ret (Some n), s2).
Proof.
  intros Hs He E _ Hl Hp Hq. pose proof (calm_loads _ _ _ _ _ _ Hs He E) as Hs1.
  destruct (calm_complete _ Hs1) as [S1 _].
  rewrite (loaded_fqn _ _ _ _ _ S1 Hl Hp) in Hq.
  destruct (declared_found _ _ _ _ _ _ Hs1 Hl Hq) as (p & k & a & s2 & _ & E2). eauto.
Qed.

(** If fully qualified names are unique, it is the node of that very declaration, with the Go type
    of its kind. *)
Theorem C05_exact_declaration s path g f π q t k :
  calm s -> unique_names s -> packages_first s -> loaded s path g f ->
  fqn f π = Some q -> walk f π = Some t -> represented_by (t_data t) = Some k ->
  exists a s2, node_by_full_name q s = (Ret (Some (NAst k a (g, π))), s2).
Proof.
  intros Hs Hu Hpf Hl Hq Ht Hk. rewrite represented_wrap in Hk.
  destruct (calm_complete _ Hs) as [S _].
  pose proof Hq as Hq'. rewrite (loaded_fqn _ _ _ _ _ S Hl (Hpf _ _ _ Hl)) in Hq'.
  destruct (declared_found _ _ _ _ _ _ Hs Hl Hq') as (p & k' & a & s2 & Hp & E2).
  pose proof (unique_ptr _ _ _ _ _ _ _ S Hu Hpf Hl Hq Hp) as ->.
  assert (k' = k) as ->; [|eauto].
  destruct (lookup_named _ _ _ (history_Inv _ _ Hs) Hp) as (f' & t' & k2 & a2 & s3 & Hf & _ & Hw & Hk2 & E3 & _).
  destruct Hl as (_ & Hf' & _). cbn in Hf, Hw. congruence.
Qed.

(** an enum value nested two levels deep, and an extension field in an imported file *)
Example C05_example :
  calm demo_world /\ unique_names demo_world /\ packages_first demo_world /\
  loaded demo_world dat_f 1 (file_tree dat_f data_elems) /\
  fqn (file_tree dat_f data_elems) [1; 12; 6] = Some ".pb.Message.INNER_ENUM_VALUE" /\
  loaded demo_world meta_f 2 (file_tree meta_f meta_elems) /\
  fqn (file_tree meta_f meta_elems) [0; 9] = Some ".pb.enum_value_tag" /\
  imports_from demo_world dat_f meta_f.
Proof.
  split; [apply demo_calm|]. split; [apply demo_unique|]. split; [apply demo_packages|].
  split; [apply demo_loaded|]. split; [vm_compute; reflexivity|].
  split; [apply demo_loaded_meta|]. split; [vm_compute; reflexivity|].
  eapply (imports_step _ _ dat_f); [constructor|apply demo_loaded|cbn; set_solver].
Qed.

(** ** C06 *)

(** NodeIndex of every declaration except enum values is its fully qualified name.  [k] ranges over
    the Go types a node for that element can have. *)
Theorem C06_index_is_qualified_name s path g f π q t k a :
  calm s -> loaded s path g f -> package_first (t_kids f) = true ->
  fqn f π = Some q -> walk f π = Some t -> (forall n v, t_data t <> DEnumField n v) ->
  (represented_by (t_data t) = Some k \/ k = KOneOf \/ k = KMap) ->
  node_index (NAst k a (g, π)) s = (Ret q, s).
Proof.
  intros Hs Hl Hp Hq Ht Hne Hk. rewrite represented_wrap in Hk. destruct (calm_complete _ Hs) as [S _].
  pose proof Hq as Hq'. rewrite (loaded_fqn _ _ _ _ _ S Hl Hp) in Hq'.
  eapply index_scope; eauto.
  unfold fqn in Hq. rewrite Ht in Hq.
  destruct (t_data t); try done. by edestruct Hne.
Qed.

(** NodeIndex of an enum value is always empty. *)
Theorem C06_enum_value_index_empty s a p t n v :
  reachable s -> heap_at s p = Some t -> t_data t = DEnumField n v ->
  node_index (NAst KEnumValue a p) s = (Ret "", s).
Proof.
  intros Hs Ht Hd. eapply enum_value_index; [apply (reachable_Inv _ Hs)|exact Ht|eauto].
Qed.

(** NodeIndex of a file is the scope of its package or empty; it is the scope of the package if the
    file has a package statement and was asked for directly. *)
Theorem C06_file_index s path g f a :
  reachable s -> loaded s path g f -> package_first (t_kids f) = true ->
  node_index (NAst KFile a (root g)) s = (Ret "", s) \/
  node_index (NAst KFile a (root g)) s = (Ret (file_scope (t_kids f)), s).
Proof.
  intros Hs Hl Hp. destruct (file_index s path g f a (proj1 (reachable_Inv _ Hs)) Hl Hp) as [-> [H|H]];
    unfold scope_of; rewrite H; [by left|by right].
Qed.

Theorem C06_file_index_direct e fuel path els s f s1 :
  reachable s -> env_ok e -> protos s !! path = None -> readable e path els ->
  package_first els = true -> (exists t, t ∈ els /\ is_package (t_data t) = true) ->
  proto e fuel path s = (Ret (inr f), s1) ->
  node_index f s1 = (Ret (file_scope els), s1).
Proof.
  intros Hs He Hp Hr Hpf Hpk E. pose proof (proj1 (reachable_Inv _ Hs)) as S.
  destruct (direct_load_scope _ _ _ _ _ _ _ He S Hp Hr Hpk E) as [q Hq].
  destruct (proto_returns_loaded _ _ _ _ _ _ He S E) as (g & t & -> & Ht & Hels).
  specialize (Hels _ Hp Hr). subst t.
  assert (R1 : reachable s1).
  { eapply client_reachable; [exact Hs| |exact E]. by apply cl_proto. }
  assert (g = length (heap s)) as ->.
  { destruct (proto_ok _ _ _ _ _ _ He S E) as (_ & _ & P).
    inversion P; subst; [congruence|done|by edestruct H4]. }
  destruct (file_index s1 path _ _ (next s) (proj1 (reachable_Inv _ R1)) Ht Hpf) as [-> [H|H]];
    [congruence|]. unfold scope_of. by rewrite H.
Qed.

Example C06_example :
  fqn (file_tree dat_f data_elems) [1; 10; 6] = Some ".pb.Message.branch2" /\
  fqn (file_tree dat_f data_elems) [1; 7] = Some ".pb.Service.MethodUU" /\
  (node_index (NAst KBranch 7 (1, [1; 10; 6])) demo_world).1 = Ret ".pb.Message.branch2" /\
  (node_index (NAst KFile 7 (root 1)) demo_world).1 = Ret ".pb" /\
  (node_index (NAst KFile 7 (root 2)) demo_world).1 = Ret "" /\
  heap_at demo_world (1, [1; 12; 6]) = Some (el dat_f 62 (DEnumField "INNER_ENUM_VALUE" 1) []) /\
  readable demo_env dat_f data_elems.
Proof.
  repeat (split; [vm_compute; reflexivity|]).
  exists dat_f. split; [|split; [done|vm_compute; reflexivity]].
  exists [], ("table", fun path => match table_get demo_files path with
                               | Some _ => RName path
                               | None => RError not_exist end), [].
  split; [reflexivity|]. split; [constructor|]. vm_compute. reflexivity.
Qed.

(** ** C08 *)

(** A node found by name is the node of a declaration, of the right kind, of a loaded file, whose fully
    qualified name is the one asked for. *)
Theorem C08_found_is_declared s q n s' :
  reachable s -> packages_first s -> node_by_full_name q s = (Ret (Some n), s') ->
  exists path g f π t k a,
    n = NAst k a (g, π) /\ loaded s path g f /\ fqn f π = Some q /\
    walk f π = Some t /\ represented_by (t_data t) = Some k.
Proof.
  intros Hs Hpf E. pose proof (reachable_Inv _ Hs) as I.
  destruct (found_is_declared _ _ _ _ I E) as (path & f & t & k & a & [g π] & -> & Hp & Hl & Hw & Hq & Hk).
  cbn in *. exists path, g, f, π, t, k, a. split; [done|]. split; [done|].
  rewrite represented_wrap. split; [|done].
  rewrite (loaded_fqn _ _ _ _ _ (proj1 I) Hl (Hpf _ _ _ Hl)). done.
Qed.

Example C08_example :
  reachable demo_world /\ packages_first demo_world /\
  exists n s', node_by_full_name ".pb.Service.MethodUU" demo_world = (Ret (Some n), s').
Proof.
  split; [apply demo_reachable|]. split; [apply demo_packages|].
  eexists _, _. apply by_outcome. vm_compute. reflexivity.
Qed.

(** ** C09 *)

(** Asking for a file that is neither loaded nor can be found, read and parsed gives an error and leaves
    the registry as it was. *)
Theorem C09_error_changes_nothing e fuel path s :
  reachable s -> env_ok e -> (forall n, ~ available s path n) -> (forall els, ~ readable e path els) ->
  exists err, proto e fuel path s = (Ret (inl err), s).
Proof.
  intros Hs He Ha. pose proof (proj1 (reachable_Inv _ Hs)) as S. apply proto_unreadable; try done.
  destruct (protos s !! path) as [g|] eqn:Hp; [|done].
  destruct (loaded_protos _ _ _ S Hp) as [f Hf]. exfalso. eapply Ha. by eapply loaded_available.
Qed.

Example C09_example :
  reachable demo_world /\ (forall n, ~ available demo_world "nope.proto" n) /\
  (forall els, ~ readable demo_env "nope.proto" els).
Proof.
  split; [apply demo_reachable|]. split.
  - intros n [s' H]. specialize (H demo_env 5). apply (f_equal fst) in H. vm_compute in H. discriminate H.
  - intros els (name & Hs & Hn & _). apply serves_find in Hs. vm_compute in Hs. congruence.
Qed.

(** ** C10 *)

(** The claim fails: a missing import is not an error but a panic, and asking again succeeds. *)
Theorem C10_refuted :
  exists e fuel path s els path',
    calm s /\ env_ok e /\ readable e path els /\ path' ∈ import_paths els /\
    (forall els', ~ readable e path' els') /\
    (exists msg, (proto e fuel path s).1 = Panic msg) /\
    (exists f, (proto e fuel path (proto e fuel path s).2).1 = Ret (inr f)).
Proof.
  exists broken_env, 50, broken_f, (start broken_files), broken_elems, "missing.proto".
  split; [apply start_history, broken_starts|]. split; [apply broken_env_ok|].
  split.
  { exists broken_f. split; [|split; [done|vm_compute; reflexivity]].
    exists [], ("table", fun path => match table_get broken_files path with
                               | Some _ => RName path
                               | None => RError not_exist end), [].
    split; [reflexivity|]. split; [constructor|]. vm_compute. reflexivity. }
  split; [cbn; set_solver|]. split.
  { intros els (name & Hs & Hn & _). apply serves_find in Hs. vm_compute in Hs. congruence. }
  split; eexists; vm_compute; reflexivity.
Qed.

(** What holds instead, for every missing or unreadable transitive import: no call reports success or
    an error, whatever the bound on the recursion depth ... *)
Theorem C10_never_reported e fuel path els path' s :
  env_ok e -> calm s -> protos s !! path = None -> readable e path els ->
  import_chain s e path path' -> protos s !! path' = None -> (forall els', ~ readable e path' els') ->
  forall r, (proto e fuel path s).1 <> Ret r.
Proof.
  intros He Hs Hp Hr Hc Hp' Hn.
  by destruct (broken_import_blows_up _ fuel _ _ _ _ He Hs Hp Hr Hc Hp' Hn) as [H1 H2].
Qed.

(** ... but a panic if the import closure is finite, and after it the file is there: asking for it
    again gives it without reading anything. *)
Theorem C10_missing_import e U fuel path els path' s :
  env_ok e -> closed_under_imports e U -> path ∈ U -> length U <= fuel ->
  calm s -> protos s !! path = None -> readable e path els ->
  import_chain s e path path' -> protos s !! path' = None -> (forall els', ~ readable e path' els') ->
  (exists msg, (proto e fuel path s).1 = Panic msg) /\
  exists n, available (proto e fuel path s).2 path n.
Proof.
  intros He HU Hin Hf Hs Hp Hr Hc Hp' Hn.
  destruct (broken_import_blows_up _ fuel _ _ _ _ He Hs Hp Hr Hc Hp' Hn) as [H1 H2].
  split; [|eexists; by eapply loaded_available].
  destruct (load_terminates e U path s He HU Hin) as (o & s' & Ho & E).
  rewrite (E fuel Hf) in *. unfold blows_up in H1. cbn [fst] in *.
  destruct o as [x|msg|]; [by destruct (H1 x)|eauto|done].
Qed.

(** broken.proto imports a file nobody has: its closure is finite *)
Example C10_example :
  closed_under_imports broken_env [broken_f; "missing.proto"; desc_f; any_f] /\
  import_chain (start broken_files) broken_env broken_f "missing.proto".
Proof.
  split.
  - intros path els path' Hin (name & Hs & _ & Hr) Hi.
    apply serves_find in Hs.
    repeat (apply elem_of_cons in Hin as [->|Hin];
      [vm_compute in Hs; try discriminate Hs; injection Hs as <-; vm_compute in Hr;
       try discriminate Hr; injection Hr as <-; vm_compute in Hi; set_solver|]).
    by apply elem_of_nil in Hin.
  - eapply chain_step; [constructor|vm_compute; reflexivity| |].
    + exists broken_f. split; [|split; [done|vm_compute; reflexivity]].
      exists [], ("table", fun path => match table_get broken_files path with
                               | Some _ => RName path
                               | None => RError not_exist end), [].
      split; [reflexivity|]. split; [constructor|]. vm_compute. reflexivity.
    + cbn. set_solver.
Qed.

(** ** C11 *)

(** The content of a newly loaded file is what the first resolver that knows it points to. *)
Theorem C11_first_resolver_serves e fuel path name els s f s1 :
  reachable s -> env_ok e -> protos s !! path = None ->
  serves e path name -> name <> "" -> e_read e name path = inr els ->
  proto e fuel path s = (Ret (inr f), s1) ->
  exists g a, f = NAst KFile a (root g) /\ loaded s1 path g (file_tree path els).
Proof.
  intros Hs He Hp Hsv Hn Hr E. pose proof (proj1 (reachable_Inv _ Hs)) as S.
  destruct (proto_returns_loaded _ _ _ _ _ _ He S E) as (g & t & -> & Ht & Hels).
  rewrite (Hels els Hp) in Ht by (exists name; done). eauto.
Qed.

Theorem C11_resolver_error e fuel path who cause s :
  protos s !! path = None -> resolver_fails e path who cause ->
  exists err, proto e fuel path s = (Ret (inl err), s) /\
    error_text err = "resolve proto file " +:+ path +:+ ": " +:+
                     "resolve proto file path with " +:+ who +:+ ": " +:+ error_text cause.
Proof.
  intros Hp Hf. eexists. split; [apply proto_find_fails; [done|by apply fails_find]|].
  cbn [error_text]. by rewrite <- !sapp_assoc.
Qed.

Theorem C11_not_found e fuel path s :
  protos s !! path = None -> nobody_knows e path ->
  exists err, proto e fuel path s = (Ret (inl err), s) /\
    error_text err = "resolve proto file " +:+ path +:+ ": " +:+ "not found".
Proof.
  intros Hp Hn. eexists. split; [exact (proto_not_found e fuel path s Hp Hn)|].
  cbn [error_text]. by rewrite <- !sapp_assoc.
Qed.

(** a resolver list in which the first does not know the file and the third fails *)
Definition three_resolvers : env :=
  mkEnv [("a", fun _ => RError (EWrap "looked everywhere" not_exist));
         ("b", fun p => if String.eqb p "x.proto" then RName "/b/x.proto" else RError not_exist);
         ("c", fun p => if String.eqb p "z.proto" then RError not_exist else RError (ENew "io"))]
        (fun _ _ => inr []).
Example C11_example :
  serves three_resolvers "x.proto" "/b/x.proto" /\ resolver_fails three_resolvers "y.proto" "c" (ENew "io") /\
  nobody_knows three_resolvers "z.proto".
Proof.
  split; [|split].
  - eexists [_], _, [_]. split; [reflexivity|]. split; [|reflexivity].
    repeat constructor; by eexists.
  - eexists [_; _], _, []. split; [reflexivity|]. split; [repeat constructor; by eexists|]. by split.
  - repeat constructor; by eexists.
Qed.

(** ** C12 *)

(** AST elements stay where they are, with the same content. *)
Theorem C12_elements_stay s {A} (m : R A) p t :
  reachable s -> client Loads m -> heap_at s p = Some t -> heap_at (m s).2 p = Some t.
Proof. intros Hs Hm. by apply (later_heap s m). Qed.

(** NodeIndex of a node gives the same later. *)
Theorem C12_index_stays s {A} (m : R A) k a p t :
  reachable s -> client Loads m -> heap_at s p = Some t ->
  (node_index (NAst k a p) (m s).2).1 = (node_index (NAst k a p) s).1.
Proof. intros Hs Hm. by apply (later_index s m). Qed.

(** A name that could be looked up can still be looked up later. *)
Theorem C12_names_stay s {A} (m : R A) q n s1 :
  reachable s -> client Loads m -> node_by_full_name q s = (Ret (Some n), s1) ->
  exists n' s2, node_by_full_name q (m s).2 = (Ret (Some n'), s2).
Proof. intros Hs Hm. by apply (later_lookup s m). Qed.

(** loading data.proto after using the descriptor *)
Example C12_example :
  reachable (start demo_files) /\ client Loads (proto demo_env 50 dat_f) /\
  (exists n s1, node_by_full_name ".google.protobuf.FileOptions" (start demo_files) = (Ret (Some n), s1)) /\
  heap (proto demo_env 50 dat_f (start demo_files)).2 <> heap (start demo_files).
Proof.
  split; [apply start_history, demo_starts|].
  split; [apply cl_proto; [done|apply demo_env_ok]|].
  split; [eexists _, _; apply by_outcome; vm_compute; reflexivity|].
  intros H. apply (f_equal length) in H. vm_compute in H. discriminate H.
Qed.

(** ** C13 *)

(** A program without Proto calls leaves files, names and qualified names untouched, whatever its
    outcome. *)
Theorem C13_queries_do_not_change_schema s {A} (m : R A) :
  client Queries m ->
  let s' := (m s).2 in
  heap s' = heap s /\ protos s' = protos s /\ names s' = names s /\
  forall n, (node_index n s').1 = (node_index n s).1.
Proof.
  intros Hm s'. destruct (query_quiet m Hm s) as [Q1 Q2 Q3 Q4 _ _ _]. fold s' in Q1, Q2, Q3, Q4.
  split; [done|]. split; [done|]. split; [done|]. intros n.
  assert (H : forall v, scope_of s' v = scope_of s v) by (intros v; unfold scope_of; by rewrite Q4).
  unfold node_index. rewrite !rbind_get. destruct n as [[] ? ?| | | | |]; cbn; by rewrite ?H.
Qed.

(** a query that panics and does write the registry's caches *)
Example C13_example :
  client Queries (node_by_full_name ".no.such") /\
  (exists msg, (node_by_full_name ".no.such" demo_world).1 = Panic msg) /\
  cache (node_by_full_name ".no.such" demo_world).2 !! VNil <> cache demo_world !! VNil.
Proof.
  split; [apply cl_api; constructor|]. split; [eexists; vm_compute; reflexivity|].
  vm_compute. discriminate.
Qed.
