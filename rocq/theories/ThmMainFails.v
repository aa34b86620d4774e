(** * C69: the README's program when something is missing. *)
From Verif Require Export ThmMain.
From Verif Require Import Frame Navigate Identity Api.
Local Open Scope go_scope.

(** Without resolvers, or without a descriptor, main panics with the error, wrapped. *)
Theorem C69_no_resolvers os read root fuel err :
  built os [WithProtoc; WithRoot [root]] = inl err ->
  readme_main os read root fuel = Panic (PError (EWrap "create resolvers for schema files" err)).
Proof. intros E. unfold built in E. cbn [fold_left run_call] in E. unfold readme_main. by rewrite E. Qed.
Theorem C69_no_registry os read root rs fuel :
  let e := mkEnv (env_resolvers os rs) read in
  built os [WithProtoc; WithRoot [root]] = inr rs -> env_ok e ->
  (forall els, ~ readable e "google/protobuf/descriptor.proto" els) ->
  exists err cause, readme_main os read root fuel = Panic (PError err) /\
    error_text err = "create registry: set up proto descriptor: " +:+ cause.
Proof.
  intros e E He Hn. destruct (C67_no_descriptor e fuel He Hn) as (err & cause & E1 & Et).
  unfold built in E. cbn [fold_left run_call] in E. unfold readme_main. rewrite E. fold e. rewrite E1.
  eexists _, cause. split; [reflexivity|]. cbn [error_text]. by rewrite Et.
Qed.

(** Without the file of the status message main panics with the error Proto returns, wrapped. *)
Theorem C69_no_status_file os read root rs fuel s0 :
  let e := mkEnv (env_resolvers os rs) read in
  built os [WithProtoc; WithRoot [root]] = inr rs -> env_ok e -> new_registry e fuel = Ret (inr s0) ->
  (forall n, ~ available s0 "meta/v1/status.proto" n) -> (forall els, ~ readable e "meta/v1/status.proto" els) ->
  exists err, proto e fuel "meta/v1/status.proto" s0 = (Ret (inl err), s0) /\
    readme_main os read root fuel = Panic (PError (EWrap "look for status response definition file" err)).
Proof.
  intros e E He E0 Hn Hr. assert (Hs : reachable s0) by (by eapply hist_new).
  destruct (C09_error_changes_nothing e fuel "meta/v1/status.proto" s0 Hs He Hn Hr) as [err Ep].
  exists err. split; [done|]. unfold built in E. cbn [fold_left run_call] in E. unfold readme_main. rewrite E. fold e. rewrite E0.
  unfold linter. by rewrite (rbind_val _ _ _ _ _ Ep).
Qed.

Lemma find_kid_none sel l : (forall q u, (q, u) ∈ l -> sel (t_data u) = false) -> find_kid sel l = None.
Proof.
  induction l as [|[q u] l IH]; intros H; [done|]. cbn [find_kid]. rewrite (H q u); [|by constructor].
  apply IH. intros q' u' Hq. apply (H q'). by constructor.
Qed.
Lemma lookup_kid_none p t s sel k : heap_at s p = Some t -> (forall u, u ∈ t_kids t -> sel (t_data u) = false) ->
  lookup_kid p sel k s = (Ret None, s).
Proof.
  intros Ht Hn. unfold lookup_kid. rewrite (rbind_val _ _ _ _ _ (kids_of_ok _ _ _ Ht)).
  rewrite find_kid_none; [done|]. intros q u Hq. apply Hn. apply elem_of_list_lookup in Hq as [i Hi]. apply kids_at_lookup in Hi as (u' & [= -> ->] & Hu). by eapply elem_of_list_lookup_2.
Qed.
Lemma loaded_root s path g t : loaded s path g t -> heap_at s (root g) = Some t.
Proof. intros (_ & H & _). unfold heap_at, root. cbn [fst snd]. by rewrite H. Qed.
Lemma proto_root e fuel path s f s1 g t : env_ok e -> reachable s ->
  proto e fuel path s = (Ret (inr f), s1) -> loaded s1 path g t -> exists a, f = NAst KFile a (root g).
Proof.
  intros He Hs E Hl. destruct (proto_returns_loaded _ _ _ _ _ _ He (proj1 (reachable_Inv _ Hs)) E) as (g' & t' & -> & Hl' & _).
  destruct (loaded_fun _ _ _ _ _ _ Hl Hl') as [-> _]. by eexists.
Qed.

(** If the file has no message ResponseStatus, main panics with an error saying so. *)
Theorem C69_no_status_message os read sroot rs fuel s0 f s1 g t :
  let e := mkEnv (env_resolvers os rs) read in
  built os [WithProtoc; WithRoot [sroot]] = inr rs -> env_ok e -> new_registry e fuel = Ret (inr s0) ->
  proto e fuel "meta/v1/status.proto" s0 = (Ret (inr f), s1) -> loaded s1 "meta/v1/status.proto" g t ->
  (forall u ext, u ∈ t_kids t -> t_data u <> DMessage "ResponseStatus" ext) ->
  readme_main os read sroot fuel = Panic (PError (ENew "missing definition of ResponseStatus message")).
Proof.
  intros e E He E0 Ep Hl Hno. assert (Hs : reachable s0) by (by eapply hist_new).
  destruct (proto_root _ _ _ _ _ _ _ _ He Hs Ep Hl) as [a ->].
  unfold built in E. cbn [fold_left run_call] in E. unfold readme_main. rewrite E. fold e. rewrite E0.
  unfold linter. rewrite (rbind_val _ _ _ _ _ Ep). cbn beta iota.
  assert (Hm : file_message (root g) "ResponseStatus" s1 = (Ret None, s1)).
  { unfold file_message. apply (lookup_kid_none _ t); [by eapply loaded_root|]. intros u Hu.
    pose proof (Hno u) as H. destruct (t_data u) as [| | | | | |n ext| | | | | | | | | | | |]; try done.
    destruct (String.eqb_spec n "ResponseStatus") as [->|]; [|done]. by destruct (H ext Hu). }
  by rewrite (rbind_val _ _ _ _ _ Hm).
Qed.

(** The loop over the services, after those before. *)
Lemma rbind_ext {A B} (m : R A) (k k' : A -> R B) s : (forall a s', k a s' = k' a s') -> rbind m k s = rbind m k' s.
Proof. intros H. unfold rbind. destruct (m s) as [[]]; [apply H|done|done]. Qed.
Lemma lint_services_app e fuel st l1 : forall l2 fs s,
  lint_services e fuel st (l1 ++ l2) fs s =
  rbind (lint_services e fuel st l1 fs) (fun fs' => lint_services e fuel st l2 fs') s.
Proof.
  induction l1 as [|[path name] l1 IH]; intros l2 fs s; cbn [app lint_services]; [by rewrite rbind_ret|].
  rewrite rbind_assoc. apply rbind_ext. intros [err|[k a fp| | | | |]] s1; try done.
  rewrite rbind_assoc. apply rbind_ext. intros [[k' a' sp| | | | |]|] s2; try done.
  rewrite rbind_assoc. apply rbind_ext. intros fs' s3. apply IH.
Qed.
Lemma linter_app e fuel before l s0 fs s1 :
  linter e fuel before s0 = (Ret fs, s1) ->
  exists st, linter e fuel (before ++ l) s0 = lint_services e fuel st l fs s1.
Proof.
  unfold linter. intros E. apply rbind_Ret in E as (r & s2 & E1 & E2). rewrite (rbind_val _ _ _ _ _ E1).
  destruct r as [err|[k a fp| | | | |]]; try discriminate E2. cbn beta iota in *.
  apply rbind_Ret in E2 as (o & s3 & E2 & E3). rewrite (rbind_val _ _ _ _ _ E2).
  destruct o as [st|]; [|discriminate E3]. exists st. rewrite lint_services_app. by rewrite (rbind_val _ _ _ _ _ E3).
Qed.

(** If the file of a service cannot be read, the program panics when it comes to it, with the error Proto
    returns, wrapped with the name of the service ... *)
Theorem C69_no_service_file e fuel before path name after s0 fs s1 :
  reachable s0 -> env_ok e -> linter e fuel before s0 = (Ret fs, s1) ->
  (forall n, ~ available s1 path n) -> (forall els, ~ readable e path els) ->
  exists err, proto e fuel path s1 = (Ret (inl err), s1) /\
    (linter e fuel (before ++ (path, name) :: after) s0).1 =
      Panic (PError (EWrap ("look for service definition file " +:+ name) err)).
Proof.
  intros Hs He E Hn Hr. assert (Hs1 : reachable s1) by (eapply client_reachable; [exact Hs|by apply client_linter|exact E]).
  destruct (C09_error_changes_nothing e fuel path s1 Hs1 He Hn Hr) as [err Ep]. exists err. split; [done|].
  destruct (linter_app e fuel before ((path, name) :: after) s0 fs s1 E) as [st ->]. cbn [lint_services].
  by rewrite (rbind_val _ _ _ _ _ Ep).
Qed.
(** ... and if the file has no such service, with an error too. *)
Theorem C69_no_service e fuel before path name after s0 fs s1 f s2 g t :
  reachable s0 -> env_ok e -> linter e fuel before s0 = (Ret fs, s1) ->
  proto e fuel path s1 = (Ret (inr f), s2) -> loaded s2 path g t ->
  (forall u, u ∈ t_kids t -> t_data u <> DService name) ->
  exists err, (linter e fuel (before ++ (path, name) :: after) s0).1 = Panic (PError err).
Proof.
  intros Hs He E Ep Hl Hno. assert (Hs1 : reachable s1) by (eapply client_reachable; [exact Hs|by apply client_linter|exact E]).
  destruct (linter_app e fuel before ((path, name) :: after) s0 fs s1 E) as [st ->]. cbn [lint_services].
  destruct (proto_root _ _ _ _ _ _ _ _ He Hs1 Ep Hl) as [a ->].
  rewrite (rbind_val _ _ _ _ _ Ep). cbn beta iota.
  assert (Hm : file_service (root g) name s2 = (Ret None, s2)).
  { unfold file_service. apply (lookup_kid_none _ t); [by eapply loaded_root|]. intros u Hu.
    pose proof (Hno u Hu) as H. destruct (t_data u) as [| | | | | |n ext| | | | | | | | | | | |] eqn:Hd; try done.
    all: try (destruct (String.eqb_spec s name) as [->|]; done).
    all: try (destruct (String.eqb_spec name0 name) as [->|]; done). }
  rewrite (rbind_val _ _ _ _ _ Hm). by eexists.
Qed.

(** If the program ends without a panic it prints nothing and exits with 0, or prints the verdict last and
    exits with 1. *)
Theorem C69_exit_code os read sroot fuel out code :
  readme_main os read sroot fuel = Ret (out, code) ->
  (out = "" /\ code = 0%Z) \/
  (exists lines, out = lines +:+ "schema does not satisfy criteria" +:+ newline /\ lines <> "" /\ code = 1%Z).
Proof.
  unfold readme_main. destruct (build_resolvers _ _) as [|rs]; [done|]. cbn zeta.
  destruct (new_registry _ _) as [[|s]| |]; try done.
  destruct (linter _ _ _ s).1 as [fs| |]; try done. unfold report. destruct fs as [|x fs].
  - intros [= <- <-]. by left.
  - intros [= <- <-]. right. eexists. split; [reflexivity|]. split; [|done].
    assert (Hx : finding_text x <> "").
    { destruct x as [[file ? ? ?] ?|[file ? ? ?] ? ?]; unfold finding_text, pos_string; cbn [p_file];
        destruct (String.eqb_spec file "") as [|Hf]; destruct file; done. }
    cbn [map]. destruct (map finding_text fs); cbn [String.concat]; [done|]. by destruct (finding_text x).
Qed.

(** *** Examples: the disk of [C69_main_accepts_example] with parts missing *)
Definition disk_env (d : list (string * (string * list tree))) : env :=
  mkEnv (env_resolvers (disk_os d) the_resolvers) (disk_read d).
Definition unreadable_b (e : env) (path : string) : bool :=
  match find_name (e_resolvers e) path with
  | inr name => String.eqb name "" || match e_read e name path with inr _ => false | _ => true end
  | inl _ => true
  end.
Lemma unreadable_ok e path els : unreadable_b e path = true -> ~ readable e path els.
Proof.
  intros H (name & Hf & Hn & Hr)%reads_readable. unfold unreadable_b in H. rewrite Hf, Hr in H.
  by destruct (String.eqb_spec name "").
Qed.
Definition refused_b (e : env) (path : string) (s : registry) : bool :=
  match (proto e 50 path s).1 with Ret (inl _) => true | _ => false end.
Lemma refused_ok e path s n : refused_b e path s = true -> ~ available s path n.
Proof. intros H [s' Hs]. unfold refused_b in H. by rewrite (Hs e 50) in H. Qed.

Definition no_status_disk := firstn 2 good_disk.
Example C69_no_status_file_example : exists os read rs s0,
  let e := mkEnv (env_resolvers os rs) read in
  built os [WithProtoc; WithRoot ["/schema"]] = inr rs /\ env_ok e /\ new_registry e 50 = Ret (inr s0) /\
  (forall n, ~ available s0 "meta/v1/status.proto" n) /\ (forall els, ~ readable e "meta/v1/status.proto" els).
Proof.
  assert (He : env_ok (disk_env no_status_disk)) by (apply disk_env_ok; vm_compute; reflexivity).
  assert (Hb : built (disk_os no_status_disk) [WithProtoc; WithRoot ["/schema"]] = inr the_resolvers) by (vm_compute; reflexivity).
  assert (Hu : unreadable_b (disk_env no_status_disk) "meta/v1/status.proto" = true) by (vm_compute; reflexivity).
  assert (Hn : match new_registry (disk_env no_status_disk) 50 with
    | Ret (inr s) => refused_b (disk_env no_status_disk) "meta/v1/status.proto" s | _ => false end = true) by (vm_compute; reflexivity).
  destruct (new_registry (disk_env no_status_disk) 50) as [[|s0]| |] eqn:E0; try discriminate Hn.
  exists (disk_os no_status_disk), (disk_read no_status_disk), the_resolvers, s0. cbn zeta. fold (disk_env no_status_disk).
  split; [exact Hb|]. split; [exact He|]. split; [exact E0|].
  split; [intros n; by eapply refused_ok|intros els; by apply unreadable_ok].
Qed.

(** the status file without the message *)
Definition no_message_disk :=
  (firstn 2 good_disk ++ [("/schema/meta/v1/status.proto", (st_f, [el st_f 1 (DPackage "meta.v1") []; msg st_f 2 "Status" []]))])%list.
Example C69_no_status_message_example : exists os read rs s0 f s1 g t,
  let e := mkEnv (env_resolvers os rs) read in
  built os [WithProtoc; WithRoot ["/schema"]] = inr rs /\ env_ok e /\ new_registry e 50 = Ret (inr s0) /\
  proto e 50 "meta/v1/status.proto" s0 = (Ret (inr f), s1) /\ loaded s1 "meta/v1/status.proto" g t /\
  (forall u ext, u ∈ t_kids t -> t_data u <> DMessage "ResponseStatus" ext) /\
  readme_main os read "/schema" 50 = Panic (PError (ENew "missing definition of ResponseStatus message")).
Proof.
  assert (He : env_ok (disk_env no_message_disk)) by (apply disk_env_ok; vm_compute; reflexivity).
  assert (Hb : built (disk_os no_message_disk) [WithProtoc; WithRoot ["/schema"]] = inr the_resolvers) by (vm_compute; reflexivity).
  assert (Hm : readme_main (disk_os no_message_disk) (disk_read no_message_disk) "/schema" 50 =
    Panic (PError (ENew "missing definition of ResponseStatus message"))) by (vm_compute; reflexivity).
  assert (Hp : match new_registry (disk_env no_message_disk) 50 with
    | Ret (inr s) => match proto (disk_env no_message_disk) 50 "meta/v1/status.proto" s with
        | (Ret (inr _), s1) =>
            match protos s1 !! "meta/v1/status.proto" with
            | Some g => match heap s1 !! g with
                | Some t => forallb (fun u => match t_data u with DMessage n _ => negb (String.eqb n "ResponseStatus") | _ => true end) (t_kids t)
                | None => false end
            | None => false end
        | _ => false end
    | _ => false end = true) by (vm_compute; reflexivity).
  destruct (new_registry (disk_env no_message_disk) 50) as [[|s0]| |] eqn:E0; try discriminate Hp.
  destruct (proto (disk_env no_message_disk) 50 "meta/v1/status.proto" s0) as [[[|f]| |] s1] eqn:E1; try discriminate Hp.
  assert (Hs0 : reachable s0) by (by eapply hist_new).
  destruct (proto_returns_loaded _ _ _ _ _ _ He (proj1 (reachable_Inv _ Hs0)) E1) as (g & t & Hf & Hl & _).
  destruct Hl as (Hl1 & Hl2 & Hl3). rewrite Hl1, Hl2 in Hp.
  exists (disk_os no_message_disk), (disk_read no_message_disk), the_resolvers, s0, f, s1, g, t. cbn zeta. fold (disk_env no_message_disk).
  split; [exact Hb|]. split; [exact He|]. split; [exact E0|]. split; [exact E1|]. split; [exact (conj Hl1 (conj Hl2 Hl3))|].
  split; [|exact Hm]. intros u ext Hu Hd. rewrite List.forallb_forall in Hp. apply elem_of_list_In, Hp in Hu. by rewrite Hd in Hu.
Qed.

(** no file for the second service; the first one is fine *)
Definition no_meta_disk := firstn 5 good_disk.
Example C69_no_service_file_example : exists e s0 fs s1 path name,
  reachable s0 /\ env_ok e /\ the_services = [("service/storage/v1/service.proto", "Storage"); (path, name)] /\
  linter e 50 [("service/storage/v1/service.proto", "Storage")] s0 = (Ret fs, s1) /\
  (forall n, ~ available s1 path n) /\ (forall els, ~ readable e path els).
Proof.
  assert (He : env_ok (disk_env no_meta_disk)) by (apply disk_env_ok; vm_compute; reflexivity).
  assert (Hu : unreadable_b (disk_env no_meta_disk) "service/meta/v1/meta.proto" = true) by (vm_compute; reflexivity).
  assert (Hp : match new_registry (disk_env no_meta_disk) 50 with
    | Ret (inr s) => match linter (disk_env no_meta_disk) 50 [("service/storage/v1/service.proto", "Storage")] s with
        | (Ret _, s1) => refused_b (disk_env no_meta_disk) "service/meta/v1/meta.proto" s1 | _ => false end
    | _ => false end = true) by (vm_compute; reflexivity).
  destruct (new_registry (disk_env no_meta_disk) 50) as [[|s0]| |] eqn:E0; try discriminate Hp.
  destruct (linter (disk_env no_meta_disk) 50 [("service/storage/v1/service.proto", "Storage")] s0) as [[fs| |] s1] eqn:E1; try discriminate Hp.
  exists (disk_env no_meta_disk), s0, fs, s1, "service/meta/v1/meta.proto", "Meta".
  split; [by eapply hist_new|]. split; [exact He|]. split; [reflexivity|]. split; [exact E1|].
  split; [intros n; by eapply refused_ok|intros els; by apply unreadable_ok].
Qed.
(** the whole program in this and two other cases *)
Example C69_failures_example :
  (exists err, readme_main (disk_os no_meta_disk) (disk_read no_meta_disk) "/schema" 50 = Panic (PError err) /\
     error_text err = "look for service definition file Meta: resolve proto file service/meta/v1/meta.proto: not found") /\
  (exists err, readme_main (disk_os (disk ok_elems ok_elems)) (disk_read (disk ok_elems [])) "/schema" 50 = Panic (PError err) /\
     error_text err = "service not found in file") /\
  (exists err, readme_main (disk_os []) (disk_read []) "/schema" 50 = Panic (PError err)).
Proof. split; [|split]; eexists; [split; vm_compute; reflexivity..|vm_compute; reflexivity]. Qed.
