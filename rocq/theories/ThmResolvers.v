(** * Where files are looked for (C54-C58). *)
From Verif Require Export Paths Resolvers Observe.
From Coq Require Import Sorting.Sorted Sorting.Permutation.

(** ** Words *)

(** calls on the builder returned by Resolvers() *)
Inductive call := WithProtoc | WithRoot (roots : list string).
Definition run_call (b : builder) (c : call) : builder :=
  match c with WithProtoc => with_protoc b | WithRoot l => with_root l b end.
(** Resolvers().call1.call2...Build() *)
Definition built (os : os_view) (calls : list call) : error + list resolver :=
  build_resolvers os (fold_left run_call calls new_builder).

(** the roots given, in the order given *)
Fixpoint roots_given (calls : list call) : list string :=
  match calls with
  | [] => []
  | WithProtoc :: r => roots_given r
  | WithRoot l :: r => (l ++ roots_given r)%list
  end.

Definition directory (os : os_view) (d : string) : Prop := os_stat os d = SOk true.
(** the empty path does not exist, as on every Unix *)
Definition unix (os : os_view) : Prop :=
  exists err, os_stat os "" = SError err /\ error_is err_not_exist err = true.

(** what Resolve says about a candidate file *)
Definition answer (os : os_view) (file : string) : resolve_answer :=
  match os_stat os file with
  | SError err => RError (EWrap "check computed path" err)
  | SOk _ => RName file
  end.

(** protoc is [path] and lies two levels below a directory that has include/google/protobuf/any.proto *)
Definition protoc_installed (os : os_view) (ds : list string) : Prop :=
  Forall plain ds /\
  (exists bin exe, plain bin /\ plain exe /\ os_protoc os = inr ("/" +:+ slashes (ds ++ [bin; exe])%list)).
Definition include_file (ds qs : list string) : string :=
  "/" +:+ slashes (ds ++ "include" :: qs)%list.

(** ** Lemmas *)

Lemma builder_roots calls b :
  b_roots (fold_left run_call calls b) = (b_roots b ++ roots_given calls)%list.
Proof.
  revert b. induction calls as [|[|l] calls IH]; intros b; cbn; [by rewrite app_nil_r|..].
  - by rewrite IH.
  - rewrite IH. cbn. by rewrite app_assoc.
Qed.
Lemma builder_protoc calls b :
  b_protoc (fold_left run_call calls b) = true <-> b_protoc b = true \/ WithProtoc ∈ calls.
Proof.
  revert b. induction calls as [|[|l] calls IH]; intros b; cbn.
  - split; [auto|]. intros [?|?%elem_of_nil]; done.
  - rewrite IH. cbn. split; [|auto]. intros _. right. left.
  - rewrite IH. cbn. split; intros [?|H]; auto; right; [by right|].
    by apply elem_of_cons in H as [|].
Qed.

Lemma build_roots_ok os l rs : build_roots os l = inr rs <-> Forall (directory os) l /\ rs = map PRRoot l.
Proof.
  revert rs. induction l as [|r l IH]; intros rs; cbn [build_roots map].
  { split; [intros [= <-]|intros [_ ->]; done]. split; [constructor|done]. }
  unfold new_resolver_root. destruct (os_stat os r) as [e|[|]] eqn:E.
  1,3: split; [done|]; intros [H _]; inversion_clear H as [|? ? H1 H2]; unfold directory in H1; congruence.
  destruct (build_roots os l) as [e|xs].
  - split; [done|]. intros [H ->]. inversion_clear H as [|? ? H1 H2].
    assert (@inl error _ e = inr (map PRRoot l)) as Hx by (apply IH; done). done.
  - destruct (proj1 (IH xs) eq_refl) as [H ->]. split.
    + intros [= <-]. split; [by constructor|done].
    + intros [_ ->]. done.
Qed.

Lemma built_eq os calls :
  let roots := compact_arg (sort_strings (roots_given calls)) in
  built os calls =
  if b_protoc (fold_left run_call calls new_builder) then
    match new_resolver_protoc os with
    | inl e => inl (EWrap "setup protoc distribution resolver" e)
    | inr r => match build_roots os roots with inl e => inl e | inr xs => inr (r :: xs) end
    end
  else build_roots os roots.
Proof.
  cbn. unfold built, build_resolvers. rewrite builder_roots. cbn [b_roots new_builder app].
  destruct (b_protoc _); [by destruct (new_resolver_protoc os)|]. by destruct (build_roots _ _).
Qed.

Definition asked (calls : list call) : Prop := WithProtoc ∈ calls.
Lemma asked_protoc calls : asked calls <-> b_protoc (fold_left run_call calls new_builder) = true.
Proof. rewrite builder_protoc. cbn. unfold asked. split; [auto|]. by intros [|]. Qed.

Lemma built_ok os calls rs :
  unix os -> built os calls = inr rs ->
  NoDup (roots_given calls) /\ Forall (directory os) (roots_given calls) /\
  exists pre l, rs = (pre ++ map PRRoot l)%list /\ Permutation (roots_given calls) l /\
    StronglySorted before l /\
    (asked calls /\ (exists r, new_resolver_protoc os = inr r /\ pre = [r]) \/ ~ asked calls /\ pre = []).
Proof.
  intros Hx E. rewrite built_eq in E.
  assert (exists pre xs, rs = (pre ++ xs)%list /\
            build_roots os (compact_arg (sort_strings (roots_given calls))) = inr xs /\
            (asked calls /\ (exists r, new_resolver_protoc os = inr r /\ pre = [r]) \/ ~ asked calls /\ pre = []))
    as (pre & xs & -> & Eb & Hpre).
  { pose proof (asked_protoc calls) as Ha. destruct (b_protoc _).
    - destruct (new_resolver_protoc os) as [|r]; [done|].
      destruct (build_roots _ _) as [|xs] eqn:Eb; [done|]. injection E as <-.
      exists [r], xs. split; [done|]. split; [done|]. left. split; [by apply Ha|]. by exists r.
    - exists [], rs. split; [done|]. split; [done|]. right. split; [|done]. by intros ?%Ha. }
  apply build_roots_ok in Eb as [Hd ->].
  assert (NoDup (sort_strings (roots_given calls))) as Hn.
  { destruct (decide (NoDup (sort_strings (roots_given calls)))) as [|Hnd]; [done|].
    pose proof (compact_arg_dup _ (sort_sorted _) Hnd) as Hin.
    rewrite List.Forall_forall in Hd. apply elem_of_list_In in Hin.
    specialize (Hd _ Hin). destruct Hx as (err & Hx & _). unfold directory in *. congruence. }
  rewrite (compact_arg_nodup _ Hn) in *.
  pose proof (sort_perm (roots_given calls)) as Hp.
  split; [by rewrite Hp|]. split.
  { rewrite Hp. done. }
  exists pre, (sort_strings (roots_given calls)). split; [done|]. split; [done|].
  split; [apply sort_sorted|done].
Qed.

Lemma built_all os calls :
  NoDup (roots_given calls) -> Forall (directory os) (roots_given calls) ->
  (asked calls -> exists r, new_resolver_protoc os = inr r) -> exists rs, built os calls = inr rs.
Proof.
  intros Hn Hd Hp. rewrite built_eq.
  pose proof (sort_perm (roots_given calls)) as Hs.
  rewrite (compact_arg_nodup (sort_strings (roots_given calls))) by (by rewrite <- Hs).
  assert (build_roots os (sort_strings (roots_given calls)) =
          inr (map PRRoot (sort_strings (roots_given calls)))) as ->.
  { apply build_roots_ok. split; [|done]. rewrite <- Hs. done. }
  destruct (b_protoc _) eqn:E; [|eauto]. destruct Hp as [r ->]; [by apply asked_protoc|]. eauto.
Qed.

Lemma resolve_answer_at os r p : resolver_resolve os r p = answer os (path_join [resolver_root r; p]).
Proof. done. Qed.

(** The roots give [file] for the import path: among the roots, the least in byte order of those
    below which the path exists does. *)
Definition least_root_has (os : os_view) (roots : list string) (path file : string) : Prop :=
  exists r, r ∈ roots /\ answer os (path_join [r; path]) = RName file /\
    forall r', r' ∈ roots -> before r' r -> r' <> r -> not_there (answer os (path_join [r'; path])).

Lemma sorted_split_iff (l : list string) r' r l1 l2 :
  StronglySorted before l -> NoDup l -> l = (l1 ++ r :: l2)%list ->
  r' ∈ l1 <-> r' ∈ l /\ before r' r /\ r' <> r.
Proof.
  intros Hs Hn ->. split.
  - intros H. split; [apply elem_of_app; by left|]. split.
    + induction l1 as [|x l1 IH]; [by apply elem_of_nil in H|].
      inversion_clear Hs as [|? ? Hs' Hx]. apply elem_of_cons in H as [->|H].
      * rewrite List.Forall_forall in Hx. apply Hx. apply elem_of_list_In, elem_of_app. right. left.
      * inversion_clear Hn. by apply IH.
    + intros ->. apply NoDup_app in Hn as (_ & Hn & _). apply (Hn _ H). left.
  - intros (H & Hb & Hne). apply elem_of_app in H as [H|H]; [done|].
    apply elem_of_cons in H as [->|H]; [done|]. exfalso. apply Hne. apply before_antisym; [done|].
    clear Hn Hb. induction l1 as [|x l1 IH]; cbn in Hs; inversion_clear Hs as [|? ? Hs' Hx]; [|by apply IH].
    rewrite List.Forall_forall in Hx. apply Hx. by apply elem_of_list_In.
Qed.

Lemma served_by_sorted os l path file pre e :
  StronglySorted before l -> NoDup l -> e_resolvers e = (pre ++ env_resolvers os (map PRRoot l))%list ->
  Forall (fun x => not_there (x.2 path)) pre ->
  serves e path file <-> least_root_has os l path file.
Proof.
  intros Hs Hn He Hpre. unfold serves. rewrite He. split.
  - intros (a & r & b & E & Ha & Hr).
    assert (exists a', a = (pre ++ a')%list) as [a' ->].
    { clear He. revert a E Ha. induction Hpre as [|x pre Hx Hpre IH]; intros a E Ha; [by exists a|].
      destruct a as [|y a]; cbn in E; injection E as <- E.
      - exfalso. destruct Hx as (err & Hx & _). congruence.
      - inversion_clear Ha. destruct (IH a E) as [a' ->]; [done|]. by exists a'. }
    rewrite <- app_assoc in E. apply app_inv_head in E.
    unfold env_resolvers in E. rewrite map_map in E.
    apply map_eq_app in E as (l1 & l2' & -> & <- & E).
    apply map_eq_cons in E as (r0 & l2 & -> & <- & <-).
    exists r0. split; [apply elem_of_app; right; left|]. split; [done|].
    intros r' Hin Hb Hne.
    assert (r' ∈ l1) as H1 by (by eapply sorted_split_iff).
    apply Forall_app in Ha as [_ Ha]. rewrite List.Forall_forall in Ha.
    apply elem_of_list_In in H1.
    apply (Ha (resolver_string (PRRoot r'), resolver_resolve os (PRRoot r'))).
    apply (in_map (fun x => (resolver_string (PRRoot x), resolver_resolve os (PRRoot x)))) in H1. done.
  - intros (r & Hin & Hr & Hall). apply elem_of_list_split in Hin as (l1 & l2 & El).
    exists (pre ++ env_resolvers os (map PRRoot l1))%list, (resolver_string (PRRoot r), resolver_resolve os (PRRoot r)),
      (env_resolvers os (map PRRoot l2)).
    split; [|split; [|done]].
    + rewrite El. unfold env_resolvers. by rewrite !map_app, <- app_assoc.
    + apply Forall_app. split; [done|]. rewrite List.Forall_forall. intros x Hx.
      unfold env_resolvers in Hx. rewrite map_map in Hx. apply in_map_iff in Hx as (r' & <- & Hr').
      cbn. apply elem_of_list_In in Hr'.
      destruct (proj1 (sorted_split_iff l r' r l1 l2 Hs Hn El) Hr') as (H1 & H2 & H3).
      by apply Hall.
Qed.

Lemma least_root_perm os l l' path file :
  Permutation l l' -> least_root_has os l path file <-> least_root_has os l' path file.
Proof. intros H. unfold least_root_has. by setoid_rewrite H. Qed.

(** ** C54 *)

(** The files come from the first of the given roots in byte order, whatever the order they were
    given in; protoc's directory, if asked for, is searched before them. *)
Theorem C54_search os calls rs e path file :
  unix os -> built os calls = inr rs -> e_resolvers e = env_resolvers os rs ->
  ~ asked calls ->
  serves e path file <-> least_root_has os (roots_given calls) path file.
Proof.
  intros Hx E He Ha. destruct (built_ok _ _ _ Hx E) as (Hn & _ & pre & l & -> & Hp & Hs & [[]|[_ ->]]); [done|].
  rewrite (least_root_perm _ _ _ _ _ Hp). apply served_by_sorted with (pre := []); [done| |done|constructor].
  by rewrite <- Hp.
Qed.

Theorem C54_search_protoc_first os calls rs e path file :
  unix os -> built os calls = inr rs -> e_resolvers e = env_resolvers os rs ->
  asked calls ->
  exists include, new_resolver_protoc os = inr (PRProtoc include) /\
    (serves e path file <->
      answer os (path_join [include; path]) = RName file \/
      not_there (answer os (path_join [include; path])) /\
      least_root_has os (roots_given calls) path file).
Proof.
  intros Hx E He Ha.
  destruct (built_ok _ _ _ Hx E) as (Hn & _ & pre & l & -> & Hp & Hs & [(_ & r & Hr & ->)|[]]); [|done].
  assert (exists d, r = PRProtoc d) as [d ->].
  { unfold new_resolver_protoc in Hr. destruct (os_protoc os); [done|].
    destruct (os_stat _ _); [done|]. injection Hr as <-. eauto. }
  exists d. split; [done|]. rewrite (least_root_perm _ _ _ _ _ Hp).
  destruct (answer os (path_join [d; path])) as [nm|err] eqn:Ed; [|destruct (error_is err_not_exist err) eqn:Ee].
  - assert (serves e path nm) as Hnm.
    { exists [], (resolver_string (PRProtoc d), resolver_resolve os (PRProtoc d)),
        (env_resolvers os (map PRRoot l)). by rewrite He. }
    split.
    + intros (p0 & x & b & E1 & H1 & H2). left. rewrite He in E1. destruct p0 as [|y p0].
      * injection E1 as <- _. rewrite <- H2. symmetry. exact Ed.
      * injection E1 as <- _. inversion_clear H1 as [|? ? H3 _]. exfalso.
        destruct H3 as (err & H3 & _).
        change (answer os (path_join [d; path]) = RError err) in H3. congruence.
    + intros [[= ->]|[(? & ? & ?) _]]; done.
  - rewrite (served_by_sorted os l path file
               [(resolver_string (PRProtoc d), resolver_resolve os (PRProtoc d))] e Hs); [|by rewrite <- Hp|done|].
    + split; [|by intros [|[_ ?]]]. right. split; [by exists err|done].
    + constructor; [by exists err|constructor].
  - split; [|intros [|[(err' & [= <-] & ?) _]]; congruence].
    intros (p0 & x & b & E1 & H1 & H2). exfalso. rewrite He in E1. destruct p0 as [|y p0].
    + injection E1 as <- _. change (answer os (path_join [d; path]) = RName file) in H2. congruence.
    + injection E1 as <- _. inversion_clear H1 as [|? ? H3 _].
      destruct H3 as (err' & H3 & H4).
      change (answer os (path_join [d; path]) = RError err') in H3. congruence.
Qed.

(** the error of os.Stat for a file that is not there *)
Definition enoent : error := EForeign "no such file or directory" [err_not_exist].

(** a file system with the directories a and b, each with an x.proto *)
Definition two_roots : os_view :=
  mkOs (fun f => if String.eqb f "a" || String.eqb f "b" then SOk true
                 else if String.eqb f "a/x.proto" || String.eqb f "b/x.proto" then SOk false
                 else SError enoent) (inl (ENew "not found")).
Definition two_env : env :=
  mkEnv (env_resolvers two_roots [PRRoot "a"; PRRoot "b"]) (fun _ _ => inr []).

Theorem C54_example :
  unix two_roots /\ built two_roots [WithRoot ["b"]; WithRoot ["a"]] = inr [PRRoot "a"; PRRoot "b"] /\
  ~ asked [WithRoot ["b"]; WithRoot ["a"]] /\
  least_root_has two_roots ["b"; "a"] "x.proto" "a/x.proto".
Proof.
  split; [by eexists|]. split; [vm_compute; reflexivity|]. split.
  { unfold asked. rewrite !elem_of_cons, elem_of_nil. by intros [|[|]]. }
  exists "a". split; [right; left|]. split; [vm_compute; reflexivity|].
  intros r' Hr Hb Hne. rewrite !elem_of_cons, elem_of_nil in Hr. destruct Hr as [->|[->|[]]]; [|done].
  inversion Hb; subst. match goal with H : (_ < _)%N |- _ => by vm_compute in H end.
Qed.

(** The roots are not searched in the order given: the first root given has the file, and another
    one is taken. *)
Theorem C54_given_order_refuted :
  exists os r1 r2 path file1 file2 rs,
    unix os /\ built os [WithRoot [r1; r2]] = inr rs /\
    answer os (path_join [r1; path]) = RName file1 /\ file1 <> file2 /\
    forall e, e_resolvers e = env_resolvers os rs -> serves e path file2.
Proof.
  exists two_roots, "b", "a", "x.proto", "b/x.proto", "a/x.proto", [PRRoot "a"; PRRoot "b"].
  split; [by eexists|]. split; [vm_compute; reflexivity|]. split; [vm_compute; reflexivity|].
  split; [done|]. intros e He. exists [], (resolver_string (PRRoot "a"), resolver_resolve two_roots (PRRoot "a")),
    (env_resolvers two_roots [PRRoot "b"]). rewrite He. split; [done|]. split; [constructor|]. vm_compute. reflexivity.
Qed.

(** ** C55, C56 *)

(** Build succeeds exactly if the roots given are directories, none is given twice, and protoc's
    directory is usable if asked for; it then gives one resolver per root. *)
Theorem C56_build os calls :
  unix os ->
  (exists rs, built os calls = inr rs) <->
  NoDup (roots_given calls) /\ Forall (directory os) (roots_given calls) /\
  (asked calls -> exists r, new_resolver_protoc os = inr r).
Proof.
  intros Hx. split.
  - intros [rs E]. destruct (built_ok _ _ _ Hx E) as (Hn & Hd & pre & l & -> & _ & _ & H).
    split; [done|]. split; [done|]. intros Ha. destruct H as [(_ & r & Hr & _)|[Hna _]]; [eauto|done].
  - intros (H1 & H2 & H3). by apply built_all.
Qed.

(** a root that is missing or not a directory makes Build fail *)
Theorem C56_bad_root os calls r :
  unix os -> r ∈ roots_given calls -> ~ directory os r -> exists err, built os calls = inl err.
Proof.
  intros Hx Hr Hd. destruct (built os calls) as [err|rs] eqn:E; [eauto|]. exfalso.
  destruct (proj1 (C56_build os calls Hx)) as (_ & H & _); [eauto|].
  rewrite List.Forall_forall in H. apply Hd, H. by apply elem_of_list_In.
Qed.

(** and no resolver is left out or added: the roots of the result are those given *)
Theorem C56_all_roots os calls rs :
  unix os -> built os calls = inr rs ->
  exists pre l, rs = (pre ++ map PRRoot l)%list /\ Permutation (roots_given calls) l /\
    (asked calls <-> pre <> []) /\ length pre <= 1.
Proof.
  intros Hx E. destruct (built_ok _ _ _ Hx E) as (_ & _ & pre & l & -> & Hp & _ & H).
  exists pre, l. split; [done|]. split; [done|].
  destruct H as [(Ha & r & _ & ->)|[Ha ->]]; cbn; [|by split; [|lia]].
  split; [done|lia].
Qed.

Theorem C56_example :
  built two_roots [WithRoot ["b"; "a"]] = inr [PRRoot "a"; PRRoot "b"] /\
  ~ directory two_roots "c" /\ ~ directory two_roots "a/x.proto".
Proof. split; [vm_compute; reflexivity|]. by split. Qed.

(** A root given twice makes Build fail, even if it is a directory. *)
Theorem C55_duplicate_fails os calls :
  unix os -> ~ NoDup (roots_given calls) -> exists err, built os calls = inl err.
Proof.
  intros Hx Hn. destruct (built os calls) as [err|rs] eqn:E; [eauto|]. exfalso.
  apply Hn. apply (C56_build os calls Hx). eauto.
Qed.

Theorem C55_refuted :
  exists os r rs err, unix os /\ directory os r /\
    built os [WithRoot [r]] = inr rs /\ built os [WithRoot [r; r]] = inl err.
Proof.
  exists two_roots, "a", [PRRoot "a"]. eexists. split; [by eexists|]. split; [done|].
  split; [vm_compute; reflexivity|vm_compute; reflexivity].
Qed.

(** ** C57 *)

Lemma last_slash_none b : no_slash b -> last_index "/"%char b = None.
Proof.
  induction b as [|x b IH]; [done|]. cbn [no_slash last_index]. intros [Hx Hb]. rewrite (IH Hb).
  by destruct (Ascii.eqb_spec x "/"%char).
Qed.
Lemma last_slash a b : no_slash b -> last_index "/"%char (a +:+ "/" +:+ b) = Some (String.length a).
Proof.
  intros Hb. induction a as [|x a IH].
  - rewrite sapp_nil_l. change ("/" +:+ b) with (String "/" b). cbn [last_index].
    by rewrite (last_slash_none _ Hb).
  - rewrite sapp_cons. cbn [last_index]. by rewrite IH.
Qed.
Lemma take_app a b : str_take (String.length a) (a +:+ b) = a.
Proof. induction a as [|x a IH]; [by destruct b|]. rewrite sapp_cons. cbn. by rewrite IH. Qed.
Lemma path_dir_app a b : no_slash b -> path_dir (a +:+ "/" +:+ b) = a +:+ "/".
Proof.
  intros Hb. unfold path_dir. rewrite (last_slash a b Hb).
  rewrite <- (sapp_assoc a "/" b).
  replace (S (String.length a)) with (String.length (a +:+ "/")); [apply take_app|].
  rewrite slength_app. cbn. lia.
Qed.
Lemma trim_slash a : trim_suffix "/"%char (a +:+ "/") = a.
Proof.
  unfold trim_suffix. rewrite <- (sapp_nil_r "/"), last_slash by done. rewrite sapp_nil_r.
  rewrite slength_app. cbn [String.length]. rewrite Nat.add_1_r, Nat.eqb_refl. apply take_app.
Qed.

Lemma abs_snoc ds c : "/" +:+ slashes (ds ++ [c])%list =
  (match ds with [] => "" | _ => "/" +:+ slashes ds end) +:+ "/" +:+ c.
Proof.
  destruct ds as [|d ds]; [done|]. rewrite slashes_app by done. by rewrite sapp_assoc.
Qed.

(** joining a tidy absolute directory (possibly with a trailing separator) *)
Lemma join_abs ds p : Forall plain ds ->
  path_join ["/" +:+ slashes ds; p] =
  "/" +:+ slashes (rev (fold_left (clean_step true) (split_on "/"%char p) (rev ds))).
Proof.
  intros Hd. rewrite join_written by done. rewrite rooted_slash. unfold written.
  destruct (tidy_stack _ _ (tidy_abs ds Hd)) as [_ H]. unfold stack_of. rewrite rooted_slash.
  change ("/" +:+ slashes ds) with ("" +:+ "/" +:+ slashes ds). rewrite split_app, fold_left_app.
  change (fold_left (clean_step true) (split_on "/"%char "") []) with (@nil string).
  destruct ds as [|d ds]; [done|]. rewrite split_slashes by (try done; by apply plain_no_slash).
  by rewrite (fold_plain _ (d :: ds) [] Hd), app_nil_r.
Qed.

Lemma plain_include : plain "include".
Proof. repeat split; done. Qed.

Lemma path_join_trailing a rest : a <> "" -> Forall (fun c => c <> "") rest ->
  path_join ((a +:+ "/") :: rest) = path_join (a :: rest).
Proof.
  intros Ha Hr. unfold path_join. cbn [List.filter].
  destruct (String.eqb_spec a "") as [|_]; [done|].
  destruct (String.eqb_spec (a +:+ "/") "") as [E|_]; [by destruct a|]. cbn [negb].
  assert (List.filter (fun e => negb (String.eqb e "")) rest = rest) as ->.
  { induction Hr as [|c rest Hc Hr IH]; [done|]. cbn. destruct (String.eqb_spec c ""); [done|].
    cbn. by rewrite IH. }
  rewrite !clean_written by apply stack_nonempty.
  destruct rest as [|r rest]; cbn [join_with].
  - rewrite rooted_app by done. unfold stack_of. rewrite rooted_app by done.
    rewrite <- (sapp_nil_r "/"), split_app, fold_left_app. done.
  - rewrite sapp_assoc, !rooted_app by done. unfold stack_of. rewrite !rooted_app by done.
    rewrite !split_app, !fold_left_app. done.
Qed.

Lemma slashes_join (ds qs : list string) : Forall plain ds -> Forall plain qs ->
  path_join (("/" +:+ slashes ds) :: qs) = "/" +:+ slashes (ds ++ qs)%list.
Proof.
  intros Hd Hq. unfold path_join.
  assert (List.filter (fun e => negb (String.eqb e "")) (("/" +:+ slashes ds) :: qs) = ("/" +:+ slashes ds) :: qs) as ->.
  { cbn [List.filter]. destruct (String.eqb_spec ("/" +:+ slashes ds) ""); [done|]. cbn [negb]. f_equal.
    induction Hq as [|c rest (Hc & _) Hr IH]; [done|]. cbn. destruct (String.eqb_spec c ""); [done|].
    cbn. by rewrite IH. }
  rewrite clean_written by apply stack_nonempty. rewrite join_slashes.
  destruct qs as [|q qs].
  - cbn [slashes]. rewrite app_nil_r. destruct (tidy_stack _ _ (tidy_abs ds Hd)) as [_ H].
    specialize (H []). cbn in H. rewrite !app_nil_r in H. by rewrite <- H.
  - rewrite slashes_cons by done. unfold stack_of. rewrite rooted_app by done. rewrite rooted_slash.
    rewrite split_app, fold_left_app. rewrite split_slashes by (try done; by apply plain_no_slash).
    rewrite (fold_plain _ (q :: qs)) by done.
    destruct (tidy_stack _ _ (tidy_abs ds Hd)) as [_ H]. specialize (H (q :: qs)).
    rewrite rooted_slash in H. unfold stack_of in H. rewrite rooted_slash in H. rewrite H.
    unfold written. do 2 f_equal. by rewrite rev_app_distr, rev_involutive.
Qed.

Lemma protoc_include os ds :
  protoc_installed os ds ->
  new_resolver_protoc os =
    match os_stat os (include_file ds ["google"; "protobuf"; "any.proto"]) with
    | SOk _ => inr (PRProtoc (include_file ds []))
    | SError err => inl (EWrap ("check for google/protobuf/any.proto near the protoc in " +:+ quote (include_file ds [])) err)
    end.
Proof.
  intros (Hd & bin & exe & Hb & He & E). unfold new_resolver_protoc. rewrite E.
  assert (path_dir ("/" +:+ slashes (ds ++ [bin; exe])%list) = ("/" +:+ slashes (ds ++ [bin])%list) +:+ "/") as ->.
  { change (ds ++ [bin; exe])%list with (ds ++ [bin] ++ [exe])%list. rewrite app_assoc, abs_snoc.
    destruct (ds ++ [bin])%list eqn:En; [by destruct ds|]. apply path_dir_app. apply He. }
  rewrite trim_slash. rewrite abs_snoc, path_dir_app by apply Hb.
  assert (path_join [match ds with [] => "" | _ :: _ => "/" +:+ slashes ds end +:+ "/"; "include"] =
          include_file ds []) as ->.
  { destruct ds as [|d ds]; [done|].
    rewrite path_join_trailing by (try done; by repeat constructor).
    apply slashes_join; [done|]. repeat constructor; done. }
  assert (path_join [include_file ds []; "google"; "protobuf"; "any.proto"] =
          include_file ds ["google"; "protobuf"; "any.proto"]) as ->.
  { unfold include_file. rewrite slashes_join.
    - by rewrite <- app_assoc.
    - apply Forall_app. split; [done|]. repeat constructor; done.
    - repeat constructor; done. }
  by destruct (os_stat os _).
Qed.

Lemma answer_inside root f cs p :
  tidy root f -> components p cs -> stays_inside 0 cs ->
  exists qs, Forall plain qs /\ path_join [root; p] = f qs.
Proof.
  intros T Hc Hi. destruct (tidy_stack _ _ T) as [Hr H]. rewrite join_written by done.
  rewrite (components_split _ _ Hc). destruct Hc as (Hn & Hf & _).
  destruct (fold_inside (has_prefix root "/") cs [] (stack_of root) Hf) as (qs & Hq & E); [constructor|done|].
  cbn [app] in E. exists (rev qs). split; [by apply Forall_rev_l|].
  rewrite E, H. by rewrite rev_app_distr.
Qed.
Lemma answer_plain root f qs :
  tidy root f -> Forall plain qs -> path_join [root; slashes qs] = f qs.
Proof.
  intros T Hq. destruct (tidy_stack _ _ T) as [Hr H]. rewrite join_written, H by done.
  destruct qs as [|q qs]; [by rewrite app_nil_r|].
  rewrite split_slashes by (try done; by apply plain_no_slash).
  rewrite fold_plain by done. by rewrite rev_app_distr, rev_involutive.
Qed.

(** With protoc at D/bin/protoc, an import path of ordinary names is looked up as D/include/path,
    and Build fails if D/include/google/protobuf/any.proto is not there. *)
Theorem C57_include os calls ds rs :
  unix os -> protoc_installed os ds -> asked calls -> built os calls = inr rs ->
  exists r rest, rs = r :: rest /\
    forall qs, Forall plain qs -> resolver_resolve os r (slashes qs) = answer os (include_file ds qs).
Proof.
  intros Hx Hp Ha E.
  destruct (built_ok _ _ _ Hx E) as (_ & _ & pre & l & -> & _ & _ & [(_ & r & Hr & ->)|[]]); [|done].
  rewrite (protoc_include _ _ Hp) in Hr.
  destruct (os_stat _ _); [done|]. injection Hr as <-.
  eexists _, _. split; [reflexivity|]. intros qs Hq. rewrite resolve_answer_at. cbn [resolver_root].
  destruct Hp as [Hd _].
  assert (Forall plain (ds ++ ["include"])%list) as Hd'.
  { apply Forall_app. split; [done|]. constructor; [apply plain_include|constructor]. }
  unfold include_file at 1. rewrite (answer_plain _ _ qs (tidy_abs _ Hd') Hq).
  unfold include_file. by rewrite <- app_assoc.
Qed.

(** any import path that stays inside is looked up inside D/include *)
Theorem C57_inside os calls ds rs p cs :
  unix os -> protoc_installed os ds -> asked calls -> built os calls = inr rs ->
  components p cs -> stays_inside 0 cs ->
  exists r rest qs, rs = r :: rest /\ Forall plain qs /\
    resolver_resolve os r p = answer os (include_file ds qs).
Proof.
  intros Hx Hp Ha E Hc Hi.
  destruct (built_ok _ _ _ Hx E) as (_ & _ & pre & l & -> & _ & _ & [(_ & r & Hr & ->)|[]]); [|done].
  rewrite (protoc_include _ _ Hp) in Hr.
  destruct (os_stat _ _); [done|]. injection Hr as <-.
  destruct Hp as [Hd _].
  assert (Forall plain (ds ++ ["include"])%list) as Hd'.
  { apply Forall_app. split; [done|]. constructor; [apply plain_include|constructor]. }
  destruct (answer_inside _ _ cs p (tidy_abs _ Hd') Hc Hi) as (qs & Hq & Ej).
  eexists _, _, qs. split; [reflexivity|]. split; [done|].
  rewrite resolve_answer_at. cbn [resolver_root]. unfold include_file at 1. rewrite Ej.
  unfold include_file. by rewrite <- app_assoc.
Qed.

Theorem C57_no_stdlib os calls ds :
  unix os -> protoc_installed os ds -> asked calls ->
  (forall b, os_stat os (include_file ds ["google"; "protobuf"; "any.proto"]) <> SOk b) ->
  exists err, built os calls = inl err.
Proof.
  intros Hx Hp Ha Hn. destruct (built os calls) as [err|rs] eqn:E; [eauto|]. exfalso.
  destruct (proj1 (C56_build os calls Hx)) as (_ & _ & H); [eauto|].
  destruct (H Ha) as [r Hr]. rewrite (protoc_include _ _ Hp) in Hr.
  destruct (os_stat _ _) as [|b] eqn:Es; [done|]. by apply (Hn b).
Qed.
(** ... and succeeds if it is, given usable roots *)
Theorem C57_stdlib os calls ds b :
  protoc_installed os ds ->
  os_stat os (include_file ds ["google"; "protobuf"; "any.proto"]) = SOk b ->
  NoDup (roots_given calls) -> Forall (directory os) (roots_given calls) ->
  exists rs, built os calls = inr rs.
Proof.
  intros Hp Hs Hn Hd. apply built_all; [done|done|]. intros _. rewrite (protoc_include _ _ Hp), Hs. eauto.
Qed.

Theorem C57_no_protoc os calls e :
  os_protoc os = inl e -> asked calls -> exists err, built os calls = inl err.
Proof.
  intros Hp Ha. rewrite built_eq. apply asked_protoc in Ha. rewrite Ha.
  unfold new_resolver_protoc. rewrite Hp. eauto.
Qed.

Definition with_protoc_os : os_view :=
  mkOs (fun f => if String.eqb f "/usr/include/google/protobuf/any.proto" then SOk false else SError enoent)
       (inr "/usr/bin/protoc").
Theorem C57_example :
  unix with_protoc_os /\ protoc_installed with_protoc_os ["usr"] /\ asked [WithProtoc] /\
  include_file ["usr"] ["google"; "protobuf"; "any.proto"] = "/usr/include/google/protobuf/any.proto" /\
  built with_protoc_os [WithProtoc] = inr [PRProtoc "/usr/include"] /\
  components "google//protobuf/./any.proto" ["google"; ""; "protobuf"; "."; "any.proto"] /\
  stays_inside 0 ["google"; ""; "protobuf"; "."; "any.proto"].
Proof.
  split; [by eexists|]. split.
  { split; [repeat constructor; done|]. exists "bin", "protoc". split; [repeat split; done|].
    split; [repeat split; done|]. done. }
  split; [left|]. split; [done|]. split; [vm_compute; reflexivity|]. split.
  { split; [done|]. split; [|done]. repeat constructor; done. }
  repeat split; intros; try done.
Qed.

(** ** C58 *)

(** An import path of ordinary names is looked up below the root under exactly these names. *)
Theorem C58_plain os root below qs :
  tidy root below -> Forall plain qs ->
  resolver_resolve os (PRRoot root) (slashes qs) = answer os (below qs).
Proof. intros T Hq. rewrite resolve_answer_at. cbn [resolver_root]. by rewrite (answer_plain _ _ _ T Hq). Qed.

(** An import path that never climbs above its start (a leading separator, empty components and
    "." do no harm) is looked up at some place below the root, the same for every file system. *)
Theorem C58_inside root below p cs :
  tidy root below -> components p cs -> stays_inside 0 cs ->
  exists qs, Forall plain qs /\
    forall os, resolver_resolve os (PRRoot root) p = answer os (below qs).
Proof.
  intros T Hc Hi. destruct (answer_inside _ _ _ _ T Hc Hi) as (qs & Hq & E).
  exists qs. split; [done|]. intros os. rewrite resolve_answer_at. cbn [resolver_root]. by rewrite E.
Qed.

(** A root written in any other way works as some tidy root. *)
Theorem C58_any_root root :
  root <> "" -> exists root' below, tidy root' below /\
    forall os p, resolver_resolve os (PRRoot root) p = resolver_resolve os (PRRoot root') p.
Proof.
  intros Hr. destruct (tidy_exists root Hr) as (c & f & T & Hc & H1 & H2).
  exists c, f. split; [done|]. intros os p. rewrite !resolve_answer_at. cbn [resolver_root].
  by rewrite !join_written, H1, H2 by done.
Qed.

(** A leading ".." leaves the root: the file is looked up next to it. *)
Theorem C58_dotdot_leaves os ds d qs :
  Forall plain ds -> plain d -> Forall plain qs -> qs <> [] ->
  resolver_resolve os (PRRoot ("/" +:+ slashes (ds ++ [d])%list)) (slashes (".." :: qs)) =
  answer os ("/" +:+ slashes (ds ++ qs)%list).
Proof.
  intros Hd Hd1 Hq Hn. rewrite resolve_answer_at. cbn [resolver_root].
  assert (Forall plain (ds ++ [d])%list) as Hd2.
  { apply Forall_app. split; [done|]. by constructor. }
  rewrite join_abs by done. rewrite rev_app_distr. cbn [rev app].
  rewrite split_slashes; [|done|constructor; [repeat split; done|by apply plain_no_slash]].
  cbn [fold_left]. rewrite clean_step_up by done. rewrite fold_plain by done.
  by rewrite rev_app_distr, !rev_involutive.
Qed.

(** So a root resolver does resolve import paths to files outside its root. *)
Theorem C58_refuted :
  exists os root below p file,
    tidy root below /\ directory os root /\
    resolver_resolve os (PRRoot root) p = RName file /\
    forall qs, file <> below qs.
Proof.
  exists (mkOs (fun f => if String.eqb f "/srv/schema" then SOk true
                         else if String.eqb f "/srv/secret.proto" then SOk false else SError enoent) (inl (ENew ""))).
  exists "/srv/schema", (fun qs => "/" +:+ slashes (["srv"; "schema"] ++ qs)%list), "../secret.proto", "/srv/secret.proto".
  split.
  { apply (tidy_abs ["srv"; "schema"]). repeat constructor; done. }
  split; [done|]. split; [vm_compute; reflexivity|].
  intros qs. cbn [app slashes]. destruct qs; done.
Qed.

Theorem C58_example :
  tidy "/srv/schema" (fun qs => "/" +:+ slashes (["srv"; "schema"] ++ qs)%list) /\
  tidy "../schema" (fun qs => slashes (([".."] ++ ["schema"]) ++ qs)%list) /\
  components "/a/../b//c.proto" [""; "a"; ".."; "b"; ""; "c.proto"] /\
  stays_inside 0 [""; "a"; ".."; "b"; ""; "c.proto"] /\
  path_join ["/srv/schema"; "/a/../b//c.proto"] = "/srv/schema/b/c.proto" /\
  ~ stays_inside 0 ["a"; ".."; ".."; "b"].
Proof.
  split. { apply (tidy_abs ["srv"; "schema"]). repeat constructor; done. }
  split. { apply (tidy_rel [".."] ["schema"]); repeat constructor; done. }
  split. { split; [done|]. split; [|done]. repeat constructor; done. }
  split. { repeat split; intros; try done;
    repeat match goal with
      | H : _ \/ _ |- _ => destruct H
      | H : plain _ |- _ => destruct H as (? & ? & ? & ?)
      end; done. }
  split; [vm_compute; reflexivity|].
  cbn. intros (_ & _ & H). assert (plain "a") as Ha by (repeat split; done).
  destruct (H Ha) as (_ & H1 & _). specialize (H1 eq_refl). destruct H1 as (_ & H2 & _). by apply H2.
Qed.
