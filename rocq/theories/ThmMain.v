(** * C69: main of the README's program, from the environment to the exit code. *)
From Verif Require Export ThmProgram ThmResolvers.
From Verif Require Import Numerals StrLemmas.
From Verif Require Import Frame Navigate ThmOptions ThmTypes Demo ThmMore Identity Api.
Local Open Scope go_scope.

(** The two services of the README. *)
Definition the_services : list (string * string) :=
  [("service/storage/v1/service.proto", "Storage"); ("service/meta/v1/meta.proto", "Meta")].

(** The service [x.2] of the file [x.1] follows the rules. *)
Definition compliant_service (s : registry) (sq : string) (x : string * string) : Prop :=
  forall p t m, service_at s x.1 x.2 p -> element_at s p t -> m ∈ children a_method p t -> compliant s sq m.

(** ** Proofs *)

Lemma new_registry_fuel e fuel1 fuel2 r : fuel1 <= fuel2 ->
  new_registry e fuel1 = Ret r -> new_registry e fuel2 = Ret r.
Proof.
  intros Hf. unfold new_registry. destruct (demark_file e fuel1 descriptor_path empty_registry) as [o s] eqn:E.
  assert (H : forall x, o = Ret x -> demark_file e fuel2 descriptor_path empty_registry = (o, s)).
  { intros x ->. destruct (tracks_demark (@eq registry)) with (e := e) (fuel1 := fuel1) (fuel2 := fuel2)
      (path := descriptor_path) (s := empty_registry) (t := empty_registry) (a := x) (s' := s) as (t' & H & <-);
      try done; by intros; subst. }
  destruct o as [x|m|]; [|done|done]. by rewrite (H x eq_refl).
Qed.

Lemma service_at_fun s path name p p' : Inv s -> unique_names s -> service_at s path name p -> service_at s path name p' -> p' = p.
Proof.
  intros I U (g & f & i & t & Hl & -> & Ht & Hd) (g' & f' & i' & t' & Hl' & -> & Ht' & Hd').
  destruct (loaded_fun _ _ _ _ _ _ Hl Hl') as [-> ->].
  assert (Hw : forall i t, element_at s (g, [i]) t -> walk f [i] = Some t).
  { intros j u Hu%element_heap. destruct Hl as (_ & Hf & _). unfold heap_at in Hu. cbn [fst snd] in Hu. by rewrite Hf in Hu. }
  assert (i' = i) as ->; [|done].
  eapply (top_unique s path g f i i' t t' name); [exact (proj1 I)|exact U|done|by apply Hw|by apply Hw|by rewrite Hd|by rewrite Hd'].
Qed.

Lemma no_service_findings s sq x fs : Inv s -> unique_names s ->
  service_findings s sq x fs -> fs = [] <-> compliant_service s sq x.
Proof.
  intros I U (p & t & fss & Hsv & Ht & HF & ->).
  assert (H : concat fss = [] <-> forall m, m ∈ children a_method p t -> compliant s sq m).
  { clear -HF. induction HF as [|m fs ms fss Hm HF IH]; cbn [concat].
    - split; [|done]. intros _ m Hm. by apply elem_of_nil in Hm.
    - apply no_findings in Hm. split.
      + intros [-> E]%app_eq_nil x [->|Hx]%elem_of_cons; [by apply Hm|]. by apply IH.
      + intros Hall. rewrite (proj2 Hm), (proj2 IH); [done| |]; [intros x Hx|]; apply Hall; by constructor. }
  rewrite H. split.
  - intros Hall p' t' m Hsv' Ht' Hm. assert (p' = p) as -> by (by eapply service_at_fun).
    rewrite (element_fun _ _ _ _ Ht Ht') in Hm. by apply Hall.
  - intros Hall m Hm. by eapply Hall.
Qed.

(** ** The lines *)

(** How Go prints a position: file:line:column, in decimal; without a line only the file, and <input> for a
    file without a name. *)
Inductive position_text (p : position) : string -> Prop :=
| pt_place file line col :
    (p_file p <> "" /\ file = p_file p) \/ (p_file p = "" /\ file = "<input>") ->
    (0 < p_line p)%Z -> canonical_signed line (p_line p) -> canonical_signed col (p_col p) ->
    position_text p (file +:+ ":" +:+ line +:+ ":" +:+ col)
| pt_file file :
    (p_file p <> "" /\ file = p_file p) \/ (p_file p = "" /\ file = "<input>") ->
    (p_line p <= 0)%Z -> position_text p file.

(** The line for a finding. *)
Inductive printed_line : finding -> string -> Prop :=
| pl_wrong_name at_ type place : position_text at_ place ->
    printed_line (WrongName at_ type)
      (place +:+ " only response_status field can use " +:+ type +:+ " type" +:+ String "010" "")
| pl_missing at_ type method place : position_text at_ place ->
    printed_line (MissingStatus at_ type method)
      (place +:+ " missing `" +:+ type +:+ " response_status` field in response message type of method " +:+
       method +:+ String "010" "").

Lemma pos_string_text p : position_text p (pos_string p).
Proof.
  unfold pos_string.
  assert (Hf : (p_file p <> "" /\ (if String.eqb (p_file p) "" then "<input>" else p_file p) = p_file p) \/
               (p_file p = "" /\ (if String.eqb (p_file p) "" then "<input>" else p_file p) = "<input>")).
  { destruct (String.eqb_spec (p_file p) ""); [right|left]; done. }
  destruct (0 <? p_line p)%Z eqn:Hl.
  - apply Z.ltb_lt in Hl. apply pt_place; [exact Hf|exact Hl|apply itoa_canonical|apply itoa_canonical].
  - apply Z.ltb_ge in Hl.
    rewrite sapp_nil_r. by apply pt_file.
Qed.
Lemma finding_line x : printed_line x (finding_text x).
Proof. destruct x; cbn [finding_text]; constructor; apply pos_string_text. Qed.
Lemma finding_lines l : Forall2 printed_line l (map finding_text l).
Proof. induction l; cbn [map]; constructor; [apply finding_line|done]. Qed.

(** ** The theorem *)

(** main, with the root of the schema in SCHEMA_ROOT: if the resolvers can be built and the conditions
    of [C69_program] hold, then (with enough fuel) the program ends; what it prints are the lines for
    the services, in order, and, if there is any, the verdict; the exit code is 0 exactly if every
    method of the two services follows the rules, and nothing is printed then. *)
Theorem C69_main os read root rs fuel0 s0 sL g f i t a sq ca class :
  let e := mkEnv (env_resolvers os rs) read in
  built os [WithProtoc; WithRoot [root]] = inr rs ->
  env_ok e -> new_registry e fuel0 = Ret (inr s0) ->
  only_loads e ("meta/v1/status.proto" :: map fst the_services) s0 sL ->
  unique_names sL -> packages_first sL -> ~ is_loaded sL "" ->
  (forall before after s, the_services = (before ++ after)%list ->
     only_loads e ("meta/v1/status.proto" :: map fst before) s0 s -> no_capture s sL) ->
  loaded sL "meta/v1/status.proto" g f -> element_at sL (g, [i]) t ->
  t_data t = DMessage "ResponseStatus" false ->
  (forall j u, element_at sL (g, [j]) u -> t_data u <> DMessage "ResponseStatus" true) ->
  found sL sq (NAst KMessage a (g, [i])) ->
  found s0 ".google.protobuf.MethodOptions" (NAst KMessage ca class) ->
  Forall (fine_service sL) the_services ->
  exists fss out code fuel1,
    (forall fuel, fuel1 <= fuel -> readme_main os read root fuel = Ret (out, code)) /\
    Forall2 (service_findings sL sq) the_services fss /\
    (Forall (compliant_service sL sq) the_services -> out = "" /\ code = 0%Z) /\
    (~ Forall (compliant_service sL sq) the_services ->
       exists lines, Forall2 printed_line (concat fss) lines /\
         out = String.concat "" lines +:+ "schema does not satisfy criteria" +:+ String "010" "" /\
         lines <> [] /\ code = 1%Z).
Proof.
  intros e Hrs He E0 HL UL PL Hempty Hcap Hld Ht Hd Hext Hfound Hclass Hfine.
  destruct (C69_program e fuel0 s0 sL the_services g f i t a sq ca class) as (fss & fuel1 & HF & Hrun); try assumption.
  exists fss, (report (concat fss)).1, (report (concat fss)).2, (fuel0 + fuel1). split; [|split; [exact HF|]].
  { intros fuel Hfu. unfold readme_main. unfold built in Hrs. cbn [fold_left run_call] in Hrs. rewrite Hrs.
    fold e. assert (H0 : fuel0 <= fuel) by lia. rewrite (new_registry_fuel e fuel0 fuel _ H0 E0).
    assert (H1 : fuel1 <= fuel) by lia. destruct (Hrun fuel H1) as [s' Hs'].
    change readme_services with the_services. rewrite Hs'. cbn [fst]. by destruct (report (concat fss)). }
  assert (J0 : just_loaded s0) by (by eapply jl_new).
  assert (JL : just_loaded sL) by (by eapply only_loads_just).
  assert (IL' : Inv sL) by (by apply reachable_Inv, calm_reachable, just_loaded_calm).
  assert (Hiff : concat fss = [] <-> Forall (compliant_service sL sq) the_services).
  { clear -IL' UL HF. induction HF as [|x fs xs fss Hx HF IH]; cbn [concat]; [by split|].
    pose proof (no_service_findings _ _ _ _ IL' UL Hx) as Hx'. split.
    - intros [H1 H2]%app_eq_nil. constructor; [by apply Hx'|by apply IH].
    - intros [H1 H2]%Forall_cons_1. apply Hx' in H1. apply IH in H2. by rewrite H1, H2. }
  split.
  - intros H. apply Hiff in H. by rewrite H.
  - intros H. assert (Hne : concat fss <> []) by (intros Hx; by apply H, Hiff). unfold report.
    exists (map finding_text (concat fss)). split; [apply finding_lines|]. destruct (concat fss); [done|].
    split; [reflexivity|]. split; [done|reflexivity].
Qed.

(** ** Checking the conditions on a concrete schema *)

Lemma only_loads_fun e paths s1 s2 : env_ok e -> only_loads e paths s1 s2 ->
  forall s2', just_loaded s1 -> only_loads e paths s1 s2' -> s2' = s2.
Proof.
  intros He. induction 1 as [s|path paths s s1 s2 fuel f E _ IH]; intros s2' J H'; inversion H'; subst; [done|].
  match goal with H : proto e ?fl path s = (Ret (inr ?fn), ?sn) |- _ => rename H into E', fl into fuel', sn into s1' end.
  assert (S : schema s) by (exact (proj1 (reachable_Inv _ (calm_reachable _ (just_loaded_calm _ J))))).
  assert (H1 : fuel <= fuel + fuel') by lia. assert (H2 : fuel' <= fuel + fuel') by lia.
  pose proof (load_fuel _ _ _ _ _ _ _ He S H1 E) as A1. pose proof (load_fuel _ _ _ _ _ _ _ He S H2 E') as A2.
  rewrite A1 in A2. injection A2 as <- <-. apply IH; [by eapply jl_load|done].
Qed.

Definition check_scope (s : registry) (p : ptr) : bool :=
  let comps := tail (split_on "." (scope_of s (VPtr p))) in
  String.eqb (scope_of s (VPtr p)) (dotted comps) && forallb (fun c => negb (String.eqb c "") && no_dot c) comps.
Definition means (s : registry) (p : ptr) (name : string) : option (ptr * tree) :=
  if check_scope s p then
    match resolve_name_raw (names s) (scope_of s (VPtr p)) name with
    | Some (q, true) => match names s !! q with
                        | Some r => match heap_at s r with Some t => Some (r, t) | None => None end
                        | None => None end
    | _ => None
    end
  else None.
Definition scalar (name : string) : bool := existsb (String.eqb name) scalar_names.
Definition check_field (s : registry) (q : ptr) : bool :=
  match heap_at s q with
  | Some t =>
      match t_data t with
      | DNormalField _ typ _ _ _ =>
          scalar typ || match means s q typ with
                        | Some (_, u) => match represented_by (t_data u) with Some (KMessage | KEnum) => true | _ => false end
                        | None => false end
      | _ => true
      end
  | None => true
  end.
Definition check_method (s : registry) (m : ptr) : bool :=
  match heap_at s m with
  | Some t =>
      match t_data t with
      | DRPC _ _ _ rett _ =>
          negb (scalar rett) &&
          match means s m rett with
          | Some (r, u) => match represented_by (t_data u) with Some KMessage => true | _ => false end &&
                           forallb (check_field s) (children a_field r u)
          | None => false end &&
          forallb (fun q => match heap_at s q with
                            | Some o => match t_data o with DOption n _ => negb (String.eqb n ".meta.v1.non_standard_method") | _ => true end
                            | None => true end) (children an_option m t)
      | _ => false
      end
  | None => false
  end.
Definition check_service (s : registry) (x : string * string) : bool :=
  match protos s !! x.1 with
  | Some g => match heap s !! g with
              | Some f => existsb (fun i => match walk f [i] with
                                            | Some t => match t_data t with
                                                        | DService n => String.eqb n x.2 && forallb (check_method s) (children a_method (g, [i]) t)
                                                        | _ => false end
                                            | None => false end) (List.seq 0 (length (t_kids f)))
              | None => false end
  | None => false end.

Lemma scalar_ok name : scalar name = true <-> name ∈ scalar_names.
Proof.
  unfold scalar. rewrite List.existsb_exists. setoid_rewrite elem_of_list_In. split.
  - intros (x & Hx & E). by apply String.eqb_eq in E as ->.
  - intros H. exists name. by rewrite String.eqb_refl.
Qed.
Lemma check_scope_ok s p k a : k ∈ [KField; KBranch; KMethod] -> check_scope s p = true ->
  let comps := tail (split_on "." (scope_of s (VPtr p))) in
  scope_of s (VPtr p) = dotted comps /\ in_scope s p comps /\ (node_index (NAst k a p) s).1 = Ret (dotted comps).
Proof.
  intros Hk [H1 H2]%andb_prop comps. fold comps in H1, H2. apply String.eqb_eq in H1. apply idents in H2.
  assert (Hix : (node_index (NAst k a p) s).1 = Ret (dotted comps)).
  { unfold node_index. rewrite rbind_get. rewrite !elem_of_cons, elem_of_nil in Hk.
    destruct Hk as [->|[->|[->|[]]]]; cbn; by rewrite H1. }
  split; [done|]. split; [|done]. split; [|done]. by exists k, a.
Qed.
Lemma means_ok s p name r t : Inv s -> means s p name = Some (r, t) ->
  exists comps q, in_scope s p comps /\ denotes s comps name q /\ names s !! q = Some r /\ heap_at s r = Some t.
Proof.
  intros I H. unfold means in H. destruct (check_scope s p) eqn:Hc; [|done].
  destruct (check_scope_ok s p KField 0%N (elem_of_list_here _ _) Hc) as (Hs & Hin & _).
  set (comps := tail _) in *. rewrite Hs in H. exists comps.
  destruct (resolve_raw_spec s comps name I (proj2 Hin)) as [(q & Hq & E)|[_ [q E]]]; rewrite E in H; [|done].
  exists q. destruct (names s !! q) as [r'|]; [|done]. destruct (heap_at s r') as [t'|] eqn:Ht; [|done].
  injection H as -> ->. done.
Qed.
Lemma check_field_ok s q : Inv s -> check_field s q = true -> sound_field s q.
Proof.
  intros I H t name typ num rep opt Ht%element_heap Hd. unfold check_field in H. rewrite Ht, Hd in H.
  apply orb_prop in H as [H|H]; [left; by apply scalar_ok|]. right.
  destruct (means s q typ) as [[r u]|] eqn:E; [|done]. destruct (means_ok _ _ _ _ _ I E) as (comps & d & Hsc & Hden & Hn & Hu).
  exists comps. split; [done|]. intros d' n Hd' Hf. rewrite (denotes_fun _ _ _ _ _ Hden Hd') in Hf.
  destruct (represented_by (t_data u)) as [k|] eqn:Hk; [|done].
  destruct (names_found _ _ _ _ _ I Hn Hu Hk) as [x Hx]. rewrite (found_fun _ _ _ _ Hx Hf). by destruct k.
Qed.
Lemma check_method_ok s m : Inv s -> check_method s m = true ->
  sound_method s m /\
  forall mt q oname, element_at s m mt -> q ∈ children an_option m mt -> statement s q oname ->
    oname <> ".meta.v1.non_standard_method".
Proof.
  intros I H. unfold check_method in H. destruct (heap_at s m) as [t|] eqn:Ht; [|done].
  destruct (t_data t) as [| | | | | | | | | | | | | |name req sreq rett sret| | | |] eqn:Hd; try discriminate H.
  apply andb_prop in H as [[Hs H]%andb_prop Ho].
  destruct (means s m rett) as [[r u]|] eqn:E; [|done]. destruct (means_ok _ _ _ _ _ I E) as (comps & d & Hsc & Hden & Hn & Hu).
  apply andb_prop in H as [Hk Hfs]. split.
  - destruct (represented_by (t_data u)) as [k|] eqn:Hr; [|done]. assert (k = KMessage) as -> by (by destruct k).
    destruct (names_found _ _ _ _ _ I Hn Hu Hr) as [x Hx]. exists r, u. split; [|split; [by apply heap_element|]].
    + exists t, name, req, sreq, rett, sret, comps, d, x. split; [by apply heap_element|]. split; [done|]. split; [done|].
      split; [|done]. intros Hx'%scalar_ok. by rewrite Hx' in Hs.
    + intros q Hq. apply check_field_ok; [done|]. rewrite List.forallb_forall in Hfs. by apply Hfs, elem_of_list_In.
  - intros mt q oname Hmt%element_heap Hq (o & lit & Hot%element_heap & Hdo). rewrite Ht in Hmt. injection Hmt as <-.
    rewrite List.forallb_forall in Ho. specialize (Ho q (proj1 (elem_of_list_In _ _) Hq)). rewrite Hot, Hdo in Ho.
    intros ->. by rewrite String.eqb_refl in Ho.
Qed.
Lemma check_service_ok s x : Inv s -> check_service s x = true -> fine_service s x.
Proof.
  intros I H. unfold check_service in H. destruct (protos s !! x.1) as [g|] eqn:Hp; [|done].
  destruct (loaded_protos _ _ _ (proj1 I) Hp) as [f Hl]. pose proof Hl as (_ & Hf & _). rewrite Hf in H.
  apply List.existsb_exists in H as (i & _ & H). destruct (walk f [i]) as [t|] eqn:Hw; [|done].
  destruct (t_data t) as [| | | | | | | | | | | | |name| | | | |] eqn:Hd; try discriminate H.
  apply andb_prop in H as [Hn%String.eqb_eq H]. subst name.
  assert (Ht : element_at s (g, [i]) t) by (by exists x.1, f).
  exists (g, [i]), t. split; [by exists g, f, i, t|]. split; [done|].
  assert (Hall : forall m, m ∈ children a_method (g, [i]) t -> check_method s m = true).
  { rewrite List.forallb_forall in H. intros m Hm. by apply H, elem_of_list_In. }
  split.
  - intros m Hm. by apply check_method_ok, Hall.
  - intros m mt q oname Hm. by apply check_method_ok, Hall.
Qed.

(** the conditions of [C69_main] other than those on the file system *)
Definition load_with (e : env) (path : string) (s : registry) : option registry :=
  match proto e 50 path s with (Ret (inr _), s') => Some s' | _ => None end.
Definition find_status (s : registry) : option (nat * nat) :=
  match protos s !! "meta/v1/status.proto" with
  | Some g => match heap s !! g with
              | Some f => match List.filter (fun i => match walk f [i] with
                                 | Some t => match t_data t with DMessage n _ => String.eqb n "ResponseStatus" | _ => false end
                                 | None => false end) (List.seq 0 (length (t_kids f))) with
                          | [i] => Some (g, i)
                          | _ => None end
              | None => None end
  | None => None end.
Definition check_loaded (sq : string) (s0 s1 s2 s3 : registry) : bool :=
  check_unique s3 && check_packages s3 && check_path s3 "" &&
  check_capture s1 s3 && check_capture s2 s3 && check_capture s3 s3 && forallb (check_service s3) the_services &&
  match find_status s3 with
  | Some (g, i) => bool_decide (names s3 !! sq = Some (g, [i])) &&
      match heap_at s3 (g, [i]) with Some t => match t_data t with DMessage _ x => negb x | _ => false end | None => false end
  | None => false end &&
  match names s0 !! ".google.protobuf.MethodOptions" with
  | Some p => match heap_at s0 p with
              | Some t => match represented_by (t_data t) with Some KMessage => true | _ => false end
              | None => false end
  | None => false end.
Definition check_main (e : env) (sq : string) : bool :=
  match new_registry e 50 with
  | Ret (inr s0) =>
      match load_with e "meta/v1/status.proto" s0 with
      | Some s1 => match load_with e "service/storage/v1/service.proto" s1 with
                   | Some s2 => match load_with e "service/meta/v1/meta.proto" s2 with
                                | Some s3 => check_loaded sq s0 s1 s2 s3
                                | None => false end
                   | None => false end
      | None => false end
  | _ => false
  end.

Lemma load_with_ok e path s s' : load_with e path s = Some s' -> exists f, proto e 50 path s = (Ret (inr f), s').
Proof. unfold load_with. destruct (proto e 50 path s) as [[[err|f]|m|] s1]; try done. intros [= <-]. by exists f. Qed.
Lemma find_status_ok s g i : Inv s -> find_status s = Some (g, i) ->
  exists f t x, loaded s "meta/v1/status.proto" g f /\ element_at s (g, [i]) t /\ t_data t = DMessage "ResponseStatus" x /\
    forall j u y, element_at s (g, [j]) u -> t_data u = DMessage "ResponseStatus" y -> j = i.
Proof.
  intros I H. unfold find_status in H. destruct (protos s !! _) as [g'|] eqn:Hp; [|done].
  destruct (loaded_protos _ _ _ (proj1 I) Hp) as [f Hl]. pose proof Hl as (_ & Hf & _). rewrite Hf in H.
  set (sel := fun i => _) in H.
  destruct (List.filter sel (List.seq 0 (length (t_kids f)))) as [|i' [|? ?]] eqn:Hfi; try done. injection H as -> ->.
  assert (Hin : forall j, In j [i] <-> In j (List.seq 0 (length (t_kids f))) /\ sel j = true).
  { intros j. rewrite <- Hfi. apply filter_In. }
  destruct (proj1 (Hin i) (or_introl eq_refl)) as [_ Hs]. unfold sel in Hs.
  destruct (walk f [i]) as [t|] eqn:Hw; [|done]. destruct (t_data t) as [| | | | | |n x| | | | | | | | | | | |] eqn:Hd; try discriminate Hs.
  apply String.eqb_eq in Hs as ->. exists f, t, x. split; [done|]. split; [by exists "meta/v1/status.proto", f|]. split; [done|].
  intros j u y Hu%element_heap Hdu. unfold heap_at in Hu. cbn [fst snd] in Hu. rewrite Hf in Hu.
  assert (Hj : In j [i]); [|by destruct Hj].
  apply Hin. split.
  - apply in_seq. cbn in Hu. destruct (t_kids f !! j) eqn:Hk; [|done]. apply lookup_lt_Some in Hk. lia.
  - unfold sel. by rewrite Hu, Hdu.
Qed.

Lemma check_main_ok e sq : env_ok e -> check_main e sq = true ->
  exists s0 sL g f i t a ca class,
    new_registry e 50 = Ret (inr s0) /\
    only_loads e ("meta/v1/status.proto" :: map fst the_services) s0 sL /\
    unique_names sL /\ packages_first sL /\ ~ is_loaded sL "" /\
    (forall before after s, the_services = (before ++ after)%list ->
       only_loads e ("meta/v1/status.proto" :: map fst before) s0 s -> no_capture s sL) /\
    loaded sL "meta/v1/status.proto" g f /\ element_at sL (g, [i]) t /\
    t_data t = DMessage "ResponseStatus" false /\
    (forall j u, element_at sL (g, [j]) u -> t_data u <> DMessage "ResponseStatus" true) /\
    found sL sq (NAst KMessage a (g, [i])) /\
    found s0 ".google.protobuf.MethodOptions" (NAst KMessage ca class) /\
    Forall (fine_service sL) the_services.
Proof.
  intros He H. unfold check_main in H.
  destruct (new_registry e 50) as [[err|s0]|m|] eqn:E0; try discriminate H.
  destruct (load_with e "meta/v1/status.proto" s0) as [s1|] eqn:L1; [|done].
  destruct (load_with e "service/storage/v1/service.proto" s1) as [s2|] eqn:L2; [|done].
  destruct (load_with e "service/meta/v1/meta.proto" s2) as [s3|] eqn:L3; [|done].
  apply load_with_ok in L1 as [f1 L1], L2 as [f2 L2], L3 as [f3 L3].
  assert (J0 : just_loaded s0) by (by eapply jl_new).
  assert (J1 : just_loaded s1) by (by eapply jl_load).
  assert (J2 : just_loaded s2) by (by eapply jl_load).
  assert (J3 : just_loaded s3) by (by eapply jl_load).
  assert (I0 : Inv s0) by (by apply reachable_Inv, calm_reachable, just_loaded_calm).
  assert (I3 : Inv s3) by (by apply reachable_Inv, calm_reachable, just_loaded_calm).
  unfold check_loaded in H. repeat (apply andb_prop in H as [H ?]).
  rename H into Hu. 
  match goal with H : forallb (check_service s3) _ = true |- _ => rename H into Hsv end.
  match goal with H : check_packages s3 = true |- _ => rename H into Hpk end.
  match goal with H : check_path s3 "" = true |- _ => rename H into Hpa end.
  match goal with H : check_capture s1 s3 = true |- _ => rename H into Hc1 end.
  match goal with H : check_capture s2 s3 = true |- _ => rename H into Hc2 end.
  match goal with H : check_capture s3 s3 = true |- _ => rename H into Hc3 end.
  destruct (find_status s3) as [[g i]|] eqn:Hfs; [|done].
  destruct (find_status_ok _ _ _ I3 Hfs) as (f & t & x & Hl & Ht & Hd & Honly).
  match goal with H : bool_decide _ && _ = true |- _ => apply andb_prop in H as [Hn Hx] end.
  apply bool_decide_eq_true in Hn. apply element_heap in Ht as Hth. rewrite Hth, Hd in Hx. apply negb_true_iff in Hx. subst x.
  destruct (names s0 !! ".google.protobuf.MethodOptions") as [p|] eqn:Hmo; [|done].
  destruct (heap_at s0 p) as [tp|] eqn:Htp; [|done]. destruct (represented_by (t_data tp)) as [k|] eqn:Hk; [|done].
  assert (k = KMessage) as -> by (by destruct k).
  destruct (names_found _ _ _ _ _ I0 Hmo Htp Hk) as [ca Hca].
  destruct (names_found _ _ _ _ KMessage I3 Hn Hth) as [a Ha]; [by rewrite Hd|].
  assert (O1 : only_loads e ["meta/v1/status.proto"] s0 s1) by (eapply ol_file; [exact L1|constructor]).
  assert (O2 : only_loads e ["meta/v1/status.proto"; "service/storage/v1/service.proto"] s0 s2).
  { eapply ol_file; [exact L1|]. eapply ol_file; [exact L2|constructor]. }
  assert (O3 : only_loads e ["meta/v1/status.proto"; "service/storage/v1/service.proto"; "service/meta/v1/meta.proto"] s0 s3).
  { eapply ol_file; [exact L1|]. eapply ol_file; [exact L2|]. eapply ol_file; [exact L3|constructor]. }
  exists s0, s3, g, f, i, t, a, ca, p. split; [done|]. split; [exact O3|]. split; [by apply check_unique_ok|].
  split; [by apply check_packages_ok|]. split; [by apply check_path_ok|]. split.
  { intros before after s Hba Hs. unfold the_services in Hba.
    destruct before as [|x1 [|x2 [|x3 before]]]; cbn in Hba.
    - rewrite (only_loads_fun _ _ _ _ He O1 _ J0 Hs). apply check_capture_ok; [by apply just_loaded_calm|done].
    - injection Hba as <- _. rewrite (only_loads_fun _ _ _ _ He O2 _ J0 Hs). apply check_capture_ok; [by apply just_loaded_calm|done].
    - injection Hba as <- <- _. rewrite (only_loads_fun _ _ _ _ He O3 _ J0 Hs). apply check_capture_ok; [by apply just_loaded_calm|done].
    - discriminate Hba. }
  split; [done|]. split; [done|]. split; [done|]. split.
  { intros j u Hj Hdj. rewrite (Honly j u true Hj Hdj) in Hj. rewrite (element_fun _ _ _ _ Ht Hj) in Hdj. congruence. }
  split; [done|]. split; [done|]. apply List.Forall_forall. intros y Hy. apply check_service_ok; [done|].
  rewrite List.forallb_forall in Hsv. by apply Hsv.
Qed.

(** *** Examples

    protoc is /usr/bin/protoc, SCHEMA_ROOT is /schema; the files of the schema are those of the example
    of [C69_linter_exact] and

      service/meta/v1/meta.proto: package service.meta.v1; import "meta/v1/status.proto";
        message MetaReq {}
        message MetaResp { .meta.v1.ResponseStatus response_status = 1; .meta.v1.ResponseStatus again = 2; }
        service Meta { rpc Info(MetaReq) returns (MetaResp); }

    in the first example, while in the second MetaResp has no field again and Storage has only the
    methods Get and Watch. *)
Definition mt_f := "service/meta/v1/meta.proto".
Definition mt_elems (more : list tree) : list tree :=
  [ el mt_f 1 (DSyntax "proto3") []; el mt_f 2 (DPackage "service.meta.v1") []; el mt_f 3 (DImport st_f) [];
    msg mt_f 4 "MetaReq" [];
    msg mt_f 5 "MetaResp" (fld mt_f 6 ".meta.v1.ResponseStatus" "response_status" 1 :: more);
    el mt_f 8 (DService "Meta") [ el mt_f 9 (DRPC "Info" "MetaReq" false "MetaResp" false) [] ] ].
Definition ok_elems : list tree :=
  [ el sv_f 1 (DSyntax "proto3") []; el sv_f 2 (DPackage "service.storage.v1") []; el sv_f 3 (DImport st_f) [];
    msg sv_f 5 "Req" [];
    msg sv_f 10 "Good" [ fld sv_f 11 "meta.v1.ResponseStatus" "response_status" 1; fld sv_f 12 "string" "data" 2 ];
    el sv_f 40 (DService "Storage")
      [ el sv_f 41 (DRPC "Get" "Req" false "Good" false) [];
        el sv_f 44 (DRPC "Watch" "Req" false "Req" true) [] ] ].
(** the files: the name on the disk, the import path, the elements *)
Definition disk (storage meta : list tree) : list (string * (string * list tree)) :=
  [ ("/usr/include/google/protobuf/descriptor.proto", (desc_f, descriptor_elems));
    ("/usr/include/google/protobuf/any.proto", (any_f, any_elems));
    ("/schema/meta/v1/status.proto", (st_f, st_elems));
    ("/schema/meta/v1/options.proto", (mo_f, mo_elems));
    ("/schema/service/storage/v1/service.proto", (sv_f, storage));
    ("/schema/service/meta/v1/meta.proto", (mt_f, meta)) ].
Fixpoint disk_get (d : list (string * (string * list tree))) (name : string) : option (string * list tree) :=
  match d with
  | [] => None
  | (k, v) :: d' => if String.eqb k name then Some v else disk_get d' name
  end.
Definition disk_os (d : list (string * (string * list tree))) : os_view :=
  mkOs (fun f => if String.eqb f "/schema" then SOk true
                 else match disk_get d f with Some _ => SOk false | None => SError enoent end)
       (inr "/usr/bin/protoc").
Definition disk_read (d : list (string * (string * list tree))) (name path : string) : error + list tree :=
  match disk_get d name with
  | Some v => if String.eqb v.1 path then inr v.2 else inl enoent
  | None => inl enoent
  end.
Lemma disk_env_ok d rs : forallb (fun x => parser_output x.2.1 x.2.2) d = true -> env_ok (mkEnv rs (disk_read d)).
Proof.
  intros H name path els. cbn [e_read]. unfold disk_read.
  destruct (disk_get d name) as [v|] eqn:E; [|done]. destruct (String.eqb_spec v.1 path) as [<-|]; [|done].
  intros [= <-]. induction d as [|[k w] d IH]; [done|].
  cbn in H, E. apply andb_prop in H as [H1 H2].
  destruct (String.eqb_spec k name) as [->|]; [injection E as <-; exact H1|by apply IH].
Qed.

Definition bad_disk := disk sv_elems (mt_elems [ fld mt_f 7 ".meta.v1.ResponseStatus" "again" 2 ]).
Definition good_disk := disk ok_elems (mt_elems []).
Definition the_resolvers : list resolver := [PRProtoc "/usr/include"; PRRoot "/schema"].

Lemma main_example d out :
  forallb (fun x => parser_output x.2.1 x.2.2) d = true ->
  check_main (mkEnv (env_resolvers (disk_os d) the_resolvers) (disk_read d)) ".meta.v1.ResponseStatus" = true ->
  built (disk_os d) [WithProtoc; WithRoot ["/schema"]] = inr the_resolvers ->
  readme_main (disk_os d) (disk_read d) "/schema" 50 = out ->
  exists os read rs s0 sL g f i t a ca class,
  let e := mkEnv (env_resolvers os rs) read in
  built os [WithProtoc; WithRoot ["/schema"]] = inr rs /\
  env_ok e /\ new_registry e 50 = Ret (inr s0) /\
  only_loads e ("meta/v1/status.proto" :: map fst the_services) s0 sL /\
  unique_names sL /\ packages_first sL /\ ~ is_loaded sL "" /\
  (forall before after s, the_services = (before ++ after)%list ->
     only_loads e ("meta/v1/status.proto" :: map fst before) s0 s -> no_capture s sL) /\
  loaded sL "meta/v1/status.proto" g f /\ element_at sL (g, [i]) t /\
  t_data t = DMessage "ResponseStatus" false /\
  (forall j u, element_at sL (g, [j]) u -> t_data u <> DMessage "ResponseStatus" true) /\
  found sL ".meta.v1.ResponseStatus" (NAst KMessage a (g, [i])) /\
  found s0 ".google.protobuf.MethodOptions" (NAst KMessage ca class) /\
  Forall (fine_service sL) the_services /\
  readme_main os read "/schema" 50 = out.
Proof.
  intros Hd Hc Hb Hout.
  destruct (check_main_ok _ _ (disk_env_ok d _ Hd) Hc)
    as (s0 & sL & g & f & i & t & a & ca & class & H1 & H2 & H3 & H4 & H5 & H6 & H7 & H8 & H9 & H10 & H11 & H12 & H13).
  exists (disk_os d), (disk_read d), the_resolvers, s0, sL, g, f, i, t, a, ca, class. cbn zeta.
  split; [exact Hb|]. split; [exact (disk_env_ok d _ Hd)|].
  exact (conj H1 (conj H2 (conj H3 (conj H4 (conj H5 (conj H6 (conj H7 (conj H8 (conj H9 (conj H10 (conj H11 (conj H12 (conj H13 Hout))))))))))))).
Qed.

Example C69_main_example : exists os read rs s0 sL g f i t a ca class,
  let e := mkEnv (env_resolvers os rs) read in
  built os [WithProtoc; WithRoot ["/schema"]] = inr rs /\
  env_ok e /\ new_registry e 50 = Ret (inr s0) /\
  only_loads e ("meta/v1/status.proto" :: map fst the_services) s0 sL /\
  unique_names sL /\ packages_first sL /\ ~ is_loaded sL "" /\
  (forall before after s, the_services = (before ++ after)%list ->
     only_loads e ("meta/v1/status.proto" :: map fst before) s0 s -> no_capture s sL) /\
  loaded sL "meta/v1/status.proto" g f /\ element_at sL (g, [i]) t /\
  t_data t = DMessage "ResponseStatus" false /\
  (forall j u, element_at sL (g, [j]) u -> t_data u <> DMessage "ResponseStatus" true) /\
  found sL ".meta.v1.ResponseStatus" (NAst KMessage a (g, [i])) /\
  found s0 ".google.protobuf.MethodOptions" (NAst KMessage ca class) /\
  Forall (fine_service sL) the_services /\
  readme_main os read "/schema" 50 = Ret (
    "service/storage/v1/service.proto:21:1 only response_status field can use .meta.v1.ResponseStatus type
service/storage/v1/service.proto:42:1 missing `.meta.v1.ResponseStatus response_status` field in response message type of method .service.storage.v1.Storage.Put
service/storage/v1/service.proto:45:1 missing `.meta.v1.ResponseStatus response_status` field in response message type of method .service.storage.v1.Storage.Raw
service/meta/v1/meta.proto:7:1 only response_status field can use .meta.v1.ResponseStatus type
schema does not satisfy criteria
", 1%Z).
Proof. apply (main_example bad_disk); vm_compute; reflexivity. Qed.

Example C69_main_accepts_example : exists os read rs s0 sL g f i t a ca class,
  let e := mkEnv (env_resolvers os rs) read in
  built os [WithProtoc; WithRoot ["/schema"]] = inr rs /\
  env_ok e /\ new_registry e 50 = Ret (inr s0) /\
  only_loads e ("meta/v1/status.proto" :: map fst the_services) s0 sL /\
  unique_names sL /\ packages_first sL /\ ~ is_loaded sL "" /\
  (forall before after s, the_services = (before ++ after)%list ->
     only_loads e ("meta/v1/status.proto" :: map fst before) s0 s -> no_capture s sL) /\
  loaded sL "meta/v1/status.proto" g f /\ element_at sL (g, [i]) t /\
  t_data t = DMessage "ResponseStatus" false /\
  (forall j u, element_at sL (g, [j]) u -> t_data u <> DMessage "ResponseStatus" true) /\
  found sL ".meta.v1.ResponseStatus" (NAst KMessage a (g, [i])) /\
  found s0 ".google.protobuf.MethodOptions" (NAst KMessage ca class) /\
  Forall (fine_service sL) the_services /\
  readme_main os read "/schema" 50 = Ret ("", 0%Z).
Proof. apply (main_example good_disk); vm_compute; reflexivity. Qed.
