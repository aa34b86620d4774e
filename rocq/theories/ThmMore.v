(** * C72: loading further files. *)
From Verif Require Export ThmFiles.
From Verif Require Import Frame Navigate Identity Api.

(** ** Specification *)

(** Some loaded file declares [q]. *)
Definition declares (s : registry) (q : string) : Prop :=
  exists path g f π, loaded s path g f /\ fqn f π = Some q.

(** Some element of a loaded file refers to the type or option [n], as written in the file. *)
Definition references (s : registry) (n : string) : Prop :=
  exists p t, element_at s p t /\ refers (t_data t) n.

(** A declaration that the reference [n] might mean in some scope. *)
Definition may_mean (n q : string) : Prop := q = n \/ exists sc, q = sc +:+ "." +:+ n.

(** The files [s2] has more than [s1] declare nothing a reference in [s1] might mean. *)
Definition no_capture (s1 s2 : registry) : Prop :=
  forall n q, references s1 n -> may_mean n q -> declares s2 q -> declares s1 q.

(** [s2] has all the files of [s1]. *)
Definition has_files_of (s1 s2 : registry) : Prop :=
  forall path f, (exists g, loaded s1 path g f) -> exists g, loaded s2 path g f.

(** ** Proofs *)

Lemma declares_names s q : tidy s -> declares s q <-> is_Some (names s !! q).
Proof.
  intros (C & U & P). pose proof (proj1 C) as S. split.
  - intros (path & g & f & π & Hl & Hq). rewrite (loaded_fqn s path g f π) in Hq by eauto.
    by apply (declared_named _ _ _ _ _ _ C Hl Hq).
  - intros [p Hp]. destruct (sc_names _ S _ _ Hp) as (f & Hf & Hq).
    destruct (heap_loaded _ _ _ S Hf) as [path Hl].
    rewrite <- (loaded_fqn s path p.1 f p.2) in Hq by eauto. by exists path, p.1, f, p.2.
Qed.
Lemma defined_is reg q : defined reg q = true <-> is_Some (reg !! q).
Proof.
  unfold defined. destruct (reg !! q); split; try done; try (by eexists). by intros [? [=]].
Qed.

Lemma resolve_agrees r1 r2 n :
  (forall q, may_mean n q -> defined r1 q = defined r2 q) ->
  forall sc, resolve_name_raw r1 sc n = resolve_name_raw r2 sc n.
Proof.
  intros H sc. unfold resolve_name_raw. destruct (has_prefix n "."); [rewrite H by (by left); done|].
  generalize (if negb (String.eqb sc "") && negb (has_prefix sc ".") then "." +:+ sc else sc).
  intros sc1. generalize (S (String.length sc1)) as fuel. intros fuel. revert sc1.
  induction fuel as [|fuel IH]; intros sc1; cbn [resolve_loop]; [done|].
  rewrite (H (sc1 +:+ "." +:+ n)) by (right; by exists sc1).
  rewrite (H ("." +:+ n)) by (right; by exists ""). by rewrite IH.
Qed.

Lemma less_tidy s1 s2 : schema s1 /\ complete s1 -> tidy s2 -> has_files_of s1 s2 -> tidy s1.
Proof.
  intros C1 (C2 & U2 & P2) H. split; [done|]. split.
  - intros path g f π path' g' f' π' q L L' Q Q'.
    destruct (H path f) as [h Hh]; [by exists g|].
    destruct (H path' f') as [h' Hh']; [by exists g'|].
    destruct (U2 _ _ _ _ _ _ _ _ _ Hh Hh' Q Q') as [<- <-]. split; [|done].
    destruct (loaded_path _ _ _ _ _ _ Hh Hh') as [-> ->].
    by destruct (loaded_fun _ _ _ _ _ _ L L') as [-> _].
  - intros path g f Hl. destruct (H path f) as [h Hh]; [by exists g|]. by eapply P2.
Qed.

(** the paths of the files of [s], and the empty one *)
Definition known_path (s : registry) (path : string) : Prop := path = "" \/ is_loaded s path.

Lemma extension_alike s1 s2 :
  Inv s1 -> tidy s1 -> tidy s2 -> has_files_of s1 s2 -> no_capture s1 s2 -> ~ is_loaded s2 "" ->
  alike (same_file s1 s2) inside (references s1) (known_path s1) (fun _ => False) s1 s2.
Proof.
  intros I1 O1 O2 Hmore Hcap Hempty.
  pose proof (proj1 (proj1 O1)) as S1.
  pose proof (proj1 (proj1 O2)) as S2.
  apply alike_more; try done.
  - intros n sc Hn. apply resolve_agrees. intros q Hq.
    apply Bool.eq_iff_eq_true. rewrite !defined_is, <- !declares_names by done. split.
    + intros (path & g & f & π & Hl & Hf). destruct (Hmore path f) as [g2 Hl2]; [by exists g|].
      by exists path, g2, f, π.
    + by apply (Hcap n q).
  - intros p t n Ht Hr. exists p, t. split; [|done]. by apply heap_element.
  - intros path [->|(g & f & Hl)] Hn.
    + by apply not_loaded_protos.
    + exfalso. apply (not_loaded_protos s1 path S1) in Hn. apply Hn. by exists g, f.
  - intros p t Ht. apply heap_element in Ht as [path Ht]; [|done]. pose proof Ht as (f & Hl & Hw).
    destruct p as [g π]. cbn [fst snd] in *. destruct π as [|i π].
    + injection Hw as <-. pose proof Hl as (_ & Hf & Hd).
      destruct (sc_heap _ S1 _ _ Hf) as (path' & els & -> & _). injection Hd as ->. split.
      * by left.
      * intros f' [= <-]. right. by exists g, (file_tree path els).
    + split.
      * right. rewrite (element_stamp _ _ _ _ I1 Ht) by done. by exists g, f.
      * intros f' Hf'. exfalso.
        assert (Hh : heap_at s1 (g, i :: π) = Some t) by (apply element_heap; by exists path).
        destruct (parent_allowed _ _ _ _ _ I1 Hh) as (v & _ & _ & Hal). rewrite Hf' in Hal.
        by destruct (t_data v).
Qed.

(** ** The theorems *)

(** A program of queries that returns on a registry where only loads were done returns the same
    on every registry that has these files and more, loaded in whatever order, unless a further
    file declares something a reference of these files might mean. *)
Theorem C72_more_files {A B} (RA : rel A) s1 s2 (m0 : R B) (m1 m2 : R A) x1 s1' :
  just_loaded s1 -> calm s2 -> unique_names s2 -> packages_first s2 -> no_types s2 ->
  has_files_of s1 s2 -> no_capture s1 s2 -> ~ is_loaded s2 "" -> client Queries m0 ->
  same_program (same_place s1 s2) inside nothing RA m1 m2 ->
  m1 s1 = (Ret x1, s1') ->
  exists x2 s2' E, m2 (m0 s2).2 = (Ret x2, s2') /\ one_to_one E /\ RA E x1 x2.
Proof.
  intros Hj C2 U2 P2 T2 Hmore Hcap Hempty Hm0 Hm E.
  pose proof (just_loaded_calm _ Hj) as C1. destruct (just_loaded_empty _ Hj) as [He Hf].
  assert (O2 : tidy s2) by (by apply orderly_tidy).
  pose proof (less_tidy _ _ (calm_complete _ C1) O2 Hmore) as O1.
  apply (run_returns s1 s2 inside inside_child C1 C2 (references s1) (known_path s1) (or_introl eq_refl))
    with (m1 := m1) (s1' := s1'); try done.
  - apply extension_alike; try done. exact (reachable_Inv _ (calm_reachable _ C1)).
  - intros v. rewrite He, lookup_empty. discriminate.
  - by apply just_loaded_no_types.
Qed.

(** In one registry: the elements keep their places when further files are loaded. *)
Lemma only_loads_grow e paths s s' :
  env_ok e -> just_loaded s -> only_loads e paths s s' ->
  forall path g f, loaded s path g f -> loaded s' path g f.
Proof.
  intros He Hj H path g f Hl.
  destruct (loading_files e paths s s' He (only_loads_loading _ _ _ _ H) (just_loaded_calm _ Hj))
    as [[M _] _]. by apply M.
Qed.
Lemma same_place_later e paths s s' p p' :
  env_ok e -> just_loaded s -> only_loads e paths s s' ->
  same_place s s' p p' <-> p = p' /\ exists path f, loaded s path p.1 f.
Proof.
  intros He Hj H. pose proof (only_loads_grow _ _ _ _ He Hj H) as M. destruct p as [g π], p' as [g' π'].
  split.
  - intros [(path & f & A & B) Hπ]. cbn in *. subst π'.
    destruct (loaded_fun _ _ _ _ _ _ (M _ _ _ A) B) as [-> _]. split; [done|]. by exists path, f.
  - intros [[= <- <-] (path & f & A)]. split; [|done]. exists path, f. split; [done|]. by apply M.
Qed.

Theorem C72_later_loads {A} (RA : rel A) e paths s s' (m m' : R A) x s1 :
  env_ok e -> just_loaded s -> only_loads e paths s s' ->
  unique_names s' -> packages_first s' -> no_capture s s' -> ~ is_loaded s' "" ->
  same_program (same_place s s') inside nothing RA m m' ->
  m s = (Ret x, s1) ->
  (exists x' s1' E, m' s' = (Ret x', s1') /\ one_to_one E /\ RA E x x') /\
  (forall p p', same_place s s' p p' <-> p = p' /\ exists path f, loaded s path p.1 f).
Proof.
  intros He Hj H U P Hcap Hempty Hm E. split.
  - pose proof (only_loads_just _ _ _ _ He H Hj) as Hj'.
    apply (C72_more_files RA s s' (ret tt) m m' x s1); try done.
    + by apply just_loaded_calm.
    + by apply just_loaded_no_types.
    + intros path f [g Hl]. exists g. exact (only_loads_grow e paths s s' He Hj H path g f Hl).
    + constructor.
  - intros p p'. exact (same_place_later e paths s s' p p' He Hj H).
Qed.

(** *** Cases *)

Definition refs_of (d : data) : list string :=
  match d with
  | DNormalField _ typ _ _ _ | DOneOfField _ typ _ => [typ]
  | DRPC _ req _ res _ => [req; res]
  | DOption name _ => [strip_parens name]
  | _ => []
  end.
Definition all_refs (s : registry) : list string :=
  concat (map (fun f => concat (map (fun π =>
    match walk f π with Some t => refs_of (t_data t) | None => [] end) (all_paths [] f))) (heap s)).
Fixpoint tails (q : string) : list string :=
  q :: match q with String _ r => tails r | EmptyString => [] end.
Definition check_capture (s1 s2 : registry) : bool :=
  let refs := all_refs s1 in let known := map fst (declarations s1) in
  forallb (fun x =>
    existsb (String.eqb x.1) known ||
    forallb (fun n => negb (String.eqb x.1 n) &&
      forallb (fun t => negb (String.eqb t ("." +:+ n))) (tails x.1)) refs) (declarations s2).

Lemma refs_of_complete d n : refers d n -> n ∈ refs_of d.
Proof. intros []; cbn; set_solver. Qed.
Lemma all_refs_complete s n : references s n -> n ∈ all_refs s.
Proof.
  intros (p & t & (path & f & (_ & Hf & _) & Hw) & Hr). unfold all_refs.
  apply elem_of_list_In, in_concat. eexists. split; [apply List.in_map, elem_of_list_In; by eapply elem_of_list_lookup_2|].
  apply in_concat. eexists. split.
  - apply List.in_map, elem_of_list_In. pose proof (all_paths_complete f [] _ _ Hw) as H.
    rewrite app_nil_r in H. exact H.
  - cbn. rewrite Hw. by apply elem_of_list_In, refs_of_complete.
Qed.
Lemma in_tails sc t : t ∈ tails (sc +:+ t).
Proof.
  induction sc as [|c sc IH].
  - change ("" +:+ t) with t. destruct t; cbn [tails]; constructor.
  - change (String c sc +:+ t) with (String c (sc +:+ t)). cbn [tails]. by right.
Qed.
Lemma declarations_sound s q x : schema s -> (q, x) ∈ declarations s -> declares s q.
Proof.
  intros S H. unfold declarations in H. apply elem_of_list_In, in_concat in H as (l & Hl & H).
  apply elem_of_list_In, elem_of_lookup_imap in Hl as (g & f & -> & Hf).
  apply elem_of_list_In, elem_of_list_omap in H as (π & _ & Hq).
  destruct (fqn f π) as [q'|] eqn:E; [|done]. injection Hq as -> _.
  destruct (heap_loaded _ _ _ S Hf) as [path Hl]. by exists path, g, f, π.
Qed.
Lemma check_capture_ok s1 s2 : calm s1 -> check_capture s1 s2 = true -> no_capture s1 s2.
Proof.
  intros C1 H n q Hn Hm (path & g & f & π & Hl & Hq).
  pose proof (declarations_complete _ _ _ _ _ _ Hl Hq) as Hd.
  unfold check_capture in H. rewrite List.forallb_forall in H. apply elem_of_list_In in Hd.
  specialize (H _ Hd). cbn [fst] in H. apply orb_prop in H as [H|H].
  - apply List.existsb_exists in H as (q' & Hin & Heq). apply String.eqb_eq in Heq as <-.
    apply List.in_map_iff in Hin as ([q' x] & Heq & Hin). cbn in Heq. subst q'.
    apply elem_of_list_In in Hin. eapply declarations_sound; [|exact Hin].
    exact (proj1 (calm_complete _ C1)).
  - exfalso. apply all_refs_complete in Hn. rewrite List.forallb_forall in H.
    apply elem_of_list_In in Hn. specialize (H _ Hn). apply andb_prop in H as [H1 H2].
    destruct Hm as [->|[sc ->]]; [by rewrite String.eqb_refl in H1|].
    rewrite List.forallb_forall in H2. specialize (H2 _ (proj1 (elem_of_list_In _ _) (in_tails sc _))).
    by rewrite String.eqb_refl in H2.
Qed.
Definition check_path (s : registry) (path : string) : bool :=
  match protos s !! path with Some _ => false | None => true end.
Lemma check_path_ok s path : check_path s path = true -> ~ is_loaded s path.
Proof. unfold check_path. intros H (g & f & Hl & _). by rewrite Hl in H. Qed.

(** data.proto and its imports, then any.proto and a service using them. *)
Definition later_f := "later.proto".
Definition later_files : list (string * list tree) :=
  (demo_files ++
   [ (later_f, [ el later_f 1 (DPackage "later") []; el later_f 2 (DImport dat_f) [];
                 msg later_f 3 "Req" [ fld later_f 4 "pb.Message" "m" 1 ] ]) ])%list.
Example C72_example :
  exists e s0 s s', env_ok e /\ new_registry e 50 = Ret (inr s0) /\
  only_loads e [dat_f] s0 s /\ only_loads e [later_f] s s' /\
  just_loaded s /\ unique_names s' /\ packages_first s' /\ no_capture s s' /\ ~ is_loaded s' "" /\
  ~ is_loaded s later_f /\ is_loaded s' later_f /\
  same_program (same_place s s') inside nothing (always eq) (field_types ".pb.Message") (field_types ".pb.Message") /\
  (field_types ".pb.Message" s).1 =
    Ret ["int32"; "uint32"; "repeated bool"; ".google.protobuf.Any"; ".pb.EnumValuePayload";
         ".pb.Message.InnerMessage"; ".pb.Enum"; ".pb.Message.InnerEnum"].
Proof.
  assert (E0 : new_registry (table_env later_files) 50 = Ret (inr (start later_files)))
    by (apply start_new; vm_compute; reflexivity).
  assert (L1 : only_loads (table_env later_files) [dat_f] (start later_files) (world later_files [dat_f]))
    by (apply loads_fine_only; vm_compute; reflexivity).
  assert (L2 : only_loads (table_env later_files) [later_f] (world later_files [dat_f])
      (load_all later_files [later_f] (world later_files [dat_f])))
    by (apply loads_fine_only; vm_compute; reflexivity).
  assert (U : unique_names (load_all later_files [later_f] (world later_files [dat_f])))
    by (apply check_unique_ok; vm_compute; reflexivity).
  assert (P : packages_first (load_all later_files [later_f] (world later_files [dat_f])))
    by (apply check_packages_ok; vm_compute; reflexivity).
  assert (Cp : check_capture (world later_files [dat_f])
    (load_all later_files [later_f] (world later_files [dat_f])) = true) by (vm_compute; reflexivity).
  assert (Z : check_path (load_all later_files [later_f] (world later_files [dat_f])) "" = true)
    by (vm_compute; reflexivity).
  assert (Z1 : check_path (world later_files [dat_f]) later_f = true) by (vm_compute; reflexivity).
  assert (Z2 : negb (check_path (load_all later_files [later_f] (world later_files [dat_f])) later_f) = true)
    by (vm_compute; reflexivity).
  assert (F : (field_types ".pb.Message" (world later_files [dat_f])).1 =
    Ret ["int32"; "uint32"; "repeated bool"; ".google.protobuf.Any"; ".pb.EnumValuePayload";
         ".pb.Message.InnerMessage"; ".pb.Enum"; ".pb.Message.InnerEnum"]) by (vm_compute; reflexivity).
  assert (He : env_ok (table_env later_files)) by (apply table_env_ok; vm_compute; reflexivity).
  revert E0 L1 L2 U P Cp Z Z1 Z2 F He. generalize (load_all later_files [later_f] (world later_files [dat_f])).
  generalize (start later_files) (world later_files [dat_f]) (table_env later_files).
  intros s0 s e s' E0 L1 L2 U P Cp Z Z1 Z2 F He.
  assert (J0 : just_loaded s0) by (by eapply jl_new).
  pose proof (only_loads_just _ _ _ _ He L1 J0) as J1.
  pose proof (only_loads_just _ _ _ _ He L2 J1) as J2.
  exists e, s0, s, s'. split; [exact He|]. split; [exact E0|]. split; [exact L1|]. split; [exact L2|].
  split; [exact J1|]. split; [exact U|]. split; [exact P|].
  split; [apply check_capture_ok; [by apply just_loaded_calm|exact Cp]|].
  split; [by apply check_path_ok|]. split; [by apply check_path_ok|]. split.
  - apply is_loaded_protos; [exact (proj1 (calm_complete _ (just_loaded_calm _ J2)))|].
    unfold check_path in Z2. destruct (protos s' !! later_f); [by eexists|done].
  - split; [by apply field_types_same; intros ? ? ? ? []|exact F].
Qed.

(** A file that is not imported can change what a reference means:

      b.proto: package p; message X {}
      a.proto: package p.q; import "b.proto"; message M { X f = 1; }
               service S { rpc Call(X) returns (X); }
      c.proto: package p.q; message X {}

    Once c.proto is loaded, [X] in a.proto is .p.q.X although a.proto does not import c.proto. *)
Definition cap_files : list (string * list tree) :=
  (std_files ++
   [ ("b.proto", [ el "b.proto" 1 (DPackage "p") []; msg "b.proto" 2 "X" [] ]);
     ("a.proto", [ el "a.proto" 1 (DPackage "p.q") []; el "a.proto" 2 (DImport "b.proto") [];
                   msg "a.proto" 3 "M" [ fld "a.proto" 4 "X" "f" 1 ];
                   el "a.proto" 5 (DService "S") [ el "a.proto" 6 (DRPC "Call" "X" false "X" false) [] ] ]);
     ("c.proto", [ el "c.proto" 1 (DPackage "p.q") []; msg "c.proto" 2 "X" [] ]) ])%list.

(** Service.Method, Method.Input, Registry.NodeIndex. *)
Definition input_of (svc name : string) : R string :=
  o <~ node_by_full_name svc ;;
  match o with
  | Some (NAst KService _ p) =>
      m <~ service_method p name ;;
      match m with
      | Some (NAst KMethod _ q) => '(_, n) <~ method_input q ;; node_index n
      | _ => panic "no such method"
      end
  | _ => panic "no such service"
  end.

Theorem C72_capture_refuted :
  exists e s0 s s', env_ok e /\ new_registry e 50 = Ret (inr s0) /\
  only_loads e ["a.proto"] s0 s /\ only_loads e ["c.proto"] s s' /\
  unique_names s' /\ packages_first s' /\ ~ is_loaded s' "" /\
  (field_types ".p.q.M" s).1 = Ret [".p.X"] /\ (field_types ".p.q.M" s').1 = Ret [".p.q.X"] /\
  (input_of ".p.q.S" "Call" s).1 = Ret ".p.X" /\ (input_of ".p.q.S" "Call" s').1 = Ret ".p.q.X".
Proof.
  exists (table_env cap_files), (start cap_files), (world cap_files ["a.proto"]),
    (load_all cap_files ["c.proto"] (world cap_files ["a.proto"])).
  split; [apply table_env_ok; vm_compute; reflexivity|].
  split; [apply start_new; vm_compute; reflexivity|].
  split; [apply loads_fine_only; vm_compute; reflexivity|].
  split; [apply loads_fine_only; vm_compute; reflexivity|].
  split; [apply check_unique_ok; vm_compute; reflexivity|].
  split; [apply check_packages_ok; vm_compute; reflexivity|].
  split; [apply check_path_ok; vm_compute; reflexivity|].
  repeat (split; [vm_compute; reflexivity|]). vm_compute; reflexivity.
Qed.
