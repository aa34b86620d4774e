(** * C71, C72 for the linter of the README: what it reports is determined by the loaded files. *)
From Verif Require Export ThmMore Readme.
From Verif Require Import ThmReadme.
From Verif Require Import Frame Navigate Identity Api.

(** ** Specification

    The linter (Readme.v, internal/readme/main.go:56-94) on files that are loaded already: the status
    message and the services are looked up with Registry.NodeByFullName. *)
Fixpoint lint_named (st : node) (services : list string) (fs : list finding) : R (list finding) :=
  match services with
  | [] => ret fs
  | q :: l =>
      o <~ node_by_full_name q ;;
      match o with
      | Some (NAst KService _ p) => fs' <~ lint_service st p fs ;; lint_named st l fs'
      | _ => panic "no such service"
      end
  end.
Definition lint_loaded (status : string) (services : list string) : R (list finding) :=
  o <~ node_by_full_name status ;;
  match o with
  | Some (NAst KMessage a p) => lint_named (NAst KMessage a p) services []
  | _ => panic "no such message"
  end.

(** ** Proofs *)

Section same.
Context (P : ptr -> ptr -> Prop) (D : ptr -> Prop).

Lemma is_node_same E ty ty' st st' :
  one_to_one E -> same_nodeo P D E ty ty' -> same_node P D E st st' -> declaration_node st ->
  is_node ty st = is_node ty' st'.
Proof.
  intros HE Ht Hs Hd. destruct Ht as [|n n' Hn]; [done|].
  destruct Hs as [k a a' p p' Hp Hk Ha| | | | | |]; try done.
  destruct Hn as [k2 b b' q q' Hq Hk2 Hb| | | | | |]; try done. cbn. unfold same_wkind.
  case_bool_decide as Hkk; [|done]. subst k2. cbn. apply eq_bool_prop_intro.
  assert (Hg : a_group k = false) by (by destruct k).
  pose proof (HE _ _ _ _ (Hb Hg) (Ha Hg)) as H.
  destruct (N.eqb_spec b a), (N.eqb_spec b' a'); cbn; naive_solver.
Qed.

Lemma lint_field_same E st st' c x x' :
  one_to_one E -> same_node P D E st st' -> declaration_node st -> same_node P D E x x' ->
  same_program P D E (fun E r r' => always eq E r.1 r'.1 /\ r.2 = r'.2)
    (lint_field st c x) (lint_field st' c x').
Proof.
  intros HE Hs Hd Hx. unfold lint_field.
  destruct Hx as [k a a' p p' Hp Hk Ha| | | | | |]; try apply sp_panic. destruct k; try apply sp_panic.
  eapply sp_bind; [by apply sp_field_type|]. intros E1 ty ty' M1 HE1 Ht.
  pose proof (same_node_more _ _ _ _ _ _ M1 Hs) as Hs1.
  rewrite (is_node_same _ _ _ _ _ HE1 Ht Hs1 Hd). destruct (is_node ty' st'); [|by apply sp_ret].
  eapply sp_bind; [by apply sp_call, sc_node_name|]. intros E2 nm ? M2 HE2 <-.
  destruct (negb _); [|by apply sp_ret].
  eapply sp_bind; [apply sp_call, sc_pos; constructor; auto|]. intros E3 ps ? M3 HE3 <-.
  eapply sp_bind; [apply sp_call, sc_type_name; eapply same_node_more, Hs1; intros ? ?; auto|].
  intros E4 tn ? M4 HE4 <-. by apply sp_ret.
Qed.

Lemma lint_method_same E st st' fs x x' :
  one_to_one E -> same_node P D E st st' -> declaration_node st -> same_node P D E x x' ->
  same_program P D E (fun E r r' => always eq E r.1 r'.1 /\ r.2 = r'.2)
    (lint_method st fs x) (lint_method st' fs x').
Proof.
  intros HE Hs Hd Hx. unfold lint_method. pose proof Hx as Hm.
  destruct Hx as [k a a' p p' Hp Hk Ha| | | | | |]; try apply sp_panic. destruct k; try apply sp_panic.
  eapply sp_bind; [by apply sp_call, sc_method_output|]. intros E1 [stream n] [stream' n'] M1 HE1 Hn.
  inversion Hn as [? ? ? Hn']; subst. destruct stream'; [by apply sp_ret|].
  eapply sp_bind; [apply sp_call, sc_option_named; by eapply same_node_more|].
  intros E2 o o' M2 HE2 Ho. unfold always in Ho. destruct Ho as [|o o' Ho]; [|by apply sp_ret].
  destruct Hn' as [k b b' q q' Hq Hkq Hb| | | | | |]; try apply sp_panic.
  eapply (sp_bind P D E2 (always eq)).
  { eapply (sp_loop P D E2 (same_node P D) (always eq)); [by apply sl_message_fields|done|done|].
    intros E3 c c' y y' M3 HE3 <- Hy. apply lint_field_same; [done| |done|done].
    eapply same_node_more, Hs. intros ? ?; auto. }
  intros E3 [det fs'] ? M3 HE3 <-. destruct det; [by apply sp_ret|].
  eapply sp_bind; [apply sp_call, sc_pos; eapply same_node_more, Hm; intros ? ?; auto|].
  intros E4 ps ? M4 HE4 <-.
  eapply sp_bind; [apply sp_call, sc_type_name; eapply same_node_more, Hs; intros ? ?; auto 10|].
  intros E5 tn ? M5 HE5 <-.
  eapply sp_bind; [apply sp_call, sc_node_index; [eapply same_node_more, Hm; intros ? ?; auto 10|by intros]|].
  intros E6 ix ? M6 HE6 <-. by apply sp_ret.
Qed.

Lemma lint_named_same st st' services : declaration_node st -> forall E fs,
  one_to_one E -> same_node P D E st st' ->
  same_program P D E (always eq) (lint_named st services fs) (lint_named st' services fs).
Proof.
  intros Hd. induction services as [|q l IH]; intros E fs HE Hs; cbn [lint_named]; [by apply sp_ret|].
  eapply sp_bind; [apply sp_call, sc_node_by_full_name|]. intros E1 o o' M1 HE1 Ho.
  destruct Ho as [|n n' [k a a' p p' Hp _ _| | | | | |]]; try apply sp_panic. destruct k; try apply sp_panic.
  eapply (sp_bind P D E1 (always eq)).
  { unfold lint_service.
    eapply (sp_loop P D E1 (same_node P D) (always eq)); [by apply sl_service_methods|done|done|].
    intros E2 c c' y y' M2 HE2 <- Hy. apply lint_method_same; [done| |done|done].
    eapply same_node_more, Hs. intros ? ?; auto. }
  intros E2 fs' ? M2 HE2 <-. apply IH; [done|]. eapply same_node_more, Hs. intros ? ?; auto.
Qed.
Lemma lint_loaded_same E status services :
  one_to_one E -> same_program P D E (always eq) (lint_loaded status services) (lint_loaded status services).
Proof.
  intros HE. unfold lint_loaded.
  eapply sp_bind; [apply sp_call, sc_node_by_full_name|]. intros E1 o o' M1 HE1 Ho.
  destruct Ho as [|n n' [k a a' p p' Hp Hk Ha| | | | | |]]; try apply sp_panic. destruct k; try apply sp_panic.
  apply lint_named_same; [done|done|by constructor].
Qed.
End same.

Lemma nothing_one : one_to_one nothing.
Proof. by intros ? ? ? ? []. Qed.

(** ** The theorems *)

(** The same files, in whatever order they were loaded and whatever was asked before: the linter,
    which recognizes the status message with ==, reports the same. *)
Theorem C71_linter {B} s1 s2 (m0 : R B) status services fs s1' :
  just_loaded s1 -> unique_names s1 -> packages_first s1 ->
  calm s2 -> no_types s2 -> same_files s1 s2 -> client Queries m0 ->
  lint_loaded status services s1 = (Ret fs, s1') ->
  exists s2', lint_loaded status services (m0 s2).2 = (Ret fs, s2').
Proof.
  intros Hj U P C2 T2 Hf Hm0 E.
  destruct (C71_same_program (always eq) s1 s2 m0 _ _ fs s1' Hj U P C2 T2 Hf Hm0
    (lint_loaded_same _ _ _ _ _ nothing_one) E) as (x2 & s2' & E' & E2 & _ & <-).
  by exists s2'.
Qed.

(** Further files that capture no reference of the first ones do not change the report. *)
Theorem C72_linter {B} s1 s2 (m0 : R B) status services fs s1' :
  just_loaded s1 -> calm s2 -> unique_names s2 -> packages_first s2 -> no_types s2 ->
  has_files_of s1 s2 -> no_capture s1 s2 -> ~ is_loaded s2 "" -> client Queries m0 ->
  lint_loaded status services s1 = (Ret fs, s1') ->
  exists s2', lint_loaded status services (m0 s2).2 = (Ret fs, s2').
Proof.
  intros Hj C2 U P T2 Hf Hc Hz Hm0 E.
  destruct (C72_more_files (always eq) s1 s2 m0 _ _ fs s1' Hj C2 U P T2 Hf Hc Hz Hm0
    (lint_loaded_same _ _ _ _ _ nothing_one) E) as (x2 & s2' & E' & E2 & _ & <-).
  by exists s2'.
Qed.

(** The files of C69_example in two orders, and with a further file. *)
Definition lint_later : list (string * list tree) := (lint_files ++ [(later_f, [ el later_f 1 (DPackage "later") [];
  el later_f 2 (DImport sv_f) []; msg later_f 3 "LaterThing" [ fld later_f 4 "string" "later_name" 1 ] ])])%list.
Definition lint_storage : R (list finding) :=
  lint_loaded ".meta.v1.ResponseStatus" [".service.storage.v1.Storage"].
Definition lint_lines (o : outcome (list finding)) : list (bool * nat) :=
  match o with
  | Ret fs => map (fun f => match f with WrongName p _ => (true, Z.to_nat (p_line p))
                            | MissingStatus p _ _ => (false, Z.to_nat (p_line p)) end) fs
  | _ => []
  end.

Example C71_linter_example :
  exists s1 s2 fs s1', just_loaded s1 /\ unique_names s1 /\ packages_first s1 /\
  calm s2 /\ no_types s2 /\ same_files s1 s2 /\
  lint_storage s1 = (Ret fs, s1') /\ lint_lines (Ret fs) = [(true, 21); (false, 42); (false, 45)].
Proof.
  assert (E0 : new_registry (table_env lint_later) 50 = Ret (inr (start lint_later)))
    by (apply start_new; vm_compute; reflexivity).
  assert (L1 : only_loads (table_env lint_later) [sv_f; st_f] (start lint_later) (world lint_later [sv_f; st_f]))
    by (apply loads_fine_only; vm_compute; reflexivity).
  assert (L2 : only_loads (table_env lint_later) [st_f; sv_f] (start lint_later) (world lint_later [st_f; sv_f]))
    by (apply loads_fine_only; vm_compute; reflexivity).
  assert (U : unique_names (world lint_later [sv_f; st_f])) by (apply check_unique_ok; vm_compute; reflexivity).
  assert (P : packages_first (world lint_later [sv_f; st_f])) by (apply check_packages_ok; vm_compute; reflexivity).
  assert (F : lint_lines (lint_storage (world lint_later [sv_f; st_f])).1 = [(true, 21); (false, 42); (false, 45)])
    by (vm_compute; reflexivity).
  assert (He : env_ok (table_env lint_later)) by (apply table_env_ok; vm_compute; reflexivity).
  revert E0 L1 L2 U P F He. generalize (start lint_later) (world lint_later [sv_f; st_f])
    (world lint_later [st_f; sv_f]) (table_env lint_later). intros s0 s1 s2 e E0 L1 L2 U P F He.
  assert (J0 : just_loaded s0) by (by eapply jl_new).
  pose proof (only_loads_just _ _ _ _ He L1 J0) as J1.
  pose proof (only_loads_just _ _ _ _ He L2 J0) as J2.
  destruct (lint_storage s1) as [[fs|m|] s1'] eqn:E; try discriminate F.
  exists s1, s2, fs, s1'. split; [exact J1|]. split; [exact U|]. split; [exact P|].
  split; [by apply just_loaded_calm|]. split; [by apply just_loaded_no_types|]. split; [|by split].
  apply (C66_order_of_loads e [sv_f; st_f] [st_f; sv_f] s0); [exact He|by apply just_loaded_calm| | |].
  - by apply only_loads_loading.
  - by apply only_loads_loading.
  - intros path; rewrite !elem_of_cons, elem_of_nil; tauto.
Qed.

Example C72_linter_example :
  exists s1 s2 fs s1', just_loaded s1 /\ calm s2 /\ unique_names s2 /\ packages_first s2 /\ no_types s2 /\
  has_files_of s1 s2 /\ no_capture s1 s2 /\ ~ is_loaded s2 "" /\ ~ same_files s1 s2 /\
  lint_storage s1 = (Ret fs, s1') /\ lint_lines (Ret fs) = [(true, 21); (false, 42); (false, 45)].
Proof.
  assert (E0 : new_registry (table_env lint_later) 50 = Ret (inr (start lint_later)))
    by (apply start_new; vm_compute; reflexivity).
  assert (L1 : only_loads (table_env lint_later) [sv_f] (start lint_later) (world lint_later [sv_f]))
    by (apply loads_fine_only; vm_compute; reflexivity).
  assert (L2 : only_loads (table_env lint_later) [later_f] (world lint_later [sv_f])
      (load_all lint_later [later_f] (world lint_later [sv_f])))
    by (apply loads_fine_only; vm_compute; reflexivity).
  assert (U : unique_names (load_all lint_later [later_f] (world lint_later [sv_f])))
    by (apply check_unique_ok; vm_compute; reflexivity).
  assert (P : packages_first (load_all lint_later [later_f] (world lint_later [sv_f])))
    by (apply check_packages_ok; vm_compute; reflexivity).
  assert (Cp : check_capture (world lint_later [sv_f])
    (load_all lint_later [later_f] (world lint_later [sv_f])) = true) by (vm_compute; reflexivity).
  assert (Z : check_path (load_all lint_later [later_f] (world lint_later [sv_f])) "" = true)
    by (vm_compute; reflexivity).
  assert (Z1 : check_path (world lint_later [sv_f]) later_f = true) by (vm_compute; reflexivity).
  assert (Z2 : negb (check_path (load_all lint_later [later_f] (world lint_later [sv_f])) later_f) = true)
    by (vm_compute; reflexivity).
  assert (F : lint_lines (lint_storage (world lint_later [sv_f])).1 = [(true, 21); (false, 42); (false, 45)])
    by (vm_compute; reflexivity).
  assert (He : env_ok (table_env lint_later)) by (apply table_env_ok; vm_compute; reflexivity).
  revert E0 L1 L2 U P Cp Z Z1 Z2 F He. generalize (load_all lint_later [later_f] (world lint_later [sv_f])).
  generalize (start lint_later) (world lint_later [sv_f]) (table_env lint_later).
  intros s0 s e s' E0 L1 L2 U P Cp Z Z1 Z2 F He.
  assert (J0 : just_loaded s0) by (by eapply jl_new).
  pose proof (only_loads_just _ _ _ _ He L1 J0) as J1.
  pose proof (only_loads_just _ _ _ _ He L2 J1) as J2.
  destruct (lint_storage s) as [[fs|m|] s1'] eqn:E; try discriminate F.
  exists s, s', fs, s1'. split; [exact J1|]. split; [by apply just_loaded_calm|].
  split; [exact U|]. split; [exact P|]. split; [by apply just_loaded_no_types|].
  split.
  { intros path f [g Hl]. exists g. exact (only_loads_grow e _ s s' He J1 L2 path g f Hl). }
  split; [apply check_capture_ok; [by apply just_loaded_calm|exact Cp]|].
  split; [by apply check_path_ok|]. split; [|by split].
  intros Hs. apply (check_path_ok _ _ Z1).
  assert (is_loaded s' later_f) as (g & f & Hl).
  { apply is_loaded_protos; [exact (proj1 (calm_complete _ (just_loaded_calm _ J2)))|].
    unfold check_path in Z2. destruct (protos s' !! later_f); [by eexists|done]. }
  destruct (proj2 (Hs later_f f)) as [g' Hl']; [by exists g|]. by exists g', f.
Qed.
