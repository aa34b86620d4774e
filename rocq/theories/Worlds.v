(** * Concrete registries used by examples and counterexamples. *)
From Verif Require Export Demo Client.

Lemma table_env_ok tab :
  forallb (fun f => parser_output f.1 f.2) tab = true -> env_ok (table_env tab).
Proof.
  intros H name path els. cbn. destruct (String.eqb_spec name path) as [->|]; [|done]. cbn.
  destruct (table_get tab path) as [els'|] eqn:E; [|done].
  intros [= <-]. induction tab as [|[k v] tab IH]; [done|].
  cbn in H, E. apply andb_prop in H as [H1 H2].
  destruct (String.eqb_spec k path) as [->|]; [injection E as <-; exact H1|by apply IH].
Qed.

(** the registry NewRegistry makes over a table of files *)
Definition start (tab : list (string * list tree)) : registry :=
  match new_registry (table_env tab) 50 with Ret (inr s) => s | _ => empty_registry end.

Definition starts (tab : list (string * list tree)) : bool :=
  forallb (fun f => parser_output f.1 f.2) tab &&
  match new_registry (table_env tab) 50 with Ret (inr _) => true | _ => false end.

Lemma start_history md tab : starts tab = true -> history md (start tab).
Proof.
  unfold starts, start. intros [H1 H2]%andb_prop.
  destruct (new_registry (table_env tab) 50) as [[err|s]|m|] eqn:E; try discriminate H2.
  eapply hist_new; [by apply table_env_ok|exact E].
Qed.

(** ... after Registry.Proto of some paths, in a process that would not survive a panic *)
Fixpoint load_all (tab : list (string * list tree)) (paths : list string) (s : registry) : registry :=
  match paths with
  | [] => s
  | path :: paths' => load_all tab paths' (proto_or_exit (table_env tab) 50 path s).2
  end.
Definition world (tab : list (string * list tree)) (paths : list string) : registry :=
  load_all tab paths (start tab).

Lemma world_history md tab paths : starts tab = true -> md <> Queries -> history md (world tab paths).
Proof.
  intros H Hmd. unfold world. generalize (start_history md tab H). generalize (start tab).
  assert (He : env_ok (table_env tab)) by (apply andb_prop in H as [H _]; by apply table_env_ok).
  induction paths as [|path paths IH]; intros s Hs; [done|]. cbn. apply IH.
  apply (hist_client md _ (proto_or_exit (table_env tab) 50 path)); [done|].
  by apply cl_proto_or_exit.
Qed.
Lemma world_calm tab paths : starts tab = true -> calm (world tab paths).
Proof. intros H. by apply world_history. Qed.
Lemma world_reachable tab paths : starts tab = true -> reachable (world tab paths).
Proof. intros H. by apply world_history. Qed.

Definition demo_world : registry := world demo_files [dat_f].
Lemma demo_starts : starts demo_files = true.
Proof. vm_compute. reflexivity. Qed.
Lemma demo_calm : calm demo_world.
Proof. apply world_calm, demo_starts. Qed.
Lemma demo_reachable : reachable demo_world.
Proof. apply world_reachable, demo_starts. Qed.
Lemma demo_env_ok : env_ok demo_env.
Proof. apply table_env_ok, demo_wf. Qed.
