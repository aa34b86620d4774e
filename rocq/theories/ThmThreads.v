(** * C74: goroutines that share a registry under a lock do not notice each other. *)
From Verif Require Export Threads ThmFiles.
From Verif Require Import Frame Navigate Identity Api.

Lemma asks_advance {A} (t t1 : thread A) s s1 : only_asks t -> advance t s = (Ret t1, s1) -> only_asks t1.
Proof.
  destruct t as [a|B m go_on]; cbn; [by intros _ [= <- _]|]. intros [_ Ha] E.
  apply rbind_Ret in E as (x & s2 & _ & E). injection E as <- _. apply Ha.
Qed.
Lemma advance_client {A} (t : thread A) s : only_asks t ->
  exists (m : R (thread A)), client Queries m /\ (m s).2 = (advance t s).2.
Proof.
  intros Ha. exists (advance t). split; [|done]. destruct t as [a|B m go_on]; cbn in *; [apply cl_ret|].
  apply cl_bind; [apply Ha|]. intros; apply cl_ret.
Qed.

Section pool.
  Context (w1 w2 : registry).
  Context (D : ptr -> Prop) (Dchild : forall p i, D (child p i)).
  Context (C1 : calm w1) (C2 : calm w2) (N F : string -> Prop) (Fzero : F "").
  Context (Hal : alike (same_file w1 w2) D N F (fun _ => False) w1 w2).
  Context (Hnil : forall v, cache w1 !! v <> Some None).
  Context (Hty : no_types w1) (Hty2 : no_types w2).
  Notation stw := (st (same_file w1 w2) D N F (fun _ => False) (run_ok w1 w2)).
  Notation ids2 := (ids_of (same_file w1 w2)).
  Notation thr := (same_thread (same_place w1 w2) D).

  (** goroutine [t2] of the pool, where the same one alone is [t1] and returns [x] *)
  Definition keeps_up {A} (RA : rel A) (x : A) (t2 : thread A) (s2 : registry) : Prop :=
    exists s1 t1 E s1', stw s1 s2 /\ more E (ids2 s1 s2) /\ one_to_one E /\
      thr RA E t1 t2 /\ alone t1 s1 = (Ret x, s1').

  Lemma ids_one s1 s2 : stw s1 s2 -> one_to_one (ids2 s1 s2).
  Proof.
    intros T. apply ids_of_one; [apply same_file_fun|apply same_file_inj|..].
    - exact (st_inv1 _ _ _ _ _ _ _ _ T).
    - exact (st_inv2 _ _ _ _ _ _ _ _ T).
  Qed.

  Lemma keeps_up_others {A B} (RA : rel A) x t2 s2 (m : R B) :
    client Queries m -> keeps_up RA x t2 s2 -> keeps_up RA x t2 (m s2).2.
  Proof.
    intros Hm (s1 & t1 & E & s1' & T & HE & HO & Ht & Ea).
    pose proof (others_keep w1 w2 D C2 N F m _ _ Hm T) as T'.
    exists s1, t1, E, s1'. split; [done|]. split; [|done].
    destruct (client_inv_step _ _ Hm s2 (st_inv2 _ _ _ _ _ _ _ _ T)) as [_ G2].
    intros a a' Ha. apply HE in Ha. revert a a' Ha. apply ids_of_more; [apply grows_refl|exact G2].
  Qed.
  Lemma keeps_up_own {A} (RA : rel A) x t2 s2 : keeps_up RA x t2 s2 ->
    exists t2' s2', advance t2 s2 = (Ret t2', s2') /\ keeps_up RA x t2' s2'.
  Proof.
    intros (s1 & t1 & E & s1' & T & HE & HO & Ht & Ea).
    destruct Ht as [y y' Hy|B RB m m' k k' Hm Hk].
    - exists (Finished y'), s2. split; [done|]. exists s1, (Finished y), E, s1'. do 3 (split; [done|]).
      split; [by constructor|done].
    - cbn [alone] in Ea. apply rbind_Ret in Ea as (z & s3 & E1 & E2).
      destruct (run_program w1 w2 D Dchild C1 C2 N F Fzero Hal Hnil Hty Hty2 RB E m m' Hm HO _ _ _ _ T HE E1)
        as (z2 & s4 & E4 & Hz & T' & HE').
      exists (k' z2), s4. cbn [advance]. rewrite (rbind_val _ _ _ _ _ E4). split; [done|].
      exists s3, (k z), (ids2 s3 s4), s1'. pose proof (ids_one _ _ T') as HO'. split; [done|]. split; [by intros ? ?|].
      split; [done|]. split; [|done]. apply Hk; [|done|done]. by eapply more_trans.
  Qed.

  Lemma pool_keeps_up {A} (RA : rel A) x (ts ts' : list (thread A)) s s' i t :
    scheduled ts s ts' s' -> Forall only_asks ts -> ts !! i = Some t -> keeps_up RA x t s ->
    exists t', ts' !! i = Some t' /\ keeps_up RA x t' s'.
  Proof.
    intros H. revert t. induction H as [ts s|ts s j u u1 s1 ts' s' Hj Ej _ IH]; intros t Ha Hi Hk; [by eauto|].
    pose proof (Forall_lookup_1 _ _ _ _ Ha Hj) as Hu.
    pose proof (asks_advance _ _ _ _ Hu Ej) as Hu1.
    assert (Ha' : Forall only_asks (<[j := u1]> ts)) by (by apply Forall_insert).
    assert (Hlen : j < length ts) by (by eapply lookup_lt_Some).
    destruct (decide (j = i)) as [->|Hne].
    - assert (u = t) as -> by congruence.
      destruct (keeps_up_own _ _ _ _ Hk) as (t2 & s2 & E2 & Hk2). rewrite E2 in Ej. injection Ej as -> ->.
      apply (IH u1); [done|by rewrite list_lookup_insert|done].
    - destruct (advance_client u s Hu) as (m & Hm & Em). rewrite Ej in Em. cbn in Em.
      apply (IH t); [done|by rewrite list_lookup_insert_ne|]. rewrite <- Em. by apply keeps_up_others.
  Qed.

  Lemma pool_start {A B} (RA : rel A) x s1' (t1 t2 : thread A) (m0 : R B) :
    client Queries m0 -> thr RA nothing t1 t2 -> alone t1 w1 = (Ret x, s1') -> keeps_up RA x t2 (m0 w2).2.
  Proof.
    intros Hm0 Ht Ea. apply keeps_up_others; [done|]. exists w1, t1, nothing, s1'.
    split; [by apply st_bases|]. split; [by intros ? ? []|]. split; [by intros ? ? ? ? []|]. done.
  Qed.
End pool.

(** one registry and itself *)
Lemma self_alike s : calm s -> alike (same_file s s) anywhere every every (fun _ => False) s s.
Proof.
  intros C. pose proof (proj1 (calm_complete _ C)) as S.
  assert (Hg : forall g h, same_file s s g h -> g = h).
  { intros g h (path & f & H1 & H2). by destruct (loaded_fun _ _ _ _ _ _ H1 H2). }
  assert (Hp : forall p p', pts (same_file s s) p p' -> p = p').
  { intros [g π] [h π'] [H1 H2]. cbn in *. apply Hg in H1. congruence. }
  constructor; try done.
  - intros g g' H. by rewrite (Hg _ _ H).
  - intros q p Hq. exists p. split; [done|]. split; [|done].
    destruct (sc_names _ S _ _ Hq) as (f & Hf & _). destruct (heap_loaded _ _ _ S Hf) as [path Hl].
    by exists path, f.
  - intros q p p' H Hq. by rewrite (Hp _ _ H).
  - intros path _. destruct (protos s !! path) as [g|] eqn:H; constructor.
    destruct (loaded_protos _ _ _ S H) as [f Hl]. by exists path, f.
  - intros p p' H _. by rewrite (Hp _ _ H).
Qed.

(** ** The theorems

    [t]: goroutine [i] of those that use the registry [s], where only files were loaded and perhaps some
    queries [m0] ran.  It returns [x] when nobody else uses the registry.  The others ask whatever they like. *)

(** It returns the same with any scheduling.  ([same_thread t t]: it looks at nodes through the API only.) *)
Theorem C74_same_answers {A B} (RA : rel A) s (m0 : R B) ts ts' i t x y s1 s' :
  just_loaded s -> client Queries m0 -> Forall only_asks ts ->
  ts !! i = Some t -> same_thread (same_place s s) anywhere RA nothing t t ->
  alone t s = (Ret x, s1) ->
  scheduled ts (m0 s).2 ts' s' -> ts' !! i = Some (Finished y) ->
  exists E, one_to_one E /\ RA E x y.
Proof.
  intros J Hm0 Ha Hi Ht E Hs Hy. pose proof (just_loaded_calm _ J) as C.
  destruct (just_loaded_empty _ J) as [He Hf].
  assert (Hnil : forall v, cache s !! v <> Some None) by (intros v; rewrite He, lookup_empty; discriminate).
  pose proof (just_loaded_no_types _ J) as Ty. pose proof (self_alike _ C) as Hal.
  pose proof (pool_start s s anywhere C C every every Hal Hnil Ty Ty RA x s1 t t m0 Hm0 Ht E) as Hk.
  destruct (pool_keeps_up s s anywhere (fun _ _ => I) C C every every I Hal Hnil Ty Ty RA x ts ts' _ s' i t Hs Ha Hi Hk)
    as (t' & Hi' & s2 & t1 & E2 & s3 & T & HE & HO & Ht' & Ea).
  assert (t' = Finished y) as -> by congruence. exists E2. split; [done|].
  remember (Finished y) as u eqn:Eu. destruct Ht' as [z z' Hz|]; [|discriminate Eu].
  injection Eu as ->. cbn [alone] in Ea. injection Ea as -> _. apply Hz; [by intros ? ?|done].
Qed.

(** Nor can the others make it panic: whenever it gets the lock its next section returns. *)
Theorem C74_no_panic {A B} (RA : rel A) s (m0 : R B) ts ts' i t x s1 s' :
  just_loaded s -> client Queries m0 -> Forall only_asks ts ->
  ts !! i = Some t -> same_thread (same_place s s) anywhere RA nothing t t ->
  alone t s = (Ret x, s1) ->
  scheduled ts (m0 s).2 ts' s' ->
  exists t' t2 s2, ts' !! i = Some t' /\ advance t' s' = (Ret t2, s2).
Proof.
  intros J Hm0 Ha Hi Ht E Hs. pose proof (just_loaded_calm _ J) as C.
  destruct (just_loaded_empty _ J) as [He Hf].
  assert (Hnil : forall v, cache s !! v <> Some None) by (intros v; rewrite He, lookup_empty; discriminate).
  pose proof (just_loaded_no_types _ J) as Ty. pose proof (self_alike _ C) as Hal.
  pose proof (pool_start s s anywhere C C every every Hal Hnil Ty Ty RA x s1 t t m0 Hm0 Ht E) as Hk.
  destruct (pool_keeps_up s s anywhere (fun _ _ => I) C C every every I Hal Hnil Ty Ty RA x ts ts' _ s' i t Hs Ha Hi Hk)
    as (t' & Hi' & Hk').
  destruct (keeps_up_own s s anywhere (fun _ _ => I) C C every every I Hal Hnil Ty Ty RA x t' s' Hk') as (t2 & s2 & E2 & _).
  by exists t', t2, s2.
Qed.

(** *** An example: one goroutine lists the fields of two messages, another one those of a third, and each
    releases the lock in between. *)
Definition two_lists (q1 q2 : string) : thread (list string) :=
  Locked (field_types q1) (fun l1 => Locked (field_types q2) (fun l2 => Finished (l1 ++ l2)%list)).

Lemma field_types_client q : client Queries (field_types q).
Proof.
  unfold field_types.
  apply cl_bind; [apply cl_api; constructor|].
  intros [[k a p| | | | |]|]; try apply cl_panic. destruct k; try apply cl_panic.
  apply cl_loop; [constructor|]. intros l [k b f| | | | |]; try apply cl_ret. destruct k; try apply cl_ret.
  apply cl_bind; [apply cl_api; constructor|].
  intros [t|]; [|apply cl_ret].
  assert (Hn : client Queries (name <~ type_name t;; ret ((l ++ [name])%list, true))).
  { apply cl_bind; [apply cl_api; constructor|]. intros; apply cl_ret. }
  destruct t as [k c g| | | | |]; try exact Hn. destruct k; first [exact Hn|apply cl_ret].
Qed.
Lemma two_lists_asks q1 q2 : only_asks (two_lists q1 q2).
Proof. split; [apply field_types_client|]. intros l. split; [apply field_types_client|done]. Qed.
Lemma two_lists_same P D q1 q2 : same_thread P D (always eq) nothing (two_lists q1 q2) (two_lists q1 q2).
Proof.
  apply (same_locked P D (always eq) nothing _ (always eq)); [by apply field_types_same; intros ? ? ? ? []|].
  intros E x x' _ HO <-. apply (same_locked P D (always eq) E _ (always eq)); [by apply field_types_same|].
  intros E' y y' _ _ <-. by constructor.
Qed.

(** the goroutines get the lock in this order *)
Fixpoint run_schedule {A} (is : list nat) (ts : list (thread A)) : R (list (thread A)) :=
  match is with
  | [] => ret ts
  | i :: is =>
      match ts !! i with
      | None => panic "no such goroutine"
      | Some t => t1 <~ advance t ;; run_schedule is (<[i := t1]> ts)
      end
  end.
Lemma run_scheduled {A} is : forall (ts ts' : list (thread A)) s s',
  run_schedule is ts s = (Ret ts', s') -> scheduled ts s ts' s'.
Proof.
  induction is as [|i is IH]; intros ts ts' s s' E; cbn [run_schedule] in E.
  - injection E as <- <-. constructor.
  - destruct (ts !! i) as [t|] eqn:Hi; [|discriminate E].
    apply rbind_Ret in E as (t1 & s1 & E1 & E2). eapply sched_step; [exact Hi|exact E1|]. by apply IH.
Qed.

Example C74_example :
  exists s ts' s1 s',
  let t0 := two_lists ".pb.Message" ".google.protobuf.Any" in
  let t1 := two_lists ".pb.EnumValuePayload" ".pb.Message.InnerMessage" in
  let x := ["int32"; "uint32"; "repeated bool"; ".google.protobuf.Any"; ".pb.EnumValuePayload";
            ".pb.Message.InnerMessage"; ".pb.Enum"; ".pb.Message.InnerEnum"; "string"; "bytes"] in
  just_loaded s /\ Forall only_asks [t0; t1] /\
  same_thread (same_place s s) anywhere (always eq) nothing t0 t0 /\
  alone t0 s = (Ret x, s1) /\
  scheduled [t0; t1] (field_types ".pb.EnumValuePayload" s).2 ts' s' /\
  ts' = [Finished x; Finished ["int32"; "bool"]].
Proof.
  pose (t0 := two_lists ".pb.Message" ".google.protobuf.Any").
  pose (t1 := two_lists ".pb.EnumValuePayload" ".pb.Message.InnerMessage").
  assert (E0 : new_registry demo_env 50 = Ret (inr (start demo_files)))
    by (apply start_new, demo_starts).
  assert (L1 : only_loads demo_env [dat_f; any_f] (start demo_files) (world demo_files [dat_f; any_f]))
    by (apply loads_fine_only; vm_compute; reflexivity).
  assert (F : (alone t0 (world demo_files [dat_f; any_f])).1 =
    Ret ["int32"; "uint32"; "repeated bool"; ".google.protobuf.Any"; ".pb.EnumValuePayload";
         ".pb.Message.InnerMessage"; ".pb.Enum"; ".pb.Message.InnerEnum"; "string"; "bytes"]) by (vm_compute; reflexivity).
  assert (S : match (run_schedule [1; 0; 1; 0] [t0; t1] (field_types ".pb.EnumValuePayload" (world demo_files [dat_f; any_f])).2).1 with
    | Ret [Finished a; Finished b] => Some (a, b) | _ => None end =
    Some (["int32"; "uint32"; "repeated bool"; ".google.protobuf.Any"; ".pb.EnumValuePayload";
         ".pb.Message.InnerMessage"; ".pb.Enum"; ".pb.Message.InnerEnum"; "string"; "bytes"], ["int32"; "bool"]))
    by (vm_compute; reflexivity).
  pose proof demo_env_ok as He.
  revert E0 L1 F S He. generalize (start demo_files) (world demo_files [dat_f; any_f]) demo_env.
  intros s0 s e E0 L1 F S He.
  assert (J : just_loaded s) by (eapply only_loads_just; [exact He|exact L1|by eapply jl_new]).
  destruct (alone t0 s) as [o s1] eqn:E1. cbn [fst] in F.
  destruct (run_schedule [1; 0; 1; 0] [t0; t1] (field_types ".pb.EnumValuePayload" s).2) as [o2 s2] eqn:E2.
  cbn [fst] in S. destruct o2 as [ts'|m|]; try discriminate S. exists s, ts', s1, s2. cbn zeta.
  split; [exact J|]. split.
  { constructor; [apply two_lists_asks|]. constructor; [apply two_lists_asks|constructor]. }
  split; [apply two_lists_same|]. split; [by rewrite <- F|]. split; [by eapply run_scheduled|].
  destruct ts' as [|[a|] [|[b|] [|]]]; try discriminate S. injection S as -> ->. done.
Qed.

(** *** Without a lock

    registry_types.go:139-142: the lookup in the cache; 143-206: the node is built, and the deferred
    function writes it into the cache.  Without a lock another goroutine can run in between.  (The
    Go memory model promises even less: unsynchronised writes of a map may end the process.) *)
Definition wrap_lookup (v : visitee) : R (option (option node)) := s <~ get ;; ret (cache s !! v).
Definition wrap_build (v : visitee) : R (option node) :=
  s <~ get ;;
  let unsupported :=
    modify (fun s => set_cache (<[v := None]> (cache s)) s) ;;;
    panic (PError (ENew ("unsupported type " +:+ go_visitee s v))) in
  match v with
  | VNil | VNilProto | VNilOption => unsupported
  | VPtr p =>
      match heap_at s p with
      | None => panic "dangling AST pointer"
      | Some t =>
          match wrap_kind (t_data t) with
          | None => unsupported
          | Some k =>
              a <~ alloc ;;
              modify (fun s => set_cache (<[v := Some (NAst k a p)]> (cache s)) s) ;;;
              ret (Some (NAst k a p))
          end
      end
  end.
Definition unlocked_wrap (v : visitee) : thread (option node) :=
  Locked (wrap_lookup v) (fun r => match r with Some x => Finished x | None => Locked (wrap_build v) Finished end).

(** a goroutine alone does what [wrap] does *)
Theorem C74_unlocked_alone v s : alone (unlocked_wrap v) s = wrap v s.
Proof.
  unfold unlocked_wrap, wrap_lookup. cbn [alone]. rewrite rbind_assoc, rbind_get, rbind_ret. cbn [alone].
  unfold wrap. rewrite rbind_get. destruct (cache s !! v) as [r|] eqn:Hc; [done|]. cbn [alone].
  transitivity (wrap_build v s); [|by unfold wrap_build; rewrite rbind_get].
  unfold rbind. destruct (wrap_build v s) as [[]]; done.
Qed.

(** Two goroutines without a lock that ask for a declaration nobody asked for before can get different
    nodes for it: then == tells apart what C19 promises to be one object. *)
Theorem C74_no_lock_refuted s p t k :
  just_loaded s -> element_at s p t -> represented_by (t_data t) = Some k ->
  exists a b s', a <> b /\
    scheduled [unlocked_wrap (VPtr p); unlocked_wrap (VPtr p)] s
      [Finished (Some (NAst k a p)); Finished (Some (NAst k b p))] s'.
Proof.
  intros J Ht Hk. pose proof (reachable_Inv _ (calm_reachable _ (just_loaded_calm _ J))) as I.
  apply element_heap in Ht. rewrite represented_wrap in Hk.
  assert (Hc : cache s !! VPtr p = None) by (by rewrite (proj1 (just_loaded_empty _ J)), lookup_empty).
  assert (Hb : forall s1, heap_at s1 p = Some t -> exists s2,
    wrap_build (VPtr p) s1 = (Ret (Some (NAst k (next s1) p)), s2) /\ heap_at s2 p = Some t /\ next s2 = (next s1 + 1)%N).
  { intros s1 H1. unfold wrap_build. rewrite rbind_get, H1, Hk, rbind_alloc. eexists. split; [reflexivity|]. done. }
  destruct (Hb s Ht) as (s1 & E1 & H1 & N1). destruct (Hb s1 H1) as (s2 & E2 & _ & _).
  exists (next s), (next s1), s2. split; [rewrite N1; lia|].
  assert (Hl : advance (unlocked_wrap (VPtr p)) s = (Ret (Locked (wrap_build (VPtr p)) Finished), s)).
  { unfold unlocked_wrap, wrap_lookup, advance. by rewrite rbind_assoc, rbind_get, rbind_ret, Hc. }
  eapply (sched_step _ _ 0); [reflexivity|exact Hl|]. cbn [insert list_insert].
  eapply (sched_step _ _ 1); [reflexivity|exact Hl|]. cbn [insert list_insert].
  eapply (sched_step _ _ 0); [reflexivity|cbn [advance]; by rewrite (rbind_val _ _ _ _ _ E1)|]. cbn [insert list_insert].
  eapply (sched_step _ _ 1); [reflexivity|cbn [advance]; by rewrite (rbind_val _ _ _ _ _ E2)|]. cbn [insert list_insert].
  apply sched_stop.
Qed.

(** pb.Message of the demo *)
Example C74_no_lock_example : exists s t,
  just_loaded s /\ element_at s (1, [6]) t /\ represented_by (t_data t) = Some KMessage.
Proof.
  assert (E0 : new_registry demo_env 50 = Ret (inr (start demo_files)))
    by (apply start_new, demo_starts).
  assert (L1 : only_loads demo_env [dat_f; any_f] (start demo_files) (world demo_files [dat_f; any_f]))
    by (apply loads_fine_only; vm_compute; reflexivity).
  assert (F : match heap_at (world demo_files [dat_f; any_f]) (1, [6]) with
    | Some t => represented_by (t_data t) | None => None end = Some KMessage) by (vm_compute; reflexivity).
  pose proof demo_env_ok as He.
  revert E0 L1 F He. generalize (start demo_files) (world demo_files [dat_f; any_f]) demo_env.
  intros s0 s e E0 L1 F He.
  assert (J : just_loaded s) by (eapply only_loads_just; [exact He|exact L1|by eapply jl_new]).
  destruct (heap_at s (1, [6])) as [t|] eqn:Ht; [|discriminate F].
  pose proof (reachable_Inv _ (calm_reachable _ (just_loaded_calm _ J))) as I.
  exists s, t. split; [exact J|]. split; [exact (heap_element _ _ _ I Ht)|exact F].
Qed.
