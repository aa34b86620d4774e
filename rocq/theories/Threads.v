(** * Several goroutines using one registry under a mutex.

    Nothing in /repo is concurrent: a Registry has no lock (internal/core/registry.go:11-20) and its maps are
    written by queries (registry_types.go:143-145, ast_message.go:240-242), so that goroutines sharing one
    have to use a lock of their own.  A goroutine is the sequence of its critical sections: what it does to
    the registry while it holds the lock, as one program, and how it goes on with what that returned. *)
From Verif Require Export Same.

Inductive thread (A : Type) : Type :=
| Finished (a : A)
| Locked {B : Type} (m : R B) (go_on : B -> thread A).
Arguments Finished {A} a.
Arguments Locked {A B} m go_on.

(** the goroutine when nobody else uses the registry *)
Fixpoint alone {A} (t : thread A) : R A :=
  match t with
  | Finished a => ret a
  | Locked m go_on => x <~ m ;; alone (go_on x)
  end.

(** its next critical section *)
Definition advance {A} (t : thread A) : R (thread A) :=
  match t with
  | Finished a => ret (Finished a)
  | Locked m go_on => x <~ m ;; ret (go_on x)
  end.

(** [scheduled ts s ts' s']: the goroutines [ts] on the registry [s] can get to [ts'] and [s']: again and
    again one of them gets the lock and runs its next section.  (A section that panics ends the process.) *)
Inductive scheduled {A} : list (thread A) -> registry -> list (thread A) -> registry -> Prop :=
| sched_stop ts s : scheduled ts s ts s
| sched_step ts s i t t1 s1 ts' s' :
    ts !! i = Some t -> advance t s = (Ret t1, s1) ->
    scheduled (<[i := t1]> ts) s1 ts' s' -> scheduled ts s ts' s'.

(** the sections only query the registry *)
Fixpoint only_asks {A} (t : thread A) : Prop :=
  match t with
  | Finished _ => True
  | Locked m go_on => client Queries m /\ forall x, only_asks (go_on x)
  end.

(** the sections load files (a panic of Proto ends the process) and query the registry *)
Fixpoint loads_and_asks {A} (t : thread A) : Prop :=
  match t with
  | Finished _ => True
  | Locked m go_on => client CalmLoads m /\ forall x, loads_and_asks (go_on x)
  end.

(** the same goroutine; see [same_program] *)
Inductive same_thread (P : ptr -> ptr -> Prop) (D : ptr -> Prop) {A} (RA : rel A) (E : ids)
  : thread A -> thread A -> Prop :=
| same_finished x x' :
    (forall E', more E E' -> one_to_one E' -> RA E' x x') -> same_thread P D RA E (Finished x) (Finished x')
| same_locked B (RB : rel B) m m' go_on go_on' :
    same_program P D E RB m m' ->
    (forall E' x x', more E E' -> one_to_one E' -> RB E' x x' ->
       same_thread P D RA E' (go_on x) (go_on' x')) ->
    same_thread P D RA E (Locked m go_on) (Locked m' go_on').
