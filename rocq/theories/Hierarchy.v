(** * The iterator returned by Registry.NodeHierarchy, as a value that can be kept.

    registry_types.go:82-92: the function literal captures the parameter [node] of NodeHierarchy and
    assigns to it, so the iterator has a state which every range over it reads and updates.
    [node_hierarchy] in Api.v is the first range over a new iterator (C73_first_range). *)
From Verif Require Export Client.

(** the state of the iterator: the value of the captured variable, nil is [None] *)
Definition iterator : Type := option node.

(** Registry.NodeHierarchy, registry_types.go:82-83: no work is done before the first range *)
Definition new_hierarchy (n : node) : iterator := Some n.

(** for x := range it, registry_types.go:83-91.  The body of the loop may itself use the iterator: it
    gets its state and returns the new one (and the new state of the consumer and whether to go on).
    Line 89 runs NodeParent on whatever the variable holds then; NodeParent(nil) panics (line 78). *)
Fixpoint range_over (fuel : nat) (it : iterator) {C : Type} (c : C)
    (body : C -> iterator -> node -> R (C * iterator * bool)) : R (C * iterator) :=
  match it with
  | None => ret (c, None)
  | Some n =>
      match fuel with
      | O => diverge
      | S fuel' =>
          r <~ body c it n ;;
          if r.2 : bool then
            par <~ (match r.1.2 with
                    | Some m => node_parent m
                    | None => panic "unsupported node type: <nil>"
                    end) ;;
            range_over fuel' par r.1.1 body
          else ret (r.1.1, r.1.2)
      end
  end.

(** a loop body that does not use the iterator it is run by *)
Definition apart {C} (body : C -> node -> R (C * bool)) (c : C) (it : iterator) (x : node)
  : R (C * iterator * bool) :=
  '(c', go) <~ body c x ;; ret (c', it, go).

(** a loop body that collects elements and breaks at the [k]-th *)
Definition taking (k : nat) (l : list node) (x : node) : R (list node * bool) :=
  ret ((l ++ [x])%list, (length l + 1 <? k)%nat).

(** a loop body that ranges over the same iterator, to its end, and then goes on *)
Definition ranging_inside (fuel : nat) (c : unit) (it : iterator) (x : node) : R (unit * iterator * bool) :=
  '(_, it') <~ range_over fuel it tt (apart (fun c _ => ret (c, true))) ;; ret (tt, it', true).
