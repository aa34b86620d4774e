(** * A client that walks a file: the program and what it should see (C78). *)
From Verif Require Export Observe.
From Verif Require Import Api.
Local Open Scope go_scope.

(** ** The program

    The usual recursive walk of a code generator, in Go:

      func visit(n Node) {
        all = append(all, n)
        switch v := n.(type) {
        case *Message:
          for f := range v.Fields(r) { all = append(all, f) }
          for t := range v.Types(r)  { visit(t) }
        case *Enum:
          for x := range v.Values(r) { all = append(all, x) }
        case *Service:
          for m := range v.Methods(r) { all = append(all, m) }
        }
      }
      for t := range file.Types(r)    { visit(t) }
      for s := range file.Services(r) { visit(s) }

    It is not part of the repository: it is a use of its iterators (ast_file.go:103-123, 148-161,
    ast_message.go:36-55, 156-177, ast_enum.go:32-46, ast_service.go:28-41).  [depth] bounds the recursion. *)
Definition append_node (all : list node) (n : node) : R (list node * bool) := ret ((all ++ [n])%list, true).
Fixpoint visit_node (depth : nat) (all : list node) (n : node) : R (list node * bool) :=
  match depth with
  | O => diverge
  | S depth' =>
      let all := (all ++ [n])%list in
      match n with
      | NAst KMessage _ p =>
          all <~ message_fields p (list node) all append_node ;;
          all <~ message_types p (list node) all (visit_node depth') ;; ret (all, true)
      | NAst KEnum _ p => all <~ enum_values p (list node) all append_node ;; ret (all, true)
      | NAst KService _ p => all <~ service_methods p (list node) all append_node ;; ret (all, true)
      | _ => ret (all, true)
      end
  end.
Definition survey (depth : nat) (file : ptr) : R (list node) :=
  all <~ file_types file (list node) [] (visit_node depth) ;;
  file_services file (list node) all (visit_node depth).

(** ** What it should see *)

(** A declaration of the kind [kid] written directly inside one of the kind [parent]: messages and enums
    in files and messages, services in files, fields (maps and oneofs as a whole) in messages, values in
    enums, methods in services.  The contents of extend blocks are not seen. *)
Definition declared_in (parent kid : data) : bool :=
  match parent, kid with
  | (DProto _ | DMessage _ false), (DMessage _ false | DEnum _) => true
  | DProto _, DService _ => true
  | DMessage _ false, (DNormalField _ _ _ _ _ | DMapField _ _ _ _ | DOneof _) => true
  | DEnum _, DEnumField _ _ => true
  | DService _, DRPC _ _ _ _ _ => true
  | _, _ => false
  end.

(** [q] is declared inside [p], at any depth. *)
Inductive declared_below (s : registry) (p : ptr) : ptr -> Prop :=
| db_child t i u : element_at s p t -> element_at s (child p i) u ->
    declared_in (t_data t) (t_data u) = true -> declared_below s p (child p i)
| db_deeper q t i u : declared_below s p q -> element_at s q t -> element_at s (child q i) u ->
    declared_in (t_data t) (t_data u) = true -> declared_below s p (child q i).
