(** * Specification vocabulary: the routes by which a client gets hold of nodes.

    A route is an API call (or the [k]-th step of a loop over an iterator) with the node it hands
    to the client.  Arguments are arbitrary, bodies of loops are arbitrary client programs. *)
From Verif Require Export Client.

Definition just {A} (m : R A) : R (option A) := a <~ m ;; ret (Some a).

(** The [k]-th element (from 0) a loop [for x := range sq { body }] sees, where [body] is any
    program with loop state [C] that may break (second component [false]). *)
Definition kth_of_loop {A} (k : nat) (sq : seq A) (C : Type) (c : C)
    (body : C -> A -> R (C * bool)) : R (option A) :=
  r <~ sq (C * nat * option A)%type (c, 0, None)
         (fun st x =>
            '(c', go) <~ body st.1.1 x ;;
            ret ((c', S st.1.2, if Nat.eqb st.1.2 k then Some x else st.2), go)) ;;
  ret r.2.

(** The element type of a repeated type, other types unchanged. *)
Definition element_type (o : option node) : option node :=
  match o with
  | Some (NRepeated _ t) => t
  | _ => o
  end.

(** The enum values that occur in an option value, in order. *)
Fixpoint enums_in (v : oval) : list node :=
  match v with
  | OVEnum _ a p => [NAst KEnumValue a p]
  | OVArray _ l => flat_map enums_in l
  | OVMap _ l => flat_map (fun kv => enums_in kv.2) l
  | _ => []
  end.

(** The iterators over nodes of one kind. *)
Inductive node_iterator : seq node -> Prop :=
| ni_file_imports p : node_iterator (file_imports p)
| ni_file_messages p : node_iterator (file_messages p)
| ni_file_enums p : node_iterator (file_enums p)
| ni_file_types p : node_iterator (file_types p)
| ni_file_services p : node_iterator (file_services p)
| ni_message_fields p : node_iterator (message_fields p)
| ni_message_messages p : node_iterator (message_messages p)
| ni_message_types p : node_iterator (message_types p)
| ni_enum_enums p : node_iterator (enum_enums p)
| ni_enum_values p : node_iterator (enum_values p)
| ni_service_methods p : node_iterator (service_methods p)
| ni_oneof_branches p : node_iterator (oneof_branches p).

(** The Everything iterators (the nodes they yield can be nil). *)
Inductive everything_iterator : seq (option node) -> Prop :=
| ei_file p : everything_iterator (file_everything p)
| ei_message p : everything_iterator (message_everything p)
| ei_enum p : everything_iterator (enum_everything p)
| ei_service p : everything_iterator (service_everything p).

Inductive route : R (option node) -> Prop :=
| r_file_message p name : route (file_message p name)
| r_file_enum p name : route (file_enum p name)
| r_file_type p name : route (file_type p name)
| r_file_service p name : route (file_service p name)
| r_message_field p name : route (message_field p name)
| r_message_message p name : route (message_message p name)
| r_message_type p name : route (message_type p name)
| r_enum_enum p name : route (enum_enum p name)
| r_enum_value p name : route (enum_value p name)
| r_service_method p name : route (service_method p name)
| r_oneof_branch p name : route (oneof_branch p name)
| r_node_by_full_name q : route (node_by_full_name q)
| r_node_parent n : route (node_parent n)
| r_node_file n : route (node_file n)
| r_field_type a p : route (field_type a p)
| r_field_elem_type a p : route (t <~ field_type a p ;; ret (element_type t))
| r_branch_type p : route (branch_type p)
| r_method_input p : route (r <~ method_input p ;; ret (Some r.2))
| r_method_output p : route (r <~ method_output p ;; ret (Some r.2))
| r_map_value p : route (just (map_value p))
| r_iterator k sq C c body :
    node_iterator sq -> (forall c x, client Loads (body c x)) ->
    route (kth_of_loop k sq C c body)
| r_everything k sq C c body :
    everything_iterator sq -> (forall c x, client Loads (body c x)) ->
    route (o <~ kth_of_loop k sq C c body ;; ret (default None o))
| r_hierarchy k fuel n C c body :
    (forall c x, client Loads (body c x)) ->
    route (kth_of_loop (S k) (node_hierarchy fuel n) C c body)
| r_option_value fl o k : route (v <~ option_value fl o ;; ret (enums_in v !! k)).

(** Nodes of declarations.  The nodes of kind OneOf and Map are types of a field: they belong to
    the MessageField they were obtained from. *)
Definition declaration_node (n : node) : Prop :=
  match n with
  | NAst (KOneOf | KMap) _ _ => False
  | NAst _ _ _ => True
  | _ => False
  end.

(** Go's == on two nodes: the same pointer (identity and dynamic type), builtin types being
    singletons. *)
Definition go_eq (n1 n2 : node) : Prop :=
  match n1, n2 with
  | NAst k1 a1 _, NAst k2 a2 _ => k1 = k2 /\ a1 = a2
  | NRepeated a1 _, NRepeated a2 _ => a1 = a2
  | NBuiltin b1, NBuiltin b2 => b1 = b2
  | NOption o1, NOption o2 => o_addr o1 = o_addr o2
  | NValue v1, NValue v2 => ov_addr (ov_hdr v1) = ov_addr (ov_hdr v2)
  | _, _ => False
  end.

(** Everything that hands a node to the client: the routes and Registry.Proto. *)
Inductive source : R (option node) -> Prop :=
| src_route m : route m -> source m
| src_proto e fuel path :
    env_ok e ->
    source (r <~ proto e fuel path ;; ret (match r with inr f => Some f | inl _ => None end)).
