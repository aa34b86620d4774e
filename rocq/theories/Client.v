(** * Client programs: everything a user of the library can do with a registry.

    [client Loads m]: [m] is built from API calls, sequencing, loops over iterators (whose bodies
    are client programs themselves and may break or panic) and recover.
    [client Queries m]: the same without Registry.Proto, i.e. pure queries.
    [client CalmLoads m]: the same with Registry.Proto, but a panic of Registry.Proto ends the
    process (other panics can be recovered).
    Arguments of API calls are arbitrary: a client may keep nodes and pass them anywhere. *)
From Verif Require Export Options.

(** What is assumed of file contents: the parser only nests element kinds the grammar allows and
    puts the file name it was given into positions. *)
Definition env_ok (e : env) : Prop :=
  forall name path els, e_read e name path = inr els -> parser_output path els = true.

(** API functions that are not iterators and do not load files. *)
Inductive api : forall {A : Type}, R A -> Prop :=
| api_field_type a p : api (field_type a p)
| api_branch_type p : api (branch_type p)
| api_method_input p : api (method_input p)
| api_method_output p : api (method_output p)
| api_map_key p : api (map_key p)
| api_map_value p : api (map_value p)
| api_file_message p name : api (file_message p name)
| api_file_enum p name : api (file_enum p name)
| api_file_type p name : api (file_type p name)
| api_file_service p name : api (file_service p name)
| api_message_field p name : api (message_field p name)
| api_message_message p name : api (message_message p name)
| api_message_type p name : api (message_type p name)
| api_enum_enum p name : api (enum_enum p name)
| api_enum_value p name : api (enum_value p name)
| api_service_method p name : api (service_method p name)
| api_oneof_branch p name : api (oneof_branch p name)
| api_node_name p : api (node_name p)
| api_file_package p : api (file_package p)
| api_message_is_extension p : api (message_is_extension p)
| api_field_value p : api (field_value p)
| api_enum_value_value p : api (enum_value_value p)
| api_branch_value p : api (branch_value p)
| api_field_optional p : api (field_optional p)
| api_type_name n : api (type_name n)
| api_node_by_full_name q : api (node_by_full_name q)
| api_node_index n : api (node_index n)
| api_node_description n : api (node_description n)
| api_comment n : api (comment n)
| api_node_parent n : api (node_parent n)
| api_node_file n : api (node_file n)
| api_pos n : api (pos n)
| api_type_is_defined n ref : api (type_is_defined n ref)
| api_option_named n name : api (option_named n name)
| api_option_name o : api (option_name o)
| api_option_is o name : api (option_is o name)
| api_option_value fl o : api (option_value fl o)
| api_render fl v : api (render fl v)
| api_go_package_option n : api (go_package_option n)
| api_go_package n : api (go_package n).

(** What Registry.Options returns: it fixes scope and class when it is called (registry_meta.go:246-282,
    ast_option.go:74-77), the rest is done when it is ranged over, possibly much later and repeatedly. *)
Definition kept_options (scope : string) (class p : ptr) : seq optn :=
  iter_kids p (pick_option scope class).

(** The iterators. *)
Inductive api_seq : forall {A : Type}, seq A -> Prop :=
| seq_file_imports p : api_seq (file_imports p)
| seq_file_messages p : api_seq (file_messages p)
| seq_file_enums p : api_seq (file_enums p)
| seq_file_types p : api_seq (file_types p)
| seq_file_services p : api_seq (file_services p)
| seq_file_everything p : api_seq (file_everything p)
| seq_message_fields p : api_seq (message_fields p)
| seq_message_messages p : api_seq (message_messages p)
| seq_message_types p : api_seq (message_types p)
| seq_message_everything p : api_seq (message_everything p)
| seq_enum_enums p : api_seq (enum_enums p)
| seq_enum_values p : api_seq (enum_values p)
| seq_enum_everything p : api_seq (enum_everything p)
| seq_service_methods p : api_seq (service_methods p)
| seq_service_everything p : api_seq (service_everything p)
| seq_method_options p : api_seq (method_options p)
| seq_kept_options scope class p : api_seq (kept_options scope class p)
| seq_oneof_branches p : api_seq (oneof_branches p)
| seq_reserved_values p : api_seq (reserved_values p)
| seq_node_hierarchy fuel n : api_seq (node_hierarchy fuel n).

Inductive mode := Queries | CalmLoads | Loads.

(** Registry.Proto in a process that does not survive a panic of it: the registry of the dead
    process is not observable, [Diverge] cannot be recovered. *)
Definition proto_or_exit (e : env) (fuel : nat) (path : string) : R (error + node) := fun s =>
  match proto e fuel path s with
  | (Ret r, s') => (Ret r, s')
  | _ => (Diverge, s)
  end.

Inductive client (md : mode) : forall {A : Type}, R A -> Prop :=
| cl_ret A (a : A) : client md (ret a)
| cl_panic A msg : client md (@panic A msg)
| cl_bind A B (m : R A) (k : A -> R B) :
    client md m -> (forall a, client md (k a)) -> client md (rbind m k)
| cl_recover A (m : R A) : client md m -> client md (recover m)
| cl_api A (m : R A) : api m -> client md m
| cl_loop A (sq : seq A) C c yield :
    api_seq sq -> (forall c x, client md (yield c x)) -> client md (sq C c yield)
| cl_options A n (k : seq optn -> R A) :
    (forall scope class p, client md (k (kept_options scope class p))) ->
    client md (sq <~ options n ;; k sq)
| cl_proto e fuel path :
    md = Loads -> env_ok e -> client md (proto e fuel path)
| cl_proto_or_exit e fuel path :
    md <> Queries -> env_ok e -> client md (proto_or_exit e fuel path).

(** calling Registry.Options and ranging over the result at once *)
Lemma cl_options_loop md n C (c : C) yield :
  (forall c x, client md (yield c x)) -> client md (sq <~ options n ;; sq C c yield).
Proof.
  intros Hy. apply (cl_options md C n (fun sq => sq C c yield)). intros scope class p.
  apply cl_loop; [constructor|exact Hy].
Qed.

(** Registries that exist: NewRegistry followed by any client programs. *)
Inductive history (md : mode) : registry -> Prop :=
| hist_new e fuel s : env_ok e -> new_registry e fuel = Ret (inr s) -> history md s
| hist_client A (m : R A) s : history md s -> client md m -> history md (m s).2.
(** any history at all *)
Notation reachable := (history Loads).
(** a history in which no call of Registry.Proto panicked *)
Notation calm := (history CalmLoads).
