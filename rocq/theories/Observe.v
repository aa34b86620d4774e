(** * Specification vocabulary: what a registry knows, in terms of files and declarations. *)
From Verif Require Export Spec Client.

(** The file [path] is loaded; its AST has number [g] and is [f]. *)
Definition loaded (s : registry) (path : string) (g : nat) (f : tree) : Prop :=
  protos s !! path = Some g /\ heap s !! g = Some f /\ t_data f = DProto path.

(** Registry.Proto(path) answers with the file [n], whatever the resolvers and the file system
    say: nothing is resolved or read. *)
Definition available (s : registry) (path : string) (n : node) : Prop :=
  exists s', forall e fuel, proto e fuel path s = (Ret (inr n), s').

(** [path'] is reached from [path] by following import statements of loaded files. *)
Inductive imports_from (s : registry) : string -> string -> Prop :=
| imports_self path : imports_from s path path
| imports_step path path' path'' g f :
    imports_from s path path' -> loaded s path' g f ->
    path'' ∈ import_paths (t_kids f) -> imports_from s path path''.

(** The resolver does not know the file: its error is os.ErrNotExist, possibly wrapped. *)
Definition not_there (a : resolve_answer) : Prop :=
  exists err, a = RError err /\ error_is err_not_exist err = true.

(** The resolvers serve [path] with the file [name]: all resolvers before one that answers
    [name] say "not exist". *)
Definition serves (e : env) (path name : string) : Prop :=
  exists pre r post, e_resolvers e = (pre ++ r :: post)%list /\
    Forall (fun x => not_there (x.2 path)) pre /\ r.2 path = RName name.
(** A resolver fails with another error: all resolvers before it say "not exist". *)
Definition resolver_fails (e : env) (path : string) (who : string) (err : error) : Prop :=
  exists pre r post, e_resolvers e = (pre ++ r :: post)%list /\
    Forall (fun x => not_there (x.2 path)) pre /\ r.1 = who /\ r.2 path = RError err /\
    error_is err_not_exist err = false.
(** No resolver knows the file. *)
Definition nobody_knows (e : env) (path : string) : Prop :=
  Forall (fun x => not_there (x.2 path)) (e_resolvers e).

(** Looking for [path] finds a file, reads and parses it, and gives [els]. *)
Definition readable (e : env) (path : string) (els : list tree) : Prop :=
  exists name, serves e path name /\ name <> "" /\ e_read e name path = inr els.

(** A finite set of paths that contains the imports of its members. *)
Definition closed_under_imports (e : env) (U : list string) : Prop :=
  forall path els path', path ∈ U -> readable e path els -> path' ∈ import_paths els -> path' ∈ U.

(** No two declarations of loaded files have the same fully qualified name. *)
Definition unique_names (s : registry) : Prop :=
  forall path1 g1 f1 π1 path2 g2 f2 π2 q,
    loaded s path1 g1 f1 -> loaded s path2 g2 f2 ->
    fqn f1 π1 = Some q -> fqn f2 π2 = Some q -> g1 = g2 /\ π1 = π2.

(** Every loaded file has its package statement first. *)
Definition packages_first (s : registry) : Prop :=
  forall path g f, loaded s path g f -> package_first (t_kids f) = true.

(** The element [t] at [p] belongs to the loaded file [path]. *)
Definition element_of (s : registry) (path : string) (p : ptr) (t : tree) : Prop :=
  exists f, loaded s path p.1 f /\ walk f p.2 = Some t.

(** [path'] is reached from [path] through import statements of files that are not loaded yet and
    that [e] can find, read and parse. *)
Inductive import_chain (s : registry) (e : env) : string -> string -> Prop :=
| chain_self path : import_chain s e path path
| chain_step path path' path'' els :
    import_chain s e path path' -> protos s !! path' = None -> readable e path' els ->
    path'' ∈ import_paths els -> import_chain s e path path''.

(** Registry.Proto neither returns a file nor an error: it panics (or never comes back). *)
Definition blows_up {A} (r : outcome A * registry) : Prop := forall x, r.1 <> Ret x.

(** ** Elements and the Go types of their nodes *)

(** The Go type representing an element: nothing represents option statements (they are not nodes
    of the cache), comments, groups, extension ranges and edition statements. *)
Definition represented_by (d : data) : option wkind :=
  match d with
  | DProto _ => Some KFile
  | DSyntax _ => Some KSyntax
  | DPackage _ => Some KPackage
  | DImport _ => Some KImport
  | DMessage _ _ => Some KMessage
  | DNormalField _ _ _ _ _ | DOneof _ | DMapField _ _ _ _ => Some KField
  | DOneOfField _ _ _ => Some KBranch
  | DEnum _ => Some KEnum
  | DEnumField _ _ => Some KEnumValue
  | DService _ => Some KService
  | DRPC _ _ _ _ _ => Some KMethod
  | DReserved _ _ => Some KReserved
  | DOption _ _ | DComment | DGroup _ | DExtensions | DEdition => None
  end.

(** kinds of elements *)
Definition an_import (d : data) := match d with DImport _ => true | _ => false end.
(** extend blocks are not messages *)
Definition a_message (d : data) := match d with DMessage _ false => true | _ => false end.
Definition an_enum (d : data) := match d with DEnum _ => true | _ => false end.
Definition a_type (d : data) :=
  match d with DMessage _ false | DEnum _ => true | _ => false end.
Definition a_service (d : data) := match d with DService _ => true | _ => false end.
Definition a_field (d : data) :=
  match d with DNormalField _ _ _ _ _ | DOneof _ | DMapField _ _ _ _ => true | _ => false end.
Definition a_value (d : data) := match d with DEnumField _ _ => true | _ => false end.
Definition a_method (d : data) := match d with DRPC _ _ _ _ _ => true | _ => false end.
Definition a_branch (d : data) := match d with DOneOfField _ _ _ => true | _ => false end.
Definition an_option (d : data) := match d with DOption _ _ => true | _ => false end.

(** The children of the element [t] at [p] of a certain kind: their pointers, in source order. *)
Definition children (sel : data -> bool) (p : ptr) (t : tree) : list ptr :=
  map fst (List.filter (fun kid => sel (t_data kid.2)) (kids_at p t)).

(** The element a node points to. *)
Definition element_ptr (n : node) : option ptr :=
  match n with
  | NAst _ _ p => Some p
  | NOption o => Some (o_proto o)
  | _ => None
  end.

(** ** Iterators and lookups *)

(** A loop body that also writes down what it was given. *)
Definition recording {A C} (body : C -> A -> R (C * bool)) (st : C * list A) (x : A)
  : R ((C * list A) * bool) :=
  '(c', go) <~ body st.1 x ;; ret ((c', (st.2 ++ [x])%list), go).

(** The iterators over the children of one kind: container, kind of children, iterator. *)
Inductive iterates : ptr -> (data -> bool) -> seq node -> Prop :=
| it_file_imports p : iterates p an_import (file_imports p)
| it_file_messages p : iterates p a_message (file_messages p)
| it_file_enums p : iterates p an_enum (file_enums p)
| it_file_types p : iterates p a_type (file_types p)
| it_file_services p : iterates p a_service (file_services p)
| it_message_fields p : iterates p a_field (message_fields p)
| it_message_messages p : iterates p a_message (message_messages p)
| it_message_types p : iterates p a_type (message_types p)
| it_enum_values p : iterates p a_value (enum_values p)
| it_service_methods p : iterates p a_method (service_methods p)
| it_oneof_branches p : iterates p a_branch (oneof_branches p).

(** [for x := range sq { l = append(l, x); if len(l) >= k { break } }] *)
Definition take_first {A} (k : nat) (sq : seq A) : R (list A) :=
  sq (list A) [] (fun c x => ret ((c ++ [x])%list, Nat.ltb (S (length c)) k)).

(** The lookup that belongs to an iterator. *)
Inductive looks_up : ptr -> (data -> bool) -> seq node -> (string -> R (option node)) -> Prop :=
| lu_file_enum p : looks_up p an_enum (file_enums p) (file_enum p)
| lu_file_service p : looks_up p a_service (file_services p) (file_service p)
| lu_message_field p : looks_up p a_field (message_fields p) (message_field p)
| lu_message_message p : looks_up p a_message (message_messages p) (message_message p)
| lu_message_type p : looks_up p a_type (message_types p) (message_type p)
| lu_enum_value p : looks_up p a_value (enum_values p) (enum_value p)
| lu_service_method p : looks_up p a_method (service_methods p) (service_method p)
| lu_oneof_branch p : looks_up p a_branch (oneof_branches p) (oneof_branch p).
(** The two lookups of File that also see extend blocks. *)
Inductive looks_up_ext : ptr -> (data -> bool) -> seq node -> (string -> R (option node)) -> Prop :=
| lu_file_message p : looks_up_ext p a_message (file_messages p) (file_message p)
| lu_file_type p : looks_up_ext p a_type (file_types p) (file_type p).

(** The element [t] at [p] of a loaded file. *)
Definition element_at (s : registry) (p : ptr) (t : tree) : Prop :=
  exists path, element_of s path p t.

(** [n] is a node for the element at [p], of the Go type representing it. *)
Definition shows (s : registry) (p : ptr) (n : node) : Prop :=
  exists t k a, element_at s p t /\ represented_by (t_data t) = Some k /\ n = NAst k a p.

(** Calling Name() on the node gives [name]. *)
Definition has_name (s : registry) (name : string) (n : node) : bool :=
  match n with
  | NAst _ _ p => match (node_name p s).1 with Ret x => String.eqb x name | _ => false end
  | _ => false
  end.

(** ** Navigation *)

(** The containers of an element, innermost first: the last one is the file. *)
Fixpoint containers (g : nat) (π : list nat) : list ptr :=
  match π with
  | [] => []
  | _ :: π' => (g, π') :: containers g π'
  end.

(** No container of the element at [p] is a group (groups have no node). *)
Definition outside_groups (s : registry) (p : ptr) : Prop :=
  forall q u name, q ∈ containers p.1 p.2 -> element_at s q u -> t_data u <> DGroup name.

(** [n] is a node of the element at [p]: a node of the Go type representing it, the OneOf type of a
    oneof, an Option of an option statement, or a Repeated of such a node. *)
Fixpoint points_to (s : registry) (p : ptr) (n : node) : Prop :=
  match n with
  | NAst KOneOf _ q => q = p /\ exists t name, element_at s p t /\ t_data t = DOneof name
  | NAst k _ q => q = p /\ exists t, element_at s p t /\ represented_by (t_data t) = Some k
  | NOption o => o_proto o = p /\ exists t, element_at s p t /\ an_option (t_data t) = true
  | NRepeated _ (Some e) => points_to s p e
  | _ => False
  end.

(** The nodes the API hands out: nodes of elements, types of map fields, builtin types, and Repeated
    of a builtin type or of a type that could not be resolved. *)
Inductive handed_out (s : registry) : node -> Prop :=
| ho_element p n : points_to s p n -> handed_out s n
| ho_map a p t name kt vt num :
    element_at s p t -> t_data t = DMapField name kt vt num -> handed_out s (NAst KMap a p)
| ho_builtin b : handed_out s (NBuiltin b)
| ho_repeated_builtin a b : handed_out s (NRepeated a (Some (NBuiltin b)))
| ho_repeated_unknown a : handed_out s (NRepeated a None).

(** A value and all values nested in it. *)
Fixpoint parts (v : oval) : list oval :=
  v :: match v with
       | OVArray _ l => flat_map parts l
       | OVMap _ l => flat_map (fun kv => parts kv.2) l
       | _ => []
       end.
