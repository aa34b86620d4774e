(** * Path resolvers, internal/core/path_resolvers.go. *)
From Verif Require Export Registry.

(** os.Stat: an error, or success *)
Inductive stat_result :=
| SError (err : error)
| SOk (is_dir : bool).

(** The operating system: os.Stat and exec.LookPath("protoc"). *)
Record os_view := mkOs {
  os_stat : string -> stat_result;
  os_protoc : error + string
}.

(** pathResolverProtoc (lines 21-23) and pathResolverRoot (lines 61-63) *)
Inductive resolver :=
| PRProtoc (root : string)
| PRRoot (root : string).

Definition resolver_root (r : resolver) : string :=
  match r with PRProtoc d => d | PRRoot d => d end.

(** String methods, lines 47-49 and 78-80 *)
Definition resolver_string (r : resolver) : string :=
  match r with
  | PRProtoc _ => "protoc distribution"
  | PRRoot d => "schema at " +:+ quote d
  end.

(** Resolve methods, lines 51-59 and 82-89 *)
Definition resolver_resolve (os : os_view) (r : resolver) (path : string) : resolve_answer :=
  let full := path_join [resolver_root r; path] in
  match os_stat os full with
  | SError err => RError (EWrap "check computed path" err)
  | SOk _ => RName full
  end.

(** newPathResolverProtoc, lines 25-45 *)
Definition new_resolver_protoc (os : os_view) : error + resolver :=
  match os_protoc os with
  | inl e => inl (EWrap "look for protoc binary" e)
  | inr protoc_path =>
      let dir := path_dir protoc_path in                               (* line 31 *)
      let dir := path_dir (trim_suffix "/"%char dir) in                 (* line 32 *)
      let include := path_join [dir; "include"] in
      let test_path := path_join [include; "google"; "protobuf"; "any.proto"] in
      match os_stat os test_path with
      | SOk _ => inr (PRProtoc include)
      | SError err =>
          inl (EWrap ("check for google/protobuf/any.proto near the protoc in " +:+ quote include) err)
      end
  end.

(** newPathResolverRoot, lines 65-76 *)
Definition new_resolver_root (os : os_view) (root : string) : error + resolver :=
  match os_stat os root with
  | SError err => inl (EWrap "check root path" err)
  | SOk is_dir => if is_dir then inr (PRRoot root) else inl (ENew "root path is not a directory")
  end.

(** PathResolversBuilder, lines 91-113 *)
Record builder := mkBuilder { b_protoc : bool; b_roots : list string }.
Definition new_builder : builder := mkBuilder false [].
Definition with_protoc (b : builder) : builder := mkBuilder true (b_roots b).
Definition with_root (roots : list string) (b : builder) : builder :=
  mkBuilder (b_protoc b) (b_roots b ++ roots)%list.

(** the loop of Build, lines 131-138 *)
Fixpoint build_roots (os : os_view) (roots : list string) : error + list resolver :=
  match roots with
  | [] => inr []
  | r :: rs =>
      match new_resolver_root os r with
      | inl e => inl (EWrap ("setup schema resolver over " +:+ r) e)
      | inr x => match build_roots os rs with
                 | inl e => inl e
                 | inr xs => inr (x :: xs)
                 end
      end
  end.

(** Build, lines 115-141: [roots] after line 118 is the argument slice of slices.Compact, whose
    result is dropped. *)
Definition build_resolvers (os : os_view) (b : builder) : error + list resolver :=
  let roots := compact_arg (sort_strings (b_roots b)) in
  let from_roots pre :=
    match build_roots os roots with
    | inl e => inl e
    | inr xs => inr (pre ++ xs)%list
    end in
  if b_protoc b then
    match new_resolver_protoc os with
    | inl e => inl (EWrap "setup protoc distribution resolver" e)
    | inr r => from_roots [r]
    end
  else from_roots [].

(** The resolver list of an environment, as handed to NewRegistry (protoast.go:23-25). *)
Definition env_resolvers (os : os_view) (rs : list resolver)
  : list (string * (string -> resolve_answer)) :=
  map (fun r => (resolver_string r, resolver_resolve os r)) rs.
