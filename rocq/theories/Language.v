(** * Names as the protobuf language resolves them: specification (C80). *)
From Verif Require Export TypeUse.

(** The components of the package of a file. *)
Definition packaged (f : tree) (comps : list string) : Prop :=
  Forall ident comps /\ file_scope (t_kids f) = dotted comps.

(** A loaded file declares [q], by an element like [d]. *)
Definition declared (s : registry) (q : string) (d : data) : Prop :=
  exists path g f π t, loaded s path g f /\ fqn f π = Some q /\ walk f π = Some t /\ t_data t = d.

(** [q] is the package of a loaded file, or encloses it. *)
Definition package_named (s : registry) (q : string) : Prop :=
  exists path g f comps k, loaded s path g f /\ packaged f comps /\ 0 < k <= length comps /\ q = dotted (take k comps).

Definition data_is_type (d : data) : bool := match d with DMessage _ false | DEnum _ => true | _ => false end.

(** [q] is a message or an enum. *)
Definition type_named (s : registry) (q : string) : Prop := exists d, declared s q d /\ data_is_type d = true.

(** [q] can have members: a message, an enum, a service or a package. *)
Definition aggregate_named (s : registry) (q : string) : Prop :=
  (exists d, declared s q d /\ (data_is_type d = true \/ exists n, d = DService n)) \/ package_named s q.

(** The files form a schema as the language demands: every name is declared once, the names are
    identifiers, a package statement comes first, and no package has the name of a declaration. *)
Definition valid_schema (s : registry) : Prop :=
  unique_names s /\ packages_first s /\
  (forall path g f, loaded s path g f -> (exists comps, packaged f comps) /\
     forall π t n, walk f π = Some t -> own_name (t_data t) = Some n -> ident n) /\
  (forall q d, declared s q d -> ~ package_named s q).

(** The scope around the element at [p]: the package, then the names of the enclosing messages. *)
Definition scope_around (s : registry) (p : ptr) (scope : list string) : Prop :=
  exists path f comps, loaded s path p.1 f /\ packaged f comps /\ visible f p.2 = true /\
    scope = (comps ++ enclosing f p.2)%list.

(** What the type name of a field denotes according to the language, as protoc implements it
    (DescriptorBuilder::LookupSymbolNoPlaceholder): the scopes are searched from the inside to the outside.
    For a simple name the first scope with a message or an enum of that name decides.  For a compound name
    the first scope decides that has something with members by the name of the first component; the
    remaining components must be found there. *)
Inductive language_type (s : registry) (scope : list string) : string -> string -> Prop :=
| lang_absolute typ : absolute typ -> type_named s typ -> language_type s scope typ typ
| lang_simple typ k :
    ident typ -> k <= length scope -> type_named s (dotted (take k scope ++ [typ])) ->
    (forall j, k < j <= length scope -> ~ type_named s (dotted (take j scope ++ [typ]))) ->
    language_type s scope typ (dotted (take k scope ++ [typ]))
| lang_compound first rest k :
    ident first -> rest <> [] -> Forall ident rest ->
    k <= length scope -> type_named s (dotted (take k scope ++ first :: rest)) ->
    (forall j, k < j <= length scope -> ~ aggregate_named s (dotted (take j scope ++ [first]))) ->
    language_type s scope (first +:+ dotted rest) (dotted (take k scope ++ first :: rest)).

(** What the input or output type name of a method denotes according to the language.  Here protoc takes
    whatever a simple name stands for in the innermost scope that knows it, a type or not
    (DescriptorBuilder::CrossLinkMethod looks up with LOOKUP_ALL), and demands that it is a message. *)
Inductive language_message (s : registry) (scope : list string) : string -> string -> Prop :=
| langm_absolute typ n : absolute typ -> declared s typ (DMessage n false) -> language_message s scope typ typ
| langm_simple typ k n :
    ident typ -> k <= length scope -> declared s (dotted (take k scope ++ [typ])) (DMessage n false) ->
    (forall j, k < j <= length scope ->
       (forall d, ~ declared s (dotted (take j scope ++ [typ])) d) /\ ~ package_named s (dotted (take j scope ++ [typ]))) ->
    language_message s scope typ (dotted (take k scope ++ [typ]))
| langm_compound first rest k n :
    ident first -> rest <> [] -> Forall ident rest ->
    k <= length scope -> declared s (dotted (take k scope ++ first :: rest)) (DMessage n false) ->
    (forall j, k < j <= length scope -> ~ aggregate_named s (dotted (take j scope ++ [first]))) ->
    language_message s scope (first +:+ dotted rest) (dotted (take k scope ++ first :: rest)).
