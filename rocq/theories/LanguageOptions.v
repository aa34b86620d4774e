(** * Option names as the protobuf language resolves them: specification (C82). *)
From Verif Require Export Language OptionUse.

(** What a name stands for according to the language, whatever it is (protoc's LookupSymbolNoPlaceholder with
    LOOKUP_ALL): the scopes are searched from the inside to the outside.  For a simple name the first scope
    decides that has anything by that name, a declaration or a package; for a compound name the first scope
    that has something with members by the name of the first component. *)
Inductive language_symbol (s : registry) (scope : list string) : string -> string -> data -> Prop :=
| sym_absolute x d : absolute x -> declared s x d -> language_symbol s scope x x d
| sym_simple x k d :
    ident x -> k <= length scope -> declared s (dotted (take k scope ++ [x])) d ->
    (forall j, k < j <= length scope ->
       (forall d', ~ declared s (dotted (take j scope ++ [x])) d') /\ ~ package_named s (dotted (take j scope ++ [x]))) ->
    language_symbol s scope x (dotted (take k scope ++ [x])) d
| sym_compound first rest k d :
    ident first -> rest <> [] -> Forall ident rest ->
    k <= length scope -> declared s (dotted (take k scope ++ first :: rest)) d ->
    (forall j, k < j <= length scope -> ~ aggregate_named s (dotted (take j scope ++ [first]))) ->
    language_symbol s scope (first +:+ dotted rest) (dotted (take k scope ++ first :: rest)) d.

(** [q] is an extension of the message [cn]: a field declared in a block "extend x { ... }", and x means
    [cn] where the block stands. *)
Definition extension_of (s : registry) (cn q : string) : Prop :=
  exists path g f π i b en scope, loaded s path g f /\ fqn f (i :: π) = Some q /\
    walk f π = Some b /\ t_data b = DMessage en true /\
    scope_around s (g, π) scope /\ language_message s scope en cn.

(** The message [cn] has a field by the name [y]. *)
Definition field_of (s : registry) (cn y : string) : Prop :=
  exists path g f π i t, loaded s path g f /\ fqn f π = Some cn /\ walk f (i :: π) = Some t /\
    plain_field_named y (t_data t) = true.

(** The field that an option name means, the options message of the annotated element being [cn] and the
    scope around that element [scope]: "(x)" means the extension of [cn] that x stands for, a bare name the
    field of [cn] by that name. *)
Inductive option_meaning (s : registry) (cn : string) (scope : list string) : string -> string -> Prop :=
| om_custom x q d :
    no_parens x = true -> language_symbol s scope x q d -> plain_field d -> extension_of s cn q ->
    option_meaning s cn scope ("(" +:+ x +:+ ")") q
| om_predefined y :
    ident y -> no_parens y = true -> field_of s cn y -> option_meaning s cn scope y (cn +:+ "." +:+ y).

(** The scope around the annotated element, and the element's own name; for a file the scope is its package
    and there is no own name. *)
Inductive annotated (s : registry) (p : ptr) (t : tree) : list string -> list string -> Prop :=
| ann_file path comps :
    p.2 = [] -> loaded s path p.1 t -> packaged t comps -> ~ absolute (the_package (t_kids t)) ->
    annotated s p t comps []
| ann_element n scope :
    own_name (t_data t) = Some n -> (forall x v, t_data t <> DEnumField x v) ->
    scope_around s p scope -> annotated s p t scope [n].

(** The name is hidden from the library: for "(x)", the annotated element itself declares x inside; for a bare
    name, anything by that name is declared in the element or in a scope around it. *)
Inductive hidden (s : registry) (scope own : list string) : string -> Prop :=
| hidden_custom x d :
    own <> [] -> declared s (dotted (scope ++ own) +:+ "." +:+ x) d -> hidden s scope own ("(" +:+ x +:+ ")")
| hidden_predefined y k d :
    ident y -> k <= length (scope ++ own) -> declared s (dotted (take k (scope ++ own)) +:+ "." +:+ y) d ->
    no_parens y = true -> hidden s scope own y.
