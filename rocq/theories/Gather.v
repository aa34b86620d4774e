(** * A client that walks the type graph: the program and what it should collect (C79). *)
From Verif Require Export TypeUse Readme.
From Verif Require Import Identity Routes Api.
Local Open Scope go_scope.

(** ** The program

    The closure every code generator computes: which messages and enums does this type need?  In Go:

      func gather(ty Node) {
        switch v := ty.(type) {
        case *Message:
          if slices.Contains(all, Node(v)) { return }
          all = append(all, v)
          for f := range v.Fields(r) { gather(f.Type(r)) }
        case *Enum:
          if slices.Contains(all, Node(v)) { return }
          all = append(all, v)
        case *Repeated: gather(v.Type)
        case *Map:      gather(v.Value(r))
        case *OneOf:    for b := range v.Branches(r) { gather(b.Type(r)) }
        }
      }
      gather(r.NodeByFullName(name))

    It is not part of the repository: it is a use of its API (ast_message.go:36-55, 236-258,
    ast_map.go:29-49, ast_oneof.go:24-37, 59-61, ast_repeated.go:9-12, registry_types.go:29-31).  [fuel] bounds
    the recursion; [slices.Contains] compares interface values as the linter of the README does. *)
Definition contains (all : list node) (n : node) : bool := existsb (fun m => is_node (Some m) n) all.
Fixpoint gather (fuel : nat) (all : list node) (ty : option node) : R (list node) :=
  match fuel with
  | O => diverge
  | S fuel' =>
      match ty with
      | Some (NAst KMessage a p) =>
          if contains all (NAst KMessage a p) then ret all else
          message_fields p (list node) (all ++ [NAst KMessage a p])%list (fun all f =>
            match f with
            | NAst KField fa q => ty <~ field_type fa q ;; all <~ gather fuel' all ty ;; ret (all, true)
            | _ => forged
            end)
      | Some (NAst KEnum a p) =>
          if contains all (NAst KEnum a p) then ret all else ret (all ++ [NAst KEnum a p])%list
      | Some (NRepeated _ el) => gather fuel' all el
      | Some (NAst KMap _ p) => v <~ map_value p ;; gather fuel' all (Some v)
      | Some (NAst KOneOf _ p) =>
          oneof_branches p (list node) all (fun all b =>
            match b with
            | NAst KBranch _ q => ty <~ branch_type q ;; all <~ gather fuel' all ty ;; ret (all, true)
            | _ => forged
            end)
      | _ => ret all
      end
  end.
Definition gather_named (fuel : nat) (name : string) : R (list node) :=
  n <~ node_by_full_name name ;; gather fuel [] n.

(** ** What it should collect *)

(** The type name [typ], written at the field or branch [f], denotes the declaration at [d], a node of
    which has the kind [k]. *)
Definition refers (s : registry) (f : ptr) (typ : string) (k : wkind) (d : ptr) : Prop :=
  typ ∉ scalar_names /\ exists comps q a, in_scope s f comps /\ denotes s comps typ q /\ found s q (NAst k a d).

(** The field or branch at [q] uses the declaration at [d]: by its type name, by one of its branches if it
    is a oneof, by its value type (which is only looked up at the root) if it is a map. *)
Inductive uses (s : registry) : ptr -> wkind -> ptr -> Prop :=
| uses_field q t name typ num rep opt k d :
    element_at s q t -> t_data t = DNormalField name typ num rep opt -> refers s q typ k d -> uses s q k d
| uses_branch q t name typ num k d :
    element_at s q t -> t_data t = DOneOfField name typ num -> refers s q typ k d -> uses s q k d
| uses_oneof q t name i u k d :
    element_at s q t -> t_data t = DOneof name -> element_at s (child q i) u -> a_branch (t_data u) = true ->
    uses s (child q i) k d -> uses s q k d
| uses_map q t name kt typ num k a d :
    element_at s q t -> t_data t = DMapField name kt typ num -> typ ∉ scalar_names -> ~ absolute typ ->
    found s ("." +:+ typ) (NAst k a d) -> uses s q k d.

(** The type of the field or branch cannot be had: it denotes something that is no type, or it is a map
    whose value type is neither a scalar nor the name of a message or an enum at the root. *)
Inductive unusable (s : registry) : ptr -> Prop :=
| unusable_name q k d : uses s q k d -> k ∉ [KMessage; KEnum; KEnumValue] -> unusable s q
| unusable_map q t name kt typ num :
    element_at s q t -> t_data t = DMapField name kt typ num -> typ ∉ scalar_names ->
    (forall k d, uses s q k d -> k ∉ [KMessage; KEnum]) -> unusable s q.

(** [q] is a field of the message at [p]. *)
Definition field_of (s : registry) (p q : ptr) : Prop :=
  exists t name ext i u, element_at s p t /\ t_data t = DMessage name ext /\ q = child p i /\
    element_at s q u /\ a_field (t_data u) = true.

(** The message at [p] mentions the message or enum at [d]: it has a field that uses it. *)
Definition mentions (s : registry) (p d : ptr) : Prop :=
  exists q k, field_of s p q /\ uses s q k d /\ k ∈ [KMessage; KEnum].

(** The message at [p] has a field whose type cannot be had. *)
Definition broken (s : registry) (p : ptr) : Prop := exists q, field_of s p q /\ unusable s q.

(** Every field and branch has a fully qualified name made of identifiers. *)
Definition refs_scoped (s : registry) : Prop := forall q t,
  element_at s q t ->
  match t_data t with DNormalField _ _ _ _ _ | DOneOfField _ _ _ => True | _ => False end ->
  exists comps, in_scope s q comps.

(** No field was asked for its type yet. *)
Definition nothing_asked (s : registry) : Prop := forall key, ftcache s !! key = None.
