(** * The AST of github.com/emicklei/proto as protoast sees it.

    The parser is a dependency of /repo, not part of it.  The structs are modelled with the
    fields protoast reads (anchors below give the lines that read them). *)
From Verif Require Export GoBase.

(** text/scanner.Position *)
Record position := mkPos {
  p_file : string;
  p_offset : Z;
  p_line : Z;
  p_col : Z
}.
Definition zero_pos : position := mkPos "" 0 0 0.

(** proto.Literal: Source, Array, OrderedMap, Position
    (internal/core/ast_option_value.go:14-131, registry_meta.go:199-218). *)
Inductive literal :=
| Lit (pos : position) (source : string) (arr : list literal) (omap : list (string * literal)).

Definition lit_pos (l : literal) : position := let 'Lit p _ _ _ := l in p.
Definition lit_source (l : literal) : string := let 'Lit _ s _ _ := l in s.
Definition lit_array (l : literal) : list literal := let 'Lit _ _ a _ := l in a.
Definition lit_map (l : literal) : list (string * literal) := let 'Lit _ _ _ m := l in m.

(** proto.Range (internal/core/ast_reserved.go:18-34) *)
Record rng := mkRng { r_from : Z; r_to : Z; r_max : bool }.

(** The element structs.  [DProto] is the file itself; [DMessage _ true] is an extend block;
    [DComment], [DGroup], [DExtensions] and [DEdition] are elements protoast does not wrap. *)
Inductive data :=
| DProto (filename : string)
| DSyntax (value : string)
| DEdition
| DPackage (name : string)
| DImport (filename : string)
| DOption (name : string) (constant : literal)
| DMessage (name : string) (is_extend : bool)
| DNormalField (name typ : string) (seq : Z) (repeated is_optional : bool)
| DOneof (name : string)
| DOneOfField (name typ : string) (seq : Z)
| DMapField (name keytyp typ : string) (seq : Z)
| DEnum (name : string)
| DEnumField (name : string) (integer : Z)
| DService (name : string)
| DRPC (name reqtyp : string) (sreq : bool) (rettyp : string) (sret : bool)
| DReserved (ranges : list rng) (names : list string)
| DComment
| DGroup (name : string)
| DExtensions.

(** An element with its Position, Comment lines (nil pointer is [None]) and children:
    Elements for containers, Options for NormalField, MapField and OneOfField. *)
Inductive tree :=
| T (d : data) (pos : position) (comment : option (list string)) (kids : list tree).

Definition t_data (t : tree) : data := let 'T d _ _ _ := t in d.
Definition t_pos (t : tree) : position := let 'T _ p _ _ := t in p.
Definition t_comment (t : tree) : option (list string) := let 'T _ _ c _ := t in c.
Definition t_kids (t : tree) : list tree := let 'T _ _ _ k := t in k.

(** A Go pointer to an AST struct: (number of the parse that allocated it, child indices from
    the element up to the file root, innermost index first). *)
Definition ptr : Type := nat * list nat.

Definition child (p : ptr) (i : nat) : ptr := (p.1, i :: p.2).
Definition root (g : nat) : ptr := (g, []).

(** The Parent field: emicklei/proto stores in every element the container it was added to. *)
Definition parent_ptr (p : ptr) : option ptr :=
  match p.2 with
  | [] => None
  | _ :: π => Some (p.1, π)
  end.

(** Follow an index path (innermost index first) from the root of a tree. *)
Fixpoint walk (t : tree) (π : list nat) : option tree :=
  match π with
  | [] => Some t
  | i :: π' => match walk t π' with
               | Some u => t_kids u !! i
               | None => None
               end
  end.

(** proto.Visitee interface values: nil, the typed nil pointers that occur, or a pointer. *)
Inductive visitee :=
| VNil
| VNilProto
| VNilOption
| VPtr (p : ptr).

Global Instance visitee_eq_dec : EqDecision visitee.
Proof. solve_decision. Defined.

Definition visitee_enc (v : visitee) : nat + ptr :=
  match v with VNil => inl 0 | VNilProto => inl 1 | VNilOption => inl 2 | VPtr p => inr p end.
Definition visitee_dec (x : nat + ptr) : visitee :=
  match x with
  | inl 0 => VNil | inl 1 => VNilProto | inl _ => VNilOption | inr p => VPtr p
  end.
Global Instance visitee_countable : Countable visitee.
Proof. apply (inj_countable' visitee_enc visitee_dec). by intros []. Defined.

(** Children of an element with their pointers. *)
Definition kids_at (p : ptr) (t : tree) : list (ptr * tree) :=
  imap (fun i k => (child p i, k)) (t_kids t).

(** ** What the parser guarantees

    [wf_elems els]: the nesting of element kinds the protobuf grammar of emicklei/proto can
    produce.  Used as a hypothesis on file contents where a theorem needs it. *)
Definition allowed (parent kid : data) : bool :=
  match parent, kid with
  | DProto _, (DSyntax _ | DEdition | DPackage _ | DImport _ | DOption _ _ | DMessage _ _
              | DEnum _ | DService _ | DComment) => true
  | (DMessage _ _ | DGroup _),
      (DNormalField _ _ _ _ _ | DOneof _ | DMapField _ _ _ _ | DMessage _ _ | DEnum _
      | DOption _ _ | DReserved _ _ | DExtensions | DGroup _ | DComment) => true
  | DOneof _, (DOneOfField _ _ _ | DGroup _ | DOption _ _ | DComment) => true
  | DEnum _, (DEnumField _ _ | DOption _ _ | DReserved _ _ | DComment) => true
  | DEnumField _ _, (DOption _ _ | DComment) => true
  | DService _, (DRPC _ _ _ _ _ | DOption _ _ | DComment) => true
  | DRPC _ _ _ _ _, (DOption _ _ | DComment) => true
  | (DNormalField _ _ _ _ _ | DOneOfField _ _ _ | DMapField _ _ _ _), DOption _ _ => true
  | _, _ => false
  end.

Fixpoint wf_tree (t : tree) : bool :=
  let 'T d _ _ kids := t in
  forallb (fun k => allowed d (t_data k) && wf_tree k) kids.

Definition file_tree (path : string) (els : list tree) : tree :=
  T (DProto path) zero_pos None els.

Definition wf_elems (els : list tree) : bool := wf_tree (file_tree "" els).

(** [stamped path t]: all positions in [t] carry the file name the parser was given
    (parser.Filename(path), internal/core/registry.go:145). *)
Fixpoint stamped (path : string) (t : tree) : bool :=
  let 'T _ p _ kids := t in
  String.eqb (p_file p) path && forallb (stamped path) kids.

(** The output of the parser for the file loaded as [path]. *)
Definition parser_output (path : string) (els : list tree) : bool :=
  wf_elems els && forallb (stamped path) els.
