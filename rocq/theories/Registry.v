(** * Registry: state, loading, wrapping, name resolution.
    Models internal/core/registry.go, visitor_demark.go, registry_name_resolver.go and the
    wrapping part of registry_types.go. *)
From Verif Require Export Ast.

(** ** Nodes *)

(** Builtin types, internal/core/ast_builtin.go:3-46. *)
Inductive builtin :=
| BDouble | BFloat | BInt32 | BInt64 | BUint32 | BUint64 | BSint32 | BSint64
| BFixed32 | BFixed64 | BSfixed32 | BSfixed64 | BBool | BString | BBytes.

(** Dynamic types of nodes that hold an AST pointer: File (ast_file.go:10), Message and
    MessageField (ast_message.go:12-24), Enum and EnumValue (ast_enum.go:11-24), OneOf and
    OneOfBranch (ast_oneof.go:10-21), Service and Method (ast_service.go:10-20), Import,
    Reserved, Syntax, Package, Map (ast_import.go, ast_reserved.go, ast_syntax.go,
    ast_package.go, ast_map.go). *)
Inductive wkind :=
| KFile | KMessage | KField | KEnum | KEnumValue | KBranch | KService | KMethod
| KImport | KReserved | KSyntax | KPackage | KOneOf | KMap.

(** An Option object, internal/core/ast_option.go:11-16 ([o_addr] is its identity). *)
Record optn := mkOptn {
  o_addr : N;
  o_proto : ptr;
  o_class : ptr;
  o_field : ptr
}.

(** Header of an option value: identity, the embedded [option] pointer (nil below the top
    level) and the literal pointer (nil for arrays), ast_option_value.go:139-210. *)
Record ovhdr := mkHdr {
  ov_addr : N;
  ov_option : option ptr;
  ov_lit : option literal
}.

(** Option values, ast_option_value.go:149-210.  [OVEnum] holds the *EnumValue as its
    identity and AST pointer.  Items of [OVMap] are OptionValueMapItem structs, whose
    embedded option and proto are always nil. *)
Inductive oval :=
| OVBool (h : ovhdr) (b : bool)
| OVInt (h : ovhdr) (z : Z)
| OVUint (h : ovhdr) (n : N)
| OVFloat (h : ovhdr) (bits : N)
| OVString (h : ovhdr) (s : string)
| OVBytes (h : ovhdr) (l : list ascii)
| OVEnum (h : ovhdr) (a : N) (p : ptr)
| OVArray (h : ovhdr) (l : list oval)
| OVMap (h : ovhdr) (l : list (string * oval)).

Definition ov_hdr (v : oval) : ovhdr :=
  match v with
  | OVBool h _ | OVInt h _ | OVUint h _ | OVFloat h _ | OVString h _ | OVBytes h _
  | OVEnum h _ _ | OVArray h _ | OVMap h _ => h
  end.

(** Values of the Node interface (nil is [None] of [option node]).  [NAst k a p] is the object
    with identity [a] of dynamic type [k] whose proto field is [p].  [NRepeated] is
    ast_repeated.go:9-12, its Type field may be nil.  [NMapItem] is a pointer to a map item. *)
Inductive node :=
| NAst (k : wkind) (a : N) (p : ptr)
| NBuiltin (b : builtin)
| NRepeated (a : N) (t : option node)
| NOption (o : optn)
| NValue (v : oval)
| NMapItem (key : string) (v : oval).

(** ** State: internal/core/registry.go:11-20.

    [heap] holds all ASTs ever parsed, [names] is the Go field [registry].  The resolver list
    is part of the environment given to each loading call.  A key of [ftcache] is a
    *MessageField: its identity together with its proto pointer.  [next] is the next unused
    identity of wrapper objects. *)
Record registry := mkReg {
  heap : list tree;
  protos : gmap string nat;
  names : gmap string ptr;
  scopes : gmap visitee string;
  cache : gmap visitee (option node);
  ftcache : gmap (N * ptr) (option node);
  next : N
}.

Definition empty_registry : registry := mkReg [] ∅ ∅ ∅ ∅ ∅ 0.

Definition set_names (m : gmap string ptr) (s : registry) : registry :=
  mkReg (heap s) (protos s) m (scopes s) (cache s) (ftcache s) (next s).
Definition set_scopes (m : gmap visitee string) (s : registry) : registry :=
  mkReg (heap s) (protos s) (names s) m (cache s) (ftcache s) (next s).
Definition set_cache (m : gmap visitee (option node)) (s : registry) : registry :=
  mkReg (heap s) (protos s) (names s) (scopes s) m (ftcache s) (next s).
Definition set_ftcache (m : gmap (N * ptr) (option node)) (s : registry) : registry :=
  mkReg (heap s) (protos s) (names s) (scopes s) (cache s) m (next s).
Definition set_next (n : N) (s : registry) : registry :=
  mkReg (heap s) (protos s) (names s) (scopes s) (cache s) (ftcache s) n.

(** ** Computations over a registry.  The state is returned also when the outcome is a panic. *)
Definition R (A : Type) : Type := registry -> outcome A * registry.

Definition ret {A} (a : A) : R A := fun s => (Ret a, s).
Definition panic {A} (msg : payload) : R A := fun s => (Panic msg, s).
Definition diverge {A} : R A := fun s => (Diverge, s).
Definition rbind {A B} (m : R A) (k : A -> R B) : R B :=
  fun s => match m s with
           | (Ret a, s') => k a s'
           | (Panic e, s') => (Panic e, s')
           | (Diverge, s') => (Diverge, s')
           end.
Definition get : R registry := fun s => (Ret s, s).
Definition modify (f : registry -> registry) : R unit := fun s => (Ret tt, f s).
(** recover: turns a panic into a value, keeping the state *)
Definition recover {A} (m : R A) : R (payload + A) :=
  fun s => match m s with
           | (Ret a, s') => (Ret (inr a), s')
           | (Panic e, s') => (Ret (inl e), s')
           | (Diverge, s') => (Diverge, s')
           end.

Declare Scope go_scope.
Delimit Scope go_scope with go.
Notation "x <~ m ;; k" := (rbind m (fun x => k))
  (at level 100, m at next level, right associativity) : go_scope.
Notation "' p <~ m ;; k" := (rbind m (fun x => let p := x in k))
  (at level 100, p pattern, m at next level, right associativity) : go_scope.
Notation "m ;;; k" := (rbind m (fun _ => k))
  (at level 100, right associativity) : go_scope.
Open Scope go_scope.

(** allocation of a wrapper object: a fresh identity *)
Definition alloc : R N := fun s => (Ret (next s), set_next (next s + 1)%N s).

Definition heap_at (s : registry) (p : ptr) : option tree :=
  match heap s !! p.1 with
  | Some t => walk t p.2
  | None => None
  end.

(** Dereferencing an AST pointer.  Pointers handed out always point into the heap (proved);
    a forged one is reported as a panic. *)
Definition deref (p : ptr) : R tree :=
  s <~ get ;;
  match heap_at s p with
  | Some t => ret t
  | None => panic "dangling AST pointer"
  end.

Definition kids_of (p : ptr) : R (list (ptr * tree)) :=
  t <~ deref p ;; ret (kids_at p t).

(** ** wrap, internal/core/registry_types.go:139-207 *)

Definition wrap_kind (d : data) : option wkind :=
  match d with
  | DMessage _ _ => Some KMessage
  | DNormalField _ _ _ _ _ => Some KField
  | DEnum _ => Some KEnum
  | DEnumField _ _ => Some KEnumValue
  | DOneof _ => Some KField
  | DOneOfField _ _ _ => Some KBranch
  | DMapField _ _ _ _ => Some KField
  | DProto _ => Some KFile
  | DService _ => Some KService
  | DRPC _ _ _ _ _ => Some KMethod
  | DImport _ => Some KImport
  | DReserved _ _ => Some KReserved
  | DSyntax _ => Some KSyntax
  | DPackage _ => Some KPackage
  | DOption _ _ | DComment | DGroup _ | DExtensions | DEdition => None
  end.

(** %T of an AST element: the dynamic types of github.com/emicklei/proto *)
Definition go_proto (d : data) : string :=
  match d with
  | DProto _ => "*proto.Proto"
  | DSyntax _ => "*proto.Syntax"
  | DEdition => "*proto.Edition"
  | DPackage _ => "*proto.Package"
  | DImport _ => "*proto.Import"
  | DOption _ _ => "*proto.Option"
  | DMessage _ _ => "*proto.Message"
  | DNormalField _ _ _ _ _ => "*proto.NormalField"
  | DOneof _ => "*proto.Oneof"
  | DOneOfField _ _ _ => "*proto.OneOfField"
  | DMapField _ _ _ _ => "*proto.MapField"
  | DEnum _ => "*proto.Enum"
  | DEnumField _ _ => "*proto.EnumField"
  | DService _ => "*proto.Service"
  | DRPC _ _ _ _ _ => "*proto.RPC"
  | DReserved _ _ => "*proto.Reserved"
  | DComment => "*proto.Comment"
  | DGroup _ => "*proto.Group"
  | DExtensions => "*proto.Extensions"
  end.
(** %T of a proto.Visitee *)
Definition go_visitee (s : registry) (v : visitee) : string :=
  match v with
  | VNil => "<nil>"
  | VNilProto => "*proto.Proto"
  | VNilOption => "*proto.Option"
  | VPtr p => match heap_at s p with Some t => go_proto (t_data t) | None => "<nil>" end
  end.

(** Lines 143-145: the deferred write caches the result, which is nil when the default branch
    (lines 204-205) panics. *)
Definition wrap (v : visitee) : R (option node) :=
  s <~ get ;;
  match cache s !! v with
  | Some res => ret res
  | None =>
      let unsupported :=
        modify (fun s => set_cache (<[v := None]> (cache s)) s) ;;;
        panic (PError (ENew ("unsupported type " +:+ go_visitee s v))) in
      match v with
      | VNil | VNilProto | VNilOption => unsupported
      | VPtr p =>
          match heap_at s p with
          | None => panic "dangling AST pointer"
          | Some t =>
              match wrap_kind (t_data t) with
              | None => unsupported
              | Some k =>
                  a <~ alloc ;;
                  modify (fun s => set_cache (<[v := Some (NAst k a p)]> (cache s)) s) ;;;
                  ret (Some (NAst k a p))
              end
          end
      end
  end.
(* Simplification: a typed nil *proto.Proto would be wrapped as a File with a nil proto by
   line 176; no API passes one to wrap (VisitPackage only uses it as a key of scopes). *)

(** %T of a node: the dynamic types of internal/core *)
Definition go_kind (k : wkind) : string :=
  match k with
  | KFile => "*core.File"
  | KMessage => "*core.Message"
  | KField => "*core.MessageField"
  | KEnum => "*core.Enum"
  | KEnumValue => "*core.EnumValue"
  | KBranch => "*core.OneOfBranch"
  | KService => "*core.Service"
  | KMethod => "*core.Method"
  | KImport => "*core.Import"
  | KReserved => "*core.Reserved"
  | KSyntax => "*core.Syntax"
  | KPackage => "*core.Package"
  | KOneOf => "*core.OneOf"
  | KMap => "*core.Map"
  end.
Definition go_builtin (b : builtin) : string :=
  match b with
  | BDouble => "*core.Double"
  | BFloat => "*core.Float"
  | BInt32 => "*core.Int32"
  | BInt64 => "*core.Int64"
  | BUint32 => "*core.Uint32"
  | BUint64 => "*core.Uint64"
  | BSint32 => "*core.Sint32"
  | BSint64 => "*core.Sint64"
  | BFixed32 => "*core.Fixed32"
  | BFixed64 => "*core.Fixed64"
  | BSfixed32 => "*core.Sfixed32"
  | BSfixed64 => "*core.Sfixed64"
  | BBool => "*core.Bool"
  | BString => "*core.String"
  | BBytes => "*core.Bytes"
  end.
Definition go_value (v : oval) : string :=
  match v with
  | OVBool _ _ => "*core.OptionValueBool"
  | OVInt _ _ => "*core.OptionValueInt"
  | OVUint _ _ => "*core.OptionValueUint"
  | OVFloat _ _ => "*core.OptionValueFloat"
  | OVString _ _ => "*core.OptionValueString"
  | OVBytes _ _ => "*core.OptionValueBytes"
  | OVEnum _ _ _ => "*core.OptionValueEnum"
  | OVArray _ _ => "*core.OptionValueArray"
  | OVMap _ _ => "*core.OptionValueMap"
  end.
Definition go_node (n : node) : string :=
  match n with
  | NAst k _ _ => go_kind k
  | NBuiltin b => go_builtin b
  | NRepeated _ _ => "*core.Repeated"
  | NOption _ => "*core.Option"
  | NValue v => go_value v
  | NMapItem _ _ => "*core.OptionValueMapItem"
  end.
(** a node that may be nil *)
Definition go_any (o : option node) : string := match o with Some n => go_node n | None => "<nil>" end.

(** the run-time error of a failed single-value type assertion: a value of interface type [iface] with the
    dynamic type [dyn] ("<nil>": the value is nil) is not of type [asserted] *)
Definition conversion (iface dyn asserted : string) : payload :=
  PError (ENew ("interface conversion: " +:+ iface +:+ " is " +:+
                (if String.eqb dyn "<nil>" then "nil" else dyn) +:+ ", not " +:+ asserted)).

(** A single-value type assertion such as r.wrap(v).( *Message ): panics on nil and on another
    dynamic type.  [iface] is the static type of the operand. *)
Definition assert_kind (iface : string) (k : wkind) (o : option node) : R node :=
  match o with
  | Some (NAst k' a p) =>
      match k, k' with
      | KFile, KFile | KMessage, KMessage | KField, KField | KEnum, KEnum
      | KEnumValue, KEnumValue | KBranch, KBranch | KService, KService | KMethod, KMethod
      | KImport, KImport | KReserved, KReserved | KSyntax, KSyntax | KPackage, KPackage
      | KOneOf, KOneOf | KMap, KMap => ret (NAst k' a p)
      | _, _ => panic (conversion iface (go_any o) (go_kind k))
      end
  | _ => panic (conversion iface (go_any o) (go_kind k))
  end.

Definition wrap_as (k : wkind) (p : ptr) : R node :=
  w <~ wrap (VPtr p) ;; assert_kind "core.Node" k w.

(** ** Name resolution, internal/core/registry_name_resolver.go:14-40 *)

Definition defined (reg : gmap string ptr) (q : string) : bool :=
  match reg !! q with Some _ => true | None => false end.

(** The for loop of lines 22-36; [None]: not finished within the fuel. *)
Fixpoint resolve_loop (reg : gmap string ptr) (fuel : nat) (scope name : string)
  : option (string * bool) :=
  match fuel with
  | O => None
  | S fuel' =>
      let cand := scope +:+ "." +:+ name in
      if defined reg cand then Some (cand, true)
      else if String.eqb scope "" then
        let cand := "." +:+ name in Some (cand, defined reg cand)
      else
        let scope' :=
          match last_index "."%char scope with
          | Some (S i) => str_take (S i) scope
          | _ => ""
          end in
        resolve_loop reg fuel' scope' name
  end.

(** Lines 14-21.  The fuel is one more than the length of the scope. *)
Definition resolve_name_raw (reg : gmap string ptr) (scope name : string)
  : option (string * bool) :=
  if has_prefix name "." then Some (name, defined reg name)
  else
    let scope := if negb (String.eqb scope "") && negb (has_prefix scope ".")
                 then "." +:+ scope else scope in
    resolve_loop reg (S (String.length scope)) scope name.

Definition resolve (scope name : string) : R (string * bool) :=
  s <~ get ;;
  match resolve_name_raw (names s) scope name with
  | Some r => ret r
  | None => diverge
  end.

(** r.scopes[v]: the zero value for a missing key *)
Definition scope_of (s : registry) (v : visitee) : string := default "" (scopes s !! v).

(** ** Loading *)

(** Answer of PathResolver.Resolve (path_resolvers.go:16-19): a name or an error. *)
Inductive resolve_answer :=
| RName (name : string)
| RError (err : error).

(** The world a loading call sees: the resolvers with their String() and their answers, and
    readProtoFile (registry.go:138-152): os.ReadFile + parser.Parse of a resolved name with
    the logical path stamped into positions. *)
Record env := mkEnv {
  e_resolvers : list (string * (string -> resolve_answer));
  e_read : string -> string -> error + list tree
}.

(** registry.go:77-90: the first resolver that does not answer "not exist". *)
Fixpoint find_name (rs : list (string * (string -> resolve_answer))) (path : string)
  : error + string :=
  match rs with
  | [] => inr ""
  | (rname, ask) :: rs' =>
      match ask path with
      | RError err =>
          if error_is err_not_exist err then find_name rs' path
          else inl (EWrap ("resolve proto file path with " +:+ rname) err)
      | RName name => inr name
      end
  end.

(** Registry.protoFile, registry.go:72-104: the number of the parse, or an error. *)
Definition proto_file (e : env) (path : string) : R (error + nat) :=
  s <~ get ;;
  match protos s !! path with
  | Some g => ret (inr g)
  | None =>
      match find_name (e_resolvers e) path with
      | inl err => ret (inl err)
      | inr protoName =>
          if String.eqb protoName "" then ret (inl (ENew "not found"))
          else match e_read e protoName path with
               | inl err =>
                   ret (inl (EWrap ("get proto definition from resolved file " +:+ protoName) err))
               | inr els =>
                   let g := length (heap s) in
                   modify (fun s =>
                     mkReg ((heap s ++ [file_tree path els])%list) (<[path := g]> (protos s))
                       (names s) (scopes s) (cache s) (ftcache s) (next s)) ;;;
                   ret (inr g)
               end
      end
  end.

(** visitorDemark, internal/core/visitor_demark.go:10-16 (the registry is the state).  [v_file]
    is nil ([None]) in the visitor created for an import (lines 78-80). *)
Record visitor := mkVisitor {
  v_file : option ptr;
  v_scope : string;
  v_is_extend : bool
}.

Definition set_scope (sc : string) (v : visitor) : visitor :=
  mkVisitor (v_file v) sc (v_is_extend v).
Definition set_is_extend (b : bool) (v : visitor) : visitor :=
  mkVisitor (v_file v) (v_scope v) b.

(** scopedName, lines 18-20 *)
Definition scoped_name (v : visitor) (n : string) : string := v_scope v +:+ "." +:+ n.

Definition put_name (q : string) (p : ptr) : R unit :=
  modify (fun s => set_names (<[q := p]> (names s)) s).
Definition put_scope (k : visitee) (q : string) : R unit :=
  modify (fun s => set_scopes (<[k := q]> (scopes s)) s).

(** element.Accept(visitor), visitor_demark.go:22-137; [imp] is what VisitImport does with
    the imported path.  The visitor struct is threaded through. *)
Fixpoint visit (imp : string -> R unit) (v : visitor) (p : ptr) (t : tree) {struct t}
  : R visitor :=
  let visit_kids :=
    fix visit_kids (v : visitor) (i : nat) (l : list tree) {struct l} : R visitor :=
      match l with
      | [] => ret v
      | k :: l' => v' <~ visit imp v (child p i) k ;; visit_kids v' (S i) l'
      end in
  match t with
  | T d _ _ kids =>
    match d with
    | DProto _ => visit_kids v 0 kids                    (* Proto.Accept visits its elements *)
    | DMessage name is_extend =>                         (* lines 22-38 *)
        let prev := v_scope v in
        v1 <~ (if is_extend then ret (set_is_extend true v)
               else let q := scoped_name v name in
                    put_name q p ;;; put_scope (VPtr p) q ;;; ret (set_scope q v)) ;;
        v2 <~ visit_kids v1 0 kids ;;
        ret (set_scope prev (set_is_extend false v2))
    | DService name =>                                   (* lines 40-51 *)
        let q := scoped_name v name in
        let prev := v_scope v in
        put_name q p ;;; put_name q p ;;; put_scope (VPtr p) q ;;;
        v2 <~ visit_kids (set_scope q v) 0 kids ;;
        ret (set_scope prev v2)
    | DPackage name =>                                   (* lines 55-64 *)
        let v1 := if has_prefix name "." then set_scope name v
                  else if negb (String.eqb name "") then set_scope ("." +:+ name) v
                  else v in
        put_scope (match v_file v1 with Some f => VPtr f | None => VNilProto end) (v_scope v1) ;;;
        ret v1
    | DImport filename => imp filename ;;; ret v         (* lines 68-82 *)
    | DNormalField name _ _ _ _                          (* lines 84-88 *)
    | DOneOfField name _ _                               (* lines 116-120 *)
    | DRPC name _ _ _ _                                  (* lines 124-128 *)
    | DMapField name _ _ _ =>                            (* lines 130-134 *)
        let q := scoped_name v name in
        put_name q p ;;; put_scope (VPtr p) q ;;; ret v
    | DEnumField name _ =>                               (* lines 90-93: no scope entry *)
        put_name (scoped_name v name) p ;;; ret v
    | DEnum name =>                                      (* lines 95-102 *)
        let q := scoped_name v name in
        put_name q p ;;; put_scope (VPtr p) q ;;; visit_kids v 0 kids
    | DOneof name =>                                     (* lines 106-115 *)
        let q := scoped_name v name in
        let prev := v_scope v in
        put_name q p ;;; put_scope (VPtr p) q ;;;
        v2 <~ visit_kids v 0 kids ;; ret (set_scope prev v2)
    | DSyntax _ | DOption _ _ | DComment | DReserved _ _ | DGroup _ | DExtensions
    | DEdition => ret v                                  (* lines 53, 66, 104, 122, 136-137 *)
    end
  end.

(** VisitImport, visitor_demark.go:68-82.  [fuel] bounds the depth of nested imports. *)
Fixpoint import_file (e : env) (fuel : nat) (path : string) : R unit :=
  match fuel with
  | O => diverge
  | S fuel' =>
      s <~ get ;;
      match protos s !! path with
      | Some _ => ret tt
      | None =>
          r <~ proto_file e path ;;
          match r with
          | inl err => panic (PError (EWrap ("get proto file for import " +:+ path) err))
          | inr g =>
              t <~ deref (root g) ;;
              visit (import_file e fuel') (mkVisitor None "" false) (root g) t ;;;
              ret tt
          end
      end
  end.

(** Registry.demarkFile, registry.go:57-70; [Some err] is a returned error. *)
Definition demark_file (e : env) (fuel : nat) (path : string) : R (option error) :=
  r <~ proto_file e path ;;
  match r with
  | inl err => ret (Some err)
  | inr g =>
      t <~ deref (root g) ;;
      visit (import_file e fuel) (mkVisitor (Some (root g)) "" false) (root g) t ;;;
      ret None
  end.

(** Registry.Proto, registry.go:38-55: an error or a new File object (line 42). *)
Definition new_file (g : nat) : R node := a <~ alloc ;; ret (NAst KFile a (root g)).

Definition proto (e : env) (fuel : nat) (path : string) : R (error + node) :=
  s <~ get ;;
  match protos s !! path with                              (* i = 0 *)
  | Some g => f <~ new_file g ;; ret (inr f)
  | None =>
      r <~ demark_file e fuel path ;;
      match r with
      | Some err => ret (inl (EWrap ("resolve proto file " +:+ path) err))
      | None =>
          s' <~ get ;;
          match protos s' !! path with                     (* i = 1 *)
          | Some g => f <~ new_file g ;; ret (inr f)
          | None => ret (inl (ENew "proto file not found"))       (* line 54 *)
          end
      end
  end.

Definition descriptor_path : string := "google/protobuf/descriptor.proto".

(** NewRegistry, registry.go:22-36: an error or the registry (the final state). *)
Definition new_registry (e : env) (fuel : nat) : outcome (error + registry) :=
  match demark_file e fuel descriptor_path empty_registry with
  | (Ret None, s) => Ret (inr s)
  | (Ret (Some err), _) => Ret (inl (EWrap "set up proto descriptor" err))
  | (Panic m, _) => Panic m
  | (Diverge, _) => Diverge
  end.
