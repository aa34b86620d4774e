(** * The query API: types, iterators, lookups, navigation, metadata.
    Models internal/core/registry_types.go, registry_meta.go, registry_simple.go and the
    ast_*.go files (options and option values are in Options.v).

    Methods take the proto pointer of their receiver.  Go's static types exclude receivers of
    the wrong kind; the model answers [Panic "forged node"] there. *)
From Verif Require Export Registry.

Definition forged {A} : R A := panic "forged node".

(** the run-time error of a nil dereference *)
Definition nil_dereference : payload :=
  PError (ENew "runtime error: invalid memory address or nil pointer dereference").

(** ** Builtin types *)

(** builtinComparableType, registry_types.go:226-259 *)
Definition builtin_comparable (name : string) : option builtin :=
  if String.eqb name "float" then Some BFloat
  else if String.eqb name "double" then Some BDouble
  else if String.eqb name "int32" then Some BInt32
  else if String.eqb name "int64" then Some BInt64
  else if String.eqb name "uint32" then Some BUint32
  else if String.eqb name "uint64" then Some BUint64
  else if String.eqb name "sint32" then Some BSint32
  else if String.eqb name "sint64" then Some BSint64
  else if String.eqb name "fixed32" then Some BFixed32
  else if String.eqb name "fixed64" then Some BFixed64
  else if String.eqb name "sfixed32" then Some BSfixed32
  else if String.eqb name "sfixed64" then Some BSfixed64
  else if String.eqb name "bool" then Some BBool
  else if String.eqb name "string" then Some BString
  else None.

(** builtinType, registry_types.go:213-224 *)
Definition builtin_type (name : string) : option builtin :=
  match builtin_comparable name with
  | Some b => Some b
  | None => if String.eqb name "bytes" then Some BBytes else None
  end.

(** String methods, ast_builtin.go:48-62 *)
Definition builtin_string (b : builtin) : string :=
  match b with
  | BDouble => "double" | BFloat => "float" | BInt32 => "int32" | BInt64 => "int64"
  | BUint32 => "uint32" | BUint64 => "uint64" | BSint32 => "sint32" | BSint64 => "sint64"
  | BFixed32 => "fixed32" | BFixed64 => "fixed64" | BSfixed32 => "sfixed32"
  | BSfixed64 => "sfixed64" | BBool => "bool" | BString => "string" | BBytes => "bytes"
  end.

(** ** Type resolution *)

(** Which wrapped nodes implement the Type interface: Message and Enum embed isNamedType
    (ast_message.go:13, ast_enum.go:12), EnumValue embeds isType (ast_enum.go:21). *)
Definition implements_type (n : node) : bool :=
  match n with
  | NAst (KMessage | KEnum | KEnumValue | KOneOf | KMap) _ _ => true
  | NBuiltin _ | NRepeated _ _ => true
  | _ => false
  end.

(** the panic of registry_types.go:136 *)
Definition not_a_type (s : registry) (obj : ptr) : payload :=
  PError (ENew ("node " +:+ go_visitee s (VPtr obj) +:+ " does not represent a type")).

(** the body of getTypeByName without its deferred function, registry_types.go:117-136 *)
Definition get_type_body (scopeOf : ptr) (name : string) : R (option node) :=
  match builtin_type name with
  | Some b => ret (Some (NBuiltin b))
  | None =>
      s <~ get ;;
      '(q, ok) <~ resolve (scope_of s (VPtr scopeOf)) name ;;
      if negb ok then ret None
      else match names s !! q with
           | None => ret None
           | Some obj =>
               w <~ wrap (VPtr obj) ;;
               match w with
               | Some n => if implements_type n then ret (Some n)
                           else panic (not_a_type s obj)
               | None => panic (not_a_type s obj)
               end
           end
  end.

(** getTypeByName, registry_types.go:106-137, with the deferred Repeated wrapper 107-115 *)
Definition get_type_by_name (scopeOf : ptr) (name : string) : R (option node) :=
  res <~ get_type_body scopeOf name ;;
  t <~ deref scopeOf ;;
  match t_data t with
  | DNormalField _ _ _ true _ => a <~ alloc ;; ret (Some (NRepeated a res))
  | _ => ret res
  end.

(** the switch of MessageField.Type, ast_message.go:243-257 *)
Definition field_type_body (p : ptr) : R (option node) :=
  t <~ deref p ;;
  match t_data t with
  | DNormalField _ typ _ _ _ => get_type_by_name p typ
  | DOneof _ => a <~ alloc ;; ret (Some (NAst KOneOf a p))
  | DMapField _ _ _ _ => a <~ alloc ;; ret (Some (NAst KMap a p))
  | d => panic (PError (ENew ("message came with invalid payload " +:+ go_proto d)))
  end.

(** MessageField.Type, ast_message.go:236-258; the deferred write (240-242) also runs when the
    body panics, with a nil result. *)
Definition field_type (a : N) (p : ptr) : R (option node) :=
  s <~ get ;;
  match ftcache s !! (a, p) with
  | Some res => ret res
  | None => fun s0 =>
      match field_type_body p s0 with
      | (Ret res, s1) => (Ret res, set_ftcache (<[(a, p) := res]> (ftcache s1)) s1)
      | (Panic m, s1) => (Panic m, set_ftcache (<[(a, p) := None]> (ftcache s1)) s1)
      | (Diverge, s1) => (Diverge, s1)
      end
  end.

(** OneOfBranch.Type, ast_oneof.go:59-61 *)
Definition branch_type (p : ptr) : R (option node) :=
  t <~ deref p ;;
  match t_data t with
  | DOneOfField _ typ _ => get_type_by_name p typ
  | _ => forged
  end.

(** Method.Input, ast_service.go:84-87 *)
Definition method_input (p : ptr) : R (bool * node) :=
  t <~ deref p ;;
  match t_data t with
  | DRPC _ req sreq _ _ =>
      ty <~ get_type_by_name p req ;; m <~ assert_kind "core.Type" KMessage ty ;; ret (sreq, m)
  | _ => forged
  end.

(** Method.Output, ast_service.go:90-93 *)
Definition method_output (p : ptr) : R (bool * node) :=
  t <~ deref p ;;
  match t_data t with
  | DRPC _ _ _ rett sret =>
      ty <~ get_type_by_name p rett ;; m <~ assert_kind "core.Type" KMessage ty ;; ret (sret, m)
  | _ => forged
  end.

(** Map.Key, ast_map.go:19-26 *)
Definition map_key (p : ptr) : R builtin :=
  t <~ deref p ;;
  match t_data t with
  | DMapField _ kt _ _ =>
      match builtin_comparable kt with
      | Some b => ret b
      | None => panic (PError (ENew ("key type " +:+ kt +:+ " is not supported in maps")))
      end
  | _ => forged
  end.

(** Map.Value, ast_map.go:29-49 (line 35: the qualified name stays empty when the type already
    starts with a dot) *)
Definition map_value (p : ptr) : R node :=
  t <~ deref p ;;
  match t_data t with
  | DMapField _ _ typ _ =>
      match builtin_type typ with
      | Some b => ret (NBuiltin b)
      | None =>
          let qualified := if negb (has_prefix typ ".") then "." +:+ typ else "" in
          s <~ get ;;
          match names s !! qualified with
          | None => panic (PError (ENew ("value type " +:+ typ +:+ " is not supported in maps")))
          | Some obj =>
              u <~ deref obj ;;
              match t_data u with
              | DMessage _ _ => wrap_as KMessage obj
              | DEnum _ => wrap_as KEnum obj
              | _ => panic (PError (ENew ("value type " +:+ typ +:+ " is not supported in maps")))
              end
          end
      end
  | _ => forged
  end.

(** ** Iterators (iter.Seq) *)

(** An iterator runs a consumer: [yield c x] gets the consumer's state and the element and
    returns the new state and whether to go on.  The consumer may itself use the registry. *)
Definition seq (A : Type) : Type :=
  forall C : Type, C -> (C -> A -> R (C * bool)) -> R C.

(** the common shape: range over a slice, skip or produce an element, yield it *)
Fixpoint iterate {B A : Type} (pick : B -> R (option A)) (l : list B)
    (C : Type) (c : C) (yield : C -> A -> R (C * bool)) : R C :=
  match l with
  | [] => ret c
  | b :: l' =>
      o <~ pick b ;;
      match o with
      | None => iterate pick l' C c yield
      | Some x =>
          '(c', go) <~ yield c x ;;
          if go : bool then iterate pick l' C c' yield else ret c'
      end
  end.

(** range over the elements of [p] with a selection by data *)
Definition iter_kids {A} (p : ptr) (pick : ptr * tree -> R (option A)) : seq A :=
  fun C c yield => kids <~ kids_of p ;; iterate pick kids C c yield.

Definition pick_kind (sel : data -> bool) (k : wkind) (kid : ptr * tree) : R (option node) :=
  if sel (t_data kid.2) then n <~ wrap_as k kid.1 ;; ret (Some n) else ret None.

Definition is_import (d : data) := match d with DImport _ => true | _ => false end.
Definition is_message (d : data) := match d with DMessage _ false => true | _ => false end.
Definition is_enum (d : data) := match d with DEnum _ => true | _ => false end.
Definition is_service (d : data) := match d with DService _ => true | _ => false end.
Definition is_field (d : data) :=
  match d with
  | DNormalField _ _ _ _ _ | DOneof _ | DMapField _ _ _ _ => true
  | _ => false
  end.
Definition is_enum_field (d : data) := match d with DEnumField _ _ => true | _ => false end.
Definition is_rpc (d : data) := match d with DRPC _ _ _ _ _ => true | _ => false end.
Definition is_oneof_field (d : data) := match d with DOneOfField _ _ _ => true | _ => false end.

(** File.Imports, ast_file.go:34-46 *)
Definition file_imports (p : ptr) : seq node := iter_kids p (pick_kind is_import KImport).
(** File.Messages, ast_file.go:49-60 *)
Definition file_messages (p : ptr) : seq node := iter_kids p (pick_kind is_message KMessage).
(** File.Enums, ast_file.go:75-86 *)
Definition file_enums (p : ptr) : seq node := iter_kids p (pick_kind is_enum KEnum).
(** File.Types, ast_file.go:103-123 *)
Definition pick_type (kid : ptr * tree) : R (option node) :=
  match t_data kid.2 with
  | DMessage _ false => n <~ wrap_as KMessage kid.1 ;; ret (Some n)
  | DEnum _ => n <~ wrap_as KEnum kid.1 ;; ret (Some n)
  | _ => ret None
  end.
Definition file_types (p : ptr) : seq node := iter_kids p pick_type.
(** File.Services, ast_file.go:148-161 *)
Definition file_services (p : ptr) : seq node := iter_kids p (pick_kind is_service KService).
(** Message.Fields, ast_message.go:36-55 *)
Definition message_fields (p : ptr) : seq node := iter_kids p (pick_kind is_field KField).
(** Message.Messages, ast_message.go:88-103 *)
Definition message_messages (p : ptr) : seq node := iter_kids p (pick_kind is_message KMessage).
(** Message.Types, ast_message.go:156-177 *)
Definition message_types (p : ptr) : seq node := iter_kids p pick_type.
(** Enum.Enums, ast_message.go:126-137 (declared on Enum, not on Message) *)
Definition enum_enums (p : ptr) : seq node := iter_kids p (pick_kind is_enum KEnum).
(** Enum.Values, ast_enum.go:32-46 *)
Definition enum_values (p : ptr) : seq node := iter_kids p (pick_kind is_enum_field KEnumValue).
(** Service.Methods, ast_service.go:28-41 *)
Definition service_methods (p : ptr) : seq node := iter_kids p (pick_kind is_rpc KMethod).
(** OneOf.Branches, ast_oneof.go:24-37 *)
Definition oneof_branches (p : ptr) : seq node := iter_kids p (pick_kind is_oneof_field KBranch).

(** slices.Collect *)
Definition collect {A} (q : seq A) : R (list A) :=
  q (list A) [] (fun c x => ret ((c ++ [x])%list, true)).

(** ** Lookups by name *)

Fixpoint find_kid (sel : data -> bool) (l : list (ptr * tree)) : option ptr :=
  match l with
  | [] => None
  | (p, t) :: l' => if sel (t_data t) then Some p else find_kid sel l'
  end.

Definition lookup_kid (p : ptr) (sel : data -> bool) (k : wkind) : R (option node) :=
  kids <~ kids_of p ;;
  match find_kid sel kids with
  | Some q => n <~ wrap_as k q ;; ret (Some n)
  | None => ret None
  end.

(** File.Message, ast_file.go:63-72 (no test of IsExtend) *)
Definition file_message (p : ptr) (name : string) : R (option node) :=
  lookup_kid p (fun d => match d with DMessage n _ => String.eqb n name | _ => false end) KMessage.
(** File.Enum, ast_file.go:89-100; Enum.Enum, ast_message.go:140-153 *)
Definition enum_sel (name : string) (d : data) : bool :=
  match d with DEnum n => String.eqb n name | _ => false end.
Definition file_enum (p : ptr) (name : string) : R (option node) :=
  lookup_kid p (enum_sel name) KEnum.
Definition enum_enum (p : ptr) (name : string) : R (option node) :=
  lookup_kid p (enum_sel name) KEnum.
(** the wrapped result of a lookup that can be a message or an enum *)
Definition lookup_type (p : ptr) (sel : data -> bool) : R (option node) :=
  kids <~ kids_of p ;;
  match find_kid sel kids with
  | Some q =>
      t <~ deref q ;;
      match t_data t with
      | DEnum _ => n <~ wrap_as KEnum q ;; ret (Some n)
      | _ => n <~ wrap_as KMessage q ;; ret (Some n)
      end
  | None => ret None
  end.
(** File.Type, ast_file.go:126-146 (no test of IsExtend) *)
Definition file_type (p : ptr) (name : string) : R (option node) :=
  lookup_type p (fun d => match d with
                          | DMessage n _ => String.eqb n name
                          | DEnum n => String.eqb n name
                          | _ => false end).
(** File.Service, ast_file.go:163-178 *)
Definition file_service (p : ptr) (name : string) : R (option node) :=
  lookup_kid p (fun d => match d with DService n => String.eqb n name | _ => false end) KService.
(** Message.Field, ast_message.go:58-85 *)
Definition field_sel (name : string) (d : data) : bool :=
  match d with
  | DNormalField n _ _ _ _ | DOneof n | DMapField n _ _ _ => String.eqb n name
  | _ => false
  end.
Definition message_field (p : ptr) (name : string) : R (option node) :=
  lookup_kid p (field_sel name) KField.
(** Message.Message, ast_message.go:106-123 *)
Definition message_message (p : ptr) (name : string) : R (option node) :=
  lookup_kid p (fun d => match d with DMessage n false => String.eqb n name | _ => false end)
    KMessage.
(** Message.Type, ast_message.go:180-202 *)
Definition message_type (p : ptr) (name : string) : R (option node) :=
  lookup_type p (fun d => match d with
                          | DMessage n false => String.eqb n name
                          | DEnum n => String.eqb n name
                          | _ => false end).
(** Enum.Value, ast_enum.go:49-64 *)
Definition enum_value (p : ptr) (name : string) : R (option node) :=
  lookup_kid p (fun d => match d with DEnumField n _ => String.eqb n name | _ => false end)
    KEnumValue.
(** Service.Method, ast_service.go:44-59 *)
Definition service_method (p : ptr) (name : string) : R (option node) :=
  lookup_kid p (fun d => match d with DRPC n _ _ _ _ => String.eqb n name | _ => false end)
    KMethod.
(** OneOf.Branch, ast_oneof.go:40-55 *)
Definition oneof_branch (p : ptr) (name : string) : R (option node) :=
  lookup_kid p (fun d => match d with DOneOfField n _ _ => String.eqb n name | _ => false end)
    KBranch.

(** ** Plain accessors *)

Definition data_name (d : data) : string :=
  match d with
  | DMessage n _ | DNormalField n _ _ _ _ | DOneof n | DOneOfField n _ _ | DMapField n _ _ _
  | DEnum n | DEnumField n _ | DService n | DRPC n _ _ _ _ | DPackage n => n
  | DProto f => f
  | DImport f => f
  | DSyntax v => v
  | _ => ""
  end.

(** Name of File (ast_file.go:17), Message (ast_message.go:27), MessageField
    (ast_message.go:222-233), Enum, EnumValue (ast_enum.go:27, 84), OneOfBranch
    (ast_oneof.go:57), Service, Method (ast_service.go:23, 79); Import.Path (ast_import.go:14),
    Package.Package (ast_package.go:13), Syntax.Value (ast_syntax.go:15). *)
Definition node_name (p : ptr) : R string := t <~ deref p ;; ret (data_name (t_data t)).

(** File.Package, ast_file.go:22-31 *)
Fixpoint package_of (els : list tree) : string :=
  match els with
  | [] => ""
  | t :: els' => match t_data t with DPackage n => n | _ => package_of els' end
  end.
Definition file_package (p : ptr) : R string := t <~ deref p ;; ret (package_of (t_kids t)).

(** Message.IsExtension, ast_message.go:31-33 *)
Definition message_is_extension (p : ptr) : R bool :=
  t <~ deref p ;;
  match t_data t with DMessage _ e => ret e | _ => forged end.

(** MessageField.Value, ast_message.go:261-272; EnumValue.Value, ast_enum.go:88-90;
    OneOfBranch.Value, ast_oneof.go:63-65 *)
Definition field_value (p : ptr) : R Z :=
  t <~ deref p ;;
  match t_data t with
  | DNormalField _ _ n _ _ => ret n
  | DMapField _ _ _ n => ret n
  | DOneof _ => panic (PError (ENew "oneof options do not have a value, you need to check field type first"))
  | d => panic (PError (ENew ("message field came with invalid payload " +:+ go_proto d)))
  end.
Definition enum_value_value (p : ptr) : R Z :=
  t <~ deref p ;; match t_data t with DEnumField _ n => ret n | _ => forged end.
Definition branch_value (p : ptr) : R Z :=
  t <~ deref p ;; match t_data t with DOneOfField _ _ n => ret n | _ => forged end.

(** MessageField.Optional, ast_message.go:275-286 *)
Definition field_optional (p : ptr) : R bool :=
  t <~ deref p ;;
  match t_data t with
  | DNormalField _ _ _ _ o => ret o
  | DOneof _ | DMapField _ _ _ _ => ret false
  | d => panic (PError (ENew ("message field came with invalid payload " +:+ go_proto d)))
  end.

(** Reserved.Values, ast_reserved.go:16-49 *)
Inductive reserved_value :=
| RVFrom (from : Z)
| RVSingle (value : Z)
| RVRange (from to : Z)
| RVName (value : string).

Definition reserved_of_range (r : rng) : reserved_value :=
  if r_max r then RVFrom (r_from r)
  else if (r_from r =? r_to r)%Z then RVSingle (r_from r)
  else RVRange (r_from r) (r_to r).

Definition reserved_values (p : ptr) : seq reserved_value :=
  fun C c yield =>
    t <~ deref p ;;
    match t_data t with
    | DReserved rs ns =>
        iterate (fun x => ret (Some x)) (map reserved_of_range rs ++ map RVName ns)%list C c yield
    | _ => forged
    end.

(** ** Names, kinds, comments *)

(** Registry.TypeName, registry_types.go:12-27 *)
Fixpoint type_name (n : node) : R string :=
  match n with
  | NAst KMessage _ p | NAst KEnum _ p => s <~ get ;; ret (scope_of s (VPtr p))
  | NRepeated _ (Some t) => x <~ type_name t ;; ret ("repeated " +:+ x)
  | NAst KOneOf _ _ => ret "oneof"
  | NBuiltin b => ret (builtin_string b)
  | NRepeated _ None => panic "unsupported type <nil>"     (* the recursive call of line 19 *)
  | _ => panic ("unsupported type " +:+ go_node n)
  end.

(** Registry.NodeByFullName, registry_types.go:29-31 *)
Definition node_by_full_name (q : string) : R (option node) :=
  s <~ get ;;
  wrap (match names s !! q with Some p => VPtr p | None => VNil end).

(** Registry.NodeIndex, registry_meta.go:14-48 *)
Definition node_index (n : node) : R string :=
  s <~ get ;;
  match n with
  | NAst (KFile | KMessage | KEnum | KService | KMethod | KField | KEnumValue | KOneOf
         | KBranch | KMap) _ p => ret (scope_of s (VPtr p))
  | _ => ret ""
  end.

(** Registry.NodeDescription, registry_meta.go:50-87 *)
Definition flat_description (n : node) : R string :=
  match n with
  | NAst KFile _ _ => ret "file"
  | NAst KSyntax _ _ => ret "syntax"
  | NAst KPackage _ _ => ret "package"
  | NAst KImport _ _ => ret "import"
  | NOption _ => ret "option"
  | NAst KMessage _ _ => ret "message"
  | NAst KEnum _ _ => ret "enum"
  | NAst KService _ _ => ret "service"
  | NAst KMethod _ _ => ret "method"
  | NAst KField _ _ => ret "message field"
  | NAst KEnumValue _ _ => ret "enum value"
  | NAst KOneOf _ _ => ret "oneof"
  | NAst KBranch _ _ => ret "oneof branch"
  | NAst KReserved _ _ => ret "reserved"
  | _ => panic (PError (ENew ("unsupported node type: " +:+ go_node n)))
  end.
Fixpoint node_description (n : node) : R string :=
  match n with
  | NAst KMap _ p =>                              (* line 79; Key() is never a map *)
      k <~ map_key p ;;
      dk <~ flat_description (NBuiltin k) ;;
      v <~ map_value p ;;
      dv <~ flat_description v ;;
      ret ("map[" +:+ dk +:+ ", " +:+ dv +:+ "] field")
  | NRepeated _ (Some t) => d <~ node_description t ;; ret ("[]" +:+ d)
  | NRepeated _ None => panic (PError (ENew "unsupported node type: <nil>"))     (* the recursive call of line 81 *)
  | _ => flat_description n
  end.

(** Registry.Comment, registry_meta.go:89-159; nil is the empty list *)
Definition comment (n : node) : R (list string) :=
  match n with
  | NAst KFile _ _ => ret []
  | NAst _ _ p => t <~ deref p ;; ret (default [] (t_comment t))
  | _ => ret []
  end.

(** ** Navigation *)

Definition parent_visitee (p : ptr) : visitee :=
  match parent_ptr p with Some q => VPtr q | None => VNil end.

(** Registry.NodeParent, registry_types.go:33-80.  Lines 39-49: the three payloads of a
    MessageField all use their Parent. *)
Fixpoint node_parent (n : node) : R (option node) :=
  match n with
  | NRepeated _ (Some t) => node_parent t
  | NAst KFile _ _ => ret None
  | NAst KMap _ _ => panic ("unsupported node type: " +:+ go_node n)
  | NRepeated _ None => panic "unsupported node type: <nil>"     (* the recursive call of line 36 *)
  | NAst _ _ p => wrap (parent_visitee p)
  | NOption o => wrap (parent_visitee (o_proto o))
  | NValue v =>
      wrap (match ov_option (ov_hdr v) with Some p => VPtr p | None => VNilOption end)
  | _ => panic ("unsupported node type: " +:+ go_node n)
  end.

(** Registry.NodeHierarchy, registry_types.go:82-92: one range over a new iterator.  The function literal
    assigns to the captured variable; ranging again over a kept iterator is in Hierarchy.v. *)
Fixpoint hierarchy_from (fuel : nat) (o : option node)
    (C : Type) (c : C) (yield : C -> node -> R (C * bool)) : R C :=
  match o with
  | None => ret c
  | Some n =>
      match fuel with
      | O => diverge
      | S fuel' =>
          '(c', go) <~ yield c n ;;
          if go : bool then
            par <~ node_parent n ;; hierarchy_from fuel' par C c' yield
          else ret c'
      end
  end.
Definition node_hierarchy (fuel : nat) (n : node) : seq node := hierarchy_from fuel (Some n).

(** a number of steps that is always enough (proved): the depth of the node plus a margin *)
Fixpoint node_fuel (n : node) : nat :=
  match n with
  | NAst _ _ p => 2 + length p.2
  | NRepeated _ (Some t) => S (node_fuel t)
  | NOption o => 3 + length (o_proto o).2
  | NValue v => 4 + match ov_option (ov_hdr v) with Some p => length p.2 | None => 0 end
  | _ => 4
  end.

(** the pos methods: File (ast_file.go:199-204), builtins (ast.go:94), Repeated
    (ast_repeated.go:17), option values (ast_option_value.go:144), all others their Position *)
Fixpoint node_pos (n : node) : R position :=
  match n with
  | NAst KFile _ p =>
      t <~ deref p ;;
      match t_data t with
      | DProto f => ret (mkPos f 0 1 0)
      | _ => forged
      end
  | NAst _ _ p => t <~ deref p ;; ret (t_pos t)
  | NBuiltin _ => ret zero_pos
  | NRepeated _ (Some t) => node_pos t
  | NRepeated _ None => panic nil_dereference
  | NOption o => t <~ deref (o_proto o) ;; ret (t_pos t)
  | NValue v =>
      match ov_option (ov_hdr v) with
      | Some p => t <~ deref p ;; ret (t_pos t)
      | None => panic nil_dereference
      end
  | NMapItem _ _ => panic nil_dereference
  end.

(** Registry.NodeFile, registry_types.go:96-104 *)
Definition node_file (n : node) : R (option node) :=
  ps <~ node_pos n ;;
  s <~ get ;;
  match protos s !! p_file ps with
  | None => ret None
  | Some g => f <~ wrap_as KFile (root g) ;; ret (Some f)
  end.

(** the switch of Registry.Pos, registry_meta.go:178-243 *)
Definition pos_body (n : node) : R position :=
  match n with
  | NAst KFile _ p =>
      t <~ deref p ;;
      match t_data t with DProto f => ret (mkPos f 0 1 0) | _ => forged end
  | NAst _ _ p => t <~ deref p ;; ret (t_pos t)
  | NOption o => t <~ deref (o_proto o) ;; ret (t_pos t)
  | NValue v =>
      match ov_lit (ov_hdr v) with
      | Some l => ret (lit_pos l)
      | None => panic nil_dereference
      end
  | NMapItem _ _ => panic nil_dereference
  | NBuiltin _ | NRepeated _ _ => panic (PError (ENew ("unsupported node type: " +:+ go_node n)))
  end.

(** the deferred function of Registry.Pos, registry_meta.go:162-176 *)
Definition pos_deferred (n : node) (res : position) : R position :=
  if negb (String.eqb (p_file res) "") then ret res
  else
    nodes <~ collect (node_hierarchy (node_fuel n) n) ;;
    match list.last nodes with
    | Some (NAst KFile _ p) =>
        t <~ deref p ;;
        match t_data t with
        | DProto f => ret (mkPos f (p_offset res) (p_line res) (p_col res))
        | _ => forged
        end
    | last => panic (conversion "core.Node" (go_any last) "*core.File")
    end.

(** Registry.Pos, registry_meta.go:161-244: the deferred function also runs when the switch
    panics (then with a zero position) and the panic goes on. *)
Definition pos (n : node) : R position := fun s =>
  match pos_body n s with
  | (Ret res, s1) => pos_deferred n res s1
  | (Panic m, s1) =>
      match pos_deferred n zero_pos s1 with
      | (Ret _, s2) => (Panic m, s2)
      | (Panic m2, s2) => (Panic m2, s2)
      | (Diverge, s2) => (Diverge, s2)
      end
  | (Diverge, s1) => (Diverge, s1)
  end.

(** ** registry_simple.go:9-34 *)
Definition type_is_defined (n : node) (ref : string) : R bool :=
  s <~ get ;;
  match n with
  | NAst KMessage _ p | NAst KEnum _ p => ret (bool_decide (names s !! ref = Some p))
  | _ => ret false
  end.
Definition type_is_any (n : node) := type_is_defined n ".google.protobuf.Any".
Definition type_is_empty (n : node) := type_is_defined n ".google.protobuf.Empty".
Definition type_is_timestamp (n : node) := type_is_defined n ".google.protobuf.Timestamp".
Definition type_is_duration (n : node) := type_is_defined n ".google.protobuf.Duration".
