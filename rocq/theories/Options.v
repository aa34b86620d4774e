(** * Options and option values.
    Models internal/core/ast_option.go, ast_option_value.go, the option part of
    registry_meta.go and registry_simple.go, and the Everything iterators. *)
From Verif Require Export Api.

(** ** newOption and friends *)

(** ast_option.go:112-121 *)
Definition opts_file := ".google.protobuf.FileOptions".
Definition opts_message := ".google.protobuf.MessageOptions".
Definition opts_field := ".google.protobuf.FieldOptions".
Definition opts_enum := ".google.protobuf.EnumOptions".
Definition opts_enum_value := ".google.protobuf.EnumValueOptions".
Definition opts_oneof := ".google.protobuf.OneofOptions".
Definition opts_service := ".google.protobuf.ServiceOptions".
Definition opts_method := ".google.protobuf.MethodOptions".

(** r.registry[className].( *proto.Message ), registry.go:106-136 and ast_option.go:75, 93 *)
Definition option_class (class_name : string) : R ptr :=
  s <~ get ;;
  match names s !! class_name with
  | None => panic (conversion "proto.Visitee" "<nil>" "*proto.Message")
  | Some p =>
      t <~ deref p ;;
      match t_data t with
      | DMessage _ _ => ret p
      | d => panic (conversion "proto.Visitee" (go_proto d) "*proto.Message")
      end
  end.

(** the fallback loop of newOption, ast_option.go:26-38 *)
Definition builtin_option_field (class : ptr) (name : string) : R (option ptr) :=
  kids <~ kids_of class ;;
  ret (find_kid (fun d => match d with
                          | DNormalField n _ _ _ _ => String.eqb n name
                          | _ => false end) kids).

(** newOption, ast_option.go:18-51; [option] is the pointer to the proto.Option *)
Definition new_option (scope : string) (class option : ptr) : R optn :=
  t <~ deref option ;;
  match t_data t with
  | DOption oname _ =>
      '(name, ok) <~ resolve scope (strip_parens oname) ;;
      field <~ (if ok : bool then
                  s <~ get ;;
                  match names s !! name with
                  | None => panic (conversion "proto.Visitee" "<nil>" "*proto.NormalField")
                  | Some f =>
                      u <~ deref f ;;
                      match t_data u with
                      | DNormalField _ _ _ _ _ => ret (Some f)
                      | d => panic (conversion "proto.Visitee" (go_proto d) "*proto.NormalField")
                      end
                  end
                else builtin_option_field class oname) ;;
      match field with
      | None => panic "option field not found"
      | Some f => a <~ alloc ;; ret (mkOptn a option class f)
      end
  | _ => forged
  end.

(** Option.Name, ast_option.go:53-63 *)
Definition option_name (o : optn) : R string :=
  if bool_decide (parent_ptr (o_field o) = Some (o_class o)) then
    s <~ get ;;
    f <~ deref (o_field o) ;;
    ret ("(" +:+ scope_of s (VPtr (o_class o)) +:+ ")" +:+ "." +:+ data_name (t_data f))
  else
    t <~ deref (o_proto o) ;;
    match t_data t with DOption n _ => ret n | _ => forged end.

(** Option.Is, ast_option.go:70-72 *)
Definition option_is (o : optn) (name : string) : R bool :=
  w <~ wrap (VPtr (o_field o)) ;;
  idx <~ (match w with Some n => node_index n | None => ret "" end) ;;
  ret (String.eqb idx name).

Definition is_option (d : data) : bool := match d with DOption _ _ => true | _ => false end.

(** seqOptions, ast_option.go:74-90: the class is looked up before the iteration starts *)
Definition pick_option (scope : string) (class : ptr) (kid : ptr * tree) : R (option optn) :=
  if is_option (t_data kid.2) then o <~ new_option scope class kid.1 ;; ret (Some o)
  else ret None.
Definition seq_options (scope class_name : string) (p : ptr) : R (seq optn) :=
  class <~ option_class class_name ;;
  ret (iter_kids p (pick_option scope class)).

(** namedOption, ast_option.go:92-110 *)
Definition named_option (name scope class_name : string) (p : ptr) : R (option optn) :=
  class <~ option_class class_name ;;
  kids <~ kids_of p ;;
  match find_kid (fun d => match d with DOption n _ => String.eqb n name | _ => false end) kids with
  | Some q => o <~ new_option scope class q ;; ret (Some o)
  | None => ret None
  end.

(** Registry.Options, registry_meta.go:246-282 *)
Definition options (n : node) : R (seq optn) :=
  s <~ get ;;
  match n with
  | NAst KFile _ p => pkg <~ file_package p ;; seq_options pkg opts_file p
  | NAst KMessage _ p => seq_options (scope_of s (VPtr p)) opts_message p
  | NAst KField _ p =>
      t <~ deref p ;;
      match t_data t with
      | DNormalField _ _ _ _ _ => seq_options (scope_of s (VPtr p)) opts_field p
      | DOneof _ => seq_options (scope_of s (VPtr p)) opts_oneof p
      | DMapField _ _ _ _ => seq_options (scope_of s (VPtr p)) opts_field p
      | _ => panic (PError (ENew ("unsupported payload type: " +:+ go_node n)))
      end
  | NAst KEnum _ p => seq_options (scope_of s (VPtr p)) opts_enum p
  | NAst KEnumValue _ p => seq_options (scope_of s (VPtr p)) opts_enum_value p
  | NAst KOneOf _ p => seq_options (scope_of s (VPtr p)) opts_oneof p
  | NAst KService _ p => seq_options (scope_of s (VPtr p)) opts_service p
  | NAst KMethod _ p => seq_options (scope_of s (VPtr p)) opts_method p
  | _ => panic (PError (ENew ("unsupported node type: " +:+ go_node n)))
  end.

(** Registry.OptionNamed, registry_meta.go:284-320 (line 293 tests for *proto.Message, so a
    NormalField payload falls into the default case, line 300) *)
Definition option_named (n : node) (name : string) : R (option optn) :=
  s <~ get ;;
  match n with
  | NAst KFile _ p => pkg <~ file_package p ;; named_option name pkg opts_file p
  | NAst KMessage _ p => named_option name (scope_of s (VPtr p)) opts_message p
  | NAst KField _ p =>
      t <~ deref p ;;
      match t_data t with
      | DMessage _ _ => named_option name (scope_of s (VPtr p)) opts_field p
      | DOneof _ => named_option name (scope_of s (VPtr p)) opts_oneof p
      | DMapField _ _ _ _ => named_option name (scope_of s (VPtr p)) opts_field p
      | _ => panic (PError (ENew ("unsupported payload type: " +:+ go_node n)))
      end
  | NAst KEnum _ p => named_option name (scope_of s (VPtr p)) opts_enum p
  | NAst KEnumValue _ p => named_option name (scope_of s (VPtr p)) opts_enum_value p
  | NAst KOneOf _ p => named_option name (scope_of s (VPtr p)) opts_oneof p
  | NAst KService _ p => named_option name (scope_of s (VPtr p)) opts_service p
  | NAst KMethod _ p => named_option name (scope_of s (VPtr p)) opts_method p
  | _ => panic (PError (ENew ("unsupported node type: " +:+ go_node n)))
  end.

(** Registry.wrapOption, registry_types.go:209-211 *)
Definition wrap_option (option class : ptr) : R optn :=
  s <~ get ;; new_option (scope_of s (VPtr option)) class option.

(** The Everything iterators: File (ast_file.go:180-194), Message (ast_message.go:205-219),
    Enum (ast_enum.go:67-82), Service (ast_service.go:62-76). *)
Definition pick_any (class_name : string) (kid : ptr * tree) : R (option (option node)) :=
  if is_option (t_data kid.2) then
    class <~ option_class class_name ;;
    o <~ wrap_option kid.1 class ;; ret (Some (Some (NOption o)))
  else w <~ wrap (VPtr kid.1) ;; ret (Some w).
Definition file_everything (p : ptr) : seq (option node) := iter_kids p (pick_any opts_file).
Definition message_everything (p : ptr) : seq (option node) := iter_kids p (pick_any opts_message).
Definition enum_everything (p : ptr) : seq (option node) := iter_kids p (pick_any opts_enum).
Definition service_everything (p : ptr) : seq (option node) := iter_kids p (pick_any opts_service).

(** Method.Options, ast_service.go:95-108 *)
Definition pick_method_option (kid : ptr * tree) : R (option optn) :=
  if is_option (t_data kid.2) then
    class <~ option_class opts_method ;;
    o <~ wrap_option kid.1 class ;; ret (Some o)
  else ret None.
Definition method_options (p : ptr) : seq optn := iter_kids p pick_method_option.

(** ** Option values *)

Definition is_signed_type (typ : string) : bool :=
  bool_decide (typ ∈ ["int32"; "sint32"; "sfixed32"; "int64"; "sint64"; "sfixed64"]).
(** line 53: the names are misspelled in the source *)
Definition is_unsigned_type (typ : string) : bool :=
  bool_decide (typ ∈ ["uin32"; "fixed32"; "uin64"; "fixed64"]).
Definition is_float_type (typ : string) : bool := bool_decide (typ ∈ ["float"; "double"]).

(** buildFromLiteral, ast_option_value.go:14-131.  [opt] is the option argument (nil for nested
    values), [field] the pointer to the proto.NormalField. *)
Fixpoint build (fl : floatlib) (opt : option ptr) (field : ptr) (lit : literal)
    (ignore_repeat : bool) {struct lit} : R oval :=
  let 'Lit lpos src arr omap := lit in
  ft <~ deref field ;;
  match t_data ft with
  | DNormalField _ typ _ repeated _ =>
      if repeated && negb ignore_repeat then                     (* lines 15-26 *)
        vs <~ (fix go (l : list literal) : R (list oval) :=
                 match l with
                 | [] => ret []
                 | x :: l' =>
                     v <~ build fl None field x true ;; vs <~ go l' ;; ret (v :: vs)
                 end) arr ;;
        a <~ alloc ;;
        ret (OVArray (mkHdr a opt None) vs)
      else if String.eqb typ "bool" then                         (* lines 29-40 *)
        match parse_bool src with
        | None => panic (PError (EWrap "convert literal to bool" (num_error "ParseBool" src FSyntax)))
        | Some b => a <~ alloc ;; ret (OVBool (mkHdr a opt (Some lit)) b)
        end
      else if is_signed_type typ then                            (* lines 41-52 *)
        match atoi src with
        | None => panic (PError (EWrap "convert literal to int" (num_error "Atoi" src (atoi_fault src))))
        | Some z => a <~ alloc ;; ret (OVInt (mkHdr a opt (Some lit)) z)
        end
      else if is_unsigned_type typ then                          (* lines 53-64 *)
        match parse_uint src with
        | None => panic (PError (EWrap "convert literal to uint" (num_error "ParseUint" src
                    (default FSyntax (parse_uint_fault src)))))
        | Some n => a <~ alloc ;; ret (OVUint (mkHdr a opt (Some lit)) n)
        end
      else if is_float_type typ then                             (* lines 65-76 *)
        match fl_parse fl src with
        | None => panic (PError (EWrap "convert literal to float" (fl_error fl src)))
        | Some f => a <~ alloc ;; ret (OVFloat (mkHdr a opt (Some lit)) f)
        end
      else if String.eqb typ "string" then                       (* lines 77-84 *)
        a <~ alloc ;; ret (OVString (mkHdr a opt (Some lit)) src)
      else if String.eqb typ "bytes" then                        (* lines 85-92 *)
        a <~ alloc ;; ret (OVBytes (mkHdr a opt (Some lit)) (String.list_ascii_of_string src))
      else
        ty <~ get_type_by_name field typ ;;                      (* line 95 *)
        match ty with
        | Some (NAst KEnum _ ep) =>                              (* lines 96-107 *)
            ev <~ enum_value ep src ;;
            match ev with
            | Some (NAst KEnumValue ea vp) =>
                a <~ alloc ;; ret (OVEnum (mkHdr a opt (Some lit)) ea vp)
            | Some _ => forged
            | None => panic (PError (ENew ("unknown enum " +:+ typ +:+ " value " +:+ src)))
            end
        | Some (NAst KMessage _ mp) =>                           (* lines 108-127 *)
            items <~ (fix go (l : list (string * literal)) : R (list (string * oval)) :=
                        match l with
                        | [] => ret []
                        | (key, x) :: l' =>
                            f <~ message_field mp key ;;
                            match f with
                            | Some (NAst KField _ fp) =>
                                fd <~ deref fp ;;
                                match t_data fd with
                                | DNormalField _ _ _ _ _ =>
                                    v <~ build fl None fp x false ;;
                                    vs <~ go l' ;;
                                    ret ((key, v) :: vs)
                                | d => panic (conversion "proto.Visitee" (go_proto d) "*proto.NormalField")
                                end
                            | Some _ => forged
                            | None =>
                                mname <~ node_name mp ;;
                                panic (PError (ENew ("unknown message " +:+ mname +:+ " field " +:+ key)))
                            end
                        end) omap ;;
            a <~ alloc ;;
            ret (OVMap (mkHdr a opt (Some lit)) items)
        | _ => panic (PError (ENew ("unknown field type: " +:+ typ)))                        (* lines 128-130 *)
        end
  | _ => forged
  end.

(** Option.Value, ast_option.go:65-67 *)
Definition option_value (fl : floatlib) (o : optn) : R oval :=
  t <~ deref (o_proto o) ;;
  match t_data t with
  | DOption _ constant => build fl (Some (o_proto o)) (o_field o) constant false
  | _ => forged
  end.

(** The String methods, ast_option_value.go:220-277 *)
Fixpoint render (fl : floatlib) (v : oval) : R string :=
  match v with
  | OVBool _ b => ret (format_bool b)
  | OVInt _ z => ret (itoa z)
  | OVUint _ n => ret (format_uint n)
  | OVFloat _ f => ret (fl_format fl f)
  | OVString _ s => ret s
  | OVBytes _ l => ret (sprint_bytes l)
  | OVEnum _ _ p =>                                              (* lines 244-246 *)
      match parent_ptr p with
      | None => panic (conversion "proto.Visitee" "<nil>" "*proto.Enum")
      | Some e =>
          et <~ deref e ;;
          match t_data et with
          | DEnum en => t <~ deref p ;; ret (en +:+ "." +:+ data_name (t_data t))
          | d => panic (conversion "proto.Visitee" (go_proto d) "*proto.Enum")
          end
      end
  | OVArray _ l =>                                               (* lines 248-260 *)
      xs <~ (fix go (l : list oval) : R (list string) :=
               match l with
               | [] => ret []
               | x :: l' => y <~ render fl x ;; ys <~ go l' ;; ret (y :: ys)
               end) l ;;
      ret ("[" +:+ join_with ", " xs +:+ "]")
  | OVMap _ l =>                                                 (* lines 262-277 *)
      xs <~ (fix go (l : list (string * oval)) : R (list string) :=
               match l with
               | [] => ret []
               | (k, x) :: l' =>
                   y <~ render fl x ;; ys <~ go l' ;; ret ((k +:+ ": " +:+ y) :: ys)
               end) l ;;
      ret ("{" +:+ join_with ", " xs +:+ "}")
  end.

(** ** go_package, registry_simple.go:36-94 *)

Record go_package_opt := mkGoPkg { gp_path : string; gp_name : string }.

(** GoPackageOption, lines 36-63; nil is [None] *)
Definition go_package_option (n : node) : R (option go_package_opt) :=
  match n with
  | NOption o =>
      s <~ get ;;
      match names s !! ".google.protobuf.FileOptions.go_package" with
      | None => panic (PError (ENew "no go_package option detected in registry"))
      | Some sample =>
          if negb (bool_decide (o_field o = sample)) then ret None
          else
            t <~ deref (o_proto o) ;;
            match t_data t with
            | DOption _ constant =>
                let source := lit_source constant in
                match index_byte ";"%char source with
                | None => ret (Some (mkGoPkg source ""))
                | Some i => ret (Some (mkGoPkg (str_take i source) (str_drop (S i) source)))
                end
            | _ => forged
            end
      end
  | _ => ret None
  end.

(** IsValid, lines 92-94 *)
Definition go_package_valid (g : go_package_opt) : bool :=
  negb (String.eqb (gp_path g) "") && negb (String.eqb (gp_name g) "").

(** GoPackage, lines 65-85; the loop body is the consumer of File.Everything *)
Definition go_package (n : node) : R (option go_package_opt) :=
  f <~ node_file n ;;
  match f with
  | None => ret None
  | Some (NAst KFile _ p) =>
      file_everything p (option go_package_opt) None (fun c a =>
        match a with
        | Some (NOption o) =>
            nm <~ option_name o ;;
            if negb (String.eqb nm "(.google.protobuf.FileOptions).go_package") then ret (c, true)
            else r <~ go_package_option (NOption o) ;; ret (r, false)
        | _ => ret (c, true)
        end)
  | Some _ => forged
  end.
