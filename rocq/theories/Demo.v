(** * A concrete world used by examples: the repository's own test schema.

    testdata/data.proto and testdata/meta.proto (which import each other), a small
    google/protobuf/descriptor.proto and any.proto.  DemoTests.v replays the assertions of
    protoast_test.go on it. *)
From Verif Require Export Options Resolvers.

Definition at_line (f : string) (n : Z) : position := mkPos f 0 n 1.
Definition el (f : string) (n : Z) (d : data) (kids : list tree) : tree :=
  T d (at_line f n) None kids.
Definition lit0 (s : string) : literal := Lit zero_pos s [] [].
Definition opt (f : string) (n : Z) (name src : string) : tree :=
  el f n (DOption name (lit0 src)) [].
Definition fld (f : string) (n : Z) (typ name : string) (seq : Z) : tree :=
  el f n (DNormalField name typ seq false false) [].
Definition rfld (f : string) (n : Z) (typ name : string) (seq : Z) : tree :=
  el f n (DNormalField name typ seq true false) [].
Definition msg (f : string) (n : Z) (name : string) (kids : list tree) : tree :=
  el f n (DMessage name false) kids.
Definition extb (f : string) (n : Z) (name : string) (kids : list tree) : tree :=
  el f n (DMessage name true) kids.

Definition desc_f := descriptor_path.
Definition descriptor_elems : list tree :=
  [ el desc_f 1 (DSyntax "proto2") [];
    el desc_f 2 (DPackage "google.protobuf") [];
    msg desc_f 10 "FileOptions"
      [ fld desc_f 11 "string" "java_package" 1; fld desc_f 12 "string" "go_package" 11;
        fld desc_f 13 "bool" "deprecated" 23; el desc_f 14 DExtensions [] ];
    msg desc_f 20 "MessageOptions" [ fld desc_f 21 "bool" "deprecated" 3 ];
    msg desc_f 30 "FieldOptions" [ fld desc_f 31 "bool" "deprecated" 3 ];
    msg desc_f 40 "OneofOptions" [];
    msg desc_f 50 "EnumOptions" [ fld desc_f 51 "bool" "allow_alias" 2 ];
    msg desc_f 60 "EnumValueOptions" [ fld desc_f 61 "bool" "deprecated" 1 ];
    msg desc_f 70 "ServiceOptions" [ fld desc_f 71 "bool" "deprecated" 33 ];
    msg desc_f 80 "MethodOptions" [ fld desc_f 81 "bool" "deprecated" 33 ] ].

Definition any_f := "google/protobuf/any.proto".
Definition any_elems : list tree :=
  [ el any_f 1 (DSyntax "proto3") []; el any_f 2 (DPackage "google.protobuf") [];
    msg any_f 3 "Any" [ fld any_f 4 "string" "type_url" 1; fld any_f 5 "bytes" "value" 2 ] ].

Definition dat_f := "data.proto".
Definition data_elems : list tree :=
  [ el dat_f 1 (DSyntax "proto3") [];
    el dat_f 3 (DPackage "pb") [];
    opt dat_f 5 "go_package" "gopkg/pb;pb";
    el dat_f 7 (DImport "meta.proto") [];
    el dat_f 8 (DImport any_f) [];
    opt dat_f 10 "(pb.file_tag)" "file.tag";
    T (DMessage "Message" false) (at_line dat_f 13) (Some [" Message"])
      [ opt dat_f 14 "(pb.msg_tag)" "message.tag";
        el dat_f 16 (DNormalField "i32" "int32" 1 false false) [ opt dat_f 16 "(pb.field_tag)" "true" ];
        fld dat_f 33 "uint32" "u32" 21;
        rfld dat_f 42 "bool" "bools" 63;
        fld dat_f 44 "google.protobuf.Any" "any" 101;
        fld dat_f 45 "EnumValuePayload" "local_msg" 102;
        fld dat_f 46 "InnerMessage" "inner_msg" 103;
        fld dat_f 47 "Enum" "local_enum" 104;
        fld dat_f 48 "InnerEnum" "inner_enum" 105;
        el dat_f 50 (DMapField "map_field" "string" "bool" 111) [];
        el dat_f 51 (DOneof "payload")
          [ el dat_f 52 (DOneOfField "branch1" "string" 112) [];
            el dat_f 53 (DOneOfField "branch2" "bool" 113) [] ];
        msg dat_f 56 "InnerMessage" [ fld dat_f 57 "bool" "field" 1 ];
        el dat_f 60 (DEnum "InnerEnum")
          [ el dat_f 61 (DEnumField "INNER_ENUM_UNSPECIFIED" 0) [];
            el dat_f 62 (DEnumField "INNER_ENUM_VALUE" 1) [] ] ];
    el dat_f 66 (DService "Service")
      [ opt dat_f 67 "(pb.service_tag)" "true";
        el dat_f 69 (DRPC "MethodUU" "Message" false "Message.InnerMessage" false)
          [ opt dat_f 70 "(pb.method_tag)" "false" ];
        el dat_f 73 (DRPC "MethodUS" "EnumValuePayload" false "Message" true) [];
        el dat_f 74 (DRPC "MethodSU" "Message.InnerMessage" true "EnumValuePayload" false) [] ];
    msg dat_f 78 "EnumValuePayload" [ fld dat_f 79 "int32" "a" 1 ];
    el dat_f 82 (DEnum "Enum")
      [ el dat_f 83 (DOption "(pb.enum_tag)"
                       (Lit zero_pos "" [lit0 "true"; lit0 "false"] [])) [];
        el dat_f 85 (DEnumField "ENUM_UNSPECIFIED" 0) [];
        el dat_f 86 (DEnumField "ENUM_VALUE_1" 1)
          [ el dat_f 86 (DOption "(pb.enum_value_tag)"
                           (Lit (at_line dat_f 86) "" [] [("a", Lit (at_line dat_f 86) "5" [] [])])) [] ];
        el dat_f 87 (DEnumField "ENUM_VALUE_2" 2) [] ] ].

Definition meta_f := "meta.proto".
Definition meta_elems : list tree :=
  [ el meta_f 1 (DSyntax "proto3") [];
    el meta_f 3 (DPackage "pb") [];
    opt meta_f 5 "go_package" "gopkg/pb;pb";
    el meta_f 7 (DImport desc_f) [];
    el meta_f 8 (DImport "data.proto") [];
    extb meta_f 10 "google.protobuf.FileOptions" [ fld meta_f 11 "string" "file_tag" 51111 ];
    extb meta_f 14 "google.protobuf.MessageOptions" [ fld meta_f 15 "string" "msg_tag" 51111 ];
    extb meta_f 18 "google.protobuf.FieldOptions" [ fld meta_f 19 "bool" "field_tag" 51234 ];
    extb meta_f 22 "google.protobuf.EnumOptions" [ rfld meta_f 23 "bool" "enum_tag" 51111 ];
    extb meta_f 26 "google.protobuf.EnumValueOptions"
      [ fld meta_f 27 "EnumValuePayload" "enum_value_tag" 51111 ];
    extb meta_f 34 "google.protobuf.ServiceOptions" [ fld meta_f 35 "bool" "service_tag" 51111 ];
    extb meta_f 38 "google.protobuf.MethodOptions" [ fld meta_f 39 "bool" "method_tag" 51111 ] ].

(** the error of os.Stat for a file that is not there *)
Definition not_exist : error := EForeign "no such file or directory" [err_not_exist].

(** An environment from a finite table of files; one resolver that knows exactly these paths. *)
Fixpoint table_get (tab : list (string * list tree)) (path : string) : option (list tree) :=
  match tab with
  | [] => None
  | (k, v) :: tab' => if String.eqb k path then Some v else table_get tab' path
  end.
Definition table_env (tab : list (string * list tree)) : env :=
  mkEnv [("table", fun path => match table_get tab path with
                               | Some _ => RName path
                               | None => RError not_exist end)]
        (fun name path => if negb (String.eqb name path) then inl not_exist else
                          match table_get tab path with
                          | Some els => inr els
                          | None => inl not_exist end).

Definition std_files : list (string * list tree) :=
  [ (desc_f, descriptor_elems); (any_f, any_elems) ].
Definition demo_files : list (string * list tree) :=
  (std_files ++ [ (dat_f, data_elems); (meta_f, meta_elems) ])%list.
Definition demo_env : env := table_env demo_files.

(** Start a registry over a table, run a computation. *)
Definition run {A} (tab : list (string * list tree)) (m : R A) : outcome A :=
  match new_registry (table_env tab) 50 with
  | Ret (inr s) => (m s).1
  | Ret (inl e) => Panic (PError e)
  | Panic e => Panic e
  | Diverge => Diverge
  end.

(** helper: Proto that must succeed, giving the file's AST pointer *)
Definition load (tab : list (string * list tree)) (path : string) : R ptr :=
  r <~ proto (table_env tab) 50 path ;;
  match r with
  | inr (NAst KFile _ p) => ret p
  | _ => panic "load failed"
  end.

Definition demo {A} (k : ptr -> R A) : outcome A :=
  run demo_files (p <~ load demo_files dat_f ;; k p).

Definition no_float : floatlib := mkFloatlib (fun _ => None) (fun _ => "") (fun x => num_error "ParseFloat" x FSyntax).

Definition ptr_of (n : node) : ptr :=
  match n with NAst _ _ p => p | _ => (0, []) end.

Fixpoint mapR {A B} (f : A -> R B) (l : list A) : R (list B) :=
  match l with
  | [] => ret []
  | x :: l' => y <~ f x ;; ys <~ mapR f l' ;; ret (y :: ys)
  end.

(** the assumption on parser output holds of all demo files *)
Example demo_wf : forallb (fun f => parser_output f.1 f.2) demo_files = true.
Proof. vm_compute. reflexivity. Qed.
