(** * The assertions of protoast_test.go replayed on the model: tests of the model, not theorems. *)
From Verif Require Import Demo.

(** protoast_test.go:31-40: imports of data.proto *)
Example demo_imports :
  demo (fun p => ns <~ collect (file_imports p) ;; mapR (fun n => node_name (ptr_of n)) ns)
  = Ret ["meta.proto"; any_f].
Proof. vm_compute. reflexivity. Qed.

(** protoast_test.go:43-60: file options, their identity and values *)
Example demo_file_options :
  demo (fun p => sq <~ options (NAst KFile 0 p) ;; os <~ collect sq ;;
                 mapR (fun o => n <~ option_name o ;; v <~ option_value no_float o ;;
                                str <~ render no_float v ;; ret (n, str)) os)
  = Ret [("(.google.protobuf.FileOptions).go_package", "gopkg/pb;pb");
         ("(pb.file_tag)", "file.tag")].
Proof. vm_compute. reflexivity. Qed.

(** protoast_test.go:222-231: field types by identity *)
Example demo_field_types :
  demo (fun p => m <~ file_message p "Message" ;;
                 match m with
                 | None => panic "no message"
                 | Some m =>
                     fs <~ collect (message_fields (ptr_of m)) ;;
                     mapR (fun n => match n with
                                    | NAst k a q => nm <~ node_name q ;; ty <~ field_type a q ;;
                                        tn <~ (match ty with
                                               | Some t => recover (type_name t)
                                               | None => ret (inl (PText "nil")) end) ;;
                                        ret (nm, tn)
                                    | _ => panic "x" end) fs
                 end)
  = Ret [("i32", inr "int32"); ("u32", inr "uint32"); ("bools", inr "repeated bool");
         ("any", inr ".google.protobuf.Any"); ("local_msg", inr ".pb.EnumValuePayload");
         ("inner_msg", inr ".pb.Message.InnerMessage"); ("local_enum", inr ".pb.Enum");
         ("inner_enum", inr ".pb.Message.InnerEnum"); ("map_field", inl (PText "unsupported type *core.Map"));
         ("payload", inr "oneof")].
Proof. vm_compute. reflexivity. Qed.

(** protoast_test.go:80-109: enum options and enum value options *)
Example demo_enum_options :
  demo (fun p => e <~ file_enum p "Enum" ;;
                 match e with
                 | None => panic "no enum"
                 | Some e =>
                     sq <~ options e ;; os <~ collect sq ;;
                     vs <~ mapR (option_value no_float) os ;; r1 <~ mapR (render no_float) vs ;;
                     v1 <~ enum_value (ptr_of e) "ENUM_VALUE_1" ;;
                     match v1 with
                     | Some v1 => sq <~ options v1 ;; os <~ collect sq ;;
                                  vs <~ mapR (option_value no_float) os ;;
                                  r2 <~ mapR (render no_float) vs ;; ret (r1, r2)
                     | None => panic "no value"
                     end
                 end)
  = Ret (["[true, false]"], ["{a: 5}"]).
Proof. vm_compute. reflexivity. Qed.

(** protoast_test.go:143-155: method signatures *)
Example demo_methods :
  demo (fun p => sv <~ file_service p "Service" ;;
                 match sv with
                 | None => panic "no service"
                 | Some sv =>
                     ms <~ collect (service_methods (ptr_of sv)) ;;
                     mapR (fun n => i <~ method_input (ptr_of n) ;; o <~ method_output (ptr_of n) ;;
                                    ni <~ node_name (ptr_of i.2) ;; no <~ node_name (ptr_of o.2) ;;
                                    ret (i.1, ni, o.1, no)) ms
                 end)
  = Ret [(false, "Message", false, "InnerMessage"); (false, "EnumValuePayload", true, "Message");
         (true, "InnerMessage", false, "EnumValuePayload")].
Proof. vm_compute. reflexivity. Qed.
