(** * The program of the README: internal/readme/main.go.

    The governance linter of the README (internal/readme/main.go:10-101) as a client program.  What it
    finds is a list of findings; the text printed for them and the exit code are computed from the list at
    the end ([report]).  A panic of the program (lines 20, 25, 30, 35, 48, 53) is a panic of the model.
    Simplification: what was printed before a panic is not kept. *)
From Verif Require Export Client Routes Resolvers.

(** A line printed by the linter: the value of registry.Pos, of registry.TypeName and, for a method, of
    registry.NodeIndex. *)
Inductive finding :=
| WrongName (at_ : position) (type : string)                  (* main.go:70-75 *)
| MissingStatus (at_ : position) (type method : string).      (* main.go:88-92 *)

(** == between an interface value and a non-nil pointer, main.go:68 *)
Global Instance wkind_eq_dec : EqDecision wkind.
Proof. solve_decision. Defined.
Definition same_wkind (k1 k2 : wkind) : bool := bool_decide (k1 = k2).
Definition is_node (ty : option node) (st : node) : bool :=
  match ty, st with
  | Some (NAst k1 a1 _), NAst k2 a2 _ => same_wkind k1 k2 && N.eqb a1 a2
  | _, _ => false
  end.

(** The text passed to OptionNamed, main.go:62 *)
Definition bypass_option : string := ".meta.v1.non_standard_method".

(** the body of the loop over the fields, main.go:67-82 *)
Definition lint_field (st : node) (c : bool * list finding) (field : node) : R ((bool * list finding) * bool) :=
  match field with
  | NAst KField a p =>
      ty <~ field_type a p ;;
      if is_node ty st then
        name <~ node_name p ;;
        if negb (String.eqb name "response_status") then
          ps <~ pos field ;; tn <~ type_name st ;; ret ((c.1, (c.2 ++ [WrongName ps tn])%list), true)
        else ret ((true, c.2), true)
      else ret (c, true)
  | _ => forged
  end.

(** the body of the loop over the methods, main.go:57-93 *)
Definition lint_method (st : node) (fs : list finding) (method : node) : R (list finding * bool) :=
  match method with
  | NAst KMethod _ p =>
      '(stream, resp) <~ method_output p ;;
      if stream : bool then ret (fs, true)
      else
        o <~ option_named method bypass_option ;;
        match o, resp with
        | Some _, _ => ret (fs, true)
        | None, NAst _ _ rp =>
            '(detected, fs') <~ message_fields rp (bool * list finding)%type (false, fs) (lint_field st) ;;
            if detected : bool then ret (fs', true)
            else
              ps <~ pos method ;; tn <~ type_name st ;; ix <~ node_index method ;;
              ret ((fs' ++ [MissingStatus ps tn ix])%list, true)
        | None, _ => forged
        end
  | _ => forged
  end.

(** main.go:56-94 for one service *)
Definition lint_service (st : node) (service : ptr) (fs : list finding) : R (list finding) :=
  service_methods service (list finding) fs (lint_method st).

(** the loop over the services, main.go:43-95 *)
Fixpoint lint_services (e : env) (fuel : nat) (st : node) (l : list (string * string)) (fs : list finding)
    : R (list finding) :=
  match l with
  | [] => ret fs
  | (path, name) :: l' =>
      r <~ proto e fuel path ;;
      match r with
      | inr (NAst _ _ fp) =>
          o <~ file_service fp name ;;
          match o with
          | Some (NAst _ _ sp) => fs' <~ lint_service st sp fs ;; lint_services e fuel st l' fs'
          | _ => panic (PError (ENew "service not found in file"))   (* the text prints the File's address *)
          end
      | inl err => panic (PError (EWrap ("look for service definition file " +:+ name) err))
      | _ => forged
      end
  end.

(** main.go:28-95; the registry is that of NewRegistry *)
Definition linter (e : env) (fuel : nat) (services : list (string * string)) : R (list finding) :=
  r <~ proto e fuel "meta/v1/status.proto" ;;
  match r with
  | inr (NAst _ _ fp) =>
      o <~ file_message fp "ResponseStatus" ;;
      match o with
      | Some st => lint_services e fuel st services []
      | None => panic (PError (ENew "missing definition of ResponseStatus message"))
      end
  | inl err => panic (PError (EWrap "look for status response definition file" err))
  | _ => forged
  end.

(** String of text/scanner.Position, what %s prints for the position; IsValid is Line > 0 *)
Definition pos_string (p : position) : string :=
  (if String.eqb (p_file p) "" then "<input>" else p_file p) +:+
  (if (0 <? p_line p)%Z then ":" +:+ itoa (p_line p) +:+ ":" +:+ itoa (p_col p) else "").

Definition newline : string := String (Ascii.ascii_of_nat 10) "".

(** main.go:70-75, 88-92 *)
Definition finding_text (f : finding) : string :=
  match f with
  | WrongName at_ type =>
      pos_string at_ +:+ " only response_status field can use " +:+ type +:+ " type" +:+ newline
  | MissingStatus at_ type method =>
      pos_string at_ +:+ " missing `" +:+ type +:+ " response_status` field in response message type of method " +:+
      method +:+ newline
  end.

(** The standard output and the exit code, main.go:70-75, 88-92, 97-100 *)
Definition report (fs : list finding) : string * Z :=
  match fs with
  | [] => ("", 0%Z)
  | _ => (String.concat "" (map finding_text fs) +:+ "schema does not satisfy criteria" +:+ newline, 1%Z)
  end.

(** main.go:38-41 *)
Definition readme_services : list (string * string) :=
  [("service/storage/v1/service.proto", "Storage"); ("service/meta/v1/meta.proto", "Meta")].

(** main.go:10-101.  [root] is the value of SCHEMA_ROOT, [read] the reading and parsing of files. *)
Definition readme_main (os : os_view) (read : string -> string -> error + list tree) (root : string) (fuel : nat)
    : outcome (string * Z) :=
  match build_resolvers os (with_root [root] (with_protoc new_builder)) with
  | inl err => Panic (PError (EWrap "create resolvers for schema files" err))
  | inr rs =>
      let e := mkEnv (env_resolvers os rs) read in
      match new_registry e fuel with
      | Ret (inr s) =>
          match (linter e fuel readme_services s).1 with
          | Ret fs => Ret (report fs)
          | Panic m => Panic m
          | Diverge => Diverge
          end
      | Ret (inl err) => Panic (PError (EWrap "create registry" err))
      | Panic m => Panic m
      | Diverge => Diverge
      end
  end.

(** It is a client program, so every theorem about client programs applies to it. *)
Lemma client_lint_field md st c n : client md (lint_field st c n).
Proof.
  unfold lint_field. destruct n as [[]| | | | |]; try apply cl_panic.
  apply cl_bind; [apply cl_api; constructor|]. intros ty. destruct (is_node ty st); [|apply cl_ret].
  apply cl_bind; [apply cl_api; constructor|]. intros nm. destruct (negb _); [|apply cl_ret].
  apply cl_bind; [apply cl_api; constructor|]. intros ps.
  apply cl_bind; [apply cl_api; constructor|]. intros tn. apply cl_ret.
Qed.
Lemma client_lint_method md st c n : client md (lint_method st c n).
Proof.
  unfold lint_method. destruct n as [[]| | | | |]; try apply cl_panic.
  apply cl_bind; [apply cl_api; constructor|]. intros [stream resp]. destruct stream; [apply cl_ret|].
  apply cl_bind; [apply cl_api; constructor|]. intros [o|]; [apply cl_ret|].
  destruct resp as [k b q| | | | |]; try apply cl_panic.
  apply cl_bind; [apply cl_loop; [constructor|]; intros; apply client_lint_field|]. intros [det fs'].
  destruct det; [apply cl_ret|].
  apply cl_bind; [apply cl_api; constructor|]. intros ps.
  apply cl_bind; [apply cl_api; constructor|]. intros tn.
  apply cl_bind; [apply cl_api; constructor|]. intros ix. apply cl_ret.
Qed.
Lemma client_lint_service md st p fs : client md (lint_service st p fs).
Proof. unfold lint_service. apply cl_loop; [constructor|]. intros. apply client_lint_method. Qed.
Lemma client_lint_services e fuel st l fs : env_ok e -> client Loads (lint_services e fuel st l fs).
Proof.
  intros He. revert fs. induction l as [|[path name] l IH]; intros fs; cbn [lint_services]; [apply cl_ret|].
  apply cl_bind; [by apply cl_proto|]. intros [err|[k a fp| | | | |]]; try apply cl_panic.
  apply cl_bind; [apply cl_api; constructor|]. intros [[k' a' sp| | | | |]|]; try apply cl_panic.
  apply cl_bind; [apply client_lint_service|]. intros fs'. apply IH.
Qed.
Lemma client_linter e fuel l : env_ok e -> client Loads (linter e fuel l).
Proof.
  intros He. unfold linter. apply cl_bind; [by apply cl_proto|].
  intros [err|[k a fp| | | | |]]; try apply cl_panic.
  apply cl_bind; [apply cl_api; constructor|]. intros [st|]; [by apply client_lint_services|apply cl_panic].
Qed.
