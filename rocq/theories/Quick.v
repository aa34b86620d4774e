(** * The program of the README's "Quick Start", README.md:46-94 (which
    imports two packages it does not use, lines 50-51, and compiles without them).

    What it prints is one string.  A panic of the program (README.md:64, 70, 76) is a panic of the model.
    Simplification: what was printed before a panic is not kept.  %v of fmt prints an option value by its
    String method. *)
From Verif Require Export Readme.

(** the body of the loop over the options, README.md:82-84 *)
Definition quick_option (fl : floatlib) (out : string) (o : optn) : R (string * bool) :=
  name <~ option_name o ;;
  v <~ option_value fl o ;;
  x <~ render fl v ;;
  ret (out +:+ ("File Option -> " +:+ name +:+ ": " +:+ x +:+ newline), true).

(** the body of the loop over the fields, README.md:90-92 *)
Definition quick_field (message : ptr) (out : string) (n : node) : R (string * bool) :=
  match n with
  | NAst _ _ p =>
      mname <~ node_name message ;;
      fname <~ node_name p ;;
      ret (out +:+ ("  Field: " +:+ mname +:+ "." +:+ fname +:+ newline), true)
  | _ => forged
  end.

(** the body of the loop over the messages, README.md:87-93 *)
Definition quick_message (out : string) (n : node) : R (string * bool) :=
  match n with
  | NAst _ _ p =>
      mname <~ node_name p ;;
      out' <~ message_fields p string (out +:+ ("Message: " +:+ mname +:+ newline)) (quick_field p) ;;
      ret (out', true)
  | _ => forged
  end.

(** README.md:79-94 *)
Definition quick_print (fl : floatlib) (f : node) : R string :=
  match f with
  | NAst _ _ p =>
      name <~ node_name p ;;
      pkg <~ file_package p ;;
      sq <~ options f ;;
      out <~ sq string ("Package: " +:+ name +:+ " (" +:+ pkg +:+ ")" +:+ newline) (quick_option fl) ;;
      file_messages p string out quick_message
  | _ => forged
  end.

(** README.md:73-94 *)
Definition quick_start (fl : floatlib) (e : env) (fuel : nat) (path : string) : R string :=
  r <~ proto e fuel path ;;
  match r with
  | inl err => panic (PError err)
  | inr f => quick_print fl f
  end.

(** README.md:56-94; [read] is the reading and parsing of files *)
Definition quick_main (fl : floatlib) (os : os_view) (read : string -> string -> error + list tree) (fuel : nat)
    : outcome string :=
  match build_resolvers os (with_root ["."; "./vendor"] (with_protoc new_builder)) with
  | inl err => Panic (PError err)
  | inr rs =>
      let e := mkEnv (env_resolvers os rs) read in
      match new_registry e fuel with
      | Ret (inr s) => (quick_start fl e fuel "service/utopia/v1/service_hash_download.proto" s).1
      | Ret (inl err) => Panic (PError err)
      | Panic m => Panic m
      | Diverge => Diverge
      end
  end.

(** It is a client program. *)
Lemma client_quick_option fl md out o : client md (quick_option fl out o).
Proof.
  apply cl_bind; [apply cl_api; constructor|]. intros name. apply cl_bind; [apply cl_api; constructor|].
  intros v. apply cl_bind; [apply cl_api; constructor|]. intros x. apply cl_ret.
Qed.
Lemma client_quick_field md p out n : client md (quick_field p out n).
Proof.
  destruct n; try apply cl_panic. apply cl_bind; [apply cl_api; constructor|]. intros a1.
  apply cl_bind; [apply cl_api; constructor|]. intros b. apply cl_ret.
Qed.
Lemma client_quick_message md out n : client md (quick_message out n).
Proof.
  destruct n; try apply cl_panic. apply cl_bind; [apply cl_api; constructor|]. intros a1.
  apply cl_bind; [|intros b; apply cl_ret]. apply cl_loop; [constructor|]. intros. apply client_quick_field.
Qed.
Lemma client_quick_print fl md f : client md (quick_print fl f).
Proof.
  destruct f as [k a p| | | | |]; try apply cl_panic. cbn [quick_print].
  apply cl_bind; [apply cl_api; constructor|]. intros name. apply cl_bind; [apply cl_api; constructor|]. intros pkg.
  apply (cl_options md _ (NAst k a p) (fun sq => out <~ sq string _ (quick_option fl) ;; file_messages p string out quick_message)).
  intros scope class q. apply cl_bind; [apply cl_loop; [constructor|]; intros; apply client_quick_option|].
  intros out. apply cl_loop; [constructor|]. intros. apply client_quick_message.
Qed.
Lemma client_quick_start fl e fuel path : env_ok e -> client Loads (quick_start fl e fuel path).
Proof.
  intros He. apply cl_bind; [by apply cl_proto|]. intros [err|f]; [apply cl_panic|apply client_quick_print].
Qed.
