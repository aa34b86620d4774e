(** * Specification vocabulary: what a .proto file declares.

    Written from the protobuf language, not from the code: a file is a tree of elements, an
    element is identified by its index path (innermost index first), and its fully qualified
    name is the package, the names of the enclosing messages and services and its own name. *)
From Verif Require Export Ast.

(** the name an element declares *)
Definition own_name (d : data) : option string :=
  match d with
  | DMessage n false | DNormalField n _ _ _ _ | DOneof n | DOneOfField n _ _
  | DMapField n _ _ _ | DEnum n | DEnumField n _ | DService n | DRPC n _ _ _ _ => Some n
  | _ => None
  end.

(** messages and services open a scope; extend blocks, enums and oneofs do not *)
Definition scope_name (d : data) : option string :=
  match d with
  | DMessage n false | DService n => Some n
  | _ => None
  end.

(** elements that can contain declarations *)
Definition container (d : data) : bool :=
  match d with
  | DProto _ | DMessage _ _ | DEnum _ | DOneof _ | DService _ => true
  | _ => false
  end.

(** all proper ancestors of the element at [π] are containers *)
Fixpoint visible (f : tree) (π : list nat) : bool :=
  match π with
  | [] => true
  | _ :: π' =>
      visible f π' &&
      match walk f π' with Some u => container (t_data u) | None => false end
  end.

(** names of the enclosing messages and services, outermost first *)
Fixpoint enclosing (f : tree) (π : list nat) : list string :=
  match π with
  | [] => []
  | _ :: π' =>
      (enclosing f π' ++
       match walk f π' with
       | Some u => match scope_name (t_data u) with Some n => [n] | None => [] end
       | None => []
       end)%list
  end.

(** ".a.b.c" from [a; b; c] *)
Fixpoint dotted (l : list string) : string :=
  match l with
  | [] => ""
  | n :: l' => "." +:+ n +:+ dotted l'
  end.

Definition is_package (d : data) : bool := match d with DPackage _ => true | _ => false end.

(** the package name of a file, "" if it has none *)
Definition the_package (els : list tree) : string :=
  match List.find (fun t => is_package (t_data t)) els with
  | Some (T (DPackage n) _ _ _) => n
  | _ => ""
  end.

(** the scope a package name stands for *)
Definition pkg_scope (name : string) : string :=
  if String.eqb name "" then ""
  else if has_prefix name "." then name else "." +:+ name.

(** The fully qualified name of the element at [π] of the file [f]. *)
Definition fqn (f : tree) (π : list nat) : option string :=
  match walk f π with
  | Some t =>
      match own_name (t_data t) with
      | Some n =>
          if visible f π
          then Some (pkg_scope (the_package (t_kids f)) +:+ dotted (enclosing f π ++ [n]))
          else None
      | None => None
      end
  | None => None
  end.

(** At most one package statement, and it comes before every definition. *)
Fixpoint package_first (els : list tree) : bool :=
  match els with
  | [] => true
  | t :: els' =>
      if is_package (t_data t) || container (t_data t)
      then forallb (fun u => negb (is_package (t_data u))) els'
      else package_first els'
  end.

(** The import statements of a file. *)
Definition import_paths (els : list tree) : list string :=
  omap (fun t => match t_data t with DImport path => Some path | _ => None end) els.

(** ** Without the assumption on the package statement

    The scope in effect at the [i]-th top level element is given by the last package statement
    before it. *)
Definition pkg_step (sc : string) (t : tree) : string :=
  match t_data t with
  | DPackage n => if String.eqb n "" then sc else pkg_scope n
  | _ => sc
  end.
Definition pkg_before (els : list tree) (i : nat) : string :=
  foldl pkg_step "" (take i els).

Definition outermost (π : list nat) : nat := default 0 (list.last π).

Definition scope_at (f : tree) (π : list nat) : string :=
  pkg_before (t_kids f) (outermost π) +:+ dotted (enclosing f π).

Definition fqn_here (f : tree) (π : list nat) : option string :=
  match walk f π with
  | Some t =>
      match own_name (t_data t) with
      | Some n => if visible f π then Some (scope_at f π +:+ "." +:+ n) else None
      | None => None
      end
  | None => None
  end.

(** The scope a file stands for: the one given by its package statement. *)
Definition file_scope (els : list tree) : string := pkg_scope (the_package els).
