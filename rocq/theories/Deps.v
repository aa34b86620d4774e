(** * A client that walks the import graph: the program and the order it should produce (C83). *)
From Verif Require Export Client Observe Spec Routes.
From Verif Require Import Routes Api.
Local Open Scope go_scope.

(** ** The program

    The order in which a code generator or a compiler has to process files: a file after the files it
    imports.  In Go:

      func visit(path string) {
        if slices.Contains(seen, path) { return }
        seen = append(seen, path)
        f, err := r.Proto(path)
        if err != nil { panic(err) }
        for i := range f.Imports(r) { visit(i.Path()) }
        order = append(order, path)
      }
      visit(path)

    It is not part of the repository: it is a use of its API (registry.go:38-55, ast_file.go:34-46,
    ast_import.go:14).  [fuel] bounds the recursion, [lf] that of Registry.Proto. *)
Fixpoint visit_file (e : env) (lf fuel : nat) (c : list string * list string) (path : string)
    : R (list string * list string) :=
  match fuel with
  | O => diverge
  | S fuel' =>
      if existsb (String.eqb path) c.1 then ret c else
      r <~ proto e lf path ;;
      match r with
      | inr (NAst KFile _ fp) =>
          c' <~ file_imports fp (list string * list string)%type ((c.1 ++ [path])%list, c.2) (fun c i =>
            match i with
            | NAst KImport _ q => p <~ node_name q ;; c' <~ visit_file e lf fuel' c p ;; ret (c', true)
            | _ => forged
            end) ;;
          ret (c'.1, (c'.2 ++ [path])%list)
      | inl err => panic (PError err)
      | _ => forged
      end
  end.
Definition import_order (e : env) (lf fuel : nat) (path : string) : R (list string) :=
  c <~ visit_file e lf fuel ([], []) path ;; ret c.2.

(** The same program with the visited files kept as *File values and compared with ==.  In Go:

      func visit(f *File) {
        if slices.Contains(seen, f) { return }
        seen = append(seen, f)
        for i := range f.Imports(r) {
          g, err := r.Proto(i.Path())
          if err != nil { panic(err) }
          visit(g)
        }
      } *)
Definition same_pointer (n m : node) : bool :=
  match n, m with NAst KFile a _, NAst KFile b _ => N.eqb a b | _, _ => false end.
Fixpoint visit_files (e : env) (lf fuel : nat) (seen : list node) (f : node) : R (list node) :=
  match fuel with
  | O => diverge
  | S fuel' =>
      if existsb (same_pointer f) seen then ret seen else
      match f with
      | NAst KFile _ fp =>
          file_imports fp (list node) (seen ++ [f])%list (fun seen i =>
            match i with
            | NAst KImport _ q =>
                p <~ node_name q ;; r <~ proto e lf p ;;
                match r with
                | inr g => seen' <~ visit_files e lf fuel' seen g ;; ret (seen', true)
                | inl err => panic (PError err)
                end
            | _ => forged
            end)
      | _ => forged
      end
  end.

(** ** The order *)

(** The file [p] has a statement that imports [q]. *)
Definition imports (s : registry) (p q : string) : Prop :=
  exists g f, loaded s p g f /\ q ∈ import_paths (t_kids f).

(** Every file comes after the files it imports, except for imports that are part of a cycle. *)
Definition dependency_order (s : registry) (order : list string) : Prop :=
  forall before p after q, order = (before ++ p :: after)%list -> imports s p q ->
  q ∈ before \/ imports_from s q p.

(** No file imports itself, directly or not. *)
Definition acyclic (s : registry) : Prop := forall p q, imports s p q -> ~ imports_from s q p.

