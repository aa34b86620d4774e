(** * Option values: specification and proofs. *)
From Verif Require Export Numerals ValueFacts ThmOptions.

(** ** Specification *)

(** What an option value holds, without the identities of the Go objects.  An enum value is given by
    the enum value declaration. *)
Inductive content :=
| CBool (b : bool)
| CInt (z : Z)
| CUint (n : N)
| CFloat (bits : N)
| CString (x : string)
| CBytes (l : list ascii)
| CEnum (p : ptr)
| CArray (l : list content)
| CMap (l : list (string * content)).

(** The content as the accessors of the Go variants give it. *)
Fixpoint contents (v : oval) : content :=
  match v with
  | OVBool _ b => CBool b
  | OVInt _ z => CInt z
  | OVUint _ n => CUint n
  | OVFloat _ f => CFloat f
  | OVString _ x => CString x
  | OVBytes _ l => CBytes l
  | OVEnum _ _ p => CEnum p
  | OVArray _ l => CArray (map contents l)
  | OVMap _ l => CMap (map (fun kv => (kv.1, contents kv.2)) l)
  end.

Inductive bool_text : string -> bool -> Prop :=
| bool_true x : x ∈ ["1"; "t"; "T"; "true"; "TRUE"; "True"] -> bool_text x true
| bool_false x : x ∈ ["0"; "f"; "F"; "false"; "FALSE"; "False"] -> bool_text x false.

Definition signed_types : list string := ["int32"; "int64"; "sint32"; "sint64"; "sfixed32"; "sfixed64"].
(** The unsigned types the code reads: uint32 and uint64 are not among them, uin32 and uin64 are. *)
Definition unsigned_types : list string := ["fixed32"; "fixed64"; "uin32"; "uin64"].
Definition float_types : list string := ["float"; "double"].
Definition read_types : list string :=
  (["bool"; "string"; "bytes"] ++ signed_types ++ unsigned_types ++ float_types)%list.

(** The bytes of a string. *)
Definition bytes_of (x : string) (l : list ascii) : Prop := String.string_of_list_ascii l = x.

(** The content the literal text [x] denotes as a value of the scalar type [typ]. *)
Inductive scalar_value (fl : floatlib) : string -> string -> content -> Prop :=
| sv_bool x b : bool_text x b -> scalar_value fl "bool" x (CBool b)
| sv_int typ x z : typ ∈ signed_types -> signed_numeral x z -> (- 2 ^ 63 <= z < 2 ^ 63)%Z ->
    scalar_value fl typ x (CInt z)
| sv_uint typ x n : typ ∈ unsigned_types -> numeral x n -> (n < 2 ^ 64)%N ->
    scalar_value fl typ x (CUint n)
| sv_float typ x f : typ ∈ float_types -> fl_parse fl x = Some f -> scalar_value fl typ x (CFloat f)
| sv_string x : scalar_value fl "string" x (CString x)
| sv_bytes x l : bytes_of x l -> scalar_value fl "bytes" x (CBytes l).

(** The plain field at [f], of the type name [typ], repeated or not. *)
Definition field_of_type (s : registry) (f : ptr) (typ : string) (repeated : bool) : Prop :=
  exists t name num opt, element_at s f t /\ t_data t = DNormalField name typ num repeated opt.

(** The type name [typ], used in the field [f], denotes the declaration at [d], of the kind [k]. *)
Definition type_denotes (s : registry) (f : ptr) (typ : string) (k : wkind) (d : ptr) : Prop :=
  typ ∉ (scalar_names ++ read_types)%list /\
  exists comps q a, in_scope s f comps /\ denotes s comps typ q /\ found s q (NAst k a d).

(** The first enum value with a name, the first field with a name. *)
Definition value_called (name : string) (d : data) : bool :=
  match d with DEnumField n _ => String.eqb n name | _ => false end.
Definition field_called (name : string) (d : data) : bool :=
  match d with
  | DNormalField n _ _ _ _ | DOneof n | DMapField n _ _ _ => String.eqb n name
  | _ => false
  end.
Definition first_child (s : registry) (sel : data -> bool) (d p : ptr) : Prop :=
  exists t, element_at s d t /\ head (children sel d t) = Some p.

(** The literal, as the value of the field [f] - or, if [el] is true, as one element of the value of
    the repeated field [f] - denotes a content:
    - a repeated field has an array with one element per literal of the bracketed list;
    - a field of a scalar type has the scalar value the text denotes;
    - a field of an enum type has the first enum value with the text as its name;
    - a field of a message type has one item per entry of the literal, in order, each with the key of
      the entry and the value the entry's literal denotes for the (first) field of that name.
    Elements of enum or message type of repeated fields denote nothing: the code cannot read them. *)
Inductive reads (fl : floatlib) (s : registry) : ptr -> bool -> literal -> content -> Prop :=
| rd_array f typ lit vs : field_of_type s f typ true ->
    Forall2 (reads fl s f true) (lit_array lit) vs -> reads fl s f false lit (CArray vs)
| rd_scalar f typ rep el lit v : field_of_type s f typ rep -> (rep = false \/ el = true) ->
    scalar_value fl typ (lit_source lit) v -> reads fl s f el lit v
| rd_enum f typ el lit d p : field_of_type s f typ false -> type_denotes s f typ KEnum d ->
    first_child s (value_called (lit_source lit)) d p -> reads fl s f el lit (CEnum p)
| rd_message f typ el lit d vs : field_of_type s f typ false -> type_denotes s f typ KMessage d ->
    Forall2 (fun entry item => item.1 = entry.1 /\
       exists f', first_child s (field_called entry.1) d f' /\ reads fl s f' false entry.2 item.2)
      (lit_map lit) vs -> reads fl s f el lit (CMap vs).

(** The names of the components of every plain field are identifiers (what every file that protoc
    accepts has). *)
Definition fields_scoped (s : registry) : Prop :=
  forall f typ rep, field_of_type s f typ rep -> exists comps, in_scope s f comps.

(** What Option.Value may complain about. *)
Inductive complaint :=
| BadBool (x : string)
| BadInt (x : string) (out_of_range : bool)
| BadUint (x : string) (out_of_range : bool)
| BadFloat (x : string)
| NoEnumValue (typ x : string)
| NoField (message key : string)
| UnknownType (typ : string)
| NotAType (element : string)
| NotPlain (element : string).

(** Some leading part of the text is the numeral of a number that takes more than 64 bits. *)
Definition too_long (x : string) : Prop :=
  exists pre post n, x = pre +:+ post /\ numeral pre n /\ (2 ^ 64 <= n)%N.
(** The text is out of the range of int, as strconv.Atoi sees it: it is the numeral of an integer that is,
    or what follows the sign is too long. *)
Definition int_too_big (x : string) : Prop :=
  (exists sign y, sign ∈ [""; "+"; "-"] /\ x = sign +:+ y /\ too_long y) \/
  (exists z, signed_numeral x z /\ ~ (- 2 ^ 63 <= z < 2 ^ 63)%Z).

(** The text denotes no value of the scalar type, and what is to be said about it. *)
Inductive scalar_fails (fl : floatlib) : string -> string -> complaint -> Prop :=
| sf_bool x : (forall b, ~ bool_text x b) -> scalar_fails fl "bool" x (BadBool x)
| sf_int_range typ x : typ ∈ signed_types -> int_too_big x -> scalar_fails fl typ x (BadInt x true)
| sf_int_syntax typ x : typ ∈ signed_types -> (forall z, ~ signed_numeral x z) -> ~ int_too_big x ->
    scalar_fails fl typ x (BadInt x false)
| sf_uint_range typ x : typ ∈ unsigned_types -> too_long x -> scalar_fails fl typ x (BadUint x true)
| sf_uint_syntax typ x : typ ∈ unsigned_types -> (forall n, ~ numeral x n) -> ~ too_long x ->
    scalar_fails fl typ x (BadUint x false)
| sf_float typ x : typ ∈ float_types -> fl_parse fl x = None -> scalar_fails fl typ x (BadFloat x).

(** The entries of a literal denote contents for the fields of the message at [d]. *)
Definition entries_read (fl : floatlib) (s : registry) (d : ptr) (entries : list (string * literal)) : Prop :=
  forall entry, entry ∈ entries -> exists f v, first_child s (field_called entry.1) d f /\ reads fl s f false entry.2 v.

(** The literal, as the value of the field [f] (as one element of it if [el] is true), denotes no content,
    and the first thing wrong with it, read from left to right, is the complaint:
    - a list has a first element that fails, all the elements before it denote contents;
    - the text is no value of the scalar type; no value of the enum has the text as its name;
    - a message literal has a first entry that fails: the message has no field of that name, or the field
      is a map or a oneof, or the literal of the entry fails; all the entries before denote contents;
    - the type is none that is read: the name denotes nothing, or an enum value, or the field is repeated
      and the type is an enum or a message; or the name denotes something that is no type at all. *)
Inductive fails (fl : floatlib) (s : registry) : ptr -> bool -> literal -> complaint -> Prop :=
| fa_array f typ lit before x after c : field_of_type s f typ true ->
    lit_array lit = (before ++ x :: after)%list -> (forall y, y ∈ before -> exists v, reads fl s f true y v) ->
    fails fl s f true x c -> fails fl s f false lit c
| fa_scalar f typ rep el lit c : field_of_type s f typ rep -> (rep = false \/ el = true) ->
    scalar_fails fl typ (lit_source lit) c -> fails fl s f el lit c
| fa_enum f typ el lit d : field_of_type s f typ false -> type_denotes s f typ KEnum d ->
    (forall p, ~ first_child s (value_called (lit_source lit)) d p) ->
    fails fl s f el lit (NoEnumValue typ (lit_source lit))
| fa_no_field f typ el lit d t m ext before key x after : field_of_type s f typ false ->
    type_denotes s f typ KMessage d -> element_at s d t -> t_data t = DMessage m ext ->
    lit_map lit = (before ++ (key, x) :: after)%list -> entries_read fl s d before ->
    (forall p, ~ first_child s (field_called key) d p) -> fails fl s f el lit (NoField m key)
| fa_not_plain f typ el lit d before key x after p t : field_of_type s f typ false ->
    type_denotes s f typ KMessage d ->
    lit_map lit = (before ++ (key, x) :: after)%list -> entries_read fl s d before ->
    first_child s (field_called key) d p -> (forall typ rep, ~ field_of_type s p typ rep) ->
    element_at s p t -> fails fl s f el lit (NotPlain (parser_name (t_data t)))
| fa_entry f typ el lit d before key x after p c : field_of_type s f typ false ->
    type_denotes s f typ KMessage d ->
    lit_map lit = (before ++ (key, x) :: after)%list -> entries_read fl s d before ->
    first_child s (field_called key) d p -> fails fl s p false x c -> fails fl s f el lit c
| fa_type f typ rep el lit : field_of_type s f typ rep -> (rep = false \/ el = true) -> typ ∉ read_types ->
    (forall k d, type_denotes s f typ k d -> k = KEnumValue \/ rep = true /\ (k = KMessage \/ k = KEnum)) ->
    fails fl s f el lit (UnknownType typ)
| fa_not_a_type f typ rep el lit k d t : field_of_type s f typ rep -> (rep = false \/ el = true) ->
    type_denotes s f typ k d -> k ∉ [KMessage; KEnum; KEnumValue] ->
    element_at s d t -> fails fl s f el lit (NotAType (parser_name (t_data t))).

(** The error for a text that strconv does not accept: its message, and the error errors.Is finds in it. *)
Definition number_text (what function x : string) (out_of_range : bool) : string :=
  "convert literal to " +:+ what +:+ ": strconv." +:+ function +:+ ": parsing " +:+ quote x +:+ ": " +:+
  (if out_of_range then "value out of range" else "invalid syntax").
Definition number_cause (out_of_range : bool) (target : string) : bool :=
  String.eqb target (if out_of_range then "strconv.ErrRange" else "strconv.ErrSyntax").

(** The value given to panic says the complaint: it is an error with this message in which errors.Is finds
    these errors of other packages (none, if there is no other package involved).  The error that
    strconv.ParseFloat gives is a parameter of the model.  For a map or a oneof it is the run-time error of a
    type assertion. *)
Definition says_error (v : payload) (text : string) (cause : string -> bool) : Prop :=
  exists err, v = PError err /\ error_text err = text /\ forall target, error_is target err = cause target.
Definition says (fl : floatlib) (c : complaint) (v : payload) : Prop :=
  match c with
  | BadBool x => says_error v (number_text "bool" "ParseBool" x false) (number_cause false)
  | BadInt x r => says_error v (number_text "int" "Atoi" x r) (number_cause r)
  | BadUint x r => says_error v (number_text "uint" "ParseUint" x r) (number_cause r)
  | BadFloat x => says_error v ("convert literal to float: " +:+ error_text (fl_error fl x))
                    (fun target => error_is target (fl_error fl x))
  | NoEnumValue typ x => says_error v ("unknown enum " +:+ typ +:+ " value " +:+ x) (fun _ => false)
  | NoField m key => says_error v ("unknown message " +:+ m +:+ " field " +:+ key) (fun _ => false)
  | UnknownType typ => says_error v ("unknown field type: " +:+ typ) (fun _ => false)
  | NotAType element => says_error v ("node *proto." +:+ element +:+ " does not represent a type") (fun _ => false)
  | NotPlain element =>
      says_error v ("interface conversion: proto.Visitee is *proto." +:+ element +:+ ", not *proto.NormalField")
        (fun _ => false)
  end.

(** ** Proofs *)


Lemma parse_bool_spec x b : parse_bool x = Some b <-> bool_text x b.
Proof.
  unfold parse_bool. split.
  - case_bool_decide as H1; [intros [= <-]; constructor; set_solver|].
    case_bool_decide as H2; [intros [= <-]; constructor; set_solver|done].
  - destruct 1 as [x H|x H].
    + by rewrite bool_decide_eq_true_2 by set_solver.
    + rewrite bool_decide_eq_false_2.
      * by rewrite bool_decide_eq_true_2 by set_solver.
      * rewrite !elem_of_cons, elem_of_nil in *. repeat destruct H as [->|H]; [naive_solver..|done].
Qed.
Lemma bytes_spec x l : bytes_of x l <-> l = String.list_ascii_of_string x.
Proof.
  unfold bytes_of. split.
  - intros <-. by rewrite String.list_ascii_of_string_of_list_ascii.
  - intros ->. apply String.string_of_list_ascii_of_string.
Qed.

(** the scalar part of [build] *)
Definition build_scalar (fl : floatlib) (typ x : string) : option (option content) :=
  if String.eqb typ "bool" then Some (CBool <$> parse_bool x)
  else if is_signed_type typ then Some (CInt <$> atoi x)
  else if is_unsigned_type typ then Some (CUint <$> parse_uint x)
  else if is_float_type typ then Some (CFloat <$> fl_parse fl x)
  else if String.eqb typ "string" then Some (Some (CString x))
  else if String.eqb typ "bytes" then Some (Some (CBytes (String.list_ascii_of_string x)))
  else None.

Ltac in_list H := unfold signed_types, unsigned_types, float_types in H; rewrite ?elem_of_cons, elem_of_nil in H;
  repeat match type of H with _ \/ _ => destruct H as [H|H]; [first [discriminate H|subst]|] end; try done.

Lemma build_scalar_spec fl typ x :
  match build_scalar fl typ x with
  | Some o => typ ∈ read_types /\ forall v, scalar_value fl typ x v <-> o = Some v
  | None => typ ∉ read_types
  end.
Proof.
  unfold build_scalar.
  destruct (String.eqb_spec typ "bool") as [->|N1].
  { split; [unfold read_types; rewrite !elem_of_app; set_solver|]. intros v. split.
    - inversion 1 as [? b Hb|? ? ? H1|? ? ? H1|? ? ? H1| | ]; subst; try (in_list H1; fail).
      apply parse_bool_spec in Hb. by rewrite Hb.
    - destruct (parse_bool x) as [b|] eqn:E; [|done]. intros [= <-]. constructor. by apply parse_bool_spec. }
  unfold is_signed_type. case_bool_decide as H1.
  { split.
    { unfold read_types, signed_types. rewrite !elem_of_app. right; left. rewrite !elem_of_cons, elem_of_nil in *. tauto. }
    intros v. split.
    - inversion 1 as [? b Hb|? ? ? H2 H3 H4|? ? ? H2|? ? ? H2| | ]; subst; try done; try (in_list H2; in_list H1; fail); try (in_list H1; fail).
      rewrite (proj2 (atoi_spec x z)); [done|]. done.
    - destruct (atoi x) as [z|] eqn:E; [|done]. intros [= <-]. apply atoi_spec in E as [E1 E2].
      constructor; [unfold signed_types; set_solver|done|done]. }
  unfold is_unsigned_type. case_bool_decide as H2.
  { split.
    { unfold read_types, unsigned_types. rewrite !elem_of_app. right; right; left. rewrite !elem_of_cons, elem_of_nil in *. tauto. }
    intros v. split.
    - inversion 1 as [? b Hb|? ? ? H3 H4 H5|? ? ? H3 H4 H5|? ? ? H3| | ]; subst; try done; try (in_list H3; in_list H2; fail); try (in_list H2; fail).
      rewrite (proj2 (parse_uint_spec x n)); [done|]. done.
    - destruct (parse_uint x) as [z|] eqn:E; [|done]. intros [= <-]. apply parse_uint_spec in E as [E1 E2].
      constructor; [unfold unsigned_types; set_solver|done|done]. }
  unfold is_float_type. case_bool_decide as H3.
  { split.
    { unfold read_types. rewrite !elem_of_app. right; right; right. exact H3. }
    intros v. split.
    - inversion 1 as [? b Hb|? ? ? H4 H5 H6|? ? ? H4|? ? ? H4 H5| | ]; subst; try done; try (in_list H4; in_list H3; fail); try (in_list H3; fail).
      by rewrite H5.
    - destruct (fl_parse fl x) as [z|] eqn:E; [|done]. intros [= <-]. by constructor. }
  destruct (String.eqb_spec typ "string") as [->|N2].
  { split; [unfold read_types; rewrite !elem_of_app; set_solver|]. intros v. split.
    - inversion 1 as [? b Hb|? ? ? H4|? ? ? H4|? ? ? H4| | ]; subst; try (in_list H4; fail). done.
    - intros [= <-]. constructor. }
  destruct (String.eqb_spec typ "bytes") as [->|N3].
  { split; [unfold read_types; rewrite !elem_of_app; set_solver|]. intros v. split.
    - inversion 1 as [? b Hb|? ? ? H4|? ? ? H4|? ? ? H4| |? ? Hl ]; subst; try (in_list H4; fail).
      apply bytes_spec in Hl. by rewrite Hl.
    - intros [= <-]. constructor. by apply bytes_spec. }
  unfold read_types, signed_types, unsigned_types, float_types. cbn [app].
  rewrite !elem_of_cons, elem_of_nil in *. tauto.
Qed.

(** a decision procedure for [fields_scoped], used by examples *)
Definition scope_comps (sc : string) : list string :=
  match split_on "." sc with _ :: l => l | [] => [] end.
Definition check_scoped (s : registry) : bool :=
  forallb (fun gf => forallb (fun π =>
    match walk gf.2 π with
    | Some t => match t_data t with
                | DNormalField _ _ _ _ _ =>
                    let sc := scope_of s (VPtr (gf.1, π)) in
                    String.eqb (dotted (scope_comps sc)) sc &&
                    forallb (fun c => negb (String.eqb c "") && no_dot c) (scope_comps sc)
                | _ => true
                end
    | None => true
    end) (all_paths [] gf.2)) (imap (fun g f => (g, f)) (heap s)).
Lemma check_scoped_ok s : check_scoped s = true -> fields_scoped s.
Proof.
  unfold check_scoped. rewrite List.forallb_forall. intros H [g π] typ rep (t & name & num & o & (path & f & (_ & Hf & _) & Hw) & Hd).
  cbn [fst snd] in *. specialize (H (g, f)). rewrite List.forallb_forall in H.
  assert (Hin : In (g, f) (imap (fun g f => (g, f)) (heap s))).
  { apply elem_of_list_In, elem_of_lookup_imap. eauto. }
  specialize (H Hin π). cbn [fst snd] in H. rewrite Hw, Hd in H.
  pose proof (all_paths_complete f [] π t Hw) as Hp. rewrite app_nil_r in Hp. apply elem_of_list_In in Hp.
  apply H in Hp as [H1 H2]%andb_prop. apply String.eqb_eq in H1.
  exists (scope_comps (scope_of s (VPtr (g, π)))). split; [|by apply idents].
  exists KField, 0%N. split; [constructor|]. unfold node_index. rewrite rbind_get. cbn. by rewrite H1.
Qed.
