(** * Specification vocabulary: the same answer, the same call, the same program.

    Two registries number the files they parse independently, and every call that creates objects
    gives them fresh identities.  [same_node P D E], [same_opt P D], [same_val P]: equal except for
    the identities, AST pointers being related by [P].  [P] is equality when both calls are made on
    one registry.

    [E a a']: the object with identity [a] on one side is the one with identity [a'] on the other.
    It is tracked for the nodes of declarations and files (not for the types of repeated, oneof and
    map fields, for options and values), so that programs may compare these with ==.

    [D p]: the fully qualified name of [p] is known to be the same on both sides.  On one registry
    this holds of every pointer; between registries it does of everything below a file. *)
From Verif Require Export Client Routes.

Definition ids : Type := N -> N -> Prop.
(** no object is the same as two *)
Definition one_to_one (E : ids) : Prop :=
  forall a a' b b', E a a' -> E b b' -> (a = b <-> a' = b').
Definition more (E E' : ids) : Prop := forall a a', E a a' -> E' a a'.
(** any object for any *)
Notation anyid := (fun _ _ => True).

(** a relation between results that may talk about identities *)
Definition rel (A : Type) : Type := ids -> A -> A -> Prop.
Definition always {A} (RA : A -> A -> Prop) : rel A := fun _ => RA.

(** the OneOf and Map types of fields *)
Definition a_group (k : wkind) : bool := match k with KOneOf | KMap => true | _ => false end.

Section same.
Context (P : ptr -> ptr -> Prop) (D : ptr -> Prop).

Inductive same_opt : optn -> optn -> Prop :=
| same_opt_intro a a' p p' c c' f f' :
    P p p' -> P c c' -> D c -> P f f' -> D f -> same_opt (mkOptn a p c f) (mkOptn a' p' c' f').

(** the option of an option value is a pointer or nil *)
Inductive same_ptro : option ptr -> option ptr -> Prop :=
| sp_none : same_ptro None None
| sp_some p p' : P p p' -> same_ptro (Some p) (Some p').

Inductive same_hdr : ovhdr -> ovhdr -> Prop :=
| same_hdr_intro a a' o o' l : same_ptro o o' -> same_hdr (mkHdr a o l) (mkHdr a' o' l).

Inductive same_val : oval -> oval -> Prop :=
| sv_bool h h' x : same_hdr h h' -> same_val (OVBool h x) (OVBool h' x)
| sv_int h h' x : same_hdr h h' -> same_val (OVInt h x) (OVInt h' x)
| sv_uint h h' x : same_hdr h h' -> same_val (OVUint h x) (OVUint h' x)
| sv_float h h' x : same_hdr h h' -> same_val (OVFloat h x) (OVFloat h' x)
| sv_string h h' x : same_hdr h h' -> same_val (OVString h x) (OVString h' x)
| sv_bytes h h' x : same_hdr h h' -> same_val (OVBytes h x) (OVBytes h' x)
| sv_enum h h' a a' p p' : same_hdr h h' -> P p p' -> same_val (OVEnum h a p) (OVEnum h' a' p')
| sv_array h h' l l' : same_hdr h h' -> same_vals l l' -> same_val (OVArray h l) (OVArray h' l')
| sv_map h h' l l' : same_hdr h h' -> same_items l l' -> same_val (OVMap h l) (OVMap h' l')
with same_vals : list oval -> list oval -> Prop :=
| svs_nil : same_vals [] []
| svs_cons v v' l l' : same_val v v' -> same_vals l l' -> same_vals (v :: l) (v' :: l')
with same_items : list (string * oval) -> list (string * oval) -> Prop :=
| svi_nil : same_items [] []
| svi_cons k v v' l l' :
    same_val v v' -> same_items l l' -> same_items ((k, v) :: l) ((k, v') :: l').

Inductive same_node (E : ids) : node -> node -> Prop :=
| sn_ast k a a' p p' :
    P p p' -> (k = KFile \/ D p) -> (a_group k = false -> E a a') ->
    same_node E (NAst k a p) (NAst k a' p')
| sn_builtin b : same_node E (NBuiltin b) (NBuiltin b)
| sn_repeated a a' t t' :
    same_node E t t' -> same_node E (NRepeated a (Some t)) (NRepeated a' (Some t'))
| sn_repeated_nil a a' : same_node E (NRepeated a None) (NRepeated a' None)
| sn_option o o' : same_opt o o' -> same_node E (NOption o) (NOption o')
| sn_value v v' : same_val v v' -> same_node E (NValue v) (NValue v')
| sn_item k v v' : same_val v v' -> same_node E (NMapItem k v) (NMapItem k v').

(** nil, or two nodes that are the same *)
Inductive same_nodeo (E : ids) : option node -> option node -> Prop :=
| so_none : same_nodeo E None None
| so_some n n' : same_node E n n' -> same_nodeo E (Some n) (Some n').

(** nil, or two options that are the same *)
Inductive same_opto : option optn -> option optn -> Prop :=
| soo_none : same_opto None None
| soo_some o o' : same_opt o o' -> same_opto (Some o) (Some o').

(** streaming flag and message of Method.Input and Method.Output *)
Inductive same_pair (E : ids) : bool * node -> bool * node -> Prop :=
| spr (b : bool) n n' : same_node E n n' -> same_pair E (b, n) (b, n').

(** The answers of a call: plain data (strings, numbers, positions, ...) must be equal, objects
    must be the same up to their identity. *)
Inductive same_answer (E : ids) : forall {A : Type}, A -> A -> Prop :=
| sa_string (x : string) : same_answer E x x
| sa_strings (x : list string) : same_answer E x x
| sa_bool (x : bool) : same_answer E x x
| sa_number (x : Z) : same_answer E x x
| sa_builtin (x : builtin) : same_answer E x x
| sa_pos (x : position) : same_answer E x x
| sa_go_package (x : option go_package_opt) : same_answer E x x
| sa_reserved (x : reserved_value) : same_answer E x x
| sa_node n n' : same_node E n n' -> same_answer E n n'
| sa_nodeo o o' : same_nodeo E o o' -> same_answer E o o'
| sa_pair x x' : same_pair E x x' -> same_answer E x x'
| sa_opt o o' : same_opt o o' -> same_answer E o o'
| sa_opto o o' : same_opto o o' -> same_answer E o o'
| sa_val v v' : same_val v v' -> same_answer E v v'.

(** ** The same call on corresponding arguments

    [same_call E R c c']: the same API call on the same arguments; [R] relates answers that are the
    same.  All API calls but MessageField.Type. *)
Inductive same_call (E : ids) : forall {A : Type}, rel A -> R A -> R A -> Prop :=
| sc_branch_type p p' : P p p' -> same_call E same_nodeo (branch_type p) (branch_type p')
| sc_method_input p p' : P p p' -> same_call E same_pair (method_input p) (method_input p')
| sc_method_output p p' : P p p' -> same_call E same_pair (method_output p) (method_output p')
| sc_map_key p p' : P p p' -> same_call E (always eq) (map_key p) (map_key p')
| sc_map_value p p' : P p p' -> same_call E same_node (map_value p) (map_value p')
| sc_node_name p p' : P p p' -> same_call E (always eq) (node_name p) (node_name p')
| sc_file_package p p' : P p p' -> same_call E (always eq) (file_package p) (file_package p')
| sc_message_is_extension p p' : P p p' -> same_call E (always eq) (message_is_extension p) (message_is_extension p')
| sc_field_value p p' : P p p' -> same_call E (always eq) (field_value p) (field_value p')
| sc_enum_value_value p p' : P p p' -> same_call E (always eq) (enum_value_value p) (enum_value_value p')
| sc_branch_value p p' : P p p' -> same_call E (always eq) (branch_value p) (branch_value p')
| sc_field_optional p p' : P p p' -> same_call E (always eq) (field_optional p) (field_optional p')
| sc_file_message p p' name : P p p' -> same_call E same_nodeo (file_message p name) (file_message p' name)
| sc_file_enum p p' name : P p p' -> same_call E same_nodeo (file_enum p name) (file_enum p' name)
| sc_file_type p p' name : P p p' -> same_call E same_nodeo (file_type p name) (file_type p' name)
| sc_file_service p p' name : P p p' -> same_call E same_nodeo (file_service p name) (file_service p' name)
| sc_message_field p p' name : P p p' -> same_call E same_nodeo (message_field p name) (message_field p' name)
| sc_message_message p p' name : P p p' -> same_call E same_nodeo (message_message p name) (message_message p' name)
| sc_message_type p p' name : P p p' -> same_call E same_nodeo (message_type p name) (message_type p' name)
| sc_enum_enum p p' name : P p p' -> same_call E same_nodeo (enum_enum p name) (enum_enum p' name)
| sc_enum_value p p' name : P p p' -> same_call E same_nodeo (enum_value p name) (enum_value p' name)
| sc_service_method p p' name : P p p' -> same_call E same_nodeo (service_method p name) (service_method p' name)
| sc_oneof_branch p p' name : P p p' -> same_call E same_nodeo (oneof_branch p name) (oneof_branch p' name)
| sc_node_by_full_name q : same_call E same_nodeo (node_by_full_name q) (node_by_full_name q)
| sc_node_description n n' : same_node E n n' -> same_call E (always eq) (node_description n) (node_description n')
| sc_comment n n' : same_node E n n' -> same_call E (always eq) (comment n) (comment n')
| sc_node_parent n n' : same_node E n n' -> same_call E same_nodeo (node_parent n) (node_parent n')
| sc_node_file n n' : same_node E n n' -> same_call E same_nodeo (node_file n) (node_file n')
| sc_pos n n' : same_node E n n' -> same_call E (always eq) (pos n) (pos n')
| sc_go_package_option n n' : same_node E n n' -> same_call E (always eq) (go_package_option n) (go_package_option n')
| sc_go_package n n' : same_node E n n' -> same_call E (always eq) (go_package n) (go_package n')
| sc_type_name n n' : same_node E n n' -> same_call E (always eq) (type_name n) (type_name n')
| sc_type_is_defined n n' ref :
    same_node E n n' -> same_call E (always eq) (type_is_defined n ref) (type_is_defined n' ref)
| sc_node_index n n' :
    same_node E n n' -> (forall a p, n = NAst KFile a p -> D p) ->
    same_call E (always eq) (node_index n) (node_index n')
| sc_option_named n n' name :
    same_node E n n' -> same_call E (always same_opto) (option_named n name) (option_named n' name)
| sc_option_name o o' : same_opt o o' -> same_call E (always eq) (option_name o) (option_name o')
| sc_option_is o o' name :
    same_opt o o' -> same_call E (always eq) (option_is o name) (option_is o' name)
| sc_option_value fl o o' :
    same_opt o o' -> same_call E (always same_val) (option_value fl o) (option_value fl o')
| sc_render fl v v' : same_val v v' -> same_call E (always eq) (render fl v) (render fl v').

(** [same_loop E R q q']: the same iterator; [R] relates elements that are the same.  All iterators
    but Registry.Options. *)
Inductive same_loop (E : ids) : forall {A : Type}, rel A -> seq A -> seq A -> Prop :=
| sl_file_imports p p' : P p p' -> same_loop E same_node (file_imports p) (file_imports p')
| sl_file_messages p p' : P p p' -> same_loop E same_node (file_messages p) (file_messages p')
| sl_file_enums p p' : P p p' -> same_loop E same_node (file_enums p) (file_enums p')
| sl_file_types p p' : P p p' -> same_loop E same_node (file_types p) (file_types p')
| sl_file_services p p' : P p p' -> same_loop E same_node (file_services p) (file_services p')
| sl_message_fields p p' : P p p' -> same_loop E same_node (message_fields p) (message_fields p')
| sl_message_messages p p' : P p p' -> same_loop E same_node (message_messages p) (message_messages p')
| sl_message_types p p' : P p p' -> same_loop E same_node (message_types p) (message_types p')
| sl_enum_enums p p' : P p p' -> same_loop E same_node (enum_enums p) (enum_enums p')
| sl_enum_values p p' : P p p' -> same_loop E same_node (enum_values p) (enum_values p')
| sl_service_methods p p' : P p p' -> same_loop E same_node (service_methods p) (service_methods p')
| sl_oneof_branches p p' : P p p' -> same_loop E same_node (oneof_branches p) (oneof_branches p')
| sl_file_everything p p' : P p p' -> same_loop E same_nodeo (file_everything p) (file_everything p')
| sl_message_everything p p' : P p p' -> same_loop E same_nodeo (message_everything p) (message_everything p')
| sl_enum_everything p p' : P p p' -> same_loop E same_nodeo (enum_everything p) (enum_everything p')
| sl_service_everything p p' : P p p' -> same_loop E same_nodeo (service_everything p) (service_everything p')
| sl_method_options p p' : P p p' -> same_loop E (always same_opt) (method_options p) (method_options p')
| sl_kept_options sc class class' p p' :
    P class class' -> D class -> P p p' ->
    same_loop E (always same_opt) (kept_options sc class p) (kept_options sc class' p')
| sl_reserved_values p p' : P p p' -> same_loop E (always eq) (reserved_values p) (reserved_values p')
| sl_node_hierarchy fuel n n' :
    same_node E n n' -> same_loop E same_node (node_hierarchy fuel n) (node_hierarchy fuel n').

(** [same_program E R m m']: the same program of queries, which learns about nodes, options and
    values only what the API tells and whether two nodes are equal (==): the rules do not allow it
    to look at identities or pointers.  [E] relates the nodes it has got so far; what it does next
    must not depend on which further ones it gets.  Loops may have any body and stop anywhere.
    [R] relates results that are the same. *)
Inductive same_program (E : ids) : forall {A : Type}, rel A -> R A -> R A -> Prop :=
| sp_ret {A} (RA : rel A) x x' :
    (forall E', more E E' -> one_to_one E' -> RA E' x x') -> same_program E RA (ret x) (ret x')
| sp_panic {A} (RA : rel A) msg : same_program E RA (panic msg) (panic msg)
| sp_bind {A B} (RA : rel A) (RB : rel B) m m' k k' :
    same_program E RA m m' ->
    (forall E' x x', more E E' -> one_to_one E' -> RA E' x x' ->
       same_program E' RB (k x) (k' x')) ->
    same_program E RB (rbind m k) (rbind m' k')
| sp_call {A} (RA : rel A) c c' : same_call E RA c c' -> same_program E RA c c'
| sp_field_type a a' p p' :
    P p p' -> same_program E same_nodeo (field_type a p) (field_type a' p')
| sp_loop {A C} (RA : rel A) (RC : rel C) q q' c c' y y' :
    same_loop E RA q q' -> RC E c c' ->
    (forall E1 E2 c c', more E1 E2 -> RC E1 c c' -> RC E2 c c') ->
    (forall E' c c' x x', more E E' -> one_to_one E' -> RC E' c c' -> RA E' x x' ->
       same_program E' (fun E r r' => RC E r.1 r'.1 /\ r.2 = r'.2) (y c x) (y' c' x')) ->
    same_program E RC (q C c y) (q' C c' y')
| sp_options {A} (RA : rel A) n n' (k k' : seq optn -> R A) :
    same_node E n n' ->
    (forall E' sc class class' p p', more E E' -> one_to_one E' ->
       P class class' -> D class -> P p p' ->
       same_program E' RA (k (kept_options sc class p)) (k' (kept_options sc class' p'))) ->
    same_program E RA (q <~ options n ;; k q) (q <~ options n' ;; k' q).

Lemma same_node_more E E' n n' : more E E' -> same_node E n n' -> same_node E' n n'.
Proof. intros HE H. induction H; constructor; auto. Qed.
Lemma same_nodeo_more E E' n n' : more E E' -> same_nodeo E n n' -> same_nodeo E' n n'.
Proof. intros HE []; constructor; eauto using same_node_more. Qed.
Lemma same_pair_more E E' n n' : more E E' -> same_pair E n n' -> same_pair E' n n'.
Proof. intros HE []; constructor; eauto using same_node_more. Qed.
Lemma same_call_more E E' {A} (RA : rel A) c c' :
  more E E' -> same_call E RA c c' -> same_call E' RA c c'.
Proof. intros HE H. destruct H; constructor; eauto using same_node_more. Qed.
Lemma same_loop_more E E' {A} (RA : rel A) q q' :
  more E E' -> same_loop E RA q q' -> same_loop E' RA q q'.
Proof. intros HE H. destruct H; constructor; eauto using same_node_more. Qed.

(** calling Registry.Options and ranging over the result at once *)
Lemma sp_options_loop E {C} (RC : rel C) n n' c c' y y' :
  same_node E n n' -> RC E c c' ->
  (forall E1 E2 c c', more E1 E2 -> RC E1 c c' -> RC E2 c c') ->
  (forall E' c c' o o', more E E' -> one_to_one E' -> RC E' c c' -> same_opt o o' ->
     same_program E' (fun E r r' => RC E r.1 r'.1 /\ r.2 = r'.2) (y c o) (y' c' o')) ->
  same_program E RC (q <~ options n ;; q C c y) (q <~ options n' ;; q C c' y').
Proof.
  intros Hn Hc HRC Hy. apply (sp_options E RC n n' (fun q => q C c y) (fun q => q C c' y')); [done|].
  intros E' sc cl cl' p p' HE HO Hcl Hd Hp.
  eapply (sp_loop E' (always same_opt)); [by constructor|by eapply HRC|exact HRC|].
  intros E2 d d' o o' HE2 HO2 Hdd Ho. apply Hy; try done. intros a b Hab. apply HE2, HE, Hab.
Qed.

(** comparing two nodes with == gives the same result on both sides *)
Lemma same_equal E n1 n1' n2 n2' :
  one_to_one E -> same_node E n1 n1' -> same_node E n2 n2' -> declaration_node n1 ->
  (go_eq n1 n2 <-> go_eq n1' n2').
Proof.
  intros HE H1 H2 Hd. destruct H1 as [k a a' p p' Hp Hk Ha| | | | | |]; try done.
  destruct H2 as [k2 b b' q q' Hq Hk2 Hb| | | | | |]; try done. cbn.
  split; intros [<- Heq]; (split; [done|]);
    (assert (Hg : a_group k = false) by (by destruct k)); by apply (HE a a' b b'); auto.
Qed.
End same.

(** The names an element refers to: types of fields and methods, and custom options. *)
Inductive refers : data -> string -> Prop :=
| ref_field name typ sq rep opt : refers (DNormalField name typ sq rep opt) typ
| ref_branch name typ sq : refers (DOneOfField name typ sq) typ
| ref_request name req sreq res sres : refers (DRPC name req sreq res sres) req
| ref_response name req sreq res sres : refers (DRPC name req sreq res sres) res
| ref_option name lit : refers (DOption name lit) (strip_parens name).
