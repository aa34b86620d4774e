(** * C60-C62: the plain accessors read the source, for ever. *)
From Verif Require Export ThmIterators.

(** The name (or path, or text) written in an element, for the elements that have one: the argument
    is an element of a file, the file itself being named by the path it was asked for under. *)
Definition written_name (d : data) : option string :=
  match d with
  | DProto path => Some path
  | DSyntax v => Some v
  | DPackage n => Some n
  | DImport path => Some path
  | DMessage n _ => Some n
  | DNormalField n _ _ _ _ => Some n
  | DOneof n => Some n
  | DOneOfField n _ _ => Some n
  | DMapField n _ _ _ => Some n
  | DEnum n => Some n
  | DEnumField n _ => Some n
  | DService n => Some n
  | DRPC n _ _ _ _ => Some n
  | DOption _ _ | DReserved _ _ | DComment | DGroup _ | DExtensions | DEdition => None
  end.

Lemma deref_later s {A} (m : R A) p t :
  reachable s -> client Loads m -> element_at s p t -> deref p (m s).2 = (Ret t, (m s).2).
Proof.
  intros Hs Hm Ht. apply deref_ok. eapply later_heap; [exact Hs|exact Hm|done|by apply element_heap].
Qed.

(** Name() of declarations and files, Import.Path, Package.Package and Syntax.Value: what the source
    says, whatever happened to the registry since the element was first seen, without any effect. *)
Theorem C60_name s {A} (m : R A) p t name :
  reachable s -> client Loads m -> element_at s p t -> written_name (t_data t) = Some name ->
  node_name p (m s).2 = (Ret name, (m s).2).
Proof.
  intros Hs Hm Ht Hn. unfold node_name.
  erewrite rbind_val by exact (deref_later _ _ _ _ Hs Hm Ht).
  destruct (t_data t); cbn in *; try discriminate Hn; by injection Hn as <-.
Qed.

(** In particular File.Name is the path the file was asked for under (not the path on disk). *)
Theorem C60_file_name s e fuel path f s1 {A} (m : R A) :
  reachable s -> env_ok e -> proto e fuel path s = (Ret (inr f), s1) -> client Loads m ->
  exists a p, f = NAst KFile a p /\ node_name p (m s1).2 = (Ret path, (m s1).2).
Proof.
  intros Hs He E Hm. pose proof (proj1 (reachable_Inv _ Hs)) as S.
  destruct (proto_returns_loaded _ _ _ _ _ _ He S E) as (g & t & -> & Ht & _).
  assert (Hs1 : reachable s1).
  { replace s1 with (proto e fuel path s).2 by (by rewrite E).
    apply (hist_client Loads _ (proto e fuel path)); [done|by apply cl_proto]. }
  exists (next s), (root g). split; [done|].
  eapply C60_name; [done|done|exists path, t; split; [exact Ht|done]|].
  destruct Ht as (_ & _ & Hd). by rewrite Hd.
Qed.

Example C60_example :
  reachable demo_world /\ client Loads (recover (node_by_full_name ".no.such")) /\
  (exists t, element_at demo_world (1, [5; 6]) t /\ written_name (t_data t) = Some "local_msg") /\
  (exists t, element_at demo_world (1, [4]) t /\ written_name (t_data t) = Some any_f).
Proof.
  split; [apply demo_reachable|]. split; [apply cl_recover, cl_api, api_node_by_full_name|].
  split; eexists; (split; [apply demo_element; vm_compute; reflexivity|reflexivity]).
Qed.

(** ** C61: numbers *)

(** MessageField.Value, EnumValue.Value and OneOfBranch.Value are the number in the source. *)
Theorem C61_field_number s {A} (m : R A) p t name typ num rep opt :
  reachable s -> client Loads m -> element_at s p t ->
  t_data t = DNormalField name typ num rep opt ->
  field_value p (m s).2 = (Ret num, (m s).2).
Proof.
  intros Hs Hm Ht Hn. unfold field_value.
  erewrite rbind_val by exact (deref_later _ _ _ _ Hs Hm Ht). by rewrite Hn.
Qed.
Theorem C61_map_field_number s {A} (m : R A) p t name kt vt num :
  reachable s -> client Loads m -> element_at s p t -> t_data t = DMapField name kt vt num ->
  field_value p (m s).2 = (Ret num, (m s).2).
Proof.
  intros Hs Hm Ht Hn. unfold field_value.
  erewrite rbind_val by exact (deref_later _ _ _ _ Hs Hm Ht). by rewrite Hn.
Qed.
Theorem C61_enum_value_number s {A} (m : R A) p t name num :
  reachable s -> client Loads m -> element_at s p t -> t_data t = DEnumField name num ->
  enum_value_value p (m s).2 = (Ret num, (m s).2).
Proof.
  intros Hs Hm Ht Hn. unfold enum_value_value.
  erewrite rbind_val by exact (deref_later _ _ _ _ Hs Hm Ht). by rewrite Hn.
Qed.
Theorem C61_branch_number s {A} (m : R A) p t name typ num :
  reachable s -> client Loads m -> element_at s p t -> t_data t = DOneOfField name typ num ->
  branch_value p (m s).2 = (Ret num, (m s).2).
Proof.
  intros Hs Hm Ht Hn. unfold branch_value.
  erewrite rbind_val by exact (deref_later _ _ _ _ Hs Hm Ht). by rewrite Hn.
Qed.
(** A oneof field has no number: Value panics. *)
Theorem C61_oneof_panics s {A} (m : R A) p t name :
  reachable s -> client Loads m -> element_at s p t -> t_data t = DOneof name ->
  exists msg, field_value p (m s).2 = (Panic msg, (m s).2).
Proof.
  intros Hs Hm Ht Hn. unfold field_value.
  erewrite rbind_val by exact (deref_later _ _ _ _ Hs Hm Ht). rewrite Hn. by eexists.
Qed.
Example C61_example :
  (exists t, element_at demo_world (1, [2; 6]) t /\ t_data t = DNormalField "u32" "uint32" 21 false false) /\
  (exists t, element_at demo_world (1, [9; 6]) t /\ t_data t = DMapField "map_field" "string" "bool" 111) /\
  (exists t, element_at demo_world (1, [10; 6]) t /\ t_data t = DOneof "payload") /\
  (exists t, element_at demo_world (1, [1; 10; 6]) t /\ t_data t = DOneOfField "branch2" "bool" 113) /\
  (exists t, element_at demo_world (1, [3; 9]) t /\ t_data t = DEnumField "ENUM_VALUE_2" 2).
Proof.
  split_and!; eexists; (split; [apply demo_element; vm_compute; reflexivity|reflexivity]).
Qed.

(** ** C62: flags *)

(** MessageField.Optional: the [optional] label of plain fields; false for map fields and oneofs. *)
Theorem C62_optional s {A} (m : R A) p t :
  reachable s -> client Loads m -> element_at s p t -> a_field (t_data t) = true ->
  field_optional p (m s).2 =
    (Ret (match t_data t with DNormalField _ _ _ _ optional => optional | _ => false end), (m s).2).
Proof.
  intros Hs Hm Ht Hn. unfold field_optional.
  erewrite rbind_val by exact (deref_later _ _ _ _ Hs Hm Ht). by destruct (t_data t).
Qed.
(** Message.IsExtension: whether the element is an extend block. *)
Theorem C62_is_extension s {A} (m : R A) p t name ext :
  reachable s -> client Loads m -> element_at s p t -> t_data t = DMessage name ext ->
  message_is_extension p (m s).2 = (Ret ext, (m s).2).
Proof.
  intros Hs Hm Ht Hn. unfold message_is_extension.
  erewrite rbind_val by exact (deref_later _ _ _ _ Hs Hm Ht). by rewrite Hn.
Qed.
Example C62_example :
  (exists t, element_at demo_world (2, [5]) t /\ t_data t = DMessage "google.protobuf.FileOptions" true) /\
  (exists t, element_at demo_world (1, [6]) t /\ t_data t = DMessage "Message" false) /\
  (exists t, element_at demo_world (1, [9; 6]) t /\ a_field (t_data t) = true).
Proof.
  split_and!; eexists; (split; [apply demo_element; vm_compute; reflexivity|reflexivity]).
Qed.

(** ** C63: File.Package *)

Lemma package_of_the els : package_of els = the_package els.
Proof.
  unfold the_package. induction els as [|u els IH]; [done|].
  cbn [package_of List.find]. rewrite IH. by destruct u as [[] ? ? ?].
Qed.

(** File.Package is the name in the file's (first) package statement, empty if there is none, for
    ever. *)
Theorem C63_package s {A} (m : R A) path g f :
  reachable s -> client Loads m -> loaded s path g f ->
  file_package (root g) (m s).2 = (Ret (the_package (t_kids f)), (m s).2).
Proof.
  intros Hs Hm Hl. unfold file_package.
  assert (Ht : element_at s (root g) f) by (exists path, f; by split).
  erewrite rbind_val by exact (deref_later _ _ _ _ Hs Hm Ht). by rewrite package_of_the.
Qed.

(** And NodeIndex of a top-level declaration is a dot, that package if there is one and another dot,
    and the name. *)
Theorem C63_index_from_package s path g f i t name k a pkg :
  calm s -> loaded s path g f -> package_first (t_kids f) = true ->
  t_kids f !! i = Some t -> represented_by (t_data t) = Some k ->
  (t_data t = DMessage name false \/ t_data t = DEnum name \/ t_data t = DService name) ->
  file_package (root g) s = (Ret pkg, s) -> has_prefix pkg "." = false ->
  node_index (NAst k a (g, [i])) s =
    (Ret (if String.eqb pkg "" then "." +:+ name else "." +:+ pkg +:+ "." +:+ name), s).
Proof.
  intros Hs Hl Hp Hi Hk Hd Hf Hdot. pose proof (calm_reachable _ Hs) as Hr.
  assert (E : file_package (root g) s = (Ret (the_package (t_kids f)), s)).
  { apply (C63_package s (ret tt) path); [done|apply cl_ret|done]. }
  rewrite E in Hf. injection Hf as <-.
  assert (Hw : walk f [i] = Some t) by (cbn; by rewrite Hi).
  eapply C06_index_is_qualified_name; [done|exact Hl|done| | | |by left].
  - assert (Hf : walk f [] = Some f) by done.
    pose proof Hl as (_ & _ & Hpa).
    unfold fqn. rewrite Hw. cbn [visible enclosing]. rewrite Hf, Hpa. cbn [container scope_name andb].
    unfold pkg_scope. rewrite Hdot.
    destruct Hd as [-> | [-> | ->]]; cbn [own_name];
      (destruct (String.eqb (the_package (t_kids f)) ""); cbn [app dotted];
       rewrite ?sapp_nil_r, ?sapp_nil_l, ?sapp_assoc; reflexivity).
  - done.
  - intros n v. destruct Hd as [-> | [-> | ->]]; discriminate.
Qed.

Example C63_example :
  calm demo_world /\ loaded demo_world dat_f 1 (file_tree dat_f data_elems) /\
  the_package data_elems = "pb" /\ package_first data_elems = true /\
  (exists t, data_elems !! 6 = Some t /\ t_data t = DMessage "Message" false /\
             represented_by (t_data t) = Some KMessage).
Proof.
  split; [apply demo_calm|]. split; [apply demo_loaded|].
  split; [vm_compute; reflexivity|]. split; [vm_compute; reflexivity|].
  eexists; split_and!; vm_compute; reflexivity.
Qed.
