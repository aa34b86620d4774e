(** * What computations leave unchanged.

    [quiet]: the schema (loaded files, names, scopes) is untouched and caches only grow.
    [grows n]: everything only grows; scopes of ASTs with number below [n] are untouched. *)
From Verif Require Export Client.

Lemma rbind_ret {A B} (a : A) (k : A -> R B) s : rbind (ret a) k s = k a s.
Proof. reflexivity. Qed.

Lemma rbind_get {B} (k : registry -> R B) s : rbind get k s = k s s.
Proof. reflexivity. Qed.
Lemma rbind_alloc {B} (k : N -> R B) s :
  rbind alloc k s = k (next s) (set_next (next s + 1)%N s).
Proof. reflexivity. Qed.
Lemma rbind_modify {B} f (k : unit -> R B) s : rbind (modify f) k s = k tt (f s).
Proof. reflexivity. Qed.
Lemma rbind_val {A B} (m : R A) (k : A -> R B) s a s1 :
  m s = (Ret a, s1) -> rbind m k s = k a s1.
Proof. intros H. unfold rbind. by rewrite H. Qed.
Lemma rbind_pan {A B} (m : R A) (k : A -> R B) s e s1 :
  m s = (Panic e, s1) -> rbind m k s = (Panic e, s1).
Proof. intros H. unfold rbind. by rewrite H. Qed.
Lemma rbind_div {A B} (m : R A) (k : A -> R B) s s1 :
  m s = (Diverge, s1) -> rbind m k s = (Diverge, s1).
Proof. intros H. unfold rbind. by rewrite H. Qed.

Lemma rbind_Ret {A B} (m : R A) (k : A -> R B) s b s' :
  rbind m k s = (Ret b, s') ->
  exists a s1, m s = (Ret a, s1) /\ k a s1 = (Ret b, s').
Proof. unfold rbind. destruct (m s) as [[a|e|] s1]; intros H; try discriminate. eauto. Qed.

(** ** Generic closure *)

Definition keeps (Rl : registry -> registry -> Prop) {A} (m : R A) : Prop :=
  forall s, Rl s (m s).2.

(** ** Induction principles for nested types *)

Section literal_ind.
  Variable P : literal -> Prop.
  Hypothesis H : forall pos src arr omap,
    Forall P arr -> Forall (fun kv => P kv.2) omap -> P (Lit pos src arr omap).
  Fixpoint literal_nested_ind (l : literal) : P l :=
    match l with
    | Lit pos src arr omap =>
        H pos src arr omap
          ((fix go (l : list literal) : Forall P l :=
              match l with
              | [] => Forall_nil_2 _
              | x :: l' => Forall_cons_2 _ _ _ (literal_nested_ind x) (go l')
              end) arr)
          ((fix go (l : list (string * literal)) : Forall (fun kv => P kv.2) l :=
              match l with
              | [] => Forall_nil_2 _
              | (k, x) :: l' =>
                  Forall_cons_2 (fun kv => P kv.2) (k, x) _ (literal_nested_ind x) (go l')
              end) omap)
    end.
End literal_ind.

Section oval_ind.
  Variable P : oval -> Prop.
  Hypothesis Hbool : forall h b, P (OVBool h b).
  Hypothesis Hint : forall h b, P (OVInt h b).
  Hypothesis Huint : forall h b, P (OVUint h b).
  Hypothesis Hfloat : forall h b, P (OVFloat h b).
  Hypothesis Hstring : forall h b, P (OVString h b).
  Hypothesis Hbytes : forall h b, P (OVBytes h b).
  Hypothesis Henum : forall h a p, P (OVEnum h a p).
  Hypothesis Harray : forall h l, Forall P l -> P (OVArray h l).
  Hypothesis Hmap : forall h l, Forall (fun kv => P kv.2) l -> P (OVMap h l).
  Fixpoint oval_nested_ind (v : oval) : P v :=
    match v with
    | OVBool h b => Hbool h b
    | OVInt h b => Hint h b
    | OVUint h b => Huint h b
    | OVFloat h b => Hfloat h b
    | OVString h b => Hstring h b
    | OVBytes h b => Hbytes h b
    | OVEnum h a p => Henum h a p
    | OVArray h l =>
        Harray h l
          ((fix go (l : list oval) : Forall P l :=
              match l with
              | [] => Forall_nil_2 _
              | x :: l' => Forall_cons_2 _ _ _ (oval_nested_ind x) (go l')
              end) l)
    | OVMap h l =>
        Hmap h l
          ((fix go (l : list (string * oval)) : Forall (fun kv => P kv.2) l :=
              match l with
              | [] => Forall_nil_2 _
              | (k, x) :: l' =>
                  Forall_cons_2 (fun kv => P kv.2) (k, x) _ (oval_nested_ind x) (go l')
              end) l)
    end.
End oval_ind.

Section tree_ind.
  Variable P : tree -> Prop.
  Hypothesis H : forall d pos c kids, Forall P kids -> P (T d pos c kids).
  Fixpoint tree_nested_ind (t : tree) : P t :=
    match t with
    | T d pos c kids =>
        H d pos c kids
          ((fix go (l : list tree) : Forall P l :=
              match l with
              | [] => Forall_nil_2 _
              | x :: l' => Forall_cons_2 _ _ _ (tree_nested_ind x) (go l')
              end) kids)
    end.
End tree_ind.

(** the two loops of [build] as named functions *)
Section build_loops.
Context (fl : floatlib) (field mp : ptr).
Fixpoint build_array (l : list literal) : R (list oval) :=
  match l with
  | [] => ret []
  | x :: l' => v <~ build fl None field x true ;; vs <~ build_array l' ;; ret (v :: vs)
  end.
Fixpoint build_items (l : list (string * literal))
  : R (list (string * oval)) :=
  match l with
  | [] => ret []
  | (key, x) :: l' =>
      f <~ message_field mp key ;;
      match f with
      | Some (NAst KField _ fp) =>
          fd <~ deref fp ;;
          match t_data fd with
          | DNormalField _ _ _ _ _ =>
              v <~ build fl None fp x false ;;
              vs <~ build_items l' ;;
              ret ((key, v) :: vs)
          | d => panic (conversion "proto.Visitee" (go_proto d) "*proto.NormalField")
          end
      | Some _ => forged
      | None =>
          mname <~ node_name mp ;;
          panic (PError (ENew ("unknown message " +:+ mname +:+ " field " +:+ key)))
      end
  end.
End build_loops.

Lemma build_unfold fl opt field lit ignore :
  build fl opt field lit ignore =
  (ft <~ deref field ;;
  match t_data ft with
  | DNormalField _ typ _ repeated _ =>
      if repeated && negb ignore then
        vs <~ build_array fl field (lit_array lit) ;;
        a <~ alloc ;;
        ret (OVArray (mkHdr a opt None) vs)
      else if String.eqb typ "bool" then
        match parse_bool (lit_source lit) with
        | None => panic (PError (EWrap "convert literal to bool" (num_error "ParseBool" (lit_source lit) FSyntax)))
        | Some b => a <~ alloc ;; ret (OVBool (mkHdr a opt (Some lit)) b)
        end
      else if is_signed_type typ then
        match atoi (lit_source lit) with
        | None => panic (PError (EWrap "convert literal to int" (num_error "Atoi" (lit_source lit) (atoi_fault (lit_source lit)))))
        | Some z => a <~ alloc ;; ret (OVInt (mkHdr a opt (Some lit)) z)
        end
      else if is_unsigned_type typ then
        match parse_uint (lit_source lit) with
        | None => panic (PError (EWrap "convert literal to uint" (num_error "ParseUint" (lit_source lit)
                    (default FSyntax (parse_uint_fault (lit_source lit))))))
        | Some n => a <~ alloc ;; ret (OVUint (mkHdr a opt (Some lit)) n)
        end
      else if is_float_type typ then
        match fl_parse fl (lit_source lit) with
        | None => panic (PError (EWrap "convert literal to float" (fl_error fl (lit_source lit))))
        | Some f => a <~ alloc ;; ret (OVFloat (mkHdr a opt (Some lit)) f)
        end
      else if String.eqb typ "string" then
        a <~ alloc ;; ret (OVString (mkHdr a opt (Some lit)) (lit_source lit))
      else if String.eqb typ "bytes" then
        a <~ alloc ;;
        ret (OVBytes (mkHdr a opt (Some lit)) (String.list_ascii_of_string (lit_source lit)))
      else
        ty <~ get_type_by_name field typ ;;
        match ty with
        | Some (NAst KEnum _ ep) =>
            ev <~ enum_value ep (lit_source lit) ;;
            match ev with
            | Some (NAst KEnumValue ea vp) =>
                a <~ alloc ;; ret (OVEnum (mkHdr a opt (Some lit)) ea vp)
            | Some _ => forged
            | None => panic (PError (ENew ("unknown enum " +:+ typ +:+ " value " +:+ (lit_source lit))))
            end
        | Some (NAst KMessage _ mp) =>
            items <~ build_items fl mp (lit_map lit) ;;
            a <~ alloc ;;
            ret (OVMap (mkHdr a opt (Some lit)) items)
        | _ => panic (PError (ENew ("unknown field type: " +:+ typ)))
        end
  | _ => forged
  end).
Proof.
  destruct lit as [lp src arr omap].
  reflexivity.
Qed.

Section render_loops.
Context (fl : floatlib).
Fixpoint render_list (l : list oval) : R (list string) :=
  match l with
  | [] => ret []
  | x :: l' => y <~ render fl x ;; ys <~ render_list l' ;; ret (y :: ys)
  end.
Fixpoint render_items (l : list (string * oval)) : R (list string) :=
  match l with
  | [] => ret []
  | (k, x) :: l' =>
      y <~ render fl x ;; ys <~ render_items l' ;; ret ((k +:+ ": " +:+ y) :: ys)
  end.
End render_loops.
Lemma render_array fl h l :
  render fl (OVArray h l) = (xs <~ render_list fl l ;; ret ("[" +:+ join_with ", " xs +:+ "]")).
Proof. reflexivity. Qed.
Lemma render_map fl h l :
  render fl (OVMap h l) = (xs <~ render_items fl l ;; ret ("{" +:+ join_with ", " xs +:+ "}")).
Proof. reflexivity. Qed.

Lemma rbind_assoc {A B C} (m : R A) (k : A -> R B) (h : B -> R C) s :
  rbind (rbind m k) h s = rbind m (fun a => rbind (k a) h) s.
Proof. unfold rbind. by destruct (m s) as [[a|e|] s1]. Qed.

Section closure.
  Variable Rl : registry -> registry -> Prop.
  Hypothesis Rl_refl : forall s, Rl s s.
  Hypothesis Rl_trans : forall s1 s2 s3, Rl s1 s2 -> Rl s2 s3 -> Rl s1 s3.

  Lemma keeps_ret {A} (a : A) : keeps Rl (ret a).
  Proof. intros s. apply Rl_refl. Qed.
  Lemma keeps_panic {A} msg : keeps Rl (@panic A msg).
  Proof. intros s. apply Rl_refl. Qed.
  Lemma keeps_forged {A} : keeps Rl (@forged A).
  Proof. intros s. apply Rl_refl. Qed.
  Lemma keeps_diverge {A} : keeps Rl (@diverge A).
  Proof. intros s. apply Rl_refl. Qed.
  Lemma keeps_get : keeps Rl get.
  Proof. intros s. apply Rl_refl. Qed.
  Lemma keeps_bind {A B} (m : R A) (k : A -> R B) :
    keeps Rl m -> (forall a, keeps Rl (k a)) -> keeps Rl (rbind m k).
  Proof.
    intros Hm Hk s. unfold rbind. specialize (Hm s).
    destruct (m s) as [[a|e|] s1]; cbn in *; try exact Hm.
    eapply Rl_trans; [exact Hm|apply Hk].
  Qed.
  Lemma keeps_recover {A} (m : R A) : keeps Rl m -> keeps Rl (recover m).
  Proof.
    intros Hm s. unfold recover. specialize (Hm s).
    by destruct (m s) as [[a|e|] s1].
  Qed.
  Lemma keeps_iterate {B A} (pick : B -> R (option A)) l C c yield :
    (forall b, keeps Rl (pick b)) -> (forall c x, keeps Rl (yield c x)) ->
    keeps Rl (iterate pick l C c yield).
  Proof.
    intros Hp Hy. revert c. induction l as [|b l IH]; intros c; cbn [iterate].
    - apply keeps_ret.
    - apply keeps_bind; [apply Hp|]. intros [x|]; [|apply IH].
      apply keeps_bind; [apply Hy|]. intros [c' [|]]; [apply IH|apply keeps_ret].
  Qed.
  Lemma keeps_deref p : keeps Rl (deref p).
  Proof.
    unfold deref. apply keeps_bind; [apply keeps_get|]. intros s.
    case_match; [apply keeps_ret|apply keeps_panic].
  Qed.
  Lemma keeps_kids_of p : keeps Rl (kids_of p).
  Proof. apply keeps_bind; [apply keeps_deref|]. intros t. apply keeps_ret. Qed.
  Lemma keeps_resolve sc n : keeps Rl (resolve sc n).
  Proof.
    unfold resolve. apply keeps_bind; [apply keeps_get|]. intros s.
    case_match; [apply keeps_ret|apply keeps_diverge].
  Qed.
  Lemma keeps_assert_kind i k o : keeps Rl (assert_kind i k o).
  Proof.
    destruct o as [[k' a p| | | | |]|]; try apply keeps_panic.
    destruct k, k'; cbn; first [apply keeps_ret|apply keeps_panic].
  Qed.

  Hypothesis Rl_alloc : keeps Rl alloc.
  Hypothesis Rl_wrap : forall v, keeps Rl (wrap v).

  Ltac kq :=
    repeat first
      [ assumption
      | match goal with
        | |- keeps Rl (rbind _ _) => apply keeps_bind; [|intros]
        | |- keeps Rl (ret _) => apply keeps_ret
        | |- keeps Rl (panic _) => apply keeps_panic
        | |- keeps Rl forged => apply keeps_forged
        | |- keeps Rl diverge => apply keeps_diverge
        | |- keeps Rl get => apply keeps_get
        | |- keeps Rl (deref _) => apply keeps_deref
        | |- keeps Rl (kids_of _) => apply keeps_kids_of
        | |- keeps Rl (resolve _ _) => apply keeps_resolve
        | |- keeps Rl (assert_kind _ _ _) => apply keeps_assert_kind
        | |- keeps Rl alloc => apply Rl_alloc
        | |- keeps Rl (wrap _) => apply Rl_wrap
        | |- keeps Rl (let (_, _) := ?x in _) => destruct x
        | |- keeps Rl (match ?x with _ => _ end) => destruct x
        end ].

Lemma keeps_wrap_as k p : keeps Rl (wrap_as k p).
Proof. unfold wrap_as. kq. Qed.

Lemma keeps_get_type_body p n : keeps Rl (get_type_body p n).
Proof. unfold get_type_body. kq. Qed.
Lemma keeps_get_type_by_name p n : keeps Rl (get_type_by_name p n).
Proof. unfold get_type_by_name, get_type_body. kq. Qed.

Lemma keeps_field_type_body p : keeps Rl (field_type_body p).
Proof. unfold field_type_body. kq; try apply keeps_get_type_by_name. Qed.

Hypothesis Rl_field_type : forall a p, keeps Rl (field_type a p).

Lemma keeps_lookup_kid p sel k : keeps Rl (lookup_kid p sel k).
Proof. unfold lookup_kid. kq. apply keeps_wrap_as. Qed.
Lemma keeps_lookup_type p sel : keeps Rl (lookup_type p sel).
Proof. unfold lookup_type. kq; apply keeps_wrap_as. Qed.
Lemma keeps_map_key p : keeps Rl (map_key p).
Proof. unfold map_key. kq. Qed.
Lemma keeps_map_value p : keeps Rl (map_value p).
Proof. unfold map_value. kq; apply keeps_wrap_as. Qed.
Lemma keeps_flat_description n : keeps Rl (flat_description n).
Proof. unfold flat_description. kq. Qed.
Fixpoint keeps_node_description n : keeps Rl (node_description n).
Proof.
  destruct n as [k a p|b|a [t|]|o|v|key v];
    try (apply (keeps_flat_description (NAst k a p)));
    try (apply keeps_flat_description).
  - destruct k; try apply (keeps_flat_description (NAst _ a p)).
    cbn [node_description]. kq; first [apply keeps_map_key|apply keeps_map_value
      |apply keeps_flat_description].
  - cbn [node_description]. kq. apply keeps_node_description.
  - cbn [node_description]. kq.
Qed.
Fixpoint keeps_type_name n : keeps Rl (type_name n).
Proof.
  destruct n as [k a p|b|a [t|]|o|v|key v]; cbn [type_name]; kq.
  apply keeps_type_name.
Qed.
Fixpoint keeps_node_parent n : keeps Rl (node_parent n).
Proof.
  destruct n as [k a p|b|a [t|]|o|v|key v]; cbn [node_parent]; kq.
  apply keeps_node_parent.
Qed.
Fixpoint keeps_node_pos n : keeps Rl (node_pos n).
Proof.
  destruct n as [k a p|b|a [t|]|o|v|key v]; cbn [node_pos]; kq.
  apply keeps_node_pos.
Qed.
Lemma keeps_node_file n : keeps Rl (node_file n).
Proof. unfold node_file. kq; first [apply keeps_node_pos|apply keeps_wrap_as]. Qed.

Lemma keeps_hierarchy fuel o C c yield :
  (forall c x, keeps Rl (yield c x)) -> keeps Rl (hierarchy_from fuel o C c yield).
Proof.
  intros Hy. revert o c. induction fuel as [|fuel IH]; intros [n|] c; cbn [hierarchy_from]; kq.
  - apply Hy.
  - apply keeps_node_parent.
  - apply IH.
Qed.

Lemma keeps_pos_body n : keeps Rl (pos_body n).
Proof. unfold pos_body. kq. Qed.
Lemma keeps_pos_deferred n r : keeps Rl (pos_deferred n r).
Proof.
  unfold pos_deferred. kq. unfold collect, node_hierarchy. apply keeps_hierarchy.
  intros; kq.
Qed.
Lemma keeps_pos n : keeps Rl (pos n).
Proof.
  intros s. unfold pos. pose proof (keeps_pos_body n s) as Q.
  destruct (pos_body n s) as [[r|m|] s1]; cbn [snd] in *; [| |exact Q].
  - eapply Rl_trans; [exact Q|apply keeps_pos_deferred].
  - pose proof (keeps_pos_deferred n zero_pos s1) as Q2.
    destruct (pos_deferred n zero_pos s1) as [[r2|m2|] s2]; cbn [snd] in *;
      exact (Rl_trans _ _ _ Q Q2).
Qed.

Lemma keeps_option_class c : keeps Rl (option_class c).
Proof. unfold option_class. kq. Qed.
Lemma keeps_new_option sc c o : keeps Rl (new_option sc c o).
Proof. unfold new_option, builtin_option_field. kq. Qed.
Lemma keeps_wrap_option o c : keeps Rl (wrap_option o c).
Proof. unfold wrap_option. kq. apply keeps_new_option. Qed.
Lemma keeps_named_option n sc c p : keeps Rl (named_option n sc c p).
Proof. unfold named_option. kq; first [apply keeps_option_class|apply keeps_new_option]. Qed.
Lemma keeps_option_named n name : keeps Rl (option_named n name).
Proof. unfold option_named, file_package. kq; apply keeps_named_option. Qed.
Lemma keeps_option_name o : keeps Rl (option_name o).
Proof. unfold option_name. kq. Qed.
Lemma keeps_node_index n : keeps Rl (node_index n).
Proof. unfold node_index. kq. Qed.
Lemma keeps_option_is o n : keeps Rl (option_is o n).
Proof. unfold option_is. kq. apply keeps_node_index. Qed.

Lemma keeps_build fl lit : forall opt field ignore, keeps Rl (build fl opt field lit ignore).
Proof.
  induction lit as [lp src arr omap IHa IHm] using literal_nested_ind.
  intros opt field ignore. rewrite build_unfold.
  assert (Ha : keeps Rl (build_array fl field arr)).
  { induction IHa as [|x l Hx _ IH]; cbn [build_array]; kq; auto. }
  assert (Hm : forall mp, keeps Rl (build_items fl mp omap)).
  { intros mp. induction IHm as [|[k x] l Hx _ IH]; cbn [build_items]; kq; auto.
    - apply keeps_lookup_kid.
    - unfold node_name. kq. }
  cbn [lit_array lit_map lit_source]. kq; auto.
  - apply keeps_get_type_by_name.
  - apply keeps_lookup_kid.
Qed.

Lemma keeps_option_value fl o : keeps Rl (option_value fl o).
Proof. unfold option_value. kq. apply keeps_build. Qed.

Lemma keeps_render fl v : keeps Rl (render fl v).
Proof.
  induction v as [| | | | | | |h l IH|h l IH] using oval_nested_ind;
    try (cbn [render]; solve [kq]).
  - rewrite render_array. kq. induction IH as [|x l Hx _ IH]; cbn [render_list]; kq.
  - rewrite render_map. kq. induction IH as [|[k x] l Hx _ IH]; cbn [render_items]; kq.
    
Qed.

Lemma keeps_go_package_option n : keeps Rl (go_package_option n).
Proof. unfold go_package_option. kq. Qed.

(** ** Iterators *)

Lemma keeps_iter_kids {A} p (pick : _ -> R (option A)) C c yield :
  (forall k, keeps Rl (pick k)) -> (forall c x, keeps Rl (yield c x)) ->
  keeps Rl (iter_kids p pick C c yield).
Proof.
  intros Hp Hy. unfold iter_kids. kq.
  apply keeps_iterate; auto.
Qed.
Lemma keeps_pick_kind sel k kid : keeps Rl (pick_kind sel k kid).
Proof. unfold pick_kind. kq. apply keeps_wrap_as. Qed.
Lemma keeps_pick_type kid : keeps Rl (pick_type kid).
Proof. unfold pick_type. kq; apply keeps_wrap_as. Qed.
Lemma keeps_pick_any c kid : keeps Rl (pick_any c kid).
Proof. unfold pick_any. kq; first [apply keeps_option_class|apply keeps_wrap_option]. Qed.
Lemma keeps_pick_option sc c kid : keeps Rl (pick_option sc c kid).
Proof. unfold pick_option. kq. apply keeps_new_option. Qed.
Lemma keeps_pick_method_option kid : keeps Rl (pick_method_option kid).
Proof.
  unfold pick_method_option. kq; first [apply keeps_option_class|apply keeps_wrap_option].
Qed.

Lemma keeps_api_seq {A} (sq : seq A) C c yield :
  api_seq sq -> (forall c x, keeps Rl (yield c x)) -> keeps Rl (sq C c yield).
Proof.
  intros H Hy. destruct H;
    try (apply keeps_iter_kids; [intros; first
        [apply keeps_pick_kind|apply keeps_pick_type|apply keeps_pick_any
        |apply keeps_pick_method_option|apply keeps_pick_option]|exact Hy]).
  - unfold reserved_values. kq. apply keeps_iterate; [intros; kq|exact Hy].
  - apply keeps_hierarchy, Hy.
Qed.

(** Registry.Options only looks things up *)
Lemma option_class_shape cn s :
  (exists p, option_class cn s = (Ret p, s)) \/ exists m, option_class cn s = (Panic m, s).
Proof.
  unfold option_class, rbind, get, deref, ret, panic. destruct (names s !! cn) as [p|]; [|eauto].
  unfold rbind, get. destruct (heap_at s p) as [t|]; [|eauto]. destruct (t_data t); eauto.
Qed.
Lemma seq_options_shape sc cn p s :
  (exists class, seq_options sc cn p s = (Ret (kept_options sc class p), s)) \/
  exists m, seq_options sc cn p s = (Panic m, s).
Proof.
  unfold seq_options, rbind. destruct (option_class_shape cn s) as [[cl E]|[m E]]; rewrite E; [left|right]; eauto.
Qed.
Lemma options_shape n s :
  (exists sc class p, options n s = (Ret (kept_options sc class p), s)) \/
  exists m, options n s = (Panic m, s).
Proof.
  assert (H : forall sc cn p, (exists sc' class p', seq_options sc cn p s = (Ret (kept_options sc' class p'), s)) \/
    exists m, seq_options sc cn p s = (Panic m, s)).
  { intros sc cn p. destruct (seq_options_shape sc cn p s) as [[? ->]|[? ->]]; eauto 6. }
  unfold options. rewrite rbind_get. destruct n as [k a p|b|a t|o|v|key v]; try (right; by eexists).
  destruct k; try (right; by eexists); try apply H.
  - unfold file_package, deref, rbind, get, ret, panic in *. destruct (heap_at s p); [apply H|right; by eexists].
  - unfold deref, rbind, get, ret, panic in *. destruct (heap_at s p) as [t|]; [|right; by eexists].
    destruct (t_data t); try (right; by eexists); apply H.
Qed.
Lemma keeps_options A n (k : seq optn -> R A) :
  (forall sc class p, keeps Rl (k (kept_options sc class p))) -> keeps Rl (sq <~ options n ;; k sq).
Proof.
  intros Hk s. unfold rbind. destruct (options_shape n s) as [(sc & cl & p & E)|[m E]]; rewrite E.
  - apply Hk.
  - apply Rl_refl.
Qed.

Lemma keeps_go_package n : keeps Rl (go_package n).
Proof.
  unfold go_package. kq; [apply keeps_node_file|].
  apply (keeps_api_seq _ _ _ _ (seq_file_everything _)). intros c x.
  kq; first [apply keeps_option_name|apply keeps_go_package_option].
Qed.

Lemma keeps_api {A} (m : R A) : api m -> keeps Rl m.
Proof.
  destruct 1;
    first
    [ apply Rl_field_type | apply keeps_map_value | apply keeps_map_key
    | apply keeps_lookup_kid | apply keeps_lookup_type
    | apply keeps_type_name | apply keeps_node_description | apply keeps_node_parent
    | apply keeps_node_file | apply keeps_pos | apply keeps_option_named
    | apply keeps_option_name | apply keeps_option_is | apply keeps_option_value
    | apply keeps_render | apply keeps_go_package_option | apply keeps_go_package
    | apply keeps_node_index
    | unfold branch_type, method_input, method_output, node_name, file_package,
        message_is_extension, field_value, enum_value_value, branch_value, field_optional,
        node_by_full_name, comment, type_is_defined;
      kq; apply keeps_get_type_by_name ].
Qed.

(** Every client program preserves [Rl] (loading ones if [proto] does). *)
Lemma keeps_proto_or_exit e fuel path :
  keeps Rl (proto e fuel path) -> keeps Rl (proto_or_exit e fuel path).
Proof.
  intros H s. unfold proto_or_exit. specialize (H s).
  destruct (proto e fuel path s) as [[r|m|] s']; [done|apply Rl_refl|apply Rl_refl].
Qed.
Lemma keeps_client b {A} (m : R A) :
  (b = Loads -> forall e fuel path, env_ok e -> keeps Rl (proto e fuel path)) ->
  (b <> Queries -> forall e fuel path, env_ok e -> keeps Rl (proto_or_exit e fuel path)) ->
  client b m -> keeps Rl m.
Proof.
  intros Hp Hp2. induction 1 as
    [A a|A msg|A B m k _ IHm _ IHk|A m _ IHm|A m Hm|A sq C c yield Hsq _ IHy
    |A n k _ IHk|e fuel path Hl He|e fuel path Hl He];
    [kq|kq| | | | | |by apply Hp|by apply Hp2].
  - apply keeps_bind; auto.
  - apply keeps_recover; auto.
  - apply keeps_api, Hm.
  - apply keeps_api_seq; auto.
  - by apply keeps_options.
Qed.
End closure.

(** ** The quiet relation *)

Record quiet (s s' : registry) : Prop := mkQuiet {
  q_heap : heap s' = heap s;
  q_protos : protos s' = protos s;
  q_names : names s' = names s;
  q_scopes : scopes s' = scopes s;
  q_cache : forall v n, cache s !! v = Some n -> cache s' !! v = Some n;
  q_ftcache : forall k n, ftcache s !! k = Some n -> ftcache s' !! k = Some n;
  q_next : (next s <= next s')%N
}.

Lemma quiet_refl s : quiet s s.
Proof. by constructor. Qed.
Lemma quiet_trans s1 s2 s3 : quiet s1 s2 -> quiet s2 s3 -> quiet s1 s3.
Proof. intros [] []. constructor; try congruence; auto. lia. Qed.

Lemma quiet_heap_at s s' p : quiet s s' -> heap_at s' p = heap_at s p.
Proof. intros Q. unfold heap_at. by rewrite (q_heap _ _ Q). Qed.

Lemma quiet_alloc : keeps quiet alloc.
Proof. intros s. constructor; cbn; auto. lia. Qed.

Lemma quiet_wrap v : keeps quiet (wrap v).
Proof.
  intros s. unfold wrap, rbind, get.
  assert (Hnew : cache s !! v = None -> forall n x,
             quiet s (set_cache (<[v := n]> (cache s)) (set_next (next s + x)%N s))).
  { intros Hc n x. constructor; cbn; auto; try lia.
    intros v' n' Hv'. rewrite lookup_insert_ne; [done|]. congruence. }
  assert (Hnew0 : cache s !! v = None -> forall n,
             quiet s (set_cache (<[v := n]> (cache s)) s)).
  { intros Hc n. constructor; cbn; auto; try lia.
    intros v' n' Hv'. rewrite lookup_insert_ne; [done|]. congruence. }
  destruct (cache s !! v) as [res|] eqn:Hc; [apply quiet_refl|].
  destruct v as [| | |p]; try (cbn; apply Hnew0; auto).
  destruct (heap_at s p) as [t|]; [|apply quiet_refl].
  destruct (wrap_kind (t_data t)) as [k|]; cbn; [apply Hnew; auto|apply Hnew0; auto].
Qed.

Lemma quiet_field_type a p : keeps quiet (field_type a p).
Proof.
  intros s. unfold field_type, rbind, get.
  destruct (ftcache s !! (a, p)) as [res|] eqn:Hc; [apply quiet_refl|].
  pose proof (keeps_field_type_body quiet quiet_refl quiet_trans quiet_alloc quiet_wrap p s) as Q.
  destruct (field_type_body p s) as [[res|m|] s1] eqn:Hb; cbn in *; [| |exact Q].
  all: destruct Q as [Q1 Q2 Q3 Q4 Q5 Q6 Q7]; constructor; cbn; auto.
  all: intros k n Hk; destruct (decide (k = (a, p))) as [->|Hne]; [congruence|].
  all: rewrite lookup_insert_ne by congruence; auto.
Qed.


(** Every query program is quiet. *)
Theorem query_quiet {A} (m : R A) : client Queries m -> keeps quiet m.
Proof.
  apply (keeps_client quiet quiet_refl quiet_trans quiet_alloc quiet_wrap quiet_field_type);
    done.
Qed.
