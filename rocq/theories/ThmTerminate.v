(** * C64: every query terminates. *)
From Verif Require Export ThmAccessors Navigate.

(** [m] comes back from every registry that can exist. *)
Definition fin {A} (m : R A) : Prop := forall s, Inv s -> (m s).1 <> Diverge /\ Inv (m s).2.

Lemma fin_keeps {A} (m : R A) : keeps inv_step m -> (forall s, Inv s -> (m s).1 <> Diverge) -> fin m.
Proof. intros K H s I. split; [by apply H|by apply K]. Qed.
Lemma fin_bind {A B} (m : R A) (k : A -> R B) : fin m -> (forall a, fin (k a)) -> fin (rbind m k).
Proof.
  intros Hm Hk s I. unfold rbind. destruct (Hm s I) as [Hd I1].
  destruct (m s) as [[a|e|] s1]; cbn in *; [by apply Hk|done|done].
Qed.
Lemma fin_ret {A} (a : A) : fin (ret a).
Proof. by intros s I. Qed.
Lemma fin_panic {A} msg : fin (@panic A msg).
Proof. by intros s I. Qed.
Lemma fin_forged {A} : fin (@forged A).
Proof. by intros s I. Qed.
Lemma fin_get : fin get.
Proof. by intros s I. Qed.
Lemma fin_alloc : fin alloc.
Proof. by apply fin_keeps; [apply inv_step_alloc|]. Qed.
Lemma fin_recover {A} (m : R A) : fin m -> fin (recover m).
Proof.
  intros Hm s I. unfold recover. destruct (Hm s I) as [Hd I1].
  by destruct (m s) as [[a|e|] s1].
Qed.
Lemma fin_wrap v : fin (wrap v).
Proof.
  apply fin_keeps; [apply inv_step_wrap|]. intros s _. unfold wrap. rewrite rbind_get.
  destruct (cache s !! v); [done|]. destruct v as [| | |p]; try done.
  destruct (heap_at s p) as [t|]; [|done]. by destruct (wrap_kind (t_data t)).
Qed.
Lemma fin_deref p : fin (deref p).
Proof. unfold deref. apply fin_bind; [apply fin_get|]. intros s. case_match; [apply fin_ret|apply fin_panic]. Qed.
Lemma fin_kids_of p : fin (kids_of p).
Proof. apply fin_bind; [apply fin_deref|]. intros t. apply fin_ret. Qed.
Lemma fin_assert_kind i k o : fin (assert_kind i k o).
Proof.
  destruct o as [[k' a p| | | | |]|]; try apply fin_panic.
  destruct k, k'; cbn; first [apply fin_ret|apply fin_panic].
Qed.

Lemma last_index_lt c s : forall i, last_index c s = Some i -> i < String.length s.
Proof.
  induction s as [|x r IH]; intros i; cbn; [done|].
  destruct (last_index c r) as [j|]; [intros [= <-]; specialize (IH j eq_refl); lia|].
  destruct (Ascii.eqb x c); [intros [= <-]; lia|done].
Qed.
Lemma str_take_length n s : String.length (str_take n s) <= n.
Proof.
  revert s. induction n as [|n IH]; intros [|x r]; cbn; try lia. specialize (IH r). lia.
Qed.
(** The search over enclosing scopes ends: the scope gets shorter at every step. *)
Lemma resolve_loop_ends reg name fuel : forall scope,
  String.length scope < fuel -> resolve_loop reg fuel scope name <> None.
Proof.
  induction fuel as [|fuel IH]; intros scope Hl; [lia|]. cbn [resolve_loop].
  destruct (defined reg _); [done|].
  destruct (String.eqb_spec scope ""); [done|].
  apply IH. destruct (last_index "."%char scope) as [[|i]|] eqn:E.
  - destruct scope; [done|cbn in *; lia].
  - apply last_index_lt in E. pose proof (str_take_length (S i) scope). lia.
  - destruct scope; [done|cbn in *; lia].
Qed.
Lemma fin_resolve sc n : fin (resolve sc n).
Proof.
  unfold resolve. apply fin_bind; [apply fin_get|]. intros s.
  destruct (resolve_name_raw (names s) sc n) as [r|] eqn:E; [apply fin_ret|].
  exfalso. revert E. unfold resolve_name_raw. destruct (has_prefix n "."); [done|].
  apply resolve_loop_ends. lia.
Qed.

Ltac fq :=
  repeat first
    [ assumption
    | match goal with
      | |- fin (rbind _ _) => apply fin_bind; [|intros]
      | |- fin (ret _) => apply fin_ret
      | |- fin (panic _) => apply fin_panic
      | |- fin forged => apply fin_forged
      | |- fin get => apply fin_get
      | |- fin (deref _) => apply fin_deref
      | |- fin (kids_of _) => apply fin_kids_of
      | |- fin (resolve _ _) => apply fin_resolve
      | |- fin (assert_kind _ _ _) => apply fin_assert_kind
      | |- fin alloc => apply fin_alloc
      | |- fin (wrap _) => apply fin_wrap
      | |- fin (let (_, _) := ?x in _) => destruct x
      | |- fin (match ?x with _ => _ end) => destruct x
      end ].

Lemma fin_iterate {B A} (pick : B -> R (option A)) l C c yield :
  (forall b, fin (pick b)) -> (forall c x, fin (yield c x)) -> fin (iterate pick l C c yield).
Proof.
  intros Hp Hy. revert c. induction l as [|b l IH]; intros c; cbn [iterate].
  - apply fin_ret.
  - apply fin_bind; [apply Hp|]. intros [x|]; [|apply IH].
    apply fin_bind; [apply Hy|]. intros [c' [|]]; [apply IH|apply fin_ret].
Qed.
Lemma fin_wrap_as k p : fin (wrap_as k p).
Proof. unfold wrap_as. fq. Qed.
Lemma fin_get_type_by_name p n : fin (get_type_by_name p n).
Proof. unfold get_type_by_name, get_type_body. fq. Qed.
Lemma fin_field_type_body p : fin (field_type_body p).
Proof. unfold field_type_body. fq; try apply fin_get_type_by_name. Qed.
Lemma fin_field_type a p : fin (field_type a p).
Proof.
  apply fin_keeps; [apply inv_step_field_type|]. intros s I. unfold field_type. rewrite rbind_get.
  destruct (ftcache s !! (a, p)); [done|]. destruct (fin_field_type_body p s I) as [Hd _].
  by destruct (field_type_body p s) as [[r|m|] s1].
Qed.
Lemma fin_lookup_kid p sel k : fin (lookup_kid p sel k).
Proof. unfold lookup_kid. fq. apply fin_wrap_as. Qed.
Lemma fin_lookup_type p sel : fin (lookup_type p sel).
Proof. unfold lookup_type. fq; apply fin_wrap_as. Qed.
Lemma fin_map_key p : fin (map_key p).
Proof. unfold map_key. fq. Qed.
Lemma fin_map_value p : fin (map_value p).
Proof. unfold map_value. fq; apply fin_wrap_as. Qed.
Lemma fin_flat_description n : fin (flat_description n).
Proof. unfold flat_description. fq. Qed.
Fixpoint fin_node_description n : fin (node_description n).
Proof.
  destruct n as [k a p|b|a [t|]|o|v|key v];
    try (apply (fin_flat_description (NAst k a p)));
    try (apply fin_flat_description).
  - destruct k; try apply (fin_flat_description (NAst _ a p)).
    cbn [node_description]. fq; first [apply fin_map_key|apply fin_map_value
      |apply fin_flat_description].
  - cbn [node_description]. fq. apply fin_node_description.
  - cbn [node_description]. fq.
Qed.
Fixpoint fin_type_name n : fin (type_name n).
Proof. destruct n as [k a p|b|a [t|]|o|v|key v]; cbn [type_name]; fq. apply fin_type_name. Qed.
Fixpoint fin_node_parent n : fin (node_parent n).
Proof. destruct n as [k a p|b|a [t|]|o|v|key v]; cbn [node_parent]; fq. apply fin_node_parent. Qed.
Fixpoint fin_node_pos n : fin (node_pos n).
Proof. destruct n as [k a p|b|a [t|]|o|v|key v]; cbn [node_pos]; fq. apply fin_node_pos. Qed.
Lemma fin_node_file n : fin (node_file n).
Proof. unfold node_file. fq; first [apply fin_node_pos|apply fin_wrap_as]. Qed.

(** Going to the parent gets strictly closer to the file. *)
Lemma wrap_parent_fuel p s n' s' : Inv s -> wrap (parent_visitee p) s = (Ret (Some n'), s') ->
  node_fuel n' < 2 + length p.2.
Proof.
  intros [_ N] E. destruct (wrap_ret _ _ _ _ N E) as (q & k & a & t & Hv & -> & _).
  unfold parent_visitee, parent_ptr in Hv. destruct p as [g [|i π]]; cbn in *; [done|].
  injection Hv as <-. cbn. lia.
Qed.
Lemma node_parent_fuel n s s' : Inv s -> forall n',
  node_parent n s = (Ret (Some n'), s') -> node_fuel n' < node_fuel n.
Proof.
  intros I. induction n as [k a p|b|a|a t IH|o|v|key v] using node_nested_ind; intros n' E;
    try discriminate E.
  - destruct k; try discriminate E; exact (wrap_parent_fuel _ _ _ _ I E).
  - cbn [node_fuel]. specialize (IH _ E). lia.
  - pose proof (wrap_parent_fuel _ _ _ _ I E). cbn [node_fuel]. lia.
  - cbn [node_parent] in E. destruct I as [_ N].
    destruct (wrap_ret _ _ _ _ N E) as (q & k & a & t & Hv & -> & _).
    cbn [node_fuel]. destruct (ov_option (ov_hdr v)); [|done]. injection Hv as ->. lia.
Qed.
Lemma fin_hierarchy C yield fuel : (forall c x, fin (yield c x)) ->
  forall o c, (match o with Some n => node_fuel n <= fuel | None => True end) ->
  fin (hierarchy_from fuel o C c yield).
Proof.
  intros Hy. induction fuel as [|fuel IH]; intros [n|] c Hf; cbn [hierarchy_from];
    try apply fin_ret.
  - exfalso. destruct n as [| |? []| | |]; cbn in Hf; inversion Hf.
  - apply fin_bind; [apply Hy|]. intros [c' [|]]; [|apply fin_ret].
    intros s I. unfold rbind. destruct (fin_node_parent n s I) as [Hd I1].
    destruct (node_parent n s) as [[[par|]|m|] s1] eqn:E; cbn in *; try done.
    + apply IH; [|done]. pose proof (node_parent_fuel n s s1 I par E). lia.
    + by apply IH.
Qed.

Lemma fin_pos n : fin (pos n).
Proof.
  assert (Hb : fin (pos_body n)) by (unfold pos_body; fq).
  assert (Hd : forall r, fin (pos_deferred n r)).
  { intros r. unfold pos_deferred. fq. unfold collect, node_hierarchy.
    apply fin_hierarchy; [intros; fq|cbn; lia]. }
  intros s I. unfold pos. destruct (Hb s I) as [H1 I1].
  destruct (pos_body n s) as [[r|m|] s1]; cbn [fst snd] in *; [by apply Hd| |done].
  destruct (Hd zero_pos s1 I1) as [H2 I2].
  destruct (pos_deferred n zero_pos s1) as [[r|m2|] s2]; cbn [fst snd] in *; (by split) || done.
Qed.

Lemma fin_option_class c : fin (option_class c).
Proof. unfold option_class. fq. Qed.
Lemma fin_new_option sc c o : fin (new_option sc c o).
Proof. unfold new_option, builtin_option_field. fq. Qed.
Lemma fin_wrap_option o c : fin (wrap_option o c).
Proof. unfold wrap_option. fq. apply fin_new_option. Qed.
Lemma fin_named_option n sc c p : fin (named_option n sc c p).
Proof. unfold named_option. fq; first [apply fin_option_class|apply fin_new_option]. Qed.
Lemma fin_option_named n name : fin (option_named n name).
Proof. unfold option_named, file_package. fq; apply fin_named_option. Qed.
Lemma fin_option_name o : fin (option_name o).
Proof. unfold option_name. fq. Qed.
Lemma fin_node_index n : fin (node_index n).
Proof. unfold node_index. fq. Qed.
Lemma fin_option_is o n : fin (option_is o n).
Proof. unfold option_is. fq. apply fin_node_index. Qed.
Lemma fin_build fl lit : forall opt field ignore, fin (build fl opt field lit ignore).
Proof.
  induction lit as [lp src arr omap IHa IHm] using literal_nested_ind.
  intros opt field ignore. rewrite build_unfold.
  assert (Ha : fin (build_array fl field arr)).
  { induction IHa as [|x l Hx _ IH]; cbn [build_array]; fq; auto. }
  assert (Hm : forall mp, fin (build_items fl mp omap)).
  { intros mp. induction IHm as [|[k x] l Hx _ IH]; cbn [build_items]; fq; auto.
    - apply fin_lookup_kid.
    - unfold node_name. fq. }
  cbn [lit_array lit_map lit_source]. fq; auto.
  - apply fin_get_type_by_name.
  - apply fin_lookup_kid.
Qed.
Lemma fin_option_value fl o : fin (option_value fl o).
Proof. unfold option_value. fq. apply fin_build. Qed.
Lemma fin_render fl v : fin (render fl v).
Proof.
  induction v as [| | | | | | |h l IH|h l IH] using oval_nested_ind;
    try (cbn [render]; solve [fq]).
  - rewrite render_array. fq. induction IH as [|x l Hx _ IH]; cbn [render_list]; fq.
  - rewrite render_map. fq. induction IH as [|[k x] l Hx _ IH]; cbn [render_items]; fq.
Qed.
Lemma fin_go_package_option n : fin (go_package_option n).
Proof. unfold go_package_option. fq. Qed.

Lemma fin_iter_kids {A} p (pick : _ -> R (option A)) C c yield :
  (forall k, fin (pick k)) -> (forall c x, fin (yield c x)) -> fin (iter_kids p pick C c yield).
Proof. intros Hp Hy. unfold iter_kids. fq. apply fin_iterate; auto. Qed.
Lemma fin_pick_kind sel k kid : fin (pick_kind sel k kid).
Proof. unfold pick_kind. fq. apply fin_wrap_as. Qed.
Lemma fin_pick_type kid : fin (pick_type kid).
Proof. unfold pick_type. fq; apply fin_wrap_as. Qed.
Lemma fin_pick_any c kid : fin (pick_any c kid).
Proof. unfold pick_any. fq; first [apply fin_option_class|apply fin_wrap_option]. Qed.
Lemma fin_pick_option sc c kid : fin (pick_option sc c kid).
Proof. unfold pick_option. fq. apply fin_new_option. Qed.
Lemma fin_pick_method_option kid : fin (pick_method_option kid).
Proof. unfold pick_method_option. fq; first [apply fin_option_class|apply fin_wrap_option]. Qed.

(** Programs over a registry: like [client], with two requirements about the model's step counters:
    a load gets at least as many nested imports as there are files in some finite set closed under
    imports, and a loop over NodeHierarchy gets at least [node_fuel] steps. *)
Inductive program : forall {A : Type}, R A -> Prop :=
| pg_ret A (a : A) : program (ret a)
| pg_panic A msg : program (@panic A msg)
| pg_bind A B (m : R A) (k : A -> R B) :
    program m -> (forall a, program (k a)) -> program (rbind m k)
| pg_recover A (m : R A) : program m -> program (recover m)
| pg_api A (m : R A) : api m -> program m
| pg_nodes (sq : seq node) C c yield :
    node_iterator sq -> (forall c x, program (yield c x)) -> program (sq C c yield)
| pg_everything (sq : seq (option node)) C c yield :
    everything_iterator sq -> (forall c x, program (yield c x)) -> program (sq C c yield)
| pg_method_options p C c yield :
    (forall c x, program (yield c x)) -> program (method_options p C c yield)
| pg_options A n (k : seq optn -> R A) :
    (forall scope class p, program (k (kept_options scope class p))) ->
    program (sq <~ options n ;; k sq)
| pg_kept_options scope class p C c yield :
    (forall c x, program (yield c x)) -> program (kept_options scope class p C c yield)
| pg_reserved p C c yield :
    (forall c x, program (yield c x)) -> program (reserved_values p C c yield)
| pg_hierarchy fuel n C c yield :
    node_fuel n <= fuel ->
    (forall c x, program (yield c x)) -> program (node_hierarchy fuel n C c yield)
| pg_proto e U fuel path :
    env_ok e -> closed_under_imports e U -> path ∈ U -> length U <= fuel ->
    program (proto e fuel path).

Lemma fin_node_iterator sq C c yield :
  node_iterator sq -> (forall c x, fin (yield c x)) -> fin (sq C c yield).
Proof.
  intros H Hy. destruct H; apply fin_iter_kids; try exact Hy; intros;
    first [apply fin_pick_kind|apply fin_pick_type].
Qed.
Lemma fin_everything_iterator sq C c yield :
  everything_iterator sq -> (forall c x, fin (yield c x)) -> fin (sq C c yield).
Proof.
  intros H Hy. destruct H; apply fin_iter_kids; try exact Hy; intros; apply fin_pick_any.
Qed.
Lemma fin_options A n (k : seq optn -> R A) :
  (forall sc class p, fin (k (kept_options sc class p))) -> fin (sq <~ options n ;; k sq).
Proof.
  intros Hk s I. unfold rbind. destruct (options_shape n s) as [(sc & cl & p & E)|[m E]]; rewrite E.
  - by apply Hk.
  - by split.
Qed.
Lemma fin_go_package n : fin (go_package n).
Proof.
  unfold go_package. fq; [apply fin_node_file|].
  apply (fin_everything_iterator _ _ _ _ (ei_file _)). intros c x.
  fq; first [apply fin_option_name|apply fin_go_package_option].
Qed.
Lemma fin_api {A} (m : R A) : api m -> fin m.
Proof.
  destruct 1;
    first
    [ apply fin_field_type | apply fin_map_value | apply fin_map_key
    | apply fin_lookup_kid | apply fin_lookup_type
    | apply fin_type_name | apply fin_node_description | apply fin_node_parent
    | apply fin_node_file | apply fin_pos | apply fin_option_named
    | apply fin_option_name | apply fin_option_is | apply fin_option_value
    | apply fin_render | apply fin_go_package_option | apply fin_go_package
    | apply fin_node_index
    | unfold branch_type, method_input, method_output, node_name, file_package,
        message_is_extension, field_value, enum_value_value, branch_value, field_optional,
        node_by_full_name, comment, type_is_defined;
      fq; apply fin_get_type_by_name ].
Qed.
Lemma fin_program {A} (m : R A) : program m -> fin m.
Proof.
  induction 1 as [A a|A msg|A B m k _ IHm _ IHk|A m _ IHm|A m Hm|sq C c yield Hsq _ IHy
    |sq C c yield Hsq _ IHy|p C c yield _ IHy|A n k _ IHk|sc cl p C c yield _ IHy|p C c yield _ IHy
    |fuel n C c yield Hf _ IHy|e U fuel path He HU Hp Hf].
  - apply fin_ret.
  - apply fin_panic.
  - by apply fin_bind.
  - by apply fin_recover.
  - by apply fin_api.
  - by apply fin_node_iterator.
  - by apply fin_everything_iterator.
  - apply fin_iter_kids; [intros; apply fin_pick_method_option|exact IHy].
  - by apply fin_options.
  - apply fin_iter_kids; [intros; apply fin_pick_option|exact IHy].
  - unfold reserved_values. fq. apply fin_iterate; [intros; fq|exact IHy].
  - apply (fin_hierarchy _ _ _ IHy (Some n)). exact Hf.
  - apply fin_keeps; [apply (client_inv_step Loads); by apply cl_proto|]. intros s _.
    destruct (load_terminates e U path s He HU Hp) as (o & s' & Ho & E). by rewrite (E _ Hf).
Qed.

(** Every API call comes back (with a value or a panic), on any arguments, in every state. *)
Theorem C64_queries_terminate s {A} (m : R A) :
  reachable s -> api m -> (m s).1 <> Diverge.
Proof. intros Hs Hm. apply fin_api; [done|by apply reachable_Inv]. Qed.

(** Every program made of API calls, loops over iterators, recovered panics and loads of files with
    finitely many transitive imports terminates; the loops need not break. *)
Theorem C64_programs_terminate s {A} (m : R A) :
  reachable s -> program m -> (m s).1 <> Diverge.
Proof. intros Hs Hm. apply fin_program; [done|by apply reachable_Inv]. Qed.

(** a loop over all messages of a file, in it a loop over the fields, in it the positions of the
    whole hierarchy of each field, and then a load of the file the demo starts from *)
Definition nested_loops : R nat :=
  r <~ proto demo_env 4 dat_f ;;
  match r with
  | inl _ => ret 0
  | inr f =>
      file_messages (ptr_of f) nat 0 (fun c m =>
        message_fields (ptr_of m) (nat * bool)%type (c, true) (fun c x =>
          c' <~ node_hierarchy (node_fuel x) x nat c.1 (fun c y => pos y ;;; ret (S c, true)) ;;
          ret ((c', true), true)))
  end.
Example C64_example : program nested_loops /\ (nested_loops (start demo_files)).1 = Ret 33.
Proof.
  split; [|vm_compute; reflexivity].
  apply pg_bind.
  - apply (pg_proto demo_env [desc_f; any_f; dat_f; meta_f]);
      [apply demo_env_ok|apply C02_example|set_solver|cbn; lia].
  - intros [err|f]; [apply pg_ret|]. apply pg_nodes; [constructor|]. intros c m.
    apply pg_nodes; [constructor|]. intros c2 x. apply pg_bind; [|intros; apply pg_ret].
    apply pg_hierarchy; [lia|]. intros c3 y. apply pg_bind; [apply pg_api, api_pos|intros; apply pg_ret].
Qed.
