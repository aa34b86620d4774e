(** * Types of fields: specification and proofs. *)
From Verif Require Export Resolve ThmIterators.

(** ** Specification *)

(** The calls that ask for the type named [typ] at the element [p]: MessageField.Type (of a
    MessageField whose type was not asked for yet), the element type of a repeated field,
    OneOfBranch.Type. *)
Inductive asks (s : registry) : ptr -> string -> R (option node) -> Prop :=
| asks_field a p t name typ seq opt :
    element_at s p t -> t_data t = DNormalField name typ seq false opt ->
    ftcache s !! (a, p) = None -> asks s p typ (field_type a p)
| asks_repeated a p t name typ seq opt :
    element_at s p t -> t_data t = DNormalField name typ seq true opt ->
    ftcache s !! (a, p) = None ->
    asks s p typ (ty <~ field_type a p ;; ret (element_type ty))
| asks_branch p t name typ seq :
    element_at s p t -> t_data t = DOneOfField name typ seq -> asks s p typ (branch_type p).

(** The fully qualified name of the field, branch or method at [p] has the components [comps]. *)
Definition in_scope (s : registry) (p : ptr) (comps : list string) : Prop :=
  (exists k a, k ∈ [KField; KBranch; KMethod] /\ (node_index (NAst k a p) s).1 = Ret (dotted comps)) /\
  Forall ident comps.

(** The node is a message or an enum. *)
Definition message_or_enum (n : node) : Prop :=
  match n with NAst (KMessage | KEnum) _ _ => True | _ => False end.
Definition is_enum_value (n : node) : Prop :=
  match n with NAst KEnumValue _ _ => True | _ => False end.

(** ** Proofs *)

Lemma builtin_none name : name ∉ scalar_names -> builtin_type name = None.
Proof.
  intros H. unfold scalar_names in H. rewrite !not_elem_of_cons in H.
  destruct_and! H.
  repeat (match goal with H : name <> ?x |- _ => apply String.eqb_neq in H end).
  unfold builtin_type, builtin_comparable.
  repeat (match goal with H : String.eqb name ?x = false |- _ => rewrite H; clear H end). done.
Qed.
Lemma builtin_some name : name ∈ scalar_names -> exists b, builtin_type name = Some b /\ builtin_string b = name.
Proof.
  unfold scalar_names. rewrite !elem_of_cons, elem_of_nil.
  intros H. repeat destruct H as [->|H]; try (eexists; split; reflexivity). done.
Qed.

Lemma in_scope_of s p comps : in_scope s p comps ->
  scope_of s (VPtr p) = dotted comps /\ Forall ident comps.
Proof.
  intros [(k & a & Hk & E) Hid]. split; [|done]. unfold node_index in E. rewrite rbind_get in E.
  rewrite !elem_of_cons, elem_of_nil in Hk. destruct Hk as [->|[->|[->|[]]]]; cbn in E; congruence.
Qed.

(** the panic for a node that is no type *)
Definition no_type (s : registry) (n : node) : payload := match n with NAst _ _ p => not_a_type s p | _ => "" end.

(** what the lookup of a type name gives, before the Repeated wrapper *)
Lemma get_type_body_spec s p typ comps :
  Inv s -> scope_of s (VPtr p) = dotted comps -> Forall ident comps -> typ ∉ scalar_names ->
  (exists q n s1, denotes s comps typ q /\ node_by_full_name q s = (Ret (Some n), s1) /\
     get_type_body p typ s =
       (if implements_type n then Ret (Some n) else Panic (no_type s n), s1)) \/
  ((forall q, ~ denotes s comps typ q) /\ get_type_body p typ s = (Ret None, s)).
Proof.
  intros I Hsc Hid Hb. unfold get_type_body. rewrite (builtin_none _ Hb), rbind_get, Hsc.
  destruct (resolve_raw_spec s comps typ I Hid) as [(q & Hq & Hr)|[Hn _]].
  - left. rewrite (rbind_val _ _ _ _ _ (resolve_denotes _ _ _ _ I Hid Hq)). cbn [negb].
    destruct (proj1 (found_names s q I) (proj1 Hq)) as [pq Hpq]. rewrite Hpq.
    destruct (lookup_named _ _ _ I Hpq) as (f & t & k & a & s1 & _ & _ & _ & _ & E & _).
    exists q, (NAst k a pq), s1. split; [done|]. split; [done|].
    unfold node_by_full_name in E. rewrite rbind_get, Hpq in E.
    rewrite (rbind_val _ _ _ _ _ E). by destruct (implements_type (NAst k a pq)).
  - right. split; [done|]. destruct (resolve_unknown _ _ _ I Hid Hn) as [q E].
    by rewrite (rbind_val _ _ _ _ _ E).
Qed.

Lemma get_type_body_quiet p typ s : quiet s (get_type_body p typ s).2.
Proof.
  apply (keeps_get_type_body quiet quiet_refl quiet_trans quiet_wrap).
Qed.

Definition plain (d : data) : bool := match d with DNormalField _ _ _ true _ => false | _ => true end.
Lemma get_type_plain s p t typ : heap_at s p = Some t -> plain (t_data t) = true ->
  get_type_by_name p typ s = get_type_body p typ s.
Proof.
  intros Ht Hp. unfold get_type_by_name. unfold rbind at 1. pose proof (get_type_body_quiet p typ s) as Q.
  destruct (get_type_body p typ s) as [[o|m|] s1]; [|done|done]. cbn in Q.
  rewrite (rbind_val _ _ _ t s1) by (apply deref_ok; by rewrite (quiet_heap_at _ _ _ Q)).
  destruct (t_data t) as [| | | | | | |? ? ? [] ?| | | | | | | | | | |]; done.
Qed.
Lemma get_type_repeated s p t typ : heap_at s p = Some t -> plain (t_data t) = false ->
  match get_type_body p typ s with
  | (Ret o, s1) => exists a s', get_type_by_name p typ s = (Ret (Some (NRepeated a o)), s')
  | (Panic m, s1) => get_type_by_name p typ s = (Panic m, s1)
  | (Diverge, s1) => True
  end.
Proof.
  intros Ht Hp. pose proof (get_type_body_quiet p typ s) as Q.
  destruct (get_type_body p typ s) as [[o|m|] s1] eqn:E; [| |done]; cbn in Q; unfold get_type_by_name.
  - rewrite (rbind_val _ _ _ _ _ E).
    rewrite (rbind_val _ _ _ t s1) by (apply deref_ok; by rewrite (quiet_heap_at _ _ _ Q)).
    destruct (t_data t) as [| | | | | | |? ? ? [] ?| | | | | | | | | | |]; try done.
    eexists _, _. reflexivity.
  - by rewrite (rbind_pan _ _ _ _ _ E).
Qed.

Lemma field_type_new a p t name typ seq rep opt s :
  heap_at s p = Some t -> t_data t = DNormalField name typ seq rep opt -> ftcache s !! (a, p) = None ->
  (field_type a p s).1 = (get_type_by_name p typ s).1.
Proof.
  intros Ht Hd Hn. rewrite field_type_unfold, Hn. unfold field_type_body.
  rewrite (rbind_val _ _ _ _ _ (deref_ok _ _ _ Ht)), Hd.
  by destruct (get_type_by_name p typ s) as [[]].
Qed.

(** the outcome of asking for a type *)
Lemma asks_outcome s p typ m : asks s p typ m ->
  (m s).1 = (get_type_body p typ s).1 \/ (get_type_body p typ s).1 = Diverge.
Proof.
  destruct 1 as [a p t name typ seq opt Ht Hd Hn|a p t name typ seq opt Ht Hd Hn|p t name typ seq Ht Hd];
    apply element_heap in Ht.
  - left. rewrite (field_type_new a p t name typ seq false opt s Ht Hd Hn).
    rewrite (get_type_plain s p t); [done|done|by rewrite Hd].
  - pose proof (field_type_new a p t name typ seq true opt s Ht Hd Hn) as E.
    pose proof (get_type_repeated s p t typ Ht ltac:(by rewrite Hd)) as H.
    destruct (get_type_body p typ s) as [[o|e|] s1]; [| |by right]; left; cbn.
    + destruct H as (b & s' & H). rewrite H in E. unfold rbind.
      destruct (field_type a p s) as [r s2]. cbn in E. subst r. done.
    + rewrite H in E. unfold rbind. destruct (field_type a p s) as [r s2]. cbn in E. subst r. done.
  - left. unfold branch_type. rewrite (rbind_val _ _ _ _ _ (deref_ok _ _ _ Ht)), Hd.
    rewrite (get_type_plain s p t); [done|done|by rewrite Hd].
Qed.

Lemma asks_spec s p typ m comps :
  Inv s -> asks s p typ m -> in_scope s p comps -> typ ∉ scalar_names ->
  (exists q n, denotes s comps typ q /\ found s q n /\
     (m s).1 = if implements_type n then Ret (Some n) else Panic (no_type s n)) \/
  ((forall q, ~ denotes s comps typ q) /\ (m s).1 = Ret None).
Proof.
  intros I Ha Hsc Hb. apply in_scope_of in Hsc as [Hsc Hid].
  pose proof (asks_outcome _ _ _ _ Ha) as Ho.
  destruct (get_type_body_spec s p typ comps I Hsc Hid Hb) as [(q & n & s1 & Hq & E & G)|[Hn G]].
  - left. exists q, n. split; [done|]. split; [unfold found; by rewrite E|].
    rewrite G in Ho. cbn in Ho. destruct (implements_type n), Ho as [Ho|Ho]; done.
  - right. split; [done|]. rewrite G in Ho. by destruct Ho as [Ho|Ho].
Qed.

Lemma found_fun s q n n' : found s q n -> found s q n' -> n' = n.
Proof. unfold found. congruence. Qed.
Lemma found_kind s q n : Inv s -> found s q n -> exists k a p, n = NAst k a p.
Proof.
  intros I. unfold found. destruct (node_by_full_name q s) as [o s1] eqn:E. cbn. intros ->.
  destruct (found_is_declared _ _ _ _ I E) as (? & ? & ? & k & a & p & -> & _). eauto.
Qed.
Lemma is_type_cases n : implements_type n = true -> (exists k a p, n = NAst k a p) ->
  (exists s q, Inv s /\ found s q n) -> message_or_enum n \/ is_enum_value n.
Proof.
  intros Hi (k & a & p & ->) (s & q & I & Hf). unfold found in Hf.
  destruct (node_by_full_name q s) as [o s1] eqn:E. cbn in Hf. subst o.
  destruct (found_is_declared _ _ _ _ I E) as (? & ? & t & k' & a' & p' & [= <- <- <-] & _ & _ & _ & _ & Hw).
  destruct k; cbn in *; try done; try (by left); try (by right); destruct (t_data t); done.
Qed.
