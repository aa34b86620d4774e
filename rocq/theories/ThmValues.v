(** * Theorems on option values: C38 - C43. *)
From Verif Require Export ValueReads.

(** The option [o] is about the field [f] and its statement has the literal [lit]. *)
Definition option_with (s : registry) (o : optn) (f : ptr) (lit : literal) : Prop :=
  (exists t oname, element_at s (o_proto o) t /\ t_data t = DOption oname lit) /\
  o_field o = f /\ exists typ rep, field_of_type s f typ rep.

(** Every option Registry.Options gives is one ([about] is what C33 says of them) ... *)
Lemma about_option_with s comps class q o t oname lit :
  reachable s -> about s comps class q o -> element_at s q t -> t_data t = DOption oname lit ->
  option_with s o (o_field o) lit.
Proof.
  intros Hs (<- & _ & oname' & Hst & Ht) Hq Hd. pose proof (reachable_Inv _ Hs) as I.
  split; [eauto|]. split; [done|]. destruct (target_element _ _ _ _ _ I Ht) as (u & Hu & Hp).
  destruct (t_data u) eqn:Hdu; try done. exists typ, repeated, u, name, seq, is_optional.
  split; [by apply heap_element|done].
Qed.
(** ... and remains one whatever is done with the registry. *)
Lemma option_with_later s o f lit {A} (c : R A) : reachable s -> option_with s o f lit -> client Loads c ->
  option_with (c s).2 o f lit.
Proof.
  intros Hs ((t & n & Ht & Hd) & Hf & (typ & rep & u & nm & num & op & Hu & Hdu)) Hc.
  pose proof (client_inv_step _ _ Hc s (reachable_Inv _ Hs)) as [_ G].
  split; [exists t, n; split; [by eapply element_at_grows|done]|]. split; [done|].
  exists typ, rep, u, nm, num, op. split; [by eapply element_at_grows|done].
Qed.

Lemma option_value_build fl o f lit s : option_with s o f lit ->
  option_value fl o s = build fl (Some (o_proto o)) f lit false s.
Proof.
  intros ((t & n & Ht%element_heap & Hd) & <- & _). unfold option_value.
  by rewrite (rbind_val _ _ _ _ _ (deref_ok _ _ _ Ht)), Hd.
Qed.

(** ** C38 *)

(** Option.Value gives exactly the content that the literal denotes for the declared field, and panics
    if it denotes none. *)
Theorem C38_value fl s o f lit :
  reachable s -> fields_scoped s -> option_with s o f lit ->
  (forall w, (exists v, (option_value fl o s).1 = Ret v /\ contents v = w) <-> reads fl s f false lit w) /\
  ((forall w, ~ reads fl s f false lit w) -> exists msg, (option_value fl o s).1 = Panic msg).
Proof.
  intros Hs Hfs Ho. pose proof (reachable_Inv _ Hs) as I. rewrite (option_value_build _ _ _ _ _ Ho).
  destruct Ho as (_ & _ & Hf).
  destruct (build_reads fl s I Hfs lit (Some (o_proto o)) f false s I (quiet_refl s) Hf)
    as [(v & s' & E & Hr)|[Hno [msg E]]]; rewrite ?E; cbn [fst].
  - split; [|intros Hno; by apply Hno in Hr]. intros w. split.
    + intros (v' & [= <-] & <-). done.
    + intros Hw. exists v. split; [done|]. by eapply reads_fun.
  - split; [|eauto]. intros w. split; [|intros Hw; by apply Hno in Hw]. intros (v & Hv & _). done.
Qed.

(** The Go variant, from the declared type. *)
Definition variant (s : registry) (f : ptr) (typ : string) (rep : bool) (v : oval) : Prop :=
  if rep then exists h l, v = OVArray h l
  else
    (typ = "bool" -> exists h b, v = OVBool h b) /\
    (typ ∈ signed_types -> exists h z, v = OVInt h z) /\
    (typ ∈ ["fixed32"; "fixed64"] -> exists h n, v = OVUint h n) /\
    (typ ∈ float_types -> exists h x, v = OVFloat h x) /\
    (typ = "string" -> exists h x, v = OVString h x) /\
    (typ = "bytes" -> exists h l, v = OVBytes h l) /\
    (forall d, type_denotes s f typ KEnum d -> exists h a p, v = OVEnum h a p /\ parent_ptr p = Some d) /\
    (forall d, type_denotes s f typ KMessage d -> exists h l, v = OVMap h l) /\
    typ ∉ ["uint32"; "uint64"].

Lemma first_child_parent s sel d p : first_child s sel d p -> parent_ptr p = Some d.
Proof.
  intros (t & _ & Hh). assert (Hin : p ∈ children sel d t).
  { destruct (children sel d t); [done|]. injection Hh as ->. constructor. }
  unfold children in Hin. apply elem_of_list_fmap in Hin as (b & -> & Hb).
  apply elem_of_list_In, filter_In in Hb as [Hb _]. apply elem_of_list_In in Hb.
  unfold kids_at in Hb. apply elem_of_lookup_imap in Hb as (i & k & -> & _). by destruct d.
Qed.

(** scalar values by type *)
Ltac sv_inv H Hty :=
  inversion H as [? ? Hx|? ? ? Hl Hx Hr|? ? ? Hl Hx Hr|? ? ? Hl Hx| |? ? Hx]; subst;
  try (in_list Hty; fail); try (in_list Hl; fail); try (in_list Hl; in_list Hty; fail); eauto.
Lemma sv_bool_inv fl x w : scalar_value fl "bool" x w -> exists b, w = CBool b /\ bool_text x b.
Proof. intros H. assert (Hty : True) by done. sv_inv H Hty. Qed.
Lemma sv_int_inv fl typ x w : typ ∈ signed_types -> scalar_value fl typ x w ->
  exists z, w = CInt z /\ signed_numeral x z /\ (- 2 ^ 63 <= z < 2 ^ 63)%Z.
Proof. intros Hty H. sv_inv H Hty. Qed.
Lemma sv_uint_inv fl typ x w : typ ∈ unsigned_types -> scalar_value fl typ x w ->
  exists n, w = CUint n /\ numeral x n /\ (n < 2 ^ 64)%N.
Proof. intros Hty H. sv_inv H Hty. Qed.
Lemma sv_float_inv fl typ x w : typ ∈ float_types -> scalar_value fl typ x w ->
  exists f, w = CFloat f /\ fl_parse fl x = Some f.
Proof. intros Hty H. sv_inv H Hty. Qed.
Lemma sv_string_inv fl x w : scalar_value fl "string" x w -> w = CString x.
Proof. intros H. assert (Hty : True) by done. sv_inv H Hty. Qed.
Lemma sv_bytes_inv fl x w : scalar_value fl "bytes" x w -> exists l, w = CBytes l /\ bytes_of x l.
Proof. intros H. assert (Hty : True) by done. sv_inv H Hty. Qed.

Theorem C38_variant fl s o f lit typ rep v s1 :
  reachable s -> fields_scoped s -> option_with s o f lit -> field_of_type s f typ rep ->
  option_value fl o s = (Ret v, s1) -> variant s f typ rep v.
Proof.
  intros Hs Hfs Ho Hf E. pose proof (reachable_Inv _ Hs) as I.
  destruct (C38_value fl s o f lit Hs Hfs Ho) as [H _].
  assert (Hr : reads fl s f false lit (contents v)) by (apply H; exists v; by rewrite E).
  unfold variant. destruct rep.
  - destruct (reads_array_inv _ _ _ _ _ _ Hf Hr) as (vs & Hv & _). destruct v; try done. eauto.
  - destruct (decide (typ ∈ read_types)) as [Ht|Ht].
    + pose proof (reads_scalar_inv _ _ _ _ _ _ _ _ Hf (or_introl eq_refl) Ht Hr) as Hsv. split_and!.
      * intros ->. destruct (sv_bool_inv _ _ _ Hsv) as (b & Hv & _). destruct v; try done. eauto.
      * intros Hty. destruct (sv_int_inv _ _ _ _ Hty Hsv) as (b & Hv & _). destruct v; try done. eauto.
      * intros Hty. assert (Hty' : typ ∈ unsigned_types) by (unfold unsigned_types; set_solver).
        destruct (sv_uint_inv _ _ _ _ Hty' Hsv) as (b & Hv & _). destruct v; try done. eauto.
      * intros Hty. destruct (sv_float_inv _ _ _ _ Hty Hsv) as (b & Hv & _). destruct v; try done. eauto.
      * intros ->. pose proof (sv_string_inv _ _ _ Hsv) as Hv. destruct v; try done. eauto.
      * intros ->. destruct (sv_bytes_inv _ _ _ Hsv) as (b & Hv & _). destruct v; try done. eauto.
      * by intros d Hd%denotes_not_read.
      * by intros d Hd%denotes_not_read.
      * intros Hty. clear - Ht Hty. unfold read_types in Ht. rewrite !elem_of_app in Ht.
        in_list Hty; destruct Ht as [Ht|[Ht|[Ht|Ht]]]; in_list Ht.
    + destruct (reads_type_inv _ _ _ _ _ _ _ _ Hf (or_introl eq_refl) Ht Hr) as [_ Hd].
      split_and!.
      1-6: intros Hty; exfalso; apply Ht; subst; unfold read_types, unsigned_types; rewrite !elem_of_app; first [tauto|set_solver].
      * intros d Hde. destruct Hd as [(d' & p & Hv & Hd' & Hp)|(d' & vs & Hv & Hd' & _)];
          destruct (type_denotes_fun _ _ _ _ _ _ _ I Hde Hd') as [? ->]; [|done].
        destruct v; try done. injection Hv as ->. eexists _, _, _. split; [reflexivity|]. by eapply first_child_parent.
      * intros d Hde. destruct Hd as [(d' & p & Hv & Hd' & Hp)|(d' & vs & Hv & Hd' & _)];
          destruct (type_denotes_fun _ _ _ _ _ _ _ I Hde Hd') as [? ->]; [done|].
        destruct v; try done. eauto.
      * assert (Hs' : typ ∉ scalar_names).
        { destruct Hd as [(d' & p & Hv & [Hd' _] & Hp)|(d' & vs & Hv & [Hd' _] & _)]; intros Hin; apply Hd';
            rewrite elem_of_app; by left. }
        intros Hty. apply Hs'. unfold scalar_names. set_solver.
Qed.
