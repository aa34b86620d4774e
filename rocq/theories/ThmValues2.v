(** * Theorems on option values: C39 - C42. *)
From Verif Require Export ThmValues.

(** singular fields of scalar types, without any assumption on names *)
Lemma scalar_build fl opt f lit ig s typ rep :
  field_of_type s f typ rep -> (rep = false \/ ig = true) -> typ ∈ read_types ->
  (exists v s', build fl opt f lit ig s = (Ret v, s') /\ scalar_value fl typ (lit_source lit) (contents v)) \/
  ((forall w, ~ scalar_value fl typ (lit_source lit) w) /\ exists msg, (build fl opt f lit ig s).1 = Panic msg).
Proof.
  intros (t & name & num & fo & Ht & Hd)%field_heap Hr Hty.
  rewrite build_unfold, (rbind_val _ _ _ _ _ (deref_ok _ _ _ Ht)), Hd.
  replace (rep && negb ig) with false by (destruct rep, ig, Hr; done).
  pose proof (build_scalar_spec fl typ (lit_source lit)) as Hsc. unfold build_scalar in Hsc.
  assert (Hfin : forall o (w : content) (k : N -> oval), o = Some w -> (forall a, contents (k a) = w) ->
    (typ ∈ read_types /\ forall v, scalar_value fl typ (lit_source lit) v <-> o = Some v) ->
    (exists v s', (a <~ alloc ;; ret (k a)) s = (Ret v, s') /\ scalar_value fl typ (lit_source lit) (contents v)) \/
    ((forall w, ~ scalar_value fl typ (lit_source lit) w) /\ exists msg, ((a <~ alloc ;; ret (k a)) s).1 = Panic msg)).
  { intros o w k -> Hk [_ H]. left. rewrite rbind_alloc. eexists _, _. split; [reflexivity|]. rewrite Hk. by apply H. }
  assert (Hbad : forall (o : option content) msg, o = None ->
    (typ ∈ read_types /\ forall v, scalar_value fl typ (lit_source lit) v <-> o = Some v) ->
    (exists v s', @panic oval msg s = (Ret v, s') /\ scalar_value fl typ (lit_source lit) (contents v)) \/
    ((forall w, ~ scalar_value fl typ (lit_source lit) w) /\ exists msg', (@panic oval msg s).1 = Panic msg')).
  { intros o msg -> [_ H]. right. split; [|eexists; reflexivity]. intros w Hw. apply H in Hw. done. }
  destruct (String.eqb typ "bool"); [destruct (parse_bool (lit_source lit)); [refine (Hfin _ _ _ _ _ Hsc); [reflexivity|done]|refine (Hbad _ _ _ Hsc); reflexivity]|].
  destruct (is_signed_type typ); [destruct (atoi (lit_source lit)); [refine (Hfin _ _ _ _ _ Hsc); [reflexivity|done]|refine (Hbad _ _ _ Hsc); reflexivity]|].
  destruct (is_unsigned_type typ); [destruct (parse_uint (lit_source lit)); [refine (Hfin _ _ _ _ _ Hsc); [reflexivity|done]|refine (Hbad _ _ _ Hsc); reflexivity]|].
  destruct (is_float_type typ); [destruct (fl_parse fl (lit_source lit)); [refine (Hfin _ _ _ _ _ Hsc); [reflexivity|done]|refine (Hbad _ _ _ Hsc); reflexivity]|].
  destruct (String.eqb typ "string"); [refine (Hfin _ _ _ _ _ Hsc); [reflexivity|done]|].
  destruct (String.eqb typ "bytes"); [refine (Hfin _ _ _ _ _ Hsc); [reflexivity|done]|].
  done.
Qed.

(** ** C39 *)

(** A decimal literal of a signed option gives exactly that integer if it fits into 64 bits, and is
    rejected otherwise; so is any text that is no decimal literal. *)
Theorem C39_signed_exact fl s o f lit typ z :
  option_with s o f lit -> field_of_type s f typ false -> typ ∈ signed_types ->
  signed_numeral (lit_source lit) z ->
  ((- 2 ^ 63 <= z < 2 ^ 63)%Z -> exists h, (option_value fl o s).1 = Ret (OVInt h z)) /\
  (~ (- 2 ^ 63 <= z < 2 ^ 63)%Z -> exists msg, (option_value fl o s).1 = Panic msg).
Proof.
  intros Ho Hf Hty Hz. rewrite (option_value_build _ _ _ _ _ Ho).
  assert (Hr : typ ∈ read_types) by (unfold read_types; rewrite !elem_of_app; tauto).
  destruct (scalar_build fl (Some (o_proto o)) f lit false s typ false Hf (or_introl eq_refl) Hr)
    as [(v & s1 & E & Hv)|[Hno [msg E]]]; rewrite ?E; cbn [fst].
  - destruct (sv_int_inv _ _ _ _ Hty Hv) as (z' & Hc & Hz' & Hrange).
    assert (z' = z) as -> by (by eapply signed_fun).
    split; [|done]. intros _. destruct v; try discriminate Hc. injection Hc as ->. by exists h.
  - split; [|eauto]. intros Hrange. exfalso. apply (Hno (CInt z)). by constructor.
Qed.
Theorem C39_unsigned_exact fl s o f lit typ n :
  option_with s o f lit -> field_of_type s f typ false -> typ ∈ ["fixed32"; "fixed64"] ->
  numeral (lit_source lit) n ->
  ((n < 2 ^ 64)%N -> exists h, (option_value fl o s).1 = Ret (OVUint h n)) /\
  (~ (n < 2 ^ 64)%N -> exists msg, (option_value fl o s).1 = Panic msg).
Proof.
  intros Ho Hf Hty' Hz. rewrite (option_value_build _ _ _ _ _ Ho).
  assert (Hty : typ ∈ unsigned_types).
  { unfold unsigned_types. in_list Hty'; repeat (first [apply elem_of_list_here|apply elem_of_list_further]). }
  assert (Hr : typ ∈ read_types) by (unfold read_types; rewrite !elem_of_app; tauto).
  destruct (scalar_build fl (Some (o_proto o)) f lit false s typ false Hf (or_introl eq_refl) Hr)
    as [(v & s1 & E & Hv)|[Hno [msg E]]]; rewrite ?E; cbn [fst].
  - destruct (sv_uint_inv _ _ _ _ Hty Hv) as (n' & Hc & Hz' & Hrange).
    assert (n' = n) as -> by (by eapply numeral_fun).
    split; [|done]. intros _. destruct v; try discriminate Hc. injection Hc as ->. by exists h.
  - split; [|eauto]. intros Hrange. exfalso. apply (Hno (CUint n)). by constructor.
Qed.
Theorem C39_other_text_rejected fl s o f lit typ :
  option_with s o f lit -> field_of_type s f typ false ->
  (typ ∈ signed_types /\ forall z, ~ signed_numeral (lit_source lit) z) \/
  (typ ∈ ["fixed32"; "fixed64"] /\ forall n, ~ numeral (lit_source lit) n) ->
  exists msg, (option_value fl o s).1 = Panic msg.
Proof.
  intros Ho Hf H. rewrite (option_value_build _ _ _ _ _ Ho).
  assert (Hcases : (typ ∈ signed_types /\ forall z, ~ signed_numeral (lit_source lit) z) \/
    (typ ∈ unsigned_types /\ forall n, ~ numeral (lit_source lit) n)).
  { destruct H as [?|[Hty' H]]; [by left|right]. split; [|done].
    unfold unsigned_types. in_list Hty'; repeat (first [apply elem_of_list_here|apply elem_of_list_further]). }
  assert (Hr : typ ∈ read_types) by (unfold read_types; rewrite !elem_of_app; tauto).
  destruct (scalar_build fl (Some (o_proto o)) f lit false s typ false Hf (or_introl eq_refl) Hr)
    as [(v & s1 & E & Hv)|[Hno [msg E]]]; [|eauto]. exfalso.
  destruct Hcases as [[Hty Hno]|[Hty Hno]].
  - destruct (sv_int_inv _ _ _ _ Hty Hv) as (z' & Hc & Hz' & Hrange). by eapply Hno.
  - destruct (sv_uint_inv _ _ _ _ Hty Hv) as (z' & Hc & Hz' & Hrange). by eapply Hno.
Qed.

(** ** C40 *)

(** No option of type uint32 or uint64 can be read, whatever its literal. *)
Theorem C40_uint_unreadable fl s o f lit typ :
  option_with s o f lit -> field_of_type s f typ false -> typ ∈ ["uint32"; "uint64"] ->
  exists msg, (option_value fl o s).1 = Panic msg.
Proof.
  intros Ho Hf Hty. rewrite (option_value_build _ _ _ _ _ Ho).
  destruct (field_heap _ _ _ _ Hf) as (t & name & num & fo & Ht & Hd).
  rewrite build_unfold, (rbind_val _ _ _ _ _ (deref_ok _ _ _ Ht)), Hd. cbn [andb].
  assert (G : exists b, get_type_by_name f typ s = (Ret (Some (NBuiltin b)), s)).
  { rewrite (get_type_plain s f t typ Ht) by (by rewrite Hd). in_list Hty; eexists; reflexivity. }
  destruct G as [b G].
  assert (Hb : exists msg, ((ty <~ get_type_by_name f typ ;;
        match ty with
        | Some (NAst KEnum _ ep) =>
            ev <~ enum_value ep (lit_source lit) ;;
            match ev with
            | Some (NAst KEnumValue ea vp) =>
                a <~ alloc ;; ret (OVEnum (mkHdr a (Some (o_proto o)) (Some lit)) ea vp)
            | Some _ => forged
            | None => panic (PError (ENew ("unknown enum " +:+ typ +:+ " value " +:+ (lit_source lit))))
            end
        | Some (NAst KMessage _ mp) =>
            items <~ build_items fl mp (lit_map lit) ;;
            a <~ alloc ;;
            ret (OVMap (mkHdr a (Some (o_proto o)) (Some lit)) items)
        | _ => panic (PError (ENew ("unknown field type: " +:+ typ)))
        end) s).1 = Panic msg).
  { rewrite (rbind_val _ _ _ _ _ G). eexists; reflexivity. }
  in_list Hty; exact Hb.
Qed.

(** ** C41 *)

(** The value of a repeated option is an array with one element per literal of the bracketed list, in
    order, each what the literal denotes for the element type. *)
Theorem C41_array fl s o f lit typ v s1 :
  reachable s -> fields_scoped s -> option_with s o f lit -> field_of_type s f typ true ->
  option_value fl o s = (Ret v, s1) ->
  exists h vs, v = OVArray h vs /\
    Forall2 (fun l x => reads fl s f true l (contents x)) (lit_array lit) vs.
Proof.
  intros Hs Hfs Ho Hf E. destruct (C38_value fl s o f lit Hs Hfs Ho) as [H _].
  assert (Hr : reads fl s f false lit (contents v)) by (apply H; exists v; by rewrite E).
  destruct (reads_array_inv _ _ _ _ _ _ Hf Hr) as (vs & Hv & Hl). destruct v; try done.
  injection Hv as <-. exists h, l. split; [done|]. exact (proj1 (Forall2_fmap_r contents _ _ _) Hl).
Qed.
(** Scalar elements denote what they denote for a singular field of the type ... *)
Theorem C41_elements_like_singular fl s f f' typ l w :
  field_of_type s f typ true -> field_of_type s f' typ false -> typ ∈ read_types ->
  reads fl s f true l w <-> reads fl s f' false l w.
Proof.
  intros Hf Hf' Ht. split; intros H.
  - apply (reads_scalar_inv _ _ _ _ _ _ _ _ Hf (or_intror eq_refl) Ht) in H. eapply rd_scalar; [exact Hf'|by left|done].
  - apply (reads_scalar_inv _ _ _ _ _ _ _ _ Hf' (or_introl eq_refl) Ht) in H. eapply rd_scalar; [exact Hf|by right|done].
Qed.
(** ... and a list of readable scalars always gives an array of exactly these values. *)
Theorem C41_scalar_array fl s o f lit typ ws :
  reachable s -> option_with s o f lit -> field_of_type s f typ true -> typ ∈ read_types ->
  Forall2 (fun l w => scalar_value fl typ (lit_source l) w) (lit_array lit) ws ->
  exists h vs, (option_value fl o s).1 = Ret (OVArray h vs) /\ map contents vs = ws.
Proof.
  intros Hs Ho Hf Ht Hl. rewrite (option_value_build _ _ _ _ _ Ho).
  destruct (field_heap _ _ _ _ Hf) as (t & name & num & fo & Hh & Hd).
  rewrite build_unfold, (rbind_val _ _ _ _ _ (deref_ok _ _ _ Hh)), Hd. cbn [andb negb].
  assert (Ha : forall s1, quiet s s1 -> exists vs s2, build_array fl f (lit_array lit) s1 = (Ret vs, s2) /\ map contents vs = ws).
  { induction Hl as [|x w l ws Hx _ IH]; intros s1 Q; cbn [build_array]; [by exists [], s1|].
    assert (Hf1 : field_of_type s1 f typ true).
    { destruct Hf as (u & n & m & op & Hu & Hdu). exists u, n, m, op. split; [by eapply quiet_element|done]. }
    destruct (scalar_build fl None f x true s1 typ true Hf1 (or_intror eq_refl) Ht) as [(v & s2 & E & Hv)|[Hno _]].
    - pose proof (quiet_build fl None f x true s1) as Q2. rewrite E in Q2. cbn in Q2.
      destruct (IH s2 (quiet_trans _ _ _ Q Q2)) as (vs & s3 & E3 & <-).
      exists (v :: vs), s3. rewrite (rbind_val _ _ _ _ _ E), (rbind_val _ _ _ _ _ E3). split; [done|].
      cbn. f_equal. by eapply scalar_fun.
    - by apply Hno in Hx. }
  destruct (Ha s (quiet_refl s)) as (vs & s2 & E & Hvs). rewrite (rbind_val _ _ _ _ _ E), rbind_alloc.
  eexists _, vs. done.
Qed.
(** A literal that is no bracketed list gives the empty array: its value is lost. *)
Theorem C41_unbracketed_is_empty fl s o f lit typ :
  option_with s o f lit -> field_of_type s f typ true -> lit_array lit = [] ->
  exists h, (option_value fl o s).1 = Ret (OVArray h []).
Proof.
  intros Ho Hf Hl. rewrite (option_value_build _ _ _ _ _ Ho).
  destruct (field_heap _ _ _ _ Hf) as (t & name & num & fo & Hh & Hd).
  rewrite build_unfold, (rbind_val _ _ _ _ _ (deref_ok _ _ _ Hh)), Hd. cbn [andb negb]. rewrite Hl.
  cbn [build_array]. rewrite rbind_ret, rbind_alloc. eexists. reflexivity.
Qed.
(** A nonempty list of a repeated option whose type is not one of the scalars above (an enum, a
    message, uint32 or uint64) cannot be read. *)
Theorem C41_named_types_unreadable fl s o f lit typ :
  reachable s -> fields_scoped s -> option_with s o f lit -> field_of_type s f typ true ->
  typ ∉ read_types -> lit_array lit <> [] -> exists msg, (option_value fl o s).1 = Panic msg.
Proof.
  intros Hs Hfs Ho Hf Hty Hl. apply (C38_value fl s o f lit Hs Hfs Ho). intros w Hw.
  destruct (reads_array_inv _ _ _ _ _ _ Hf Hw) as (vs & -> & Hv).
  destruct (lit_array lit) as [|x l]; [done|]. inversion Hv as [|? ? ? ? Hx]; subst.
  destruct (reads_type_inv _ _ _ _ _ _ _ _ Hf (or_intror eq_refl) Hty Hx) as [? _]. done.
Qed.

(** ** C42 *)

(** A message valued option has one item per entry of the literal, in order, with the entry's key, and
    the value of each item is what the entry denotes for the message's field of that name. *)
Theorem C42_message fl s o f lit typ d v s1 :
  reachable s -> fields_scoped s -> option_with s o f lit -> field_of_type s f typ false ->
  type_denotes s f typ KMessage d -> option_value fl o s = (Ret v, s1) ->
  exists h items, v = OVMap h items /\ map fst items = map fst (lit_map lit) /\
    Forall2 (fun entry item => exists f', first_child s (field_called entry.1) d f' /\
      reads fl s f' false entry.2 (contents item.2)) (lit_map lit) items.
Proof.
  intros Hs Hfs Ho Hf Htd E. pose proof (reachable_Inv _ Hs) as I.
  destruct (C38_value fl s o f lit Hs Hfs Ho) as [H _].
  assert (Hr : reads fl s f false lit (contents v)) by (apply H; exists v; by rewrite E).
  pose proof (denotes_not_read _ _ _ _ _ Htd) as Hnr.
  destruct (reads_type_inv _ _ _ _ _ _ _ _ Hf (or_introl eq_refl) Hnr Hr)
    as [_ [(d' & p & Hv & Hd' & Hp)|(d' & vs & Hv & Hd' & Hl)]];
    destruct (type_denotes_fun _ _ _ _ _ _ _ I Htd Hd') as [? ->]; [done|].
  destruct v as [| | | | | | | |h items]; try done. injection Hv as <-. exists h, items. split; [done|].
  apply (Forall2_fmap_r (fun kv : string * oval => (kv.1, contents kv.2))) in Hl. cbn in Hl. split.
  - clear -Hl. induction Hl as [|x y l1 l2 [Hxy _] _ IH]; [done|]. cbn in *. by rewrite IH, Hxy.
  - eapply Forall2_impl; [exact Hl|]. by intros x y [_ ?].
Qed.
(** An entry whose key is no field of the message, or a map field or a oneof, makes Value panic; a
    branch of a oneof is no field of the message. *)
Theorem C42_bad_key fl s o f lit typ d key l :
  reachable s -> fields_scoped s -> option_with s o f lit -> field_of_type s f typ false ->
  type_denotes s f typ KMessage d -> (key, l) ∈ lit_map lit ->
  (forall f', first_child s (field_called key) d f' -> exists t, element_at s f' t /\ ~ plain_field (t_data t)) ->
  exists msg, (option_value fl o s).1 = Panic msg.
Proof.
  intros Hs Hfs Ho Hf Htd Hin Hbad. pose proof (reachable_Inv _ Hs) as I.
  apply (C38_value fl s o f lit Hs Hfs Ho). intros w Hw.
  pose proof (denotes_not_read _ _ _ _ _ Htd) as Hnr.
  destruct (reads_type_inv _ _ _ _ _ _ _ _ Hf (or_introl eq_refl) Hnr Hw)
    as [_ [(d' & p & Hv & Hd' & Hp)|(d' & vs & Hv & Hd' & Hl)]];
    destruct (type_denotes_fun _ _ _ _ _ _ _ I Htd Hd') as [? ->]; [done|].
  apply elem_of_list_lookup in Hin as [i Hi]. destruct (Forall2_lookup_l _ _ _ _ _ Hl Hi) as (it & _ & _ & f' & Hf' & Hr).
  cbn in Hf', Hr. destruct (Hbad _ Hf') as (t & Ht & Hp).
  assert (exists ty re, field_of_type s f' ty re) as (ty & re & u & n & m & op & Hu & Hdu) by (inversion Hr; subst; eauto).
  apply element_heap in Ht, Hu. assert (u = t) as -> by congruence. apply Hp. by rewrite Hdu.
Qed.
