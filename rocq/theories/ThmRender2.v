(** * Theorems on option values: C43, rendering. *)
From Verif Require Export ThmRender.

(** ** Specification *)

(** The text of a content.  An enum value is printed with the name of its enum. *)
Inductive prints (fl : floatlib) (s : registry) : content -> string -> Prop :=
| pr_true : prints fl s (CBool true) "true"
| pr_false : prints fl s (CBool false) "false"
| pr_int z x : canonical_signed x z -> prints fl s (CInt z) x
| pr_uint n x : canonical_numeral x n -> prints fl s (CUint n) x
| pr_float f : prints fl s (CFloat f) (fl_format fl f)
| pr_string x : prints fl s (CString x) x
| pr_bytes l xs : Forall2 (fun c x => canonical_numeral x (N_of_ascii c)) l xs ->
    prints fl s (CBytes l) ("[" +:+ String.concat " " xs +:+ "]")
| pr_enum g i π t ename u vname num :
    element_at s (g, π) t -> t_data t = DEnum ename ->
    element_at s (g, i :: π) u -> t_data u = DEnumField vname num ->
    prints fl s (CEnum (g, i :: π)) (ename +:+ "." +:+ vname)
| pr_array l xs : Forall2 (prints fl s) l xs ->
    prints fl s (CArray l) ("[" +:+ String.concat ", " xs +:+ "]")
| pr_map l xs : Forall2 (fun kv x => exists y, prints fl s kv.2 y /\ x = kv.1 +:+ ": " +:+ y) l xs ->
    prints fl s (CMap l) ("{" +:+ String.concat ", " xs +:+ "}").

(** ** Proofs *)

Lemma concat_join sep l : join_with sep l = String.concat sep l.
Proof. induction l as [|x [|y l] IH]; [done|done|]. change (x +:+ sep +:+ join_with sep (y :: l) = x +:+ sep +:+ String.concat sep (y :: l)). by rewrite IH. Qed.

(** enum values in a value are enum value declarations, which are inside enums *)
Lemma enum_part_prints fl s a p : Inv s -> canonical s (NAst KEnumValue a p) ->
  forall h, exists x, prints fl s (CEnum p) x /\ render fl (OVEnum h a p) s = (Ret x, s).
Proof.
  intros I (k & a' & p' & [= <- <- <-] & Hc) h. destruct I as [S N].
  destruct (nd_cache _ N _ _ Hc) as (q & k & b & t & [= <-] & [= <- <-] & Ht & Hk).
  assert (exists vn num, t_data t = DEnumField vn num) as (vn & num & Hd).
  { destruct (t_data t); try discriminate Hk. eauto. }
  destruct p as [g [|i π]].
  { exfalso. clear Hc. destruct (heap_element _ _ _ (conj S N) Ht) as (path & f & (_ & _ & Hf) & Hw).
    cbn in Hw. injection Hw as <-. rewrite Hf in Hd. done. }
  destruct (parent_allowed _ _ _ _ _ (conj S N) Ht) as (u & Hu & _ & Hal). rewrite Hd in Hal.
  assert (exists en, t_data u = DEnum en) as [en Hdu] by (destruct (t_data u); try discriminate Hal; eauto).
  exists (en +:+ "." +:+ vn). split.
  - eapply pr_enum; [by apply heap_element|done|by apply heap_element|done].
  - cbn [render parent_ptr snd fst]. rewrite (rbind_val _ _ _ _ _ (deref_ok _ _ _ Hu)), Hdu.
    rewrite (rbind_val _ _ _ _ _ (deref_ok _ _ _ Ht)), Hd. done.
Qed.

Lemma bytes_text l : Forall2 (fun c x => canonical_numeral x (N_of_ascii c)) l (map (fun c => format_uint (N_of_ascii c)) l).
Proof. induction l; constructor; [apply format_uint_canonical|done]. Qed.

Lemma render_prints fl s v : Inv s -> all_canonical (enums_in v) s ->
  exists x, prints fl s (contents v) x /\ render fl v s = (Ret x, s).
Proof.
  intros I. induction v as [h b|h z|h n|h f|h x|h l|h a p|h l IH|h l IH] using oval_nested_ind; intros He.
  - exists (format_bool b). split; [destruct b; constructor|done].
  - exists (itoa z). split; [constructor; apply itoa_canonical|done].
  - exists (format_uint n). split; [constructor; apply format_uint_canonical|done].
  - eexists. split; [constructor|done].
  - eexists. split; [constructor|done].
  - eexists. split; [|reflexivity]. unfold sprint_bytes. rewrite concat_join. constructor. apply bytes_text.
  - apply enum_part_prints; [done|]. inversion He; subst. done.
  - cbn [contents]. rewrite render_array.
    assert (exists xs, Forall2 (prints fl s) (map contents l) xs /\ render_list fl l s = (Ret xs, s)) as (xs & H1 & H2).
    { induction IH as [|v l Hv _ IH]; [exists []; split; [constructor|done]|].
      cbn in He. apply Forall_app in He as [He1 He2].
      destruct (Hv He1) as (x & Hx & Ex). destruct (IH He2) as (xs & Hxs & Exs).
      exists (x :: xs). split; [by constructor|]. cbn [render_list].
      rewrite (rbind_val _ _ _ _ _ Ex), (rbind_val _ _ _ _ _ Exs). done. }
    rewrite (rbind_val _ _ _ _ _ H2). eexists. split; [|reflexivity]. rewrite concat_join. by constructor.
  - cbn [contents]. rewrite render_map.
    assert (exists xs, Forall2 (fun kv x => exists y, prints fl s kv.2 y /\ x = kv.1 +:+ ": " +:+ y)
       (map (fun kv => (kv.1, contents kv.2)) l) xs /\ render_items fl l s = (Ret xs, s)) as (xs & H1 & H2).
    { induction IH as [|[k v] l Hv _ IH]; [exists []; split; [constructor|done]|].
      cbn in He. apply Forall_app in He as [He1 He2].
      destruct (Hv He1) as (x & Hx & Ex). destruct (IH He2) as (xs & Hxs & Exs).
      exists ((k +:+ ": " +:+ x) :: xs). split; [constructor; [|done]; by exists x|]. cbn [render_items].
      cbn [snd] in Ex.
      rewrite (rbind_val _ _ _ _ _ Ex), (rbind_val _ _ _ _ _ Exs). done. }
    rewrite (rbind_val _ _ _ _ _ H2). eexists. split; [|reflexivity]. rewrite concat_join. by constructor.
Qed.

Lemma bytes_text_unique l : forall xs, Forall2 (fun c x => canonical_numeral x (N_of_ascii c)) l xs ->
  xs = map (fun c => format_uint (N_of_ascii c)) l.
Proof. induction l as [|c l IH]; inversion 1; subst; [done|]. cbn [map]. f_equal; [by apply canonical_unique|by apply IH]. Qed.

Lemma prints_render fl s v : forall x, prints fl s (contents v) x -> render fl v s = (Ret x, s).
Proof.
  induction v as [h b|h z|h n|h f|h x|h l|h a p|h l IH|h l IH] using oval_nested_ind; intros y Hy; cbn [contents] in Hy.
  - inversion Hy; subst; done.
  - inversion Hy as [| |? ? Hc| | | | | | |]; subst. by rewrite (canonical_signed_unique _ _ Hc).
  - inversion Hy as [| | |? ? Hc| | | | | |]; subst. by rewrite (canonical_unique _ _ Hc).
  - inversion Hy; subst; done.
  - inversion Hy; subst; done.
  - inversion Hy as [| | | | | |? xs Hc| | |]; subst. rewrite (bytes_text_unique _ _ Hc), <- concat_join. done.
  - inversion Hy as [| | | | | | |? ? ? ? ? ? ? ? Ht Hd Hu Hdu| |]; subst.
    cbn [render parent_ptr snd fst]. rewrite (rbind_val _ _ _ _ _ (deref_ok _ _ _ (element_heap _ _ _ Ht))), Hd.
    rewrite (rbind_val _ _ _ _ _ (deref_ok _ _ _ (element_heap _ _ _ Hu))), Hdu. done.
  - inversion Hy as [| | | | | | | |? xs Hl|]; subst. clear Hy. rewrite render_array.
    assert (render_list fl l s = (Ret xs, s)) as H2.
    { revert xs Hl. induction IH as [|v l Hv _ IH]; intros xs Hl; inversion Hl; subst; [done|]. cbn [render_list].
      rewrite (rbind_val _ _ _ _ _ (Hv _ ltac:(eassumption))), (rbind_val _ _ _ _ _ (IH _ ltac:(eassumption))). done. }
    rewrite (rbind_val _ _ _ _ _ H2), concat_join. done.
  - inversion Hy as [| | | | | | | | |? xs Hl]; subst. clear Hy. rewrite render_map.
    assert (render_items fl l s = (Ret xs, s)) as H2.
    { revert xs Hl. induction IH as [|[k v] l Hv _ IH]; intros xs Hl;
        inversion Hl as [|? ? ? ? (z & Hz & ->) Hl']; subst; [done|]. cbn [render_items fst snd] in *.
      rewrite (rbind_val _ _ _ _ _ (Hv _ Hz)), (rbind_val _ _ _ _ _ (IH _ Hl')). done. }
    rewrite (rbind_val _ _ _ _ _ H2), concat_join. done.
Qed.

(** ** C43 *)

(** Whatever has happened since Option.Value returned the value: String does not panic and gives
    exactly the text of the content, and the registry is not changed. *)
Theorem C43_string fl s o v s1 {A} (c : R A) :
  reachable s -> option_value fl o s = (Ret v, s1) -> client Loads c ->
  let s2 := (c s1).2 in
  (exists x, prints fl s2 (contents v) x) /\
  (forall x, prints fl s2 (contents v) x <-> (render fl v s2).1 = Ret x) /\
  (render fl v s2).2 = s2.
Proof.
  intros Hs E Hc s2. pose proof (reachable_Inv _ Hs) as I.
  destruct (option_value_ret _ _ _ _ _ E) as (t & nm & lit & _ & _ & Eb).
  pose proof (build_enums _ _ _ _ _ _ _ _ I Eb) as He.
  destruct (inv_step_ret _ _ _ _ (inv_step_build _ _ _ _ _) I Eb) as [I1 _].
  destruct (client_inv_step _ _ Hc s1 I1) as [I2 G2].
  apply (all_canonical_grows _ _ _ G2) in He. fold s2 in I2, He.
  destruct (render_prints fl s2 v I2 He) as (x & Hx & Ex). split; [by exists x|]. rewrite Ex. split; [|done].
  intros y. split; [|intros [= ->]; done]. intros Hy%prints_render. rewrite Ex in Hy. by injection Hy as ->.
Qed.

(** Canonical literals of singular scalar options are reproduced ... *)
Definition canonical_literal (typ x : string) : Prop :=
  (typ = "bool" /\ x ∈ ["true"; "false"]) \/
  (typ ∈ signed_types /\ exists z, canonical_signed x z /\ (- 2 ^ 63 <= z < 2 ^ 63)%Z) \/
  (typ ∈ ["fixed32"; "fixed64"] /\ exists n, canonical_numeral x n /\ (n < 2 ^ 64)%N) \/
  typ = "string".
Lemma canonical_value fl s typ x : canonical_literal typ x ->
  typ ∈ read_types /\ exists w, scalar_value fl typ x w /\ prints fl s w x.
Proof.
  unfold read_types. rewrite !elem_of_app.
  intros [[-> Hx]|[[Ht (z & Hz & Hr)]|[[Ht (n & Hn & Hr)]| ->]]].
  - split; [left; apply elem_of_list_here|]. in_list Hx; eexists; (split; [apply sv_bool|]); try constructor;
      rewrite !elem_of_cons; tauto.
  - split; [tauto|]. exists (CInt z). split; [|by constructor]. constructor; [done|by apply canonical_signed_numeral|done].
  - assert (typ ∈ unsigned_types) by (unfold unsigned_types; in_list Ht; repeat (first [apply elem_of_list_here|apply elem_of_list_further])).
    split; [tauto|]. exists (CUint n). split; [|by constructor]. constructor; [done|apply Hn|done].
  - split; [left; rewrite !elem_of_cons; tauto|]. exists (CString x). split; constructor.
Qed.
Theorem C43_canonical_literal fl s o f lit typ {A} (c : R A) :
  option_with s o f lit -> field_of_type s f typ false -> canonical_literal typ (lit_source lit) -> client Loads c ->
  exists v s1, option_value fl o s = (Ret v, s1) /\ (render fl v (c s1).2).1 = Ret (lit_source lit).
Proof.
  intros Ho Hf Hc _. rewrite (option_value_build _ _ _ _ _ Ho). destruct (canonical_value fl s _ _ Hc) as [Hty (w & Hw & _)].
  destruct (scalar_build fl (Some (o_proto o)) f lit false s typ false Hf (or_introl eq_refl) Hty)
    as [(v & s1 & E & Hv)|[Hno _]]; [|by destruct (Hno w)].
  exists v, s1. split; [done|].
  destruct (canonical_value fl (c s1).2 _ _ Hc) as [_ (w' & Hw' & Hp')].
  rewrite (scalar_fun _ _ _ _ _ Hv Hw') in Hp'. by rewrite (prints_render _ _ _ _ Hp').
Qed.

(** ... and so are literals built from them with brackets and braces, up to layout: enum values are
    prefixed with the name of their enum. *)
Inductive literal_text (s : registry) : ptr -> bool -> literal -> string -> Prop :=
| lt_scalar f typ rep el lit : field_of_type s f typ rep -> (rep = false \/ el = true) ->
    canonical_literal typ (lit_source lit) -> literal_text s f el lit (lit_source lit)
| lt_enum f typ el lit d p t ename : field_of_type s f typ false -> type_denotes s f typ KEnum d ->
    element_at s d t -> t_data t = DEnum ename -> first_child s (value_called (lit_source lit)) d p ->
    literal_text s f el lit (ename +:+ "." +:+ lit_source lit)
| lt_array f typ lit xs : field_of_type s f typ true ->
    Forall2 (literal_text s f true) (lit_array lit) xs ->
    literal_text s f false lit ("[" +:+ String.concat ", " xs +:+ "]")
| lt_message f typ el lit d xs : field_of_type s f typ false -> type_denotes s f typ KMessage d ->
    Forall2 (fun entry x => exists f' y, first_child s (field_called entry.1) d f' /\
        literal_text s f' false entry.2 y /\ x = entry.1 +:+ ": " +:+ y) (lit_map lit) xs ->
    literal_text s f el lit ("{" +:+ String.concat ", " xs +:+ "}").

Lemma elem_of_children sel g π t p : p ∈ children sel (g, π) t ->
  exists i u, p = (g, i :: π) /\ t_kids t !! i = Some u /\ sel (t_data u) = true.
Proof.
  unfold children, kids_at. intros ([q u] & -> & Hin)%elem_of_list_fmap. cbn [fst].
  apply elem_of_list_In, List.filter_In in Hin as [Hin Hs]. cbn [snd] in Hs.
  apply elem_of_list_In, elem_of_lookup_imap in Hin as (i & k & [= -> ->] & Hk). by exists i, k.
Qed.
Lemma first_child_cases s sel d p : first_child s sel d p ->
  exists g π i t u, d = (g, π) /\ p = (g, i :: π) /\ element_at s d t /\ element_at s p u /\ sel (t_data u) = true.
Proof.
  intros (t & Ht & Hh). destruct d as [g π]. apply head_Some in Hh as [l' Hh].
  assert (p ∈ children sel (g, π) t) as Hin by (rewrite Hh; apply elem_of_list_here).
  apply elem_of_children in Hin as (i & u & -> & Hi & Hs).
  exists g, π, i, t, u. do 3 (split; [done|]). split; [|done].
  destruct Ht as (path & f & Hl & Hw). exists path, f. split; [done|]. cbn [fst snd] in *. cbn [walk]. by rewrite Hw.
Qed.
Lemma literal_text_reads fl s lit : forall f el x, literal_text s f el lit x ->
  exists w, reads fl s f el lit w /\ prints fl s w x.
Proof.
  induction lit as [lp src arr omap IHa IHm] using literal_nested_ind.
  intros f el x H. inversion H as [? ? ? ? ? Hf Hr Hc|? ? ? ? ? ? ? ? Hf Hd Ht Hdt Hp|? ? ? xs Hf Hl|? ? ? ? ? xs Hf Hd Hl]; subst;
    cbn [lit_source lit_array lit_map] in *.
  - destruct (canonical_value fl s _ _ Hc) as [_ (w & Hw & Hp)]. exists w. split; [|done]. by eapply rd_scalar.
  - exists (CEnum p). split; [by eapply rd_enum|].
    destruct (first_child_cases _ _ _ _ Hp) as (g & π & i & t' & u & -> & -> & Ht' & Hu & Hsel).
    unfold value_called in Hsel. destruct (t_data u) eqn:Hdu; try discriminate Hsel.
    apply String.eqb_eq in Hsel as <-. eapply pr_enum; [exact Ht|exact Hdt|exact Hu|exact Hdu].
  - assert (exists ws, Forall2 (reads fl s f true) arr ws /\ Forall2 (prints fl s) ws xs) as (ws & H1 & H2).
    { clear H. revert xs Hl. induction IHa as [|l arr Hx _ IH]; intros xs Hl; inversion Hl as [|? ? ? ? Hy Hl']; subst.
      - exists []. by split.
      - destruct (Hx _ _ _ Hy) as (w & ? & ?). destruct (IH _ Hl') as (ws & ? & ?). exists (w :: ws). split; by constructor. }
    exists (CArray ws). split; [by eapply rd_array|by constructor].
  - assert (exists ws, Forall2 (fun entry item => item.1 = entry.1 /\
       exists f', first_child s (field_called entry.1) d f' /\ reads fl s f' false entry.2 item.2) omap ws /\
       Forall2 (fun kv x => exists y, prints fl s kv.2 y /\ x = kv.1 +:+ ": " +:+ y) ws xs) as (ws & H1 & H2).
    { clear H. revert xs Hl. induction IHm as [|[k l] omap Hx _ IH]; intros xs Hl;
        inversion Hl as [|? ? ? ? (f' & y & Hf' & Hy & Hxy) Hl']; subst.
      - exists []. by split.
      - destruct (Hx _ _ _ Hy) as (w & ? & ?). destruct (IH _ Hl') as (ws & ? & ?).
        exists ((k, w) :: ws). split; constructor; cbn [fst snd] in *; eauto. }
    exists (CMap ws). split; [by eapply rd_message|]. by apply pr_map.
Qed.
Lemma prints_grows fl s s' w x : grows s s' -> prints fl s w x -> prints fl s' w x.
Proof.
  intros G. revert w x. fix IH 3. intros w x H. destruct H.
  1-7: by constructor.
  - eapply pr_enum; [by eapply element_at_grows|done|by eapply element_at_grows|done].
  - constructor. induction H; constructor; [by apply IH|assumption].
  - constructor. induction H as [|? ? ? ? (z & Hz & ->)]; constructor; [|assumption]. exists z. split; [by apply IH|done].
Qed.
Theorem C43_literal_text fl s o f lit x {A} (c : R A) :
  reachable s -> fields_scoped s -> option_with s o f lit -> literal_text s f false lit x -> client Loads c ->
  exists v s1, option_value fl o s = (Ret v, s1) /\ (render fl v (c s1).2).1 = Ret x.
Proof.
  intros Hs Hfs Ho Hl Hc. destruct (literal_text_reads fl _ _ _ _ _ Hl) as (w & Hr & Hp).
  destruct (C38_value fl s o f lit Hs Hfs Ho) as [H _]. apply H in Hr as (v & Hv & <-).
  destruct (option_value fl o s) as [r s1] eqn:E. cbn in Hv. subst r. exists v, s1. split; [done|].
  pose proof (reachable_Inv _ Hs) as I. destruct (option_value_ret _ _ _ _ _ E) as (t & nm & lt & _ & _ & Eb).
  destruct (inv_step_ret _ _ _ _ (inv_step_build _ _ _ _ _) I Eb) as [I1 G1].
  destruct (client_inv_step _ _ Hc s1 I1) as [I2 G2].
  apply (prints_grows _ _ _ _ _ G1), (prints_grows _ _ _ _ _ G2) in Hp. by rewrite (prints_render _ _ _ _ Hp).
Qed.

(** the literal of the message option of the example, its text, and what the model prints *)
Example C43_example :
  option_with val_world (val_opt 11 4) (1, [4; 5]) conf_lit /\
  literal_text val_world (1, [4; 5]) false conf_lit "{a: 7, tags: [x, y], inner: {color: Color.GREEN}}".
Proof.
  split; [vopt|].
  apply (lt_message _ _ "Conf" _ _ (1, [4]) ["a: 7"; "tags: [x, y]"; "inner: {color: Color.GREEN}"]).
  { vfld. } { apply (val_conf _ ["v"; "conf"]); [vm_compute; reflexivity|by left]. }
  constructor; [|constructor; [|constructor; [|constructor]]].
  - exists (1, [0; 4]), "7". split; [vchild|]. split; [|done].
    apply (lt_scalar _ _ "int32" false); [vfld|by left|]. right; left. split; [apply elem_of_list_here|].
    exists 7%Z. split; [|done]. left. split; [done|]. split; [apply (num_digit "7" 7), digit_cases; reflexivity|].
    right. intros [r Hr]. discriminate Hr.
  - exists (1, [1; 4]), "[x, y]". split; [vchild|]. split; [|done].
    apply (lt_array _ _ "string" _ ["x"; "y"]); [vfld|].
    constructor; [|constructor; [|constructor]].
    + refine (lt_scalar _ _ "string" true _ (lit0 "x") _ _ _); [vfld|by right|by do 3 right].
    + refine (lt_scalar _ _ "string" true _ (lit0 "y") _ _ _); [vfld|by right|by do 3 right].
  - exists (1, [3; 4]), "{color: Color.GREEN}". split; [vchild|]. split; [|done].
    apply (lt_message _ _ "Conf" _ _ (1, [4]) ["color: Color.GREEN"]);
      [vfld|apply (val_conf _ ["v"; "Conf"; "inner"]); [vm_compute; reflexivity|by right]|].
    constructor; [|constructor]. exists (1, [2; 4]), "Color.GREEN". split; [vchild|]. split; [|done].
    eapply (lt_enum _ _ "Color" _ (lit0 "GREEN") (1, [3]) _ _ "Color");
      [vfld|apply (val_color _ ["v"; "Conf"; "color"]); [vm_compute; reflexivity|by right; left]
      |apply val_element; vm_compute; reflexivity|reflexivity|vchild].
Qed.
