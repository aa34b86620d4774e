(** * Option.Value reads literals as specified in Values.v. *)
From Verif Require Export Values.

Lemma field_heap s f typ rep : field_of_type s f typ rep ->
  exists t name num opt, heap_at s f = Some t /\ t_data t = DNormalField name typ num rep opt.
Proof. intros (t & name & num & opt & Ht%element_heap & Hd). eauto 10. Qed.
Lemma field_fun s f typ rep typ' rep' : field_of_type s f typ rep -> field_of_type s f typ' rep' ->
  typ' = typ /\ rep' = rep.
Proof.
  intros (t & n & m & o & Ht & Hd)%field_heap (t' & n' & m' & o' & Ht' & Hd')%field_heap.
  assert (t' = t) as -> by congruence. rewrite Hd in Hd'. by injection Hd'.
Qed.
Lemma type_denotes_fun s f typ k d k' d' : Inv s -> type_denotes s f typ k d -> type_denotes s f typ k' d' ->
  k' = k /\ d' = d.
Proof.
  intros I (_ & c & q & a & Hc & Hq & Hf) (_ & c' & q' & a' & Hc' & Hq' & Hf').
  apply in_scope_of in Hc as [Hc Hi], Hc' as [Hc' Hi'].
  rewrite Hc in Hc'. 
  assert (Hr : resolve (dotted c) typ s = (Ret (q, true), s)) by (by apply resolve_denotes).
  assert (Hr' : resolve (dotted c') typ s = (Ret (q', true), s)) by (by apply resolve_denotes).
  rewrite Hc', Hr' in Hr. injection Hr as ->. pose proof (found_fun _ _ _ _ Hf Hf'). by simplify_eq.
Qed.
Lemma first_child_fun s sel d p p' : first_child s sel d p -> first_child s sel d p' -> p' = p.
Proof.
  intros (t & Ht%element_heap & H) (t' & Ht'%element_heap & H'). assert (t' = t) as -> by congruence. congruence.
Qed.
Lemma scalar_fun fl typ x v v' : scalar_value fl typ x v -> scalar_value fl typ x v' -> v' = v.
Proof.
  pose proof (build_scalar_spec fl typ x) as H. destruct (build_scalar fl typ x) as [o|] eqn:E.
  - destruct H as [_ H]. intros H1%H H2%H. congruence.
  - intros H1 _. destruct H. inversion H1; subst; unfold read_types; rewrite !elem_of_app; try tauto; left; set_solver.
Qed.
Lemma scalar_read fl typ x v : scalar_value fl typ x v -> typ ∈ read_types.
Proof. inversion 1; subst; unfold read_types; rewrite !elem_of_app; try tauto; left; set_solver. Qed.
Lemma denotes_not_read s f typ k d : type_denotes s f typ k d -> typ ∉ read_types.
Proof. intros [H _] Hr. apply H. rewrite elem_of_app. by right. Qed.

(** inversion of [reads] along the code's branches *)
Lemma reads_array_inv fl s f typ lit v : field_of_type s f typ true -> reads fl s f false lit v ->
  exists vs, v = CArray vs /\ Forall2 (reads fl s f true) (lit_array lit) vs.
Proof.
  intros Hf H. inversion H as [? typ' ? vs Hf' Hv|? typ' rep ? ? ? Hf' [->|?]|? typ' ? ? ? ? Hf'|? typ' ? ? ? ? Hf']; subst; try done.
  - eauto.
  - destruct (field_fun _ _ _ _ _ _ Hf Hf'); done.
  - destruct (field_fun _ _ _ _ _ _ Hf Hf'); done.
  - destruct (field_fun _ _ _ _ _ _ Hf Hf'); done.
Qed.
Lemma reads_scalar_inv fl s f typ rep el lit v : field_of_type s f typ rep -> (rep = false \/ el = true) ->
  typ ∈ read_types -> reads fl s f el lit v -> scalar_value fl typ (lit_source lit) v.
Proof.
  intros Hf Hr Ht H.
  inversion H as [? typ' ? vs Hf' Hv|? typ' rep' ? ? ? Hf' _|? typ' ? ? ? ? Hf' Hd|? typ' ? ? ? ? Hf' Hd]; subst;
    destruct (field_fun _ _ _ _ _ _ Hf Hf') as [-> ?]; subst.
  - by destruct Hr.
  - done.
  - by apply denotes_not_read in Hd.
  - by apply denotes_not_read in Hd.
Qed.
(** a type that is no scalar *)
Lemma reads_type_inv fl s f typ rep el lit v : field_of_type s f typ rep -> (rep = false \/ el = true) ->
  typ ∉ read_types -> reads fl s f el lit v -> rep = false /\
  ((exists d p, v = CEnum p /\ type_denotes s f typ KEnum d /\ first_child s (value_called (lit_source lit)) d p) \/
   (exists d vs, v = CMap vs /\ type_denotes s f typ KMessage d /\
      Forall2 (fun entry item => item.1 = entry.1 /\
       exists f', first_child s (field_called entry.1) d f' /\ reads fl s f' false entry.2 item.2)
      (lit_map lit) vs)).
Proof.
  intros Hf Hr Ht H.
  inversion H as [? typ' ? vs Hf' Hv|? typ' rep' ? ? ? Hf' _ Hs|? typ' ? ? ? ? Hf' Hd|? typ' ? ? ? ? Hf' Hd]; subst;
    destruct (field_fun _ _ _ _ _ _ Hf Hf') as [-> ?]; subst.
  - by destruct Hr.
  - by apply scalar_read in Hs.
  - split; [done|]. left. eauto 10.
  - split; [done|]. right. eauto 10.
Qed.

Lemma Forall2_fun {A B} (P Q : A -> B -> Prop) l vs ws :
  Forall (fun x => forall v w, P x v -> Q x w -> w = v) l -> Forall2 P l vs -> Forall2 Q l ws -> ws = vs.
Proof.
  intros H H1. revert ws. induction H1 as [|x v l vs Hx _ IH]; intros ws H2; inversion H2; subst; [done|].
  inversion H; subst. f_equal; eauto.
Qed.

(** a literal denotes at most one content *)
Lemma reads_fun fl s lit : Inv s -> forall f el v v', reads fl s f el lit v -> reads fl s f el lit v' -> v' = v.
Proof.
  intros I. induction lit as [lp src arr omap IHa IHm] using literal_nested_ind. intros f el v v' H1 H2.
  assert (exists typ rep, field_of_type s f typ rep) as (typ & rep & Hf) by (inversion H1; subst; eauto).
  destruct (decide (rep = true /\ el = false)) as [[-> ->]|Hne].
  - apply (reads_array_inv _ _ _ _ _ _ Hf) in H1 as (vs & -> & Hv), H2 as (ws & -> & Hw).
    f_equal. refine (Forall2_fun _ _ _ _ _ _ Hv Hw). cbn [lit_array].
    eapply Forall_impl; [|exact IHa]. cbn beta. intros x Hx v w. apply Hx.
  - assert (Hr : rep = false \/ el = true) by (destruct rep, el; naive_solver). clear Hne.
    destruct (decide (typ ∈ read_types)) as [Ht|Ht].
    + apply (reads_scalar_inv _ _ _ _ _ _ _ _ Hf Hr Ht) in H1, H2. by eapply scalar_fun.
    + destruct (reads_type_inv _ _ _ _ _ _ _ _ Hf Hr Ht H1) as [_ [(d & p & -> & Hd & Hp)|(d & vs & -> & Hd & Hv)]];
      destruct (reads_type_inv _ _ _ _ _ _ _ _ Hf Hr Ht H2) as [_ [(d' & p' & -> & Hd' & Hp')|(d' & vs' & -> & Hd' & Hv')]];
      destruct (type_denotes_fun _ _ _ _ _ _ _ I Hd Hd') as [? ->]; try done.
      * f_equal. by eapply first_child_fun.
      * f_equal. refine (Forall2_fun _ _ _ _ _ _ Hv Hv'). cbn [lit_map].
        eapply Forall_impl; [|exact IHm]. cbn beta. intros [k x] Hx [k1 v] [k2 w] [Hk1 (f1 & Hf1 & Hr1)] [Hk2 (f2 & Hf2 & Hr2)].
        cbn in *. subst. rewrite (first_child_fun _ _ _ _ _ Hf1 Hf2) in Hr2. f_equal. by eapply Hx.
Qed.

(** ** Complaints *)

(** *** Numbers *)

Lemma digits_fault_spec y : forall x m, (m < 2 ^ 64)%N -> numeral x m ->
  match digits_fault m y with
  | None => exists n, numeral (x +:+ y) n /\ (n < 2 ^ 64)%N
  | Some FRange => exists pre post n, y = pre +:+ post /\ pre <> "" /\ numeral (x +:+ pre) n /\ (2 ^ 64 <= n)%N
  | Some FSyntax => (forall n, ~ numeral (x +:+ y) n) /\
      forall pre post n, y = pre +:+ post -> numeral (x +:+ pre) n -> (n < 2 ^ 64)%N
  end.
Proof.
  induction y as [|c y IH]; intros x m Hm Hx; cbn [digits_fault].
  - exists m. by rewrite sapp_nil_r.
  - destruct (digit_val c) as [d|] eqn:Hc.
    + assert (Hd : digit c d) by (by apply digit_cases).
      assert (Hxc : numeral (x +:+ String c "") (10 * m + d)) by (by constructor).
      assert (Happ : forall z, x +:+ String c z = (x +:+ String c "") +:+ z) by (intros z; by rewrite sapp_assoc).
      destruct (N.leb_spec (2 ^ 64) (10 * m + d)) as [Hb|Hb].
      * exists (String c ""), y, (10 * m + d)%N. done.
      * specialize (IH _ _ Hb Hxc). destruct (digits_fault (10 * m + d) y) as [[]|].
        -- destruct IH as [H1 H2]. split; [intros n; rewrite Happ; apply H1|].
           intros pre post n E Hn. destruct pre as [|c' pre].
           { rewrite sapp_nil_r in Hn. by rewrite (numeral_fun _ _ _ Hx Hn). }
           injection E as <- E. rewrite Happ in Hn. by eapply H2.
        -- destruct IH as (pre & post & n & -> & Hp & Hn & Hr). exists (String c pre), post, n.
           split; [done|]. split; [done|]. rewrite Happ. done.
        -- destruct IH as (n & Hn & Hr). exists n. rewrite Happ. done.
    + assert (Hno : forall z n, ~ numeral (x +:+ String c z) n).
      { intros z n [H _]%numeral_iff. rewrite digits_app in H. apply numeral_iff in Hx as [Hx _]. rewrite Hx in H.
        cbn [digits_val mbind option_bind] in H. by rewrite Hc in H. }
      split; [apply Hno|]. intros [|c' pre] post n E Hn.
      * rewrite sapp_nil_r in Hn. by rewrite (numeral_fun _ _ _ Hx Hn).
      * injection E as <- E. by apply Hno in Hn.
Qed.

Lemma uint_fault_spec x :
  match parse_uint_fault x with
  | None => exists n, numeral x n /\ (n < 2 ^ 64)%N
  | Some FRange => too_long x
  | Some FSyntax => (forall n, ~ numeral x n) /\ ~ too_long x
  end.
Proof.
  destruct x as [|c y].
  - cbn. split; [intros n (? & ? & ? & [=] & _)%numeral_head|].
    intros (pre & post & n & E & (? & ? & ? & -> & _)%numeral_head & _). done.
  - unfold parse_uint_fault. cbn [digits_fault]. destruct (digit_val c) as [d|] eqn:Hc.
    + pose proof Hc as Hd. apply digit_cases in Hd.
      assert (Hx : numeral (String c "") d) by (by constructor).
      assert (Hlt : (d < 10)%N).
      { unfold digit in Hd. rewrite !elem_of_cons, elem_of_nil in Hd. repeat destruct Hd as [[= _ ->]|Hd]; [done..|done]. }
      replace (10 * 0 + d)%N with d by lia.
      destruct (N.leb_spec (2 ^ 64) d) as [Hb|Hb]; [lia|].
      pose proof (digits_fault_spec y _ _ Hb Hx) as H. destruct (digits_fault d y) as [[]|].
      * destruct H as [H1 H2]. split; [exact H1|]. intros (pre & post & n & E & Hn & Hr).
        destruct pre as [|c' pre]; [by apply numeral_head in Hn as (? & ? & ? & ? & _)|].
        injection E as <- E. specialize (H2 pre post n E Hn). lia.
      * destruct H as (pre & post & n & -> & _ & Hn & Hr). exists (String c pre), post, n. done.
      * exact H.
    + assert (Hno : forall z n, ~ numeral (String c z) n).
      { intros z n (c' & r & d & [= <- <-] & Hd%digit_cases)%numeral_head. congruence. }
      split; [apply Hno|]. intros (pre & post & n & E & Hn & Hr).
      destruct pre as [|c' pre]; [by apply numeral_head in Hn as (? & ? & ? & ? & _)|].
      injection E as <- E. by apply Hno in Hn.
Qed.
Lemma too_long_no_value x n : too_long x -> numeral x n -> (2 ^ 64 <= n)%N.
Proof.
  intros (pre & post & m & -> & Hm & Hr) [H _]%numeral_iff. apply numeral_iff in Hm as [Hm _].
  rewrite digits_app, Hm in H. clear Hm. revert m Hr H.
  induction post as [|c post IH]; intros m Hr; cbn [digits_val]; [intros [= <-]; done|].
  destruct (digit_val c) as [d|]; [|done]. apply IH. lia.
Qed.
Lemma too_long_head x : too_long x -> exists c r d, x = String c r /\ digit c d.
Proof.
  intros (pre & post & n & -> & (c & r & d & -> & Hd)%numeral_head & _). exists c, (r +:+ post), d. done.
Qed.
Lemma uint_fails x : parse_uint x = None ->
  match default FSyntax (parse_uint_fault x) with
  | FRange => too_long x
  | FSyntax => (forall n, ~ numeral x n) /\ ~ too_long x
  end.
Proof.
  intros H. pose proof (uint_fault_spec x) as Hs. destruct (parse_uint_fault x) as [[]|]; [done|done|].
  destruct Hs as (n & Hn & Hr). exfalso. assert (parse_uint x = Some n) by (by apply parse_uint_spec). congruence.
Qed.
Lemma atoi_fault_cases x : atoi_fault x =
  match parse_uint_fault match x with String c r => if Ascii.eqb c "-" || Ascii.eqb c "+" then r else x | _ => x end with
  | Some k => k | None => FRange end.
Proof. destruct x as [|c r]; [done|]. destruct c as [[] [] [] [] [] [] [] []]; reflexivity. Qed.
Lemma int_fails x : atoi x = None ->
  match atoi_fault x with
  | FRange => int_too_big x
  | FSyntax => (forall z, ~ signed_numeral x z) /\ ~ int_too_big x
  end.
Proof.
  intros H. rewrite atoi_fault_cases.
  assert (Hb : exists sign y, x = sign +:+ y /\ sign ∈ [""; "+"; "-"] /\
    match x with String c r => if Ascii.eqb c "-" || Ascii.eqb c "+" then r else x | _ => x end = y /\
    (sign = "" -> match x with String c r => c <> "-"%char /\ c <> "+"%char | _ => True end)).
  { destruct x as [|c r]; [exists "", ""; split; [done|]; split; [set_solver|done]|].
    destruct (Ascii.eqb_spec c "-") as [->|Hm].
    - exists "-", r. split; [done|]. split; [set_solver|done].
    - destruct (Ascii.eqb_spec c "+") as [->|Hp].
      + exists "+", r. split; [done|]. split; [set_solver|done].
      + exists "", (String c r). split; [done|]. split; [set_solver|]. done. }
  destruct Hb as (sign & y & Hx & Hsign & -> & Hplain).
  assert (Hval : forall n, numeral y n -> exists z, signed_numeral x z).
  { intros n Hn. subst x. rewrite !elem_of_cons, elem_of_nil in Hsign.
    destruct Hsign as [->|[->|[->|[]]]]; eexists; [by apply (sn_plain y)|by apply sn_plus|by apply sn_minus]. }
  assert (Hinv : forall sign' y', sign' ∈ [""; "+"; "-"] -> x = sign' +:+ y' -> (exists c r d, y' = String c r /\ digit c d) -> y' = y).
  { intros sign' y' Hs' Hx' (c & r & d & -> & Hd). apply digit_not_sign in Hd as [Hd1 Hd2]. subst x.
    rewrite !elem_of_cons, elem_of_nil in Hsign, Hs'.
    destruct Hsign as [->|[->|[->|[]]]], Hs' as [->|[->|[->|[]]]]; try (cbv [String.append] in Hx'; congruence).
    all: cbv [String.append] in Hx'; try congruence.
    all: subst y; by destruct (Hplain eq_refl). }
  pose proof (uint_fault_spec y) as Hs. destruct (parse_uint_fault y) as [[]|].
  - destruct Hs as [H1 H2].
    assert (Hnone : forall z, ~ signed_numeral x z).
    { intros z Hz. inversion Hz as [w n Hn E|w n Hn E|w n Hn E].
      - apply (H1 n). rewrite <- (Hinv "" x); [exact Hn|set_solver|reflexivity|exact (numeral_head _ _ Hn)].
      - apply (H1 n). rewrite <- (Hinv "+" w); [exact Hn|set_solver|symmetry; exact E|exact (numeral_head _ _ Hn)].
      - apply (H1 n). rewrite <- (Hinv "-" w); [exact Hn|set_solver|symmetry; exact E|exact (numeral_head _ _ Hn)]. }
    split; [done|]. intros [(sign' & y' & Hs' & Hx' & Hl)|(z & Hz & _)]; [|by apply Hnone in Hz].
    apply H2. rewrite <- (Hinv sign' y' Hs' Hx'); [done|by apply too_long_head].
  - left. exists sign, y. done.
  - right. destruct Hs as (n & Hn & _). destruct (Hval n Hn) as [z Hz]. exists z. split; [done|].
    intros Hr. assert (atoi x = Some z) by (by apply atoi_spec). congruence.
Qed.

(** a text fails to be a scalar for one reason, and then it is none *)
Lemma too_big_no_value x z : int_too_big x -> signed_numeral x z -> ~ (- 2 ^ 63 <= z < 2 ^ 63)%Z.
Proof.
  intros H Hz Hr. assert (Ha : atoi x = Some z) by (by apply atoi_spec).
  destruct H as [(sign & y & Hs & -> & Hl)|(z' & Hz' & Hr')].
  - assert (exists n, numeral y n /\ (z = Z.of_N n \/ z = (- Z.of_N n)%Z)) as (n & Hn & Hzn).
    { destruct (too_long_head _ Hl) as (c & r & d & -> & Hd). apply digit_not_sign in Hd as [Hd1 Hd2].
      rewrite !elem_of_cons, elem_of_nil in Hs.
      destruct Hs as [->|[->|[->|[]]]]; inversion Hz as [w n Hn E|w n Hn E|w n Hn E]; cbv [String.append] in E; try congruence; eauto.
      all: first [ injection E as <-; solve [eauto]
        | exfalso; destruct (numeral_no_sign _ _ Hn (String c r)) as [Hn1 Hn2]; first [by apply Hn1|by apply Hn2] ]. }
    pose proof (too_long_no_value _ _ Hl Hn). lia.
  - assert (z' = z) as ->; [|done]. clear Hr Hr' Ha.
    inversion Hz as [w n Hn E|w n Hn E|w n Hn E]; inversion Hz' as [w' n' Hn' E'|w' n' Hn' E'|w' n' Hn' E']; subst.
    all: first [ exfalso; destruct (numeral_no_sign _ _ Hn w') as [Hn1 Hn2]; first [by apply Hn1|by apply Hn2]
      | exfalso; destruct (numeral_no_sign _ _ Hn' w) as [Hn1 Hn2]; first [by apply Hn1|by apply Hn2]
      | by rewrite (numeral_fun _ _ _ Hn Hn')
      | discriminate E'
      | injection E' as ->; by rewrite (numeral_fun _ _ _ Hn Hn') ].
Qed.

Lemma scalar_fails_read fl typ x c : scalar_fails fl typ x c -> typ ∈ read_types.
Proof. inversion 1; subst; unfold read_types; rewrite !elem_of_app; try tauto; left; set_solver. Qed.
Lemma scalar_fails_none fl typ x c v : scalar_fails fl typ x c -> ~ scalar_value fl typ x v.
Proof.
  intros H Hv. inversion H as [? H1|? ? H1 H2|? ? H1 H2 _|? ? H1 H2|? ? H1 H2 _|? ? H1 H2]; subst;
    inversion Hv as [? b Hb|? ? z H3 Hz Hr|? ? n H3 Hn Hr|? ? f H3 Hp| |? ? Hl]; subst.
  all: try (in_list H1; fail); try (in_list H3; fail); try (in_list H1; in_list H3; fail).
  - by eapply H1.
  - exact (too_big_no_value _ _ H2 Hz Hr).
  - exact (H2 _ Hz).
  - pose proof (too_long_no_value _ _ H2 Hn). lia.
  - exact (H2 _ Hn).
  - congruence.
Qed.
Lemma scalar_fails_fun fl typ x c c' : scalar_fails fl typ x c -> scalar_fails fl typ x c' -> c' = c.
Proof.
  intros H H'. inversion H as [? H1|? ? H1 H2|? ? H1 H2 H5|? ? H1 H2|? ? H1 H2 H5|? ? H1 H2]; subst;
    inversion H' as [? H3|? ? H3 H4|? ? H3 H4 H6|? ? H3 H4|? ? H3 H4 H6|? ? H3 H4]; subst; try done.
  all: try (in_list H1; fail); try (in_list H3; fail); try (in_list H1; in_list H3; fail).
Qed.

(** inversion of [fails] along the code's branches *)
Lemma fails_array_inv fl s f typ lit c : field_of_type s f typ true -> fails fl s f false lit c ->
  exists before x after, lit_array lit = (before ++ x :: after)%list /\
    (forall y, y ∈ before -> exists v, reads fl s f true y v) /\ fails fl s f true x c.
Proof.
  intros Hf H. inversion H as [? typ' ? b x a ? Hf' He Hb Hx|? typ' rep ? ? ? Hf' Hr|? typ' ? ? ? Hf'|? typ' ? ? ? ? ? ? ? ? ? ? Hf'|? typ' ? ? ? ? ? ? ? ? ? Hf'|? typ' ? ? ? ? ? ? ? ? ? Hf'|? typ' rep ? ? Hf' Hr|? typ' rep ? ? ? ? ? Hf' Hr]; subst.
  1: by exists b, x, a.
  all: destruct (field_fun _ _ _ _ _ _ Hf Hf') as [? ?]; subst; try done; by destruct Hr.
Qed.
Lemma fails_scalar_inv fl s f typ rep el lit c : field_of_type s f typ rep -> (rep = false \/ el = true) ->
  typ ∈ read_types -> fails fl s f el lit c -> scalar_fails fl typ (lit_source lit) c.
Proof.
  intros Hf Hr Ht H.
  inversion H as [? typ' ? b x a ? Hf' He Hb Hx|? typ' rep' ? ? ? Hf' _ Hs|? typ' ? ? ? Hf' Hd|? typ' ? ? ? ? ? ? ? ? ? ? Hf' Hd|? typ' ? ? ? ? ? ? ? ? ? Hf' Hd|? typ' ? ? ? ? ? ? ? ? ? Hf' Hd|? typ' rep' ? ? Hf' _ Hd|? typ' rep' ? ? ? ? ? Hf' _ Hd]; subst;
  destruct (field_fun _ _ _ _ _ _ Hf Hf') as [? ?]; subst; try done.
  1: by destruct Hr.
  all: by apply denotes_not_read in Hd.
Qed.
(** the complaints about a type that is no scalar *)
Inductive type_fails (fl : floatlib) (s : registry) (f : ptr) (typ : string) (rep : bool) (lit : literal) : complaint -> Prop :=
| tf_enum d : rep = false -> type_denotes s f typ KEnum d ->
    (forall p, ~ first_child s (value_called (lit_source lit)) d p) ->
    type_fails fl s f typ rep lit (NoEnumValue typ (lit_source lit))
| tf_message d before entry after c : rep = false -> type_denotes s f typ KMessage d ->
    lit_map lit = (before ++ entry :: after)%list -> entries_read fl s d before ->
    ((exists t m ext, element_at s d t /\ t_data t = DMessage m ext /\
        (forall p, ~ first_child s (field_called entry.1) d p) /\ c = NoField m entry.1) \/
     (exists p, first_child s (field_called entry.1) d p /\
        (((forall typ rep, ~ field_of_type s p typ rep) /\ exists t, element_at s p t /\ c = NotPlain (parser_name (t_data t))) \/ fails fl s p false entry.2 c))) ->
    type_fails fl s f typ rep lit c
| tf_type : (forall k d, type_denotes s f typ k d -> k = KEnumValue \/ rep = true /\ (k = KMessage \/ k = KEnum)) ->
    type_fails fl s f typ rep lit (UnknownType typ)
| tf_not k d t : type_denotes s f typ k d -> k ∉ [KMessage; KEnum; KEnumValue] -> element_at s d t ->
    type_fails fl s f typ rep lit (NotAType (parser_name (t_data t))).
Lemma fails_type_inv fl s f typ rep el lit c : field_of_type s f typ rep -> (rep = false \/ el = true) ->
  typ ∉ read_types -> fails fl s f el lit c -> type_fails fl s f typ rep lit c.
Proof.
  intros Hf Hr Ht H.
  inversion H as [? typ' ? b x a ? Hf' He Hb Hx|? typ' rep' ? ? ? Hf' _ Hs|? typ' ? ? ? Hf' Hd Hn|? typ' ? ? ? t m ext ? key x ? Hf' Hd Hel Hdt Hm He Hn|? typ' ? ? ? ? key x ? p t Hf' Hd Hm He Hp Hn Hpt|? typ' ? ? ? ? key x ? p ? Hf' Hd Hm He Hp Hx|? typ' rep' ? ? Hf' _ Hd Hk|? typ' rep' ? ? ? ? t Hf' _ Hd Hk Hdt]; subst;
  destruct (field_fun _ _ _ _ _ _ Hf Hf') as [? ?]; subst; try done.
  - by destruct Hr.
  - by apply scalar_fails_read in Hs.
  - by econstructor.
  - eapply tf_message; [done|done|done|done|]. left. eauto 10.
  - eapply tf_message; [done|done|done|done|]. right. eauto 10.
  - eapply tf_message; [done|done|done|done|]. right. eauto 10.
  - by constructor.
  - by econstructor.
Qed.

Lemma reads_plain fl s f el lit v : reads fl s f el lit v -> exists typ rep, field_of_type s f typ rep.
Proof. inversion 1; subst; eauto. Qed.

(** a literal that fails denotes no content *)
Lemma fails_none fl s lit : Inv s -> forall f el c w, fails fl s f el lit c -> ~ reads fl s f el lit w.
Proof.
  intros I. induction lit as [lp src arr omap IHa IHm] using literal_nested_ind. intros f el c w H Hw.
  destruct (reads_plain _ _ _ _ _ _ Hw) as (typ & rep & Hf).
  destruct (decide (rep = true /\ el = false)) as [[-> ->]|Hne].
  - apply (reads_array_inv _ _ _ _ _ _ Hf) in Hw as (vs & -> & Hv).
    apply (fails_array_inv _ _ _ _ _ _ Hf) in H as (b & x & a & E & _ & Hx). cbn [lit_array] in *. subst arr.
    apply Forall2_app_inv_l in Hv as (v1 & v2 & _ & Hv2 & _). inversion Hv2 as [|? v ? ? Hxv]; subst.
    apply Forall_app in IHa as [_ IHa]. inversion IHa as [|? ? IHx]; subst. exact (IHx _ _ _ _ Hx Hxv).
  - assert (Hr : rep = false \/ el = true) by (destruct rep, el; naive_solver). clear Hne.
    destruct (decide (typ ∈ read_types)) as [Ht|Ht].
    + apply (reads_scalar_inv _ _ _ _ _ _ _ _ Hf Hr Ht) in Hw.
      apply (fails_scalar_inv _ _ _ _ _ _ _ _ Hf Hr Ht) in H. exact (scalar_fails_none _ _ _ _ _ H Hw).
    + destruct (reads_type_inv _ _ _ _ _ _ _ _ Hf Hr Ht Hw) as [-> Hw'].
      destruct (fails_type_inv _ _ _ _ _ _ _ _ Hf Hr Ht H) as [d _ Hd Hn|d b [key x] a c' _ Hd Em Hb Hc|Hk|k d t Hd Hk Hdt].
      * destruct Hw' as [(d' & p & -> & Hd' & Hp)|(d' & vs & -> & Hd' & Hv)];
          destruct (type_denotes_fun _ _ _ _ _ _ _ I Hd Hd') as [? ->]; [|done]. exact (Hn _ Hp).
      * destruct Hw' as [(d' & p & -> & Hd' & Hp)|(d' & vs & -> & Hd' & Hv)];
          destruct (type_denotes_fun _ _ _ _ _ _ _ I Hd Hd') as [? ->]; [done|].
        cbn [lit_map] in *. subst omap.
        apply Forall2_app_inv_l in Hv as (v1 & v2 & _ & Hv2 & _). inversion Hv2 as [|? v ? ? [_ (f' & Hf' & Hxv)]]; subst.
        apply Forall_app in IHm as [_ IHm]. inversion IHm as [|? ? IHx]; subst. cbn [fst snd] in *.
        destruct Hc as [(t & m & ext & _ & _ & Hn & _)|(p & Hp & Hc)]; [exact (Hn _ Hf')|].
        rewrite (first_child_fun _ _ _ _ _ Hp Hf') in Hxv. destruct Hc as [[Hn _]|Hx].
        -- destruct (reads_plain _ _ _ _ _ _ Hxv) as (typ' & rep' & Hpl). exact (Hn _ _ Hpl).
        -- exact (IHx _ _ _ _ Hx Hxv).
      * destruct Hw' as [(d' & p & -> & Hd' & Hp)|(d' & vs & -> & Hd' & Hv)];
          destruct (Hk _ _ Hd') as [?|[? _]]; done.
      * destruct Hw' as [(d' & p & -> & Hd' & Hp)|(d' & vs & -> & Hd' & Hv)];
          destruct (type_denotes_fun _ _ _ _ _ _ _ I Hd Hd') as [<- _]; apply Hk; rewrite !elem_of_cons; tauto.
Qed.

Lemma split_unique {A} (good : A -> Prop) : forall (b b' : list A) x x' a a',
  (b ++ x :: a)%list = (b' ++ x' :: a')%list -> (forall y, y ∈ b -> good y) -> (forall y, y ∈ b' -> good y) ->
  ~ good x -> ~ good x' -> b' = b /\ x' = x /\ a' = a.
Proof.
  induction b as [|y b IH]; intros [|y' b'] x x' a a' E Hb Hb' Hx Hx'; cbn in E.
  - by injection E as -> ->.
  - injection E as -> _. destruct Hx. apply Hb'. constructor.
  - injection E as -> _. destruct Hx'. apply Hb. constructor.
  - injection E as -> E. destruct (IH b' x x' a a' E) as (-> & -> & ->); [..|done|done|done].
    + intros z Hz. apply Hb. by constructor.
    + intros z Hz. apply Hb'. by constructor.
Qed.

(** a literal fails for one reason *)
Lemma fails_fun fl s lit : Inv s -> forall f el c c', fails fl s f el lit c -> fails fl s f el lit c' -> c' = c.
Proof.
  intros I. induction lit as [lp src arr omap IHa IHm] using literal_nested_ind. intros f el c c' H H'.
  assert (exists typ rep, field_of_type s f typ rep) as (typ & rep & Hf) by (inversion H; subst; eauto).
  destruct (decide (rep = true /\ el = false)) as [[-> ->]|Hne].
  - apply (fails_array_inv _ _ _ _ _ _ Hf) in H as (b & x & a & E & Hb & Hx).
    apply (fails_array_inv _ _ _ _ _ _ Hf) in H' as (b' & x' & a' & E' & Hb' & Hx'). cbn [lit_array] in *. rewrite E in E', IHa.
    destruct (split_unique _ _ _ _ _ _ _ E' Hb Hb') as (-> & -> & ->).
    { intros [v Hv]. exact (fails_none _ _ _ I _ _ _ _ Hx Hv). }
    { intros [v Hv]. exact (fails_none _ _ _ I _ _ _ _ Hx' Hv). }
    apply Forall_app in IHa as [_ IHa]. inversion IHa as [|? ? IHx]; subst. exact (IHx _ _ _ _ Hx Hx').
  - assert (Hr : rep = false \/ el = true) by (destruct rep, el; naive_solver). clear Hne.
    destruct (decide (typ ∈ read_types)) as [Ht|Ht].
    + apply (fails_scalar_inv _ _ _ _ _ _ _ _ Hf Hr Ht) in H, H'. exact (scalar_fails_fun _ _ _ _ _ H H').
    + destruct (fails_type_inv _ _ _ _ _ _ _ _ Hf Hr Ht H) as [d -> Hd Hn|d b [key x] a c1 -> Hd Em Hb Hc|Hk|k d t0 Hd Hk Hdt0];
      destruct (fails_type_inv _ _ _ _ _ _ _ _ Hf Hr Ht H') as [d' Hrep Hd' Hn'|d' b' [key' x'] a' c1' Hrep Hd' Em' Hb' Hc'|Hk'|k' d' t0' Hd' Hk' Hdt0'];
      try done.
      all: try (destruct (type_denotes_fun _ _ _ _ _ _ _ I Hd Hd') as [? ?]; subst; try discriminate).
      all: try (exfalso; destruct (Hk _ _ Hd') as [?|[? _]]; subst; done).
      all: try (exfalso; destruct (Hk' _ _ Hd) as [?|[? _]]; subst; done).
      all: try (exfalso; first [apply Hk|apply Hk']; rewrite !elem_of_cons; tauto).
      * cbn [lit_map] in *. rewrite Em in Em', IHm.
        assert (Hbad : forall (entry : string * literal) c,
          ((exists t m ext, element_at s d t /\ t_data t = DMessage m ext /\
            (forall p, ~ first_child s (field_called entry.1) d p) /\ c = NoField m entry.1) \/
           (exists p, first_child s (field_called entry.1) d p /\
            (((forall typ rep, ~ field_of_type s p typ rep) /\ exists t, element_at s p t /\ c = NotPlain (parser_name (t_data t))) \/ fails fl s p false entry.2 c))) ->
          ~ exists f v, first_child s (field_called entry.1) d f /\ reads fl s f false entry.2 v).
        { intros entry c0 G0 (p & v & Hp & Hv).
          destruct G0 as [(t & m & ext & _ & _ & Hn & _)|(p' & Hp' & G0)]; [exact (Hn _ Hp)|].
          rewrite (first_child_fun _ _ _ _ _ Hp Hp') in G0. destruct G0 as [[Hn _]|Hx].
          - destruct (reads_plain _ _ _ _ _ _ Hv) as (typ' & rep' & Hpl). exact (Hn _ _ Hpl).
          - exact (fails_none _ _ _ I _ _ _ _ Hx Hv). }
        destruct (split_unique _ _ _ _ _ _ _ Em' Hb Hb' (Hbad _ _ Hc) (Hbad _ _ Hc')) as (-> & [= -> ->] & ->).
        apply Forall_app in IHm as [_ IHm]. inversion IHm as [|? ? IHx]; subst. cbn [fst snd] in *.
        destruct Hc as [(t & m & ext & Hel & Hdt & Hn & ->)|(p & Hp & Hc)];
        destruct Hc' as [(t' & m' & ext' & Hel' & Hdt' & Hn' & ->)|(p' & Hp' & Hc')].
        -- apply element_heap in Hel, Hel'. congruence.
        -- by apply Hn in Hp'.
        -- by apply Hn' in Hp.
        -- rewrite (first_child_fun _ _ _ _ _ Hp Hp') in Hc'.
           destruct Hc as [(Hn & ? & Ht1 & ->)|Hx], Hc' as [(Hn' & ? & Ht2 & ->)|Hx']; [by apply element_heap in Ht1, Ht2; congruence| | |exact (IHx _ _ _ _ Hx Hx')].
           ++ exfalso. assert (exists typ rep, field_of_type s p typ rep) as (? & ? & Hpl) by (inversion Hx'; subst; eauto). exact (Hn _ _ Hpl).
           ++ exfalso. assert (exists typ rep, field_of_type s p typ rep) as (? & ? & Hpl) by (inversion Hx; subst; eauto). exact (Hn' _ _ Hpl).
      * exfalso. destruct (Hk _ _ Hd') as [->|[_ [->| ->]]]; apply Hk'; rewrite !elem_of_cons; tauto.
      * exfalso. destruct (Hk' _ _ Hd) as [->|[_ [->| ->]]]; apply Hk; rewrite !elem_of_cons; tauto.
      * apply element_heap in Hdt0, Hdt0'. congruence.
Qed.

Definition is_type_node (ty : option node) : bool :=
  match ty with Some (NAst (KEnum | KMessage) _ _) => true | _ => false end.

Lemma quiet_get_type f typ s : quiet s (get_type_by_name f typ s).2.
Proof. apply (keeps_get_type_by_name quiet quiet_refl quiet_trans quiet_alloc quiet_wrap). Qed.
Lemma inv_get_type f typ : keeps inv_step (get_type_by_name f typ).
Proof. kinv keeps_get_type_by_name. Qed.
Lemma quiet_lookup p sel k s : quiet s (lookup_kid p sel k s).2.
Proof. apply (keeps_lookup_kid quiet quiet_refl quiet_trans quiet_wrap). Qed.
Lemma quiet_build fl opt f lit ig s : quiet s (build fl opt f lit ig s).2.
Proof. apply (keeps_build quiet quiet_refl quiet_trans quiet_alloc quiet_wrap). Qed.

Lemma type_lookup s0 s f typ rep :
  Inv s0 -> Inv s -> quiet s0 s -> fields_scoped s0 -> field_of_type s0 f typ rep -> typ ∉ read_types ->
  (exists k a d s1, get_type_by_name f typ s = (Ret (Some (NAst k a d)), s1) /\
     (k = KEnum \/ k = KMessage) /\ type_denotes s0 f typ k d /\ rep = false) \/
  ((forall k d, type_denotes s0 f typ k d -> k = KEnumValue \/ rep = true /\ (k = KMessage \/ k = KEnum)) /\
    exists ty s1, get_type_by_name f typ s = (Ret ty, s1) /\ is_type_node ty = false) \/
  (exists k d t, type_denotes s0 f typ k d /\ k ∉ [KMessage; KEnum; KEnumValue] /\ element_at s0 d t /\
    (get_type_by_name f typ s).1 = Panic (PError (ENew ("node *proto." +:+ parser_name (t_data t) +:+ " does not represent a type")))).
Proof.
  intros I0 I Q Hfs Hf Hnr. destruct (Hfs _ _ _ Hf) as [comps Hc].
  apply field_heap in Hf as (t & name & num & opt & Ht & Hd).
  pose proof Ht as Ht'. rewrite <- (quiet_heap_at _ _ _ Q) in Ht'.
  destruct (in_scope_of _ _ _ Hc) as [Hsc Hid].
  assert (Hsc' : scope_of s (VPtr f) = dotted comps).
  { rewrite (scope_later s0 s f t (quiet_grows _ _ Q) Ht). done. }
  assert (Hnone : (forall q, ~ denotes s0 comps typ q) -> forall k d, ~ type_denotes s0 f typ k d).
  { intros Hno k d (_ & c & q & a & Hc' & Hq & _). apply in_scope_of in Hc' as [Hc' Hid'].
    assert (Hr : resolve (dotted c) typ s0 = (Ret (q, true), s0)) by (by apply resolve_denotes).
    destruct (resolve_unknown s0 comps typ I0 Hid Hno) as [q' Hr'].
    rewrite <- Hc', Hsc, Hr' in Hr; discriminate Hr. }
  assert (Hnames : names s = names s0) by apply (q_names _ _ Q).
  assert (Hden : forall q n s1, typ ∉ scalar_names -> denotes s comps typ q -> node_by_full_name q s = (Ret (Some n), s1) ->
    exists k a d, n = NAst k a d /\ type_denotes s0 f typ k d /\
      (implements_type n = true -> k = KMessage \/ k = KEnum \/ k = KEnumValue) /\
      exists u, element_at s0 d u /\
        no_type s n = PError (ENew ("node *proto." +:+ parser_name (t_data u) +:+ " does not represent a type"))).
  { intros q n s1 Hb Hq E. assert (Hf : found s q n) by (unfold found; by rewrite E).
    destruct (found_kind _ _ _ I Hf) as (k & a & d & ->).
    destruct (found_at _ _ _ _ _ I Hf) as (Hnq & u & Hu & Hk).
    assert (Hsay : no_type s (NAst k a d) =
      PError (ENew ("node *proto." +:+ parser_name (t_data u) +:+ " does not represent a type"))).
    { unfold no_type, not_a_type, go_visitee. by rewrite Hu, parser_ok, sapp_assoc. }
    rewrite Hnames in Hnq. rewrite (quiet_heap_at _ _ _ Q) in Hu.
    destruct (names_found _ _ _ _ _ I0 Hnq Hu Hk) as [a' Hf0].
    assert (Hq0 : denotes s0 comps typ q) by (by apply (names_denotes s s0)).
    exists k, a, d. split; [done|]. split; [split; [rewrite elem_of_app; tauto|eauto 10]|].
    split; [|exists u; split; [by apply heap_element|done]].
    intros Hi. destruct k; cbn in *; try done; try tauto; destruct (t_data u); done. }
  assert (Hscal : typ ∈ scalar_names -> forall k d, ~ type_denotes s0 f typ k d).
  { intros Hb k d [H _]. apply H. rewrite elem_of_app. by left. }
  assert (Hkd : forall k d, type_denotes s0 f typ k d -> forall k' d', type_denotes s0 f typ k' d' -> k' = k).
  { intros k d H k' d' H'. by destruct (type_denotes_fun _ _ _ _ _ _ _ I0 H H'). }
  destruct rep.
  - right. pose proof (get_type_repeated s f t typ Ht' ltac:(by rewrite Hd)) as H.
    destruct (decide (typ ∈ scalar_names)) as [Hb|Hb].
    + left. split; [intros k d Hkd'; by apply Hscal in Hkd'|]. destruct (builtin_some _ Hb) as (b & Hbt & _).
      assert (G : get_type_body f typ s = (Ret (Some (NBuiltin b)), s)) by (unfold get_type_body; by rewrite Hbt).
      rewrite G in H. destruct H as (a & s' & H). eexists _, _. split; [exact H|done].
    + destruct (get_type_body_spec s f typ comps I Hsc' Hid Hb) as [(q & n & s1 & Hq & E & G)|[Hn G]]; rewrite G in H.
      * destruct (Hden q n s1 Hb Hq E) as (k & a0 & d & -> & Htd & Hi & u & Hu & Hsay). destruct (implements_type (NAst k a0 d)) eqn:Him.
        -- destruct H as (a & s' & H). left. split; [|eexists _, _; split; [exact H|done]].
           intros k' d' H'. rewrite (Hkd _ _ Htd _ _ H'). destruct (Hi eq_refl) as [->|[->| ->]]; tauto.
        -- right. exists k, d, u. split; [done|]. split; [|split; [done|by rewrite H, Hsay]].
           rewrite !elem_of_cons, elem_of_nil. intros [->|[->|[->|[]]]]; discriminate Him.
      * destruct H as (a & s' & H). left. split; [|eexists _, _; split; [exact H|done]].
        intros k d Hkd'. exfalso. eapply Hnone; [|exact Hkd']. intros q Hq. apply (Hn q). by apply (names_denotes s0 s).
  - rewrite (get_type_plain s f t typ Ht') by (by rewrite Hd).
    destruct (decide (typ ∈ scalar_names)) as [Hb|Hb].
    + destruct (builtin_some _ Hb) as (b & Hbt & _). right; left. split; [intros k d Hkd'; by apply Hscal in Hkd'|].
      exists (Some (NBuiltin b)), s. split; [|done]. unfold get_type_body; by rewrite Hbt.
    + destruct (get_type_body_spec s f typ comps I Hsc' Hid Hb) as [(q & n & s1 & Hq & E & G)|[Hn G]]; rewrite G.
      * destruct (Hden q n s1 Hb Hq E) as (k & a0 & d & -> & Htd & Hi & u & Hu & Hsay). destruct (implements_type (NAst k a0 d)) eqn:Him.
        -- destruct (Hi eq_refl) as [->|[->| ->]].
           ++ left. exists KMessage, a0, d, s1. split; [done|]. split; [by right|done].
           ++ left. exists KEnum, a0, d, s1. split; [done|]. split; [by left|done].
           ++ right; left. split; [|eexists _, _; split; [reflexivity|done]].
              intros k' d' H'. left. exact (Hkd _ _ Htd _ _ H').
        -- right; right. exists k, d, u. split; [done|]. split; [|split; [done|by rewrite Hsay]].
           rewrite !elem_of_cons, elem_of_nil. intros [->|[->|[->|[]]]]; discriminate Him.
      * right; left. split; [|eexists _, _; split; [reflexivity|done]].
        intros k d Hkd'. exfalso. eapply Hnone; [|exact Hkd']. intros q Hq. apply (Hn q). by apply (names_denotes s0 s).
Qed.

(** lookups of children *)
Lemma first_child_lookup s0 s d sel k : Inv s -> quiet s0 s -> (exists t, element_at s0 d t) ->
  (forall x, sel x = true -> wrap_kind x = Some k) ->
  (exists p a s1, lookup_kid d sel k s = (Ret (Some (NAst k a p)), s1) /\ first_child s0 sel d p) \/
  ((forall p, ~ first_child s0 sel d p) /\ lookup_kid d sel k s = (Ret None, s)).
Proof.
  intros I Q [t Ht] Hsel. pose proof (element_heap _ _ _ Ht) as Ht0.
  pose proof Ht0 as Ht'. rewrite <- (quiet_heap_at _ _ _ Q) in Ht'.
  unfold lookup_kid. rewrite (rbind_val _ _ _ _ _ (kids_of_ok _ _ _ Ht')), find_kid_head.
  change (map fst (List.filter (fun b => sel (t_data b.2)) (kids_at d t))) with (children sel d t).
  destruct (head (children sel d t)) as [p|] eqn:Hh.
  - left. assert (Hin : p ∈ children sel d t).
    { destruct (children sel d t); [done|]. injection Hh as ->. constructor. }
    unfold children in Hin. apply elem_of_list_fmap in Hin as (b & -> & Hb).
    apply elem_of_list_In, filter_In in Hb as [Hb Hs].
    assert (Hbh : heap_at s b.1 = Some b.2) by (apply (kids_heap _ d t); [done|by apply elem_of_list_In]).
    destruct (wrap_as_ok k b.1 b.2 s I Hbh (Hsel _ Hs)) as (a & s1 & E & _).
    exists b.1, a, s1. rewrite (rbind_val _ _ _ _ _ E). split; [done|]. exists t. done.
  - right. split; [|done]. intros p (u & Hu%element_heap & Hp). assert (u = t) as -> by congruence. congruence.
Qed.

Lemma rbind_panic {A B} (m : R A) (k : A -> R B) s msg : (m s).1 = Panic msg -> (rbind m k s).1 = Panic msg.
Proof. unfold rbind. intros H. destruct (m s) as [[] s1]; cbn in *; try done. congruence. Qed.

Lemma type_denotes_element s f typ k d : Inv s -> type_denotes s f typ k d -> exists t, element_at s d t.
Proof.
  intros I (_ & c & q & a & _ & _ & Hf). destruct (found_at _ _ _ _ _ I Hf) as (_ & t & Ht & _).
  exists t. by apply heap_element.
Qed.

Lemma says_new c msg fl : says fl c (PError (ENew msg)) <->
  match c with
  | NoEnumValue typ x => msg = "unknown enum " +:+ typ +:+ " value " +:+ x
  | NoField m key => msg = "unknown message " +:+ m +:+ " field " +:+ key
  | UnknownType typ => msg = "unknown field type: " +:+ typ
  | _ => says fl c (PError (ENew msg))
  end.
Proof.
  destruct c; cbn; try done; unfold says_error; (split; [intros (e & [= <-] & <- & _); done|intros ->; eexists; done]).
Qed.
Lemma says_number what fn x k :
  says_error (PError (EWrap ("convert literal to " +:+ what) (num_error fn x k)))
    (number_text what fn x (match k with FRange => true | FSyntax => false end))
    (number_cause (match k with FRange => true | FSyntax => false end)).
Proof.
  eexists. split; [reflexivity|]. split.
  - unfold num_error, number_text. cbn [error_text]. rewrite !sapp_assoc. destruct k; reflexivity.
  - intros target. unfold num_error, number_cause. cbn [error_is].
    destruct k; (destruct (String.eqb_spec target "strconv.ErrRange") as [->|H1]; [reflexivity|]);
      (destruct (String.eqb_spec target "strconv.ErrSyntax") as [->|H2]; [reflexivity|]);
      apply bool_decide_eq_false_2; rewrite elem_of_cons, elem_of_nil; unfold err_syntax, err_range; tauto.
Qed.

Lemma build_spec fl s0 : Inv s0 -> fields_scoped s0 ->
  forall lit opt f ig s, Inv s -> quiet s0 s -> (exists typ rep, field_of_type s0 f typ rep) ->
  (exists v s', build fl opt f lit ig s = (Ret v, s') /\ reads fl s0 f ig lit (contents v)) \/
  (exists c msg, (build fl opt f lit ig s).1 = Panic msg /\ fails fl s0 f ig lit c /\ says fl c msg).
Proof.
  intros I0 Hfs lit. induction lit as [lp src arr omap IHa IHm] using literal_nested_ind.
  intros opt f ig s I Q (typ & rep & Hf).
  destruct (field_heap _ _ _ _ Hf) as (t & name & num & fo & Ht & Hd).
  pose proof Ht as Ht'. rewrite <- (quiet_heap_at _ _ _ Q) in Ht'.
  rewrite build_unfold. rewrite (rbind_val _ _ _ _ _ (deref_ok _ _ _ Ht')), Hd.
  cbn [lit_array lit_map lit_source].
  destruct (rep && negb ig) eqn:Hri.
  { apply andb_prop in Hri as [-> Hig]. destruct ig; [discriminate|]. clear Hig IHm.
    assert (Harr : forall s, Inv s -> quiet s0 s ->
      (exists vs s', build_array fl f arr s = (Ret vs, s') /\ Forall2 (reads fl s0 f true) arr (map contents vs)) \/
      (exists before x after c msg, arr = (before ++ x :: after)%list /\
         (forall y, y ∈ before -> exists v, reads fl s0 f true y v) /\
         (build_array fl f arr s).1 = Panic msg /\ fails fl s0 f true x c /\ says fl c msg)).
    { clear I Q Ht Ht'. induction IHa as [|x l Hx _ IH]; intros s1 I Q; cbn [build_array].
      - left. exists [], s1. split; [done|constructor].
      - destruct (Hx None f true s1 I Q ltac:(eauto)) as [(v & s2 & E & Hv)|(c & msg & E & Hc & Hsay)].
        + pose proof (inv_step_ret _ _ _ _ (inv_step_build _ _ _ _ _) I E) as [I2 _].
          pose proof (quiet_build fl None f x true s1) as Q2. rewrite E in Q2. cbn in Q2.
          rewrite (rbind_val _ _ _ _ _ E).
          destruct (IH s2 I2 (quiet_trans _ _ _ Q Q2)) as [(vs & s3 & E3 & Hvs)|(b & y & a & c & msg & Es & Hb & E3 & Hc & Hsay)].
          * left. exists (v :: vs), s3. rewrite (rbind_val _ _ _ _ _ E3). split; [done|]. cbn. by constructor.
          * right. exists (x :: b), y, a, c, msg. split; [by rewrite Es|]. split; [|split; [by apply rbind_panic|done]].
            intros z [->|Hz]%elem_of_cons; [by eexists|by apply Hb].
        + right. exists [], x, l, c, msg. split; [done|]. split; [intros y Hy; by apply elem_of_nil in Hy|].
          split; [by apply rbind_panic|done]. }
    destruct (Harr s I Q) as [(vs & s1 & E & Hv)|(b & x & a & c & msg & Es & Hb & E & Hc & Hsay)].
    - left. rewrite (rbind_val _ _ _ _ _ E), rbind_alloc. eexists _, _. split; [reflexivity|].
      cbn [contents]. by eapply rd_array.
    - right. exists c, msg. split; [by apply rbind_panic|]. split; [|done].
      eapply fa_array; [exact Hf|exact Es|exact Hb|exact Hc]. }
  assert (Hr : rep = false \/ ig = true) by (destruct rep, ig; naive_solver).
  pose proof (build_scalar_spec fl typ src) as Hsc.
  assert (Hscal : forall w, build_scalar fl typ src = Some (Some w) -> reads fl s0 f ig (Lit lp src arr omap) w).
  { intros w E. rewrite E in Hsc. destruct Hsc as [Hin Hsc]. eapply rd_scalar; [exact Hf|done|]. by apply Hsc. }
  assert (Hfin : forall w (k : N -> oval), (forall a, contents (k a) = w) -> reads fl s0 f ig (Lit lp src arr omap) w ->
    forall s, (exists v s', (a <~ alloc ;; ret (k a)) s = (Ret v, s') /\ reads fl s0 f ig (Lit lp src arr omap) (contents v)) \/
    (exists c msg, ((a <~ alloc ;; ret (k a)) s).1 = Panic msg /\ fails fl s0 f ig (Lit lp src arr omap) c /\ says fl c msg)).
  { intros w k Hk Hw s1. left. rewrite rbind_alloc. eexists _, _. split; [reflexivity|]. by rewrite Hk. }
  assert (Hbad : forall c msg, fails fl s0 f ig (Lit lp src arr omap) c -> says fl c msg ->
    forall s, (exists v s', @panic oval msg s = (Ret v, s') /\ reads fl s0 f ig (Lit lp src arr omap) (contents v)) \/
    (exists c msg', (@panic oval msg s).1 = Panic msg' /\ fails fl s0 f ig (Lit lp src arr omap) c /\ says fl c msg')).
  { intros c msg Hc Hsay s1. right. by exists c, msg. }
  assert (Hsf : forall c, scalar_fails fl typ src c -> fails fl s0 f ig (Lit lp src arr omap) c).
  { intros c Hc. eapply fa_scalar; [exact Hf|exact Hr|exact Hc]. }
  unfold build_scalar in Hscal, Hsc.
  destruct (String.eqb_spec typ "bool") as [Et|Nt1].
  { destruct (parse_bool src) eqn:E; cbn [fmap option_fmap option_map] in Hscal.
    - eapply Hfin; [|by apply Hscal]. done.
    - apply (Hbad (BadBool src)); [apply Hsf; rewrite Et; constructor|apply (says_number "bool" "ParseBool" src FSyntax)].
      intros b Hb%parse_bool_spec. congruence. }
  destruct (is_signed_type typ) eqn:Es.
  { apply bool_decide_eq_true in Es. assert (Hin : typ ∈ signed_types) by (unfold signed_types; set_solver).
    destruct (atoi src) eqn:E; cbn [fmap option_fmap option_map] in Hscal.
    - eapply Hfin; [|by apply Hscal]. done.
    - pose proof (int_fails _ E) as H. eapply Hbad; [|apply (says_number "int" "Atoi" src (atoi_fault src) : says fl (BadInt src _) _)].
      destruct (atoi_fault src); apply Hsf; [constructor; tauto|by constructor]. }
  destruct (is_unsigned_type typ) eqn:Eu.
  { apply bool_decide_eq_true in Eu. assert (Hin : typ ∈ unsigned_types) by (unfold unsigned_types; set_solver).
    destruct (parse_uint src) eqn:E; cbn [fmap option_fmap option_map] in Hscal.
    - eapply Hfin; [|by apply Hscal]. done.
    - pose proof (uint_fails _ E) as H. eapply Hbad; [|apply (says_number "uint" "ParseUint" src (default FSyntax (parse_uint_fault src)) : says fl (BadUint src _) _)].
      destruct (default FSyntax (parse_uint_fault src)); apply Hsf; [constructor; tauto|by constructor]. }
  destruct (is_float_type typ) eqn:Ef.
  { apply bool_decide_eq_true in Ef. assert (Hin : typ ∈ float_types) by (exact Ef).
    destruct (fl_parse fl src) eqn:E; cbn [fmap option_fmap option_map] in Hscal.
    - eapply Hfin; [|by apply Hscal]. done.
    - apply (Hbad (BadFloat src)); [apply Hsf; by constructor|]. eexists. split; [reflexivity|]. by split. }
  destruct (String.eqb typ "string").
  { eapply Hfin; [|by apply Hscal]. done. }
  destruct (String.eqb typ "bytes").
  { eapply Hfin; [|by apply Hscal]. done. }
  clear Hscal Hsf. rename Hsc into Hnr.
  destruct (type_lookup s0 s f typ rep I0 I Q Hfs Hf Hnr) as [(k & a & d & s1 & E & Hk & Htd & ->)|[[Hno (ty & s1 & E & Hty)]|(k & d & ud & Htd & Hk & Hud & E)]].
  - pose proof (inv_step_ret _ _ _ _ (inv_get_type f typ) I E) as [I1 _].
    pose proof (quiet_get_type f typ s) as Q1. rewrite E in Q1. cbn in Q1.
    pose proof (quiet_trans _ _ _ Q Q1) as Q01. rewrite (rbind_val _ _ _ _ _ E).
    pose proof (type_denotes_element _ _ _ _ _ I0 Htd) as Hel.
    destruct Hk as [-> | ->].
    + destruct (first_child_lookup s0 s1 d (value_called src) KEnumValue I1 Q01 Hel) as [(p & ea & s2 & El & Hp)|[Hno El]].
      { intros x Hx. by destruct x. }
      * change (enum_value d src) with (lookup_kid d (value_called src) KEnumValue).
        rewrite (rbind_val _ _ _ _ _ El). eapply Hfin; [|by eapply rd_enum]. done.
      * change (enum_value d src) with (lookup_kid d (value_called src) KEnumValue).
        rewrite (rbind_val _ _ _ _ _ El). apply (Hbad (NoEnumValue typ src)); [|by apply says_new].
        by apply (fa_enum fl s0 f typ ig (Lit lp src arr omap) d).
    + set (item_of := fun (entry : string * literal) (item : string * content) => item.1 = entry.1 /\
         exists f', first_child s0 (field_called entry.1) d f' /\ reads fl s0 f' false entry.2 item.2).
      assert (exists u m ext, element_at s0 d u /\ t_data u = DMessage m ext) as (u0 & m & ext & Hu0 & Hdu0).
      { destruct Htd as (_ & comps & q & a' & _ & _ & Hfq). destruct (found_at _ _ _ _ _ I0 Hfq) as (_ & u & Hu & Hku).
        destruct (t_data u) eqn:Hdu; try discriminate Hku. exists u, name0, is_extend. split; [by apply heap_element|done]. }
      assert (Hit : forall s, Inv s -> quiet s0 s ->
        (exists items s', build_items fl d omap s = (Ret items, s') /\
           Forall2 item_of omap (map (fun kv => (kv.1, contents kv.2)) items)) \/
        (exists before entry after c msg, omap = (before ++ entry :: after)%list /\ entries_read fl s0 d before /\
          (build_items fl d omap s).1 = Panic msg /\ says fl c msg /\
          (((forall p, ~ first_child s0 (field_called entry.1) d p) /\ c = NoField m entry.1) \/
           (exists p, first_child s0 (field_called entry.1) d p /\
              (((forall typ rep, ~ field_of_type s0 p typ rep) /\ exists t, element_at s0 p t /\ c = NotPlain (parser_name (t_data t))) \/ fails fl s0 p false entry.2 c))))).
      { clear - IHm Hel I0 Hu0 Hdu0. induction IHm as [|[key x] l Hx _ IH]; intros s I Q; cbn [build_items].
        - left. exists [], s. split; [done|constructor].
        - change (message_field d key) with (lookup_kid d (field_called key) KField). cbn [snd] in Hx.
          assert (Hnil : entries_read fl s0 d []) by (intros ? H%elem_of_nil; done).
          destruct (first_child_lookup s0 s d (field_called key) KField I Q Hel) as [(p & fa & s2 & El & Hp)|[Hno El]].
          { intros y Hy. by destruct y. }
          + pose proof (quiet_lookup d (field_called key) KField s) as Q2. rewrite El in Q2. cbn in Q2.
            assert (I2 : Inv s2).
            { eapply (inv_step_ret _ s _ s2); [|exact I|exact El]. kinv keeps_lookup_kid. }
            pose proof (quiet_trans _ _ _ Q Q2) as Q02. rewrite (rbind_val _ _ _ _ _ El).
            assert (exists u, element_at s0 p u) as [u Hu].
            { destruct Hp as (dt & Hdt & Hh). apply element_heap in Hdt.
              assert (Hin : p ∈ children (field_called key) d dt).
              { destruct (children _ d dt); [done|]. injection Hh as ->. constructor. }
              unfold children in Hin. apply elem_of_list_fmap in Hin as (b & -> & Hb).
              apply elem_of_list_In, filter_In in Hb as [Hb Hs]. exists b.2. apply heap_element; [done|].
              apply (kids_heap _ d dt); [done|by apply elem_of_list_In]. }
            pose proof (element_heap _ _ _ Hu) as Hu2. rewrite <- (quiet_heap_at _ _ _ Q02) in Hu2.
            rewrite (rbind_val _ _ _ _ _ (deref_ok _ _ _ Hu2)).
            assert (Hplain : (exists typ rep, field_of_type s0 p typ rep) \/
              ((forall typ rep, ~ field_of_type s0 p typ rep) /\ match t_data u with DNormalField _ _ _ _ _ => False | _ => True end)).
            { destruct (t_data u) eqn:Hdu; try (right; split; [|done]; intros ty re (u' & ? & ? & ? & Hu' & Hdu');
                apply element_heap in Hu, Hu'; congruence).
              left. exists typ, repeated. exists u, name, seq, is_optional. done. }
            destruct Hplain as [Hpf|[Hno Hnp]].
            * destruct (Hx None p false s2 I2 Q02 Hpf) as [(v & s3 & E & Hv)|(c & msg & E & Hc & Hsay)].
              -- destruct Hpf as (ty & re & (u' & nm & nu & op & Hu' & Hdu')). apply element_heap in Hu, Hu'.
                 assert (u' = u) as -> by congruence. rewrite Hdu'. rewrite (rbind_val _ _ _ _ _ E).
                 pose proof (inv_step_ret _ _ _ _ (inv_step_build _ _ _ _ _) I2 E) as [I3 _].
                 pose proof (quiet_build fl None p x false s2) as Q3. rewrite E in Q3. cbn in Q3.
                 destruct (IH s3 I3 (quiet_trans _ _ _ Q02 Q3)) as [(vs & s4 & E4 & Hvs)|(b & en & af & c & msg & Es & Hb & E4 & Hrest)].
                 ++ left. exists ((key, v) :: vs), s4. rewrite (rbind_val _ _ _ _ _ E4). split; [done|].
                    cbn [map]. constructor; [|done]. split; [done|]. exists p. done.
                 ++ right. exists ((key, x) :: b), en, af, c, msg. split; [by rewrite Es|].
                    split; [|split; [by apply rbind_panic|exact Hrest]].
                    intros z [->|Hz]%elem_of_cons; [exists p, (contents v); done|by apply Hb].
              -- destruct Hpf as (ty & re & (u' & nm & nu & op & Hu' & Hdu')). apply element_heap in Hu, Hu'.
                 assert (u' = u) as -> by congruence. rewrite Hdu'. right.
                 exists [], (key, x), l, c, msg. split; [done|]. split; [done|]. split; [by apply rbind_panic|].
                 split; [done|]. right. exists p. split; [done|]. by right.
            * right. exists [], (key, x), l, (NotPlain (parser_name (t_data u))),
                (conversion "proto.Visitee" (go_proto (t_data u)) "*proto.NormalField"). split; [done|]. split; [done|].
              split; [by destruct (t_data u)|]. split.
              { unfold conversion. rewrite parser_ok. eexists. split; [reflexivity|]. split; [|done].
                cbn [error_text]. by destruct (t_data u). }
              right. exists p. split; [done|]. left. split; [done|]. exists u. done.
          + right. exists [], (key, x), l, (NoField m key), (PError (ENew ("unknown message " +:+ m +:+ " field " +:+ key))).
            split; [done|]. split; [done|]. split; [|split; [by apply says_new|left; done]].
            rewrite (rbind_val _ _ _ _ _ El). apply element_heap in Hu0. rewrite <- (quiet_heap_at _ _ _ Q) in Hu0.
            unfold node_name. rewrite rbind_assoc, (rbind_val _ _ _ _ _ (deref_ok _ _ _ Hu0)), Hdu0. reflexivity. }
      destruct (Hit s1 I1 Q01) as [(items & s2 & Ei & Hi)|(b & [key x] & af & c & msg & Es' & Hb & Ei & Hsay & Hc)].
      * rewrite (rbind_val _ _ _ _ _ Ei). eapply Hfin; [|eapply rd_message; [exact Hf|exact Htd|exact Hi]]. done.
      * right. exists c, msg. split; [by apply rbind_panic|]. split; [|done]. cbn [fst snd] in Hc.
        destruct Hc as [[Hno ->]|(p & Hp & [(Hno & tp & Htp & ->)|Hx])].
        -- eapply fa_no_field; [exact Hf|exact Htd|exact Hu0|exact Hdu0|exact Es'|exact Hb|exact Hno].
        -- eapply fa_not_plain; [exact Hf|exact Htd|exact Es'|exact Hb|exact Hp|exact Hno|exact Htp].
        -- eapply fa_entry; [exact Hf|exact Htd|exact Es'|exact Hb|exact Hp|exact Hx].
  - right. exists (UnknownType typ), (PError (ENew ("unknown field type: " +:+ typ))).
    split; [|split; [eapply fa_type; [exact Hf|exact Hr|exact Hnr|exact Hno]|by apply says_new]].
    rewrite (rbind_val _ _ _ _ _ E). destruct ty as [[[] ? ?| | | | |]|]; try discriminate Hty; reflexivity.
  - right. exists (NotAType (parser_name (t_data ud))). eexists. split; [apply rbind_panic; exact E|].
    split; [|eexists; split; [reflexivity|]; by split].
    eapply fa_not_a_type; [exact Hf|exact Hr|exact Htd|exact Hk|exact Hud].
Qed.

Lemma build_reads fl s0 : Inv s0 -> fields_scoped s0 ->
  forall lit opt f ig s, Inv s -> quiet s0 s -> (exists typ rep, field_of_type s0 f typ rep) ->
  (exists v s', build fl opt f lit ig s = (Ret v, s') /\ reads fl s0 f ig lit (contents v)) \/
  ((forall w, ~ reads fl s0 f ig lit w) /\ exists msg, (build fl opt f lit ig s).1 = Panic msg).
Proof.
  intros I0 Hfs lit opt f ig s I Q Hf.
  destruct (build_spec fl s0 I0 Hfs lit opt f ig s I Q Hf) as [?|(c & msg & E & Hc & _)]; [by left|].
  right. split; [|eauto]. intros w. exact (fails_none _ _ _ I0 _ _ _ _ Hc).
Qed.
