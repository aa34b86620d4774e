(** * Walking the type graph: C79. *)
From Verif Require Export Gather ThmSurvey OptionUse ThmMeta.
From Verif Require Import Worlds Values ThmTypes Frame Iterate Enumerate Demo Identity Nodes LoadFacts Api.
Local Open Scope go_scope.

(** ** Facts about the specification *)

Lemma not_me k : k ∈ [KMessage; KEnum] \/ k ∉ [KMessage; KEnum].
Proof. destruct (decide (k ∈ [KMessage; KEnum])); [by left|by right]. Qed.
Lemma in_me k : k ∈ [KMessage; KEnum] -> k = KMessage \/ k = KEnum.
Proof. rewrite !elem_of_cons, elem_of_nil. tauto. Qed.

Lemma heap_data_fun s (q : ptr) t t' : heap_at s q = Some t -> element_at s q t' -> t' = t.
Proof. intros H H'%element_heap. congruence. Qed.
Lemma uses_normal s q t name typ num rep opt k d : heap_at s q = Some t -> t_data t = DNormalField name typ num rep opt ->
  uses s q k d -> refers s q typ k d.
Proof.
  intros Ht Hd H. inversion H as [? t' ? ? ? ? ? ? ? Ht' Hd'|? t' ? ? ? ? ? Ht' Hd'|? t' ? ? ? ? ? Ht' Hd'|? t' ? ? ? ? ? ? ? Ht' Hd']; subst;
    pose proof (heap_data_fun _ _ _ _ Ht Ht') as ->; rewrite Hd in Hd'; try discriminate Hd'. by injection Hd' as <- <- <- <- <-.
Qed.
Lemma uses_branch_inv s q t name typ num k d : heap_at s q = Some t -> t_data t = DOneOfField name typ num ->
  uses s q k d -> refers s q typ k d.
Proof.
  intros Ht Hd H. inversion H as [? t' ? ? ? ? ? ? ? Ht' Hd'|? t' ? ? ? ? ? Ht' Hd'|? t' ? ? ? ? ? Ht' Hd'|? t' ? ? ? ? ? ? ? Ht' Hd']; subst;
    pose proof (heap_data_fun _ _ _ _ Ht Ht') as ->; rewrite Hd in Hd'; try discriminate Hd'. by injection Hd' as <- <- <-.
Qed.
Lemma uses_oneof_inv s q t name k d : heap_at s q = Some t -> t_data t = DOneof name ->
  uses s q k d -> exists i u, element_at s (child q i) u /\ a_branch (t_data u) = true /\ uses s (child q i) k d.
Proof.
  intros Ht Hd H. inversion H as [? t' ? ? ? ? ? ? ? Ht' Hd'|? t' ? ? ? ? ? Ht' Hd'|? t' ? ? ? ? ? Ht' Hd'|? t' ? ? ? ? ? ? ? Ht' Hd']; subst;
    pose proof (heap_data_fun _ _ _ _ Ht Ht') as ->; rewrite Hd in Hd'; try discriminate Hd'. eauto.
Qed.
Lemma uses_map_inv s q t name kt typ num k d : heap_at s q = Some t -> t_data t = DMapField name kt typ num ->
  uses s q k d -> typ ∉ scalar_names /\ ~ absolute typ /\ exists a, found s ("." +:+ typ) (NAst k a d).
Proof.
  intros Ht Hd H. inversion H as [? t' ? ? ? ? ? ? ? Ht' Hd'|? t' ? ? ? ? ? Ht' Hd'|? t' ? ? ? ? ? Ht' Hd'|? t' ? ? ? ? ? ? ? Ht' Hd']; subst;
    pose proof (heap_data_fun _ _ _ _ Ht Ht') as ->; rewrite Hd in Hd'; try discriminate Hd'. injection Hd' as <- <- <- <-. eauto.
Qed.
Lemma refers_fun s q typ k d k' d' : Inv s -> refers s q typ k d -> refers s q typ k' d' -> k' = k /\ d' = d.
Proof.
  intros I (_ & c & x & a & Hc & Hq & Hf) (_ & c' & x' & a' & Hc' & Hq' & Hf').
  apply in_scope_of in Hc as [Hc Hi], Hc' as [Hc' Hi'].
  rewrite Hc in Hc'.
  assert (Hr : resolve (dotted c) typ s = (Ret (x, true), s)) by (by apply resolve_denotes).
  assert (Hr' : resolve (dotted c') typ s = (Ret (x', true), s)) by (by apply resolve_denotes).
  rewrite Hc', Hr' in Hr. injection Hr as ->. pose proof (found_fun _ _ _ _ Hf Hf'). by simplify_eq.
Qed.
Lemma found_type_kind s q k a p : Inv s -> found s q (NAst k a p) ->
  implements_type (NAst k a p) = true <-> k ∈ [KMessage; KEnum; KEnumValue].
Proof.
  intros I H. destruct (found_at _ _ _ _ _ I H) as (_ & t & _ & Hk).
  destruct (t_data t); try discriminate Hk; injection Hk as <-; cbn; rewrite !elem_of_cons, elem_of_nil;
    (split; [intros E; try discriminate E; tauto|intros [?|[?|[?|[]]]]; congruence]).
Qed.

Section gather.
(** the registry before the walk *)
Context (s0 : registry) (universe : list ptr).
Hypothesis Huniverse : forall p t, element_at s0 p t -> p ∈ universe.
Hypothesis I0 : Inv s0.
Hypothesis Hscoped : refs_scoped s0.

(** nodes of messages and enums that the registry has handed out *)
Definition me_node (s : registry) (p : ptr) (n : node) : Prop :=
  exists k a, n = NAst k a p /\ k ∈ [KMessage; KEnum] /\ cache s !! VPtr p = Some (Some n).
Definition flat (s : registry) (ty : option node) : Prop :=
  match ty with
  | Some (NAst KMessage a p) => me_node s p (NAst KMessage a p)
  | Some (NAst KEnum a p) => me_node s p (NAst KEnum a p)
  | Some (NAst (KOneOf | KMap) _ _) | Some (NRepeated _ _) => False
  | _ => True
  end.
Definition good (s : registry) (ty : option node) : Prop :=
  match ty with
  | Some (NAst KOneOf _ p) => exists t name, heap_at s0 p = Some t /\ t_data t = DOneof name
  | Some (NAst KMap _ p) => exists t name kt typ num, heap_at s0 p = Some t /\ t_data t = DMapField name kt typ num
  | Some (NRepeated _ el) => flat s el
  | _ => flat s ty
  end.
Definition weight (ty : option node) : nat :=
  match ty with Some (NAst (KOneOf | KMap) _ _) | Some (NRepeated _ _) => 1 | _ => 0 end.
(** the messages and enums a type leads to directly, and whether it is an obstacle *)
Definition flat_leads (ty : option node) (d : ptr) : Prop :=
  match ty with Some (NAst (KMessage | KEnum) _ p) => d = p | _ => False end.
Definition leads (ty : option node) (d : ptr) : Prop :=
  match ty with
  | Some (NAst (KOneOf | KMap) _ p) => exists k, uses s0 p k d /\ k ∈ [KMessage; KEnum]
  | Some (NRepeated _ el) => flat_leads el d
  | _ => flat_leads ty d
  end.
Definition snag (ty : option node) : Prop :=
  match ty with Some (NAst (KOneOf | KMap) _ p) => unusable s0 p | _ => False end.

Lemma flat_good s ty : flat s ty -> good s ty.
Proof. destruct ty as [[[] a p|?|? ?|?|?|?]|]; cbn; try done. Qed.
Lemma flat_weight s ty : flat s ty -> weight ty = 0.
Proof. destruct ty as [[[] a p|?|? ?|?|?|?]|]; cbn; done. Qed.
Lemma flat_lead s ty d : flat s ty -> leads ty d <-> flat_leads ty d.
Proof. destruct ty as [[[] a p|?|? ?|?|?|?]|]; cbn; done. Qed.
Lemma flat_snag s ty : flat s ty -> ~ snag ty.
Proof. destruct ty as [[[] a p|?|? ?|?|?|?]|]; cbn; tauto. Qed.
Lemma weight_le ty : weight ty <= 1.
Proof. destruct ty as [[[] a p|?|? ?|?|?|?]|]; cbn; lia. Qed.

(** *** Type names *)
Lemma cache_quiet s s' p n : quiet s s' -> cache s !! VPtr p = Some (Some n) -> cache s' !! VPtr p = Some (Some n).
Proof. intros Q. apply (q_cache _ _ Q). Qed.
Lemma me_quiet s s' p n : quiet s s' -> me_node s p n -> me_node s' p n.
Proof. intros Q (k & a & -> & Hk & Hc). exists k, a. split; [done|]. split; [done|]. by apply (cache_quiet _ _ _ _ Q). Qed.
Lemma flat_quiet s s' ty : quiet s s' -> flat s ty -> flat s' ty.
Proof. intros Q. destruct ty as [[[] a p|?|? ?|?|?|?]|]; cbn; try done; by apply me_quiet. Qed.
Lemma good_quiet s s' ty : quiet s s' -> good s ty -> good s' ty.
Proof.
  intros Q. destruct ty as [[[] a p|?|? el|?|?|?]|]; cbn; try done; try by apply me_quiet. by apply flat_quiet.
Qed.

Definition refers_to (q : ptr) (typ : string) (ty : option node) : Prop :=
  (forall d, flat_leads ty d <-> exists k, refers s0 q typ k d /\ k ∈ [KMessage; KEnum]) /\
  (forall k d, refers s0 q typ k d -> k ∈ [KMessage; KEnum; KEnumValue]).

Lemma refers_now s q typ comps x k a d : Inv s -> quiet s0 s -> typ ∉ scalar_names -> in_scope s0 q comps ->
  denotes s comps typ x -> found s x (NAst k a d) -> refers s0 q typ k d.
Proof.
  intros I Q Hb Hsc Hden Hf. split; [done|].
  destruct (found_at _ _ _ _ _ I Hf) as (Hn & t & Ht & Hk).
  rewrite (q_names _ _ Q) in Hn. rewrite (quiet_heap_at _ _ _ Q) in Ht.
  destruct (names_found _ _ _ _ _ I0 Hn Ht Hk) as [a' Hf'].
  exists comps, x, a'. split; [done|]. split; [|done].
  eapply (names_denotes s s0); [done|done|symmetry; apply (q_names _ _ Q)|done].
Qed.

Lemma type_name_ends s q typ t : Inv s -> quiet s0 s -> element_at s0 q t ->
  match t_data t with DNormalField _ _ _ _ _ | DOneOfField _ _ _ => True | _ => False end ->
  match get_type_body q typ s with
  | (Ret ty, s') => flat s' ty /\ refers_to q typ ty
  | (Panic _, _) => exists k d, refers s0 q typ k d /\ k ∉ [KMessage; KEnum; KEnumValue]
  | (Diverge, _) => False
  end.
Proof.
  intros I Q Ht Hd. destruct (decide (typ ∈ scalar_names)) as [Hb|Hb].
  { destruct (builtin_some _ Hb) as (bb & Hbb & _). unfold get_type_body. rewrite Hbb. cbn. split; [done|].
    split; [|intros k d [? _]; done]. intros d. split; [done|]. intros (k & [? _] & _). done. }
  destruct (Hscoped _ _ Ht Hd) as [comps Hsc0]. pose proof Hsc0 as Hsc.
  assert (Hsc1 : scope_of s (VPtr q) = dotted comps /\ Forall ident comps).
  { apply in_scope_of in Hsc0 as [E H]. split; [|done]. unfold scope_of in *. by rewrite (q_scopes _ _ Q). }
  destruct Hsc1 as [Hsc1 Hid].
  destruct (get_type_body_spec s q typ comps I Hsc1 Hid Hb) as [(x & n & s1 & Hden & E & G)|[Hno G]]; rewrite G.
  - assert (Hf : found s x n) by (unfold found; by rewrite E).
    destruct (found_kind _ _ _ I Hf) as (k & a & d & ->).
    pose proof (refers_now s q typ comps x k a d I Q Hb Hsc Hden Hf) as Href.
    destruct (found_at _ _ _ _ _ I Hf) as (Hn & u & Hu & Hk).
    pose proof (found_type_kind _ _ _ _ _ I Hf) as Hty.
    destruct (lookup_named _ _ _ I Hn) as (f & t' & k' & a' & s1' & _ & _ & _ & _ & E' & _ & _ & Hc).
    rewrite E' in E. injection E as -> -> ->.
    destruct (implements_type (NAst k a d)) eqn:Hi.
    + assert (Hk3 : k ∈ [KMessage; KEnum; KEnumValue]) by (by apply Hty).
      assert (Hk3' := Hk3). rewrite !elem_of_cons, elem_of_nil in Hk3'.
      split.
      * destruct Hk3' as [->|[->|[->|[]]]]; cbn; try done; (eexists _, _; split; [reflexivity|]; split; [set_solver|done]).
      * split.
        -- intros d'. split.
           ++ intros Hl. exists k. destruct Hk3' as [->|[->|[->|[]]]]; cbn in Hl; subst; try done; (split; [done|set_solver]).
           ++ intros (k' & Hr & Hk'). destruct (refers_fun _ _ _ _ _ _ _ I0 Href Hr) as [-> ->].
              apply in_me in Hk' as [->| ->]; done.
        -- intros k' d' Hr. by destruct (refers_fun _ _ _ _ _ _ _ I0 Href Hr) as [-> ->].
    + exists k, d. split; [done|]. intros Hk3. apply Hty in Hk3. discriminate Hk3.
  - assert (Hnr : forall k d, ~ refers s0 q typ k d).
    { intros k d (_ & c & x & a & Hc & Hq & Hf). apply in_scope_of in Hc as [Hc Hi], Hsc as [Hsc _].
      assert (Hr : resolve (dotted c) typ s0 = (Ret (x, true), s0)) by (by apply resolve_denotes).
      rewrite <- Hc, Hsc in Hr. 
      destruct (resolve_raw_spec s0 comps typ I0 Hid) as [(y & Hy & _)|[Hn' _]].
      - apply (Hno y). eapply (names_denotes s0 s); [done|done|apply (q_names _ _ Q)|done].
      - destruct (resolve_unknown _ _ _ I0 Hid Hn') as [y Hy]. congruence. }
    split; [done|]. split; [|intros k d H; exfalso; exact (Hnr _ _ H)].
    intros d. split; [done|]. intros (k & H & _). exact (Hnr _ _ H).
Qed.

(** *** What a field answers.  If questions were asked before, whose panics may have been recovered, the
    answer for a field whose type cannot be had may be anything: [loose]. *)
Context (loose : Prop).
Definition ok_answer (s : registry) (q : ptr) (ty : option node) : Prop :=
  good s ty /\ (forall d, leads ty d <-> exists k, uses s0 q k d /\ k ∈ [KMessage; KEnum]) /\ (snag ty <-> unusable s0 q).
Definition ft_ok (s : registry) : Prop := forall a q t ty, heap_at s0 q = Some t -> a_field (t_data t) = true ->
  ftcache s !! (a, q) = Some ty -> ok_answer s q ty \/ (loose /\ unusable s0 q).
Definition during (s : registry) : Prop := Inv s /\ quiet s0 s /\ ft_ok s.
Definition ends {A} (m : R A) (s : registry) (post : A -> registry -> Prop) (B : Prop) : Prop :=
  (loose /\ B) \/
  match m s with
  | (Ret x, s') => during s' /\ quiet s s' /\ post x s'
  | (Panic _, _) => B
  | (Diverge, _) => False
  end.

Lemma ends_bind {A C} (m : R A) (f : A -> R C) s post post' B :
  ends m s post B -> (forall x s', during s' -> quiet s s' -> post x s' -> ends (f x) s' post' B) ->
  ends (rbind m f) s post' B.
Proof.
  unfold ends, rbind. intros [H|H] Hf; [by left|]. destruct (m s) as [[x|e|] s1]; [|by right|done].
  destruct H as (W & Q & Hp). destruct (Hf x s1 W Q Hp) as [Hf'|Hf']; [by left|]. right.
  destruct (f x s1) as [[y|e|] s2]; [|done|done]. destruct Hf' as (W2 & Q2 & H2).
  split; [done|]. split; [by eapply quiet_trans|done].
Qed.
Lemma ends_weaken {A} (m : R A) s (post post' : A -> registry -> Prop) (B B' : Prop) :
  ends m s post B -> (forall x s', during s' -> quiet s s' -> post x s' -> post' x s') -> (B -> B') -> ends m s post' B'.
Proof.
  unfold ends. intros [[Hl H]|H] Hp HB; [left; split; [done|by apply HB]|]. right.
  destruct (m s) as [[x|e|] s1]; [|by apply HB|done].
  destruct H as (W & Q & H). split; [done|]. split; [done|]. by apply Hp.
Qed.
Lemma ends_ret {A} (x : A) s (post : A -> registry -> Prop) B : during s -> post x s -> ends (ret x) s post B.
Proof. intros W H. right. cbn. split; [done|]. split; [apply quiet_refl|done]. Qed.

Lemma ok_quiet s s' q ty : quiet s s' -> ok_answer s q ty -> ok_answer s' q ty.
Proof. intros Q (Hg & H). split; [by eapply good_quiet|done]. Qed.
Lemma ft_quiet s s' : quiet s s' -> ftcache s' = ftcache s -> ft_ok s -> ft_ok s'.
Proof. intros Q E H a q t ty Ht Hd Hc. rewrite E in Hc. destruct (H a q t ty Ht Hd Hc) as [H1|H1]; [left; by eapply ok_quiet|by right]. Qed.
Lemma during_quiet s s' : during s -> quiet s s' -> Inv s' -> ftcache s' = ftcache s -> during s'.
Proof. intros (I & Q & H) Q' I' E. split; [done|]. split; [by eapply quiet_trans|by eapply ft_quiet]. Qed.

Lemma usable_name q k d : uses s0 q k d -> (forall k d, uses s0 q k d -> k ∈ [KMessage; KEnum; KEnumValue]) ->
  (forall t name kt typ num, heap_at s0 q = Some t -> t_data t <> DMapField name kt typ num) -> ~ unusable s0 q.
Proof.
  intros _ H Hm Hu. inversion Hu as [? k' d' Hk' Hn|? t name kt typ num Ht Hd]; subst.
  - apply Hn. by eapply H.
  - apply element_heap in Ht. by eapply Hm.
Qed.
Lemma not_unusable q t : heap_at s0 q = Some t -> (forall name kt typ num, t_data t <> DMapField name kt typ num) ->
  (forall k d, uses s0 q k d -> k ∈ [KMessage; KEnum; KEnumValue]) -> ~ unusable s0 q.
Proof.
  intros Ht Hm H Hu. inversion Hu as [? k' d' Hk' Hn|? t' name kt typ num Ht' Hd]; subst.
  - apply Hn. by eapply H.
  - apply element_heap in Ht'. assert (t' = t) as -> by congruence. by eapply Hm.
Qed.

(** a name answers as a flat type *)
Lemma name_answers s q t typ ty : heap_at s0 q = Some t ->
  (exists name num rep opt, t_data t = DNormalField name typ num rep opt) \/ (exists name num, t_data t = DOneOfField name typ num) ->
  flat s ty -> refers_to q typ ty -> ok_answer s q ty.
Proof.
  intros Ht Hd Hf [Hl Hk]. pose proof (heap_element _ _ _ I0 Ht) as He.
  assert (Hu : forall k d, uses s0 q k d <-> refers s0 q typ k d).
  { intros k d. destruct Hd as [(name & num & rep & opt & Hd)|(name & num & Hd)]; split; intros H.
    - by eapply uses_normal.
    - by eapply uses_field.
    - by eapply uses_branch_inv.
    - by eapply uses_branch. }
  split; [by apply flat_good|]. split.
  - intros d. rewrite (flat_lead s ty d Hf), Hl. split; intros (k & H & Hk'); exists k; (split; [by apply Hu|done]).
  - split; [intros H; by apply (flat_snag s ty Hf) in H|]. intros H. exfalso. revert H.
    apply (not_unusable q t Ht).
    + destruct Hd as [(? & ? & ? & ? & Hd)|(? & ? & Hd)]; rewrite Hd; discriminate.
    + intros k d H. apply Hu in H. by eapply Hk.
Qed.
Lemma name_broken q t typ k d : heap_at s0 q = Some t ->
  (exists name num rep opt, t_data t = DNormalField name typ num rep opt) \/ (exists name num, t_data t = DOneOfField name typ num) ->
  refers s0 q typ k d -> k ∉ [KMessage; KEnum; KEnumValue] -> unusable s0 q.
Proof.
  intros Ht Hd Hr Hk. pose proof (heap_element _ _ _ I0 Ht) as He. apply (unusable_name _ _ k d); [|done].
  destruct Hd as [(name & num & rep & opt & Hd)|(name & num & Hd)]; [by eapply uses_field|by eapply uses_branch].
Qed.

Lemma get_type_step q typ s ty s' : Inv s -> get_type_by_name q typ s = (Ret ty, s') ->
  Inv s' /\ quiet s s' /\ ftcache s' = ftcache s.
Proof.
  intros I E.
  assert (K : keeps inv_step (get_type_by_name q typ)) by kinv keeps_get_type_by_name.
  destruct (inv_step_ret _ _ _ _ K I E) as [I' _]. split; [done|]. split.
  - pose proof (keeps_get_type_by_name quiet quiet_refl quiet_trans quiet_alloc quiet_wrap q typ s) as Q. by rewrite E in Q.
  - pose proof (get_type_by_name_ft q typ s) as H. by rewrite E in H.
Qed.

(** OneOfBranch.Type *)
Lemma branch_ends q t s : during s -> heap_at s0 q = Some t -> a_branch (t_data t) = true ->
  ends (branch_type q) s (fun ty s' => flat s' ty /\ ok_answer s' q ty) (unusable s0 q).
Proof.
  intros (I & Q & Hft) Ht Hb. assert (Hts : heap_at s q = Some t) by (by rewrite (quiet_heap_at _ _ _ Q)).
  destruct (t_data t) as [| | | | | | | | |name typ num| | | | | | | | |] eqn:Hd; try discriminate Hb.
  unfold ends, branch_type. right. rewrite (rbind_val _ _ _ _ _ (deref_ok _ _ _ Hts)), Hd.
  pose proof (type_name_ends s q typ t I Q (heap_element _ _ _ I0 Ht) ltac:(by rewrite Hd)) as H.
  rewrite <- (get_type_plain s q t typ Hts ltac:(by rewrite Hd)) in H.
  destruct (get_type_by_name q typ s) as [[ty|e|] s1] eqn:E; [|
    destruct H as (k & d & Hr & Hk); eapply name_broken; [done|right; eauto|done|done]|done].
  destruct (get_type_step _ _ _ _ _ I E) as (I1 & Q1 & Eft). destruct H as [Hf Hr].
  split; [by apply (during_quiet s)|]. split; [done|]. split; [done|]. eapply name_answers; [done|right; eauto|done|done].
Qed.

(** MessageField.Type, when it was not asked before *)
Lemma field_body_ends q t s : Inv s -> quiet s0 s -> heap_at s0 q = Some t -> a_field (t_data t) = true ->
  match field_type_body q s with
  | (Ret ty, s') => ok_answer s' q ty
  | (Panic _, _) => unusable s0 q
  | (Diverge, _) => False
  end.
Proof.
  intros I Q Ht Hf. assert (Hts : heap_at s q = Some t) by (by rewrite (quiet_heap_at _ _ _ Q)).
  unfold field_type_body. rewrite (rbind_val _ _ _ _ _ (deref_ok _ _ _ Hts)).
  destruct (t_data t) as [| | | | | | |name typ num rep opt|oname| |mname kt vt mnum| | | | | | | |] eqn:Hd; try discriminate Hf.
  - pose proof (type_name_ends s q typ t I Q (heap_element _ _ _ I0 Ht) ltac:(by rewrite Hd)) as H.
    assert (Hn : forall s' ty, flat s' ty -> refers_to q typ ty -> ok_answer s' q ty).
    { intros s' ty H1 H2. eapply name_answers; [done|left; eauto 10|done|done]. }
    assert (Hbad : (exists k d, refers s0 q typ k d /\ k ∉ [KMessage; KEnum; KEnumValue]) -> unusable s0 q).
    { intros (k & d & Hr & Hk). eapply name_broken; [done|left; eauto 10|done|done]. }
    destruct rep.
    + pose proof (get_type_repeated s q t typ Hts ltac:(by rewrite Hd)) as G.
      pose proof (get_type_body_quiet q typ s) as Qb.
      destruct (get_type_body q typ s) as [[o|e|] s1] eqn:Eb; [|by rewrite G; apply Hbad|done].
      destruct G as (a & s' & G). rewrite G.
      assert (Q1 : quiet s1 s').
      { revert G. unfold get_type_by_name. rewrite (rbind_val _ _ _ _ _ Eb).
        rewrite (rbind_val _ _ _ t s1) by (apply deref_ok; cbn in Qb; by rewrite (quiet_heap_at _ _ _ Qb)).
        rewrite Hd. cbn. intros [= <- <-]. pose proof (quiet_alloc s1) as Qa. exact Qa. }
      destruct H as [H1 H2]. destruct (Hn s1 o H1 H2) as (Hg & Hl & Hs).
      split; [cbn; by eapply flat_quiet|]. split.
      * intros d. rewrite <- Hl. cbn. symmetry. by apply (flat_lead s1).
      * rewrite <- Hs. cbn. split; [done|]. apply (flat_snag s1 o H1).
    + rewrite (get_type_plain s q t typ Hts ltac:(by rewrite Hd)).
      destruct (get_type_body q typ s) as [[o|e|] s1]; [|by apply Hbad|done]. destruct H as [H1 H2]. by apply Hn.
  - rewrite rbind_alloc. cbn. split; [cbn; eauto|]. done.
  - rewrite rbind_alloc. cbn. split; [cbn; eauto 10|]. done.
Qed.
Lemma field_ends a q t s : during s -> heap_at s0 q = Some t -> a_field (t_data t) = true ->
  ends (field_type a q) s (fun ty s' => ok_answer s' q ty) (unusable s0 q).
Proof.
  intros (I & Q & Hft) Ht Hf.
  pose proof (field_body_ends q t s I Q Ht Hf) as H.
  destruct (field_type a q s) as [o s'] eqn:E.
  destruct (ftcache s !! (a, q)) as [ty|] eqn:Hc.
  { rewrite field_type_unfold, Hc in E. unfold ends. rewrite field_type_unfold, Hc.
    destruct (Hft a q t ty Ht Hf Hc) as [H1|H1]; [right|left; exact H1].
    split; [done|]. split; [apply quiet_refl|done]. }
  pose proof (quiet_field_type a q s) as Q'. rewrite E in Q'. cbn in Q'.
  assert (Hst : forall ty, o = Ret ty -> Inv s').
  { intros ty ->. exact (proj1 (inv_step_ret _ _ _ _ (inv_step_field_type a q) I E)). }
  unfold ends. right. rewrite E. rewrite field_type_unfold, Hc in E.
  pose proof (field_type_body_ft q s) as Hsame. unfold same_ft in Hsame.
  pose proof (keeps_field_type_body quiet quiet_refl quiet_trans quiet_alloc quiet_wrap q s) as Qb.
  destruct (field_type_body q s) as [[r|m|] s1] eqn:Eb; injection E as <- <-; [|done|done].
  cbn [snd] in Hsame, Qb.
  assert (Q1 : quiet s1 (set_ftcache (<[(a, q):=r]> (ftcache s1)) s1)).
  { constructor; try done. cbn. intros k v Hk. rewrite Hsame in Hk |- *. destruct (decide (k = (a, q))) as [->|Hne]; [congruence|].
    by rewrite lookup_insert_ne. }
  assert (Hok : ok_answer (set_ftcache (<[(a, q):=r]> (ftcache s1)) s1) q r) by (by eapply ok_quiet).
  split; [|split; [done|done]].
  split; [by eapply Hst|]. split; [by eapply quiet_trans|].
  intros a' q' t' ty' Ht' Hf' Hk. cbn in Hk. rewrite Hsame in Hk.
  destruct (decide ((a', q') = (a, q))) as [[= -> ->]|Hne].
  - rewrite lookup_insert in Hk. injection Hk as <-. by left.
  - rewrite lookup_insert_ne in Hk by done. destruct (Hft a' q' t' ty' Ht' Hf' Hk) as [H1|H1]; [left; eapply ok_quiet; [exact Q'|exact H1]|by right].
Qed.

(** Map.Value *)
Lemma map_ends q t name kt typ num s : during s -> heap_at s0 q = Some t -> t_data t = DMapField name kt typ num ->
  ends (map_value q) s (fun v s' => flat s' (Some v) /\ ~ unusable s0 q /\
    forall d, flat_leads (Some v) d <-> exists k, uses s0 q k d /\ k ∈ [KMessage; KEnum]) (unusable s0 q).
Proof.
  intros W Ht Hd. pose proof W as (I & Q & Hft). assert (Hts : heap_at s q = Some t) by (by rewrite (quiet_heap_at _ _ _ Q)).
  pose proof (heap_element _ _ _ I0 Ht) as He.
  unfold ends, map_value. right. rewrite (rbind_val _ _ _ _ _ (deref_ok _ _ _ Hts)), Hd.
  destruct (decide (typ ∈ scalar_names)) as [Hb|Hb].
  { destruct (builtin_some _ Hb) as (bb & Hbb & _). rewrite Hbb. cbn. split; [done|]. split; [apply quiet_refl|].
    split; [done|]. split.
    - intros Hu. inversion Hu as [? k' d' Hk' Hn|? t' name' kt' typ' num' Ht' Hd' Hs']; subst.
      + by apply (uses_map_inv _ _ _ _ _ _ _ _ _ Ht Hd) in Hk' as [? _].
      + apply element_heap in Ht'. assert (t' = t) as -> by congruence. congruence.
    - intros d. split; [done|]. intros (k & H & _). by apply (uses_map_inv _ _ _ _ _ _ _ _ _ Ht Hd) in H as [? _]. }
  rewrite (builtin_none _ Hb).
  destruct (has_prefix typ ".") eqn:Hp; cbn [negb].
  { rewrite rbind_get. destruct (names s !! "") as [p'|] eqn:Hq.
    - exfalso. destruct (sc_names _ (proj1 I) _ _ Hq) as (f & _ & Hfq). by apply fqn_here_nonempty in Hfq.
    - apply (unusable_map _ q t name kt typ num); [done|done|done|].
      intros k d H. apply (uses_map_inv _ _ _ _ _ _ _ _ _ Ht Hd) in H as (_ & Ha & _).
      apply prefix_dot_false in Ha. congruence. }
  assert (Ha : ~ absolute typ) by (by apply prefix_dot_false).
  rewrite rbind_get, (q_names _ _ Q).
  destruct (names s0 !! ("." +:+ typ)) as [obj|] eqn:Hn.
  - destruct (lookup_named _ _ _ I0 Hn) as (f & u & k & a & s' & Hf & _ & Hw & Hk & E & _).
    assert (Hu0 : heap_at s0 obj = Some u) by (unfold heap_at; by rewrite Hf).
    assert (Hu : heap_at s obj = Some u) by (by rewrite (quiet_heap_at _ _ _ Q)).
    assert (Hfd : found s0 ("." +:+ typ) (NAst k a obj)) by (unfold found; by rewrite E).
    assert (Huses : forall k' d', uses s0 q k' d' <-> k' = k /\ d' = obj).
    { intros k' d'. split.
      - intros H. apply (uses_map_inv _ _ _ _ _ _ _ _ _ Ht Hd) in H as (_ & _ & a' & Hf').
        pose proof (found_fun _ _ _ _ Hfd Hf') as [= -> _ ->]. done.
      - intros [-> ->]. by eapply uses_map. }
    rewrite (rbind_val _ _ _ _ _ (deref_ok _ _ _ Hu)).
    assert (Hme : k ∉ [KMessage; KEnum] -> unusable s0 q).
    { intros Hk'. apply (unusable_map _ q t name kt typ num); [done|done|done|]. intros k' d' H. by apply Huses in H as [-> ->]. }
    assert (Hgood : k ∈ [KMessage; KEnum] -> match wrap_as k obj s with
      | (Ret x, s'0) => during s'0 /\ quiet s s'0 /\ flat s'0 (Some x) /\ ~ unusable s0 q /\
          (forall d, flat_leads (Some x) d <-> exists k, uses s0 q k d /\ k ∈ [KMessage; KEnum])
      | (Panic _, _) => unusable s0 q | (Diverge, _) => False end).
    { intros Hk'. destruct (wrap_as_ok k obj u s I Hu Hk) as (b & s1 & Ew & Q1 & I1 & Hc & _). rewrite Ew.
      assert (Hft1 : ftcache s1 = ftcache s).
      { assert (Hkp : keeps same_ft (wrap_as k obj))
          by (apply keeps_wrap_as; unfold same_ft; try done; [congruence|apply same_ft_wrap]).
        specialize (Hkp s). by rewrite Ew in Hkp. }
      split; [by apply (during_quiet s)|]. split; [done|].
      assert (Hm : me_node s1 obj (NAst k b obj)) by (exists k, b; done).
      split; [apply in_me in Hk' as [->| ->]; exact Hm|]. split.
      - intros Hun. inversion Hun as [? k' d' Hku Hnk|? t' name' kt' typ' num' Ht' Hd' Hs' Hno]; subst.
        + apply Huses in Hku as [-> ->]. apply Hnk. apply in_me in Hk' as [->| ->]; set_solver.
        + apply (Hno k obj); [|done]. by apply Huses.
      - intros d. split.
        + intros H. exists k. split; [|done]. apply Huses. split; [done|]. apply in_me in Hk' as [->| ->]; exact H.
        + intros (k' & H & _). apply Huses in H as [-> ->]. apply in_me in Hk' as [->| ->]; done. }
    destruct (t_data u); try discriminate Hk; injection Hk as <-; cbn; try (apply Hme; set_solver); apply Hgood; set_solver.
  - assert (Hno : forall n, ~ found s0 ("." +:+ typ) n) by (by apply unknown_names).
    apply (unusable_map _ q t name kt typ num); [done|done|done|]. intros k d H.
    apply (uses_map_inv _ _ _ _ _ _ _ _ _ Ht Hd) in H as (_ & _ & a & H). exfalso. by apply (Hno _ H).
Qed.

(** ** The walk *)

(** loops *)
Lemma ends_loop {C} sel k (P : list ptr -> C -> registry -> Prop) (B : Prop) kids (body : C -> node -> R (C * bool)) :
  (forall d, sel d = true -> wrap_kind d = Some k) ->
  (forall dn c s s', P dn c s -> quiet s s' -> P dn c s') ->
  (forall dn b c s a, b ∈ kids -> sel (t_data b.2) = true -> during s -> P dn c s ->
     ends (body c (NAst k a b.1)) s (fun r s' => r.2 = true /\ P (dn ++ [b.1])%list r.1 s') B) ->
  (forall b, b ∈ kids -> heap_at s0 b.1 = Some b.2) ->
  forall dn c s, during s -> P dn c s ->
  ends (iterate (pick_kind sel k) kids C c body) s
    (P (dn ++ map fst (List.filter (fun b => sel (t_data b.2)) kids))%list) B.
Proof.
  intros Hk Hq. induction kids as [|b kids IH]; intros Hb Hh dn c s W HP; cbn [iterate List.filter].
  - cbn [map]. rewrite app_nil_r. by apply ends_ret.
  - assert (IH' := IH (fun dn b' c s a Hb' => Hb dn b' c s a (elem_of_list_further _ _ _ Hb'))
                      (fun b' Hb' => Hh b' (elem_of_list_further _ _ _ Hb'))). clear IH.
    pose proof W as (I & Q & Hft).
    assert (Hhs : heap_at s b.1 = Some b.2) by (rewrite (quiet_heap_at _ _ _ Q); apply Hh; constructor).
    destruct (sel (t_data b.2)) eqn:Hs.
    + destruct (wrap_as_ok k b.1 b.2 s I Hhs (Hk _ Hs)) as (a & s1 & E & Q1 & I1 & Hc & _).
      assert (E1 : pick_kind sel k b s = (Ret (Some (NAst k a b.1)), s1)).
      { unfold pick_kind. rewrite Hs. by rewrite (rbind_val _ _ _ _ _ E). }
      assert (Hft1 : ftcache s1 = ftcache s).
      { assert (Hk' : keeps same_ft (wrap_as k b.1))
          by (apply keeps_wrap_as; unfold same_ft; try done; [congruence|apply same_ft_wrap]).
        specialize (Hk' s). by rewrite E in Hk'. }
      apply (ends_bind _ _ _ (fun o s' => o = Some (NAst k a b.1) /\ P dn c s')).
      * unfold ends. right. rewrite E1. split; [by apply (during_quiet s)|]. split; [done|]. split; [done|]. by eapply Hq.
      * intros o s2 W2 Q2 [-> HP2]. cbn beta iota.
        eapply ends_bind; [apply (Hb dn b c s2 a (elem_of_list_here _ _) Hs W2 HP2)|].
        intros [c' go] s3 W3 Q3 [Hgo HP3]. cbn [fst snd] in *. subst go.
        specialize (IH' (dn ++ [b.1])%list c' s3 W3 HP3). rewrite <- app_assoc in IH'. exact IH'.
    + apply (ends_bind _ _ _ (fun o s' => o = None /\ P dn c s')).
      * assert (E1 : pick_kind sel k b s = (Ret None, s)) by (unfold pick_kind; by rewrite Hs).
        unfold ends. right. rewrite E1. split; [done|]. split; [apply quiet_refl|done].
      * intros o s2 W2 Q2 [-> HP2]. cbn beta iota. by apply IH'.
Qed.

(** what has been collected *)
Definition collected (s : registry) (all : list node) (ps : list ptr) : Prop := Forall2 (me_node s) ps all.
Lemma collected_quiet s s' all ps : quiet s s' -> collected s all ps -> collected s' all ps.
Proof. intros Q H. eapply Forall2_impl; [exact H|]. intros p n. by apply me_quiet. Qed.

Definition reaches (L : ptr -> Prop) (d : ptr) : Prop := exists e, L e /\ rtc (mentions s0) e d.
Definition step (ps : list ptr) (L : ptr -> Prop) (K : Prop) (all : list node) (s : registry) : Prop :=
  exists new, collected s all (ps ++ new)%list /\ NoDup (ps ++ new)%list /\
    (forall d, L d -> d ∈ (ps ++ new)%list) /\
    (forall d, d ∈ new -> reaches L d) /\
    (forall e d, e ∈ new -> mentions s0 e d -> d ∈ (ps ++ new)%list) /\
    ~ K /\ (forall e, e ∈ new -> ~ broken s0 e).
Definition trouble (L : ptr -> Prop) (K : Prop) : Prop := K \/ exists d, reaches L d /\ broken s0 d.

Lemma step_quiet ps L K all s s' : quiet s s' -> step ps L K all s -> step ps L K all s'.
Proof. intros Q (new & Hc & H). exists new. split; [by eapply collected_quiet|done]. Qed.
Lemma step_iff ps (L L' : ptr -> Prop) (K K' : Prop) all s : (forall d, L d <-> L' d) -> (K <-> K') ->
  step ps L K all s -> step ps L' K' all s.
Proof.
  intros HL HK (new & Hc & Hn & Hl & Hr & Hm & Hk & Hb). exists new. split; [done|]. split; [done|].
  split; [intros d H; by apply Hl, HL|]. split.
  - intros d H. destruct (Hr d H) as (e & He & H'). exists e. split; [by apply HL|done].
  - split; [done|]. split; [by rewrite <- HK|done].
Qed.
Lemma trouble_iff (L L' : ptr -> Prop) (K K' : Prop) : (forall d, L d <-> L' d) -> (K <-> K') -> trouble L K -> trouble L' K'.
Proof.
  intros HL HK [H|(d & (e & He & H') & Hd)]; [left; by apply HK|]. right. exists d. split; [|done].
  exists e. split; [by apply HL|done].
Qed.

(** the universe *)
Lemma in_universe p t : heap_at s0 p = Some t -> p ∈ universe.
Proof. intros Ht. apply (Huniverse p t). by apply heap_element. Qed.
Definition unseen (ps : list ptr) : nat := length (List.filter (fun p => negb (bool_decide (p ∈ ps))) universe).
Lemma filter_len_le {A} (f g : A -> bool) l : (forall x, f x = true -> g x = true) ->
  length (List.filter f l) <= length (List.filter g l).
Proof.
  intros H. induction l as [|x l IH]; cbn; [lia|]. destruct (f x) eqn:Hf.
  - rewrite (H _ Hf). cbn. lia.
  - destruct (g x); cbn; lia.
Qed.
Lemma filter_len_lt {A} (f g : A -> bool) l x : (forall x, f x = true -> g x = true) ->
  x ∈ l -> f x = false -> g x = true -> length (List.filter f l) < length (List.filter g l).
Proof.
  intros H. induction l as [|y l IH]; intros Hx Hf Hg; [by apply elem_of_nil in Hx|].
  cbn. apply elem_of_cons in Hx as [<-|Hx].
  - rewrite Hf, Hg. cbn. pose proof (filter_len_le f g l H). lia.
  - specialize (IH Hx Hf Hg). destruct (f y) eqn:Hfy; [rewrite (H _ Hfy); cbn; lia|]. destruct (g y); cbn; lia.
Qed.
Lemma unseen_more ps new : unseen (ps ++ new)%list <= unseen ps.
Proof.
  apply filter_len_le. intros x. rewrite !negb_true_iff, !bool_decide_eq_false, elem_of_app. tauto.
Qed.
Lemma unseen_new ps p t : heap_at s0 p = Some t -> p ∉ ps -> unseen (ps ++ [p])%list < unseen ps.
Proof.
  intros Ht Hp. apply (filter_len_lt _ _ _ p).
  - intros x. rewrite !negb_true_iff, !bool_decide_eq_false, elem_of_app. tauto.
  - by eapply in_universe.
  - rewrite negb_false_iff, bool_decide_eq_true, elem_of_app. right. by apply elem_of_list_singleton.
  - by rewrite negb_true_iff, bool_decide_eq_false.
Qed.

(** the test whether a node was collected before *)
Lemma contains_ok s all ps p n : Inv s -> collected s all ps -> me_node s p n ->
  contains all n = true <-> p ∈ ps.
Proof.
  intros I Hc (k & a & -> & Hk & Hn). unfold contains. rewrite existsb_exists. split.
  - intros (m & Hm & Hi). apply elem_of_list_In, elem_of_list_lookup in Hm as [i Hi'].
    destruct (Forall2_lookup_r _ _ _ _ _ Hc Hi') as (p' & Hp' & (k' & a' & -> & Hk' & Hn')).
    cbn in Hi. apply andb_prop in Hi as [Hk2 Ha]. apply N.eqb_eq in Ha as ->. unfold same_wkind in Hk2.
    apply bool_decide_eq_true in Hk2 as ->.
    assert (E : NAst k a p' = NAst k a p).
    { apply (nd_inj _ (proj2 I)); [left; by eexists|left; by eexists|by eexists|done]. }
    injection E as ->. by eapply elem_of_list_lookup_2.
  - intros [i Hi]%elem_of_list_lookup. destruct (Forall2_lookup_l _ _ _ _ _ Hc Hi) as (m & Hm & (k' & a' & -> & Hk' & Hn')).
    assert (Some (Some (NAst k' a' p)) = Some (Some (NAst k a p))) as [= -> ->] by congruence.
    exists (NAst k a p). split; [by apply elem_of_list_In; eapply elem_of_list_lookup_2|].
    cbn. rewrite N.eqb_refl, andb_true_r. unfold same_wkind. by rewrite bool_decide_eq_true.
Qed.

Lemma step_done ps (L : ptr -> Prop) (K : Prop) all s : collected s all ps -> NoDup ps -> (forall d, L d -> d ∈ ps) -> ~ K ->
  step ps L K all s.
Proof.
  intros Hc Hn Hl Hk. exists []. rewrite app_nil_r. split; [done|]. split; [done|]. split; [done|].
  split; [by intros d ?%elem_of_nil|]. split; [by intros e d ?%elem_of_nil|]. split; [done|by intros e ?%elem_of_nil].
Qed.
Lemma step_app ps new (L1 L2 : ptr -> Prop) (K1 K2 : Prop) all s :
  (forall d, L1 d -> d ∈ (ps ++ new)%list) -> (forall d, d ∈ new -> reaches L1 d) ->
  (forall e d, e ∈ new -> mentions s0 e d -> d ∈ (ps ++ new)%list) -> ~ K1 -> (forall e, e ∈ new -> ~ broken s0 e) ->
  step (ps ++ new)%list L2 K2 all s -> step ps (fun d => L1 d \/ L2 d) (K1 \/ K2) all s.
Proof.
  intros Hl Hr Hm Hk Hb (new2 & Hc2 & Hn2 & Hl2 & Hr2 & Hm2 & Hk2 & Hb2).
  exists (new ++ new2)%list. rewrite app_assoc. split; [done|]. split; [done|]. split.
  { intros d [H|H]; [apply elem_of_app; left; by apply Hl|by apply Hl2]. }
  split.
  { intros d [H|H]%elem_of_app; [destruct (Hr d H) as (e & He & H')|destruct (Hr2 d H) as (e & He & H')]; exists e; split; auto. }
  split.
  { intros e d [H|H]%elem_of_app Hmd; [apply elem_of_app; left; by eapply Hm|by eapply Hm2]. }
  split; [tauto|]. intros e [H|H]%elem_of_app; [by apply Hb|by apply Hb2].
Qed.

Lemma step_loop sel k (L : ptr -> ptr -> Prop) (K : ptr -> Prop) N body p t ps all s :
  (forall d, sel d = true -> wrap_kind d = Some k) ->
  (forall q u a ps' all s', heap_at s0 q = Some u -> sel (t_data u) = true -> during s' -> collected s' all ps' ->
     NoDup ps' -> unseen ps' <= N ->
     ends (body all (NAst k a q)) s' (fun r s'' => r.2 = true /\ step ps' (L q) (K q) r.1 s'') (trouble (L q) (K q))) ->
  heap_at s0 p = Some t -> during s -> collected s all ps -> NoDup ps -> unseen ps <= N ->
  ends (iter_kids p (pick_kind sel k) (list node) all body) s
    (step ps (fun d => exists q, q ∈ children sel p t /\ L q d) (exists q, q ∈ children sel p t /\ K q))
    (trouble (fun d => exists q, q ∈ children sel p t /\ L q d) (exists q, q ∈ children sel p t /\ K q)).
Proof.
  intros Hk Hbody Ht W Hc Hn HN. pose proof W as (I & Q & _).
  assert (Hts : heap_at s p = Some t) by (by rewrite (quiet_heap_at _ _ _ Q)).
  unfold iter_kids. unfold ends. rewrite (rbind_val _ _ _ _ _ (kids_of_ok _ _ _ Hts)).
  change (ends (iterate (pick_kind sel k) (kids_at p t) (list node) all body) s
    (step ps (fun d => exists q, q ∈ children sel p t /\ L q d) (exists q, q ∈ children sel p t /\ K q))
    (trouble (fun d => exists q, q ∈ children sel p t /\ L q d) (exists q, q ∈ children sel p t /\ K q))).
  apply (ends_loop sel k (fun dn => step ps (fun d => exists q, q ∈ dn /\ L q d) (exists q, q ∈ dn /\ K q))) with (dn := []).
  - done.
  - intros dn c s1 s2 H Q'. by eapply step_quiet.
  - intros dn b c s1 a Hb Hs W1 (new & Hc1 & Hn1 & Hl1 & Hr1 & Hm1 & Hk1 & Hb1).
    assert (Hh : heap_at s0 b.1 = Some b.2) by (by eapply kids_heap).
    assert (Hq : b.1 ∈ children sel p t).
    { unfold children. apply elem_of_list_fmap. exists b. split; [done|].
      apply elem_of_list_In, filter_In. split; [by apply elem_of_list_In|done]. }
    eapply ends_weaken; [apply (Hbody b.1 b.2 a (ps ++ new)%list c s1 Hh Hs W1 Hc1 Hn1)| |].
    + pose proof (unseen_more ps new). lia.
    + intros [c' go] s2 W2 Q2 [Hgo H2]. split; [done|]. cbn [fst snd] in *.
      pose proof (step_app _ _ _ _ _ _ _ _ Hl1 Hr1 Hm1 Hk1 Hb1 H2) as H3.
      eapply step_iff; [| |exact H3].
      * intros d. split.
        -- intros [(q & Hq' & H)|H]; [exists q|exists b.1]; (split; [|done]); apply elem_of_app; [by left|].
           right. by apply elem_of_list_singleton.
        -- intros (q & [Hq'|Hq']%elem_of_app & H); [left; eauto|]. apply elem_of_list_singleton in Hq' as ->. by right.
      * split.
        -- intros [(q & Hq' & H)|H]; [exists q|exists b.1]; (split; [|done]); apply elem_of_app; [by left|].
           right. by apply elem_of_list_singleton.
        -- intros (q & [Hq'|Hq']%elem_of_app & H); [left; eauto|]. apply elem_of_list_singleton in Hq' as ->. by right.
    + intros [H|(d & (e & He & Hr) & Hd)]; [left; eauto|]. right. exists d. split; [|done]. exists e. split; [eauto|done].
  - intros b. by apply kids_heap.
  - done.
  - apply step_done; [done|done| |].
    + intros d (q & ?%elem_of_nil & _). done.
    + intros (q & ?%elem_of_nil & _). done.
Qed.

Lemma flat_me s ty d : flat s ty -> flat_leads ty d -> exists n, ty = Some n /\ me_node s d n.
Proof. destruct ty as [[[] a p|?|? ?|?|?|?]|]; cbn; try done; intros H ->; eauto. Qed.
Lemma me_heap s p k a : during s -> me_node s p (NAst k a p) ->
  exists t, heap_at s0 p = Some t /\ represented_by (t_data t) = Some k.
Proof.
  intros (I & Q & _) (k' & a' & [= <- <-] & _ & Hc).
  destruct (nd_cache _ (proj2 I) _ _ Hc) as (p' & k' & a' & t & [= <-] & [= <- <-] & Ht & Hk).
  exists t. rewrite <- (quiet_heap_at _ _ _ Q), represented_wrap. done.
Qed.

Lemma child_kid s p t i u : heap_at s p = Some t -> heap_at s (child p i) = Some u -> t_kids t !! i = Some u.
Proof.
  unfold heap_at. cbn. destruct (heap s !! p.1) as [f|]; [|done]. cbn. intros Hw H. by rewrite Hw in H.
Qed.
Definition field_leads (q d : ptr) : Prop := exists k, uses s0 q k d /\ k ∈ [KMessage; KEnum].

Lemma mentions_iff p t name ext : heap_at s0 p = Some t -> t_data t = DMessage name ext -> forall d,
  mentions s0 p d <-> exists q, q ∈ children a_field p t /\ field_leads q d.
Proof.
  intros Ht Hd d. pose proof (heap_element _ _ _ I0 Ht) as He. split.
  - intros (q & k & (t' & n' & e' & i & u & Ht' & Hd' & -> & Hu & Hf) & Huse & Hk).
    apply element_heap in Ht'. assert (t' = t) as -> by congruence.
    exists (child p i). split; [|by exists k]. apply elem_children. exists i, u. split; [done|]. split; [|done].
    apply element_heap in Hu. by eapply child_kid.
  - intros (q & Hq & k & Huse & Hk). apply elem_children in Hq as (i & u & -> & Hi & Hf).
    exists (child p i), k. split; [|done]. exists t, name, ext, i, u. split; [done|]. split; [done|]. split; [done|].
    split; [|done]. apply heap_element; [done|]. by eapply heap_at_child.
Qed.
Lemma broken_iff p t name ext : heap_at s0 p = Some t -> t_data t = DMessage name ext ->
  broken s0 p <-> exists q, q ∈ children a_field p t /\ unusable s0 q.
Proof.
  intros Ht Hd. pose proof (heap_element _ _ _ I0 Ht) as He. split.
  - intros (q & (t' & n' & e' & i & u & Ht' & Hd' & -> & Hu & Hf) & Hun).
    apply element_heap in Ht'. assert (t' = t) as -> by congruence.
    exists (child p i). split; [|done]. apply elem_children. exists i, u. split; [done|]. split; [|done].
    apply element_heap in Hu. by eapply child_kid.
  - intros (q & Hq & Hun). apply elem_children in Hq as (i & u & -> & Hi & Hf).
    exists (child p i). split; [|done]. exists t, name, ext, i, u. split; [done|]. split; [done|]. split; [done|].
    split; [|done]. apply heap_element; [done|]. by eapply heap_at_child.
Qed.
Lemma oneof_leads p t name : heap_at s0 p = Some t -> t_data t = DOneof name -> forall d,
  field_leads p d <-> exists q, q ∈ children a_branch p t /\ field_leads q d.
Proof.
  intros Ht Hd d. pose proof (heap_element _ _ _ I0 Ht) as He. split.
  - intros (k & Hu & Hk). destruct (uses_oneof_inv _ _ _ _ _ _ Ht Hd Hu) as (i & u & Hu' & Hb & Huse).
    exists (child p i). split; [|by exists k]. apply elem_children. exists i, u. split; [done|]. split; [|done].
    apply element_heap in Hu'. by eapply child_kid.
  - intros (q & Hq & k & Huse & Hk). apply elem_children in Hq as (i & u & -> & Hi & Hf).
    exists k. split; [|done]. eapply uses_oneof; [done|done| |exact Hf|exact Huse].
    apply heap_element; [done|]. by eapply heap_at_child.
Qed.
Lemma oneof_broken p t name : heap_at s0 p = Some t -> t_data t = DOneof name ->
  unusable s0 p <-> exists q, q ∈ children a_branch p t /\ unusable s0 q.
Proof.
  intros Ht Hd. pose proof (heap_element _ _ _ I0 Ht) as He. split.
  - intros Hun. inversion Hun as [? k d Hu Hk|? t' ? ? ? ? Ht' Hd']; subst.
    + destruct (uses_oneof_inv _ _ _ _ _ _ Ht Hd Hu) as (i & u & Hu' & Hb & Huse).
      exists (child p i). split; [|by eapply unusable_name]. apply elem_children. exists i, u. split; [done|]. split; [|done].
      apply element_heap in Hu'. by eapply child_kid.
    + apply element_heap in Ht'. assert (t' = t) as -> by congruence. congruence.
  - intros (q & Hq & Hun). apply elem_children in Hq as (i & u & -> & Hi & Hf).
    assert (Hu : heap_at s0 (child p i) = Some u) by (by eapply heap_at_child).
    inversion Hun as [? k d Huse Hk|? t' ? ? ? ? Ht' Hd']; subst.
    + apply (unusable_name _ _ k d); [|done]. eapply uses_oneof; [done|done| |exact Hf|exact Huse]. by apply heap_element.
    + apply element_heap in Ht'. assert (t' = u) as -> by congruence. rewrite Hd' in Hf. discriminate Hf.
Qed.

Lemma gather_ends fuel : forall all ty s ps, during s -> collected s all ps -> NoDup ps -> good s ty ->
  2 * unseen ps + weight ty < fuel ->
  ends (gather fuel all ty) s (step ps (leads ty) (snag ty)) (trouble (leads ty) (snag ty)).
Proof.
  induction fuel as [|fuel IH]; [lia|]. intros all ty s ps W Hc Hn Hg Hfuel. cbn [gather].
  assert (Hdull : (forall d, ~ leads ty d) -> ~ snag ty -> ends (ret all) s (step ps (leads ty) (snag ty)) (trouble (leads ty) (snag ty))).
  { intros H1 H2. apply ends_ret; [done|]. apply step_done; [done|done| |done]. intros d H. by apply H1 in H. }
  pose proof W as (I & Q & Hft).
  destruct ty as [[k a p|b|a el|o|v|key v]|]; try (apply Hdull; cbn; tauto).
  - destruct k; try (apply Hdull; cbn; tauto).
    + (* a message *)
      destruct (me_heap s p _ _ W Hg) as (t & Ht & Hr).
      assert (exists name ext, t_data t = DMessage name ext) as (name & ext & Hd)
        by (destruct (t_data t); try discriminate Hr; eauto).
      pose proof (contains_ok s all ps p _ I Hc Hg) as Hcont. cbn [good flat] in Hg.
      destruct (contains all (NAst KMessage a p)).
      { apply ends_ret; [done|]. apply step_done; [done|done| |by intros []]. intros d H. cbn in H. subst d. by apply Hcont. }
      assert (Hp : p ∉ ps) by (intros H; apply Hcont in H; discriminate H).
      assert (Hc' : collected s (all ++ [NAst KMessage a p])%list (ps ++ [p])%list) by (apply Forall2_app; [done|by constructor]).
      assert (Hn' : NoDup (ps ++ [p])%list).
      { apply list.NoDup_app. split; [done|]. split; [|apply NoDup_singleton].
        intros x Hx Hx'. apply elem_of_list_singleton in Hx' as ->. done. }
      pose proof (unseen_new ps p t Ht Hp) as Hlt. cbn [weight] in Hfuel.
      eapply ends_weaken; [apply (step_loop is_field KField field_leads (unusable s0) (unseen (ps ++ [p])%list) _ p t (ps ++ [p])%list)|..].
      * intros []; cbn; try discriminate; done.
      * intros q u fa ps' all' s' Hu Hf W' Hc2 Hn2 HN. cbn beta iota.
        eapply ends_bind.
        -- eapply ends_weaken; [apply (field_ends fa q u s' W' Hu); destruct (t_data u); exact Hf| |].
           ++ intros ty s2 W2 Q2 H2. exact H2.
           ++ intros H. by left.
        -- intros ty s2 W2 Q2 (Hg2 & Hl2 & Hs2).
           eapply ends_bind.
           ++ eapply ends_weaken; [apply (IH all' ty s2 ps' W2)| |].
              ** by eapply collected_quiet.
              ** done.
              ** done.
              ** pose proof (weight_le ty). lia.
              ** intros l s3 W3 Q3 H3. eapply step_iff; [exact Hl2|exact Hs2|exact H3].
              ** apply trouble_iff; [exact Hl2|exact Hs2].
           ++ intros l s3 W3 Q3 H3. apply ends_ret; [done|]. done.
      * done.
      * done.
      * done.
      * done.
      * done.
      * intros all' s' W' Q' (new & Hc2 & Hn2 & Hl2 & Hr2 & Hm2 & Hk2 & Hb2).
        assert (Hment := mentions_iff p t name ext Ht Hd). assert (Hbrok := broken_iff p t name ext Ht Hd).
        exists (p :: new). assert (E : (ps ++ p :: new = (ps ++ [p]) ++ new)%list) by (by rewrite <- app_assoc). rewrite E.
        split; [done|]. split; [done|]. split.
        { intros d Hd'. cbn in Hd'. subst d. apply elem_of_app. left. apply elem_of_app. right. by apply elem_of_list_singleton. }
        split.
        { intros d [->|H]%elem_of_cons; [exists p; split; [done|apply rtc_refl]|].
          destruct (Hr2 d H) as (e & He & Hrt). exists p. split; [done|]. eapply rtc_l; [|exact Hrt]. by apply Hment. }
        split.
        { intros e d [->|H]%elem_of_cons Hmd; [|by eapply Hm2]. apply Hl2. by apply Hment. }
        split; [by intros []|]. intros e [->|H]%elem_of_cons; [|by apply Hb2]. intros Hbr. apply Hk2. by apply Hbrok.
      * assert (Hment := mentions_iff p t name ext Ht Hd). assert (Hbrok := broken_iff p t name ext Ht Hd).
        intros [H|(d & (e & He & Hr') & Hbr)]; right.
        -- exists p. split; [exists p; split; [done|apply rtc_refl]|]. by apply Hbrok.
        -- exists d. split; [|done]. exists p. split; [done|]. eapply rtc_l; [|exact Hr']. by apply Hment.
    + (* an enum *)
      pose proof (contains_ok s all ps p _ I Hc Hg) as Hcont. cbn [good flat] in Hg.
      destruct (me_heap s p _ _ W Hg) as (t & Ht & Hr).
      destruct (contains all (NAst KEnum a p)).
      { apply ends_ret; [done|]. apply step_done; [done|done| |by intros []]. intros d H. cbn in H. subst d. by apply Hcont. }
      assert (Hp : p ∉ ps) by (intros H; apply Hcont in H; discriminate H).
      assert (Hnot : forall q, ~ field_of s0 p q).
      { intros q (t' & n & e & i & u & Ht' & Hd' & _). apply element_heap in Ht'. assert (t' = t) as -> by congruence.
        rewrite Hd' in Hr. discriminate Hr. }
      apply ends_ret; [done|]. exists [p].
      split; [apply Forall2_app; [done|by constructor]|]. split.
      { apply list.NoDup_app. split; [done|]. split; [|apply NoDup_singleton].
        intros x Hx Hx'. apply elem_of_list_singleton in Hx' as ->. done. }
      split.
      { intros d H. cbn in H. subst d. apply elem_of_app. right. by apply elem_of_list_singleton. }
      split.
      { intros d ->%elem_of_list_singleton. exists p. split; [done|apply rtc_refl]. }
      split.
      { intros e d ->%elem_of_list_singleton (q & k & H & _). by apply Hnot in H. }
      split; [by intros []|]. intros e ->%elem_of_list_singleton (q & H & _). by apply Hnot in H.
    + (* a oneof *)
      destruct Hg as (t & name & Ht & Hd). cbn [weight] in Hfuel.
      eapply ends_weaken; [apply (step_loop is_oneof_field KBranch field_leads (unusable s0) (unseen ps) _ p t ps)|..].
      * intros []; cbn; try discriminate; done.
      * intros q u fa ps' all' s' Hu Hf W' Hc2 Hn2 HN. cbn beta iota.
        eapply ends_bind.
        -- eapply ends_weaken; [apply (branch_ends q u s' W' Hu); destruct (t_data u); exact Hf| |].
           ++ intros ty s2 W2 Q2 H2. exact H2.
           ++ intros H. by left.
        -- intros ty s2 W2 Q2 (Hfl & Hg2 & Hl2 & Hs2).
           eapply ends_bind.
           ++ eapply ends_weaken; [apply (IH all' ty s2 ps' W2)| |].
              ** by eapply collected_quiet.
              ** done.
              ** done.
              ** rewrite (flat_weight _ _ Hfl). lia.
              ** intros l s3 W3 Q3 H3. eapply step_iff; [exact Hl2|exact Hs2|exact H3].
              ** apply trouble_iff; [exact Hl2|exact Hs2].
           ++ intros l s3 W3 Q3 H3. apply ends_ret; [done|]. done.
      * done.
      * done.
      * done.
      * done.
      * done.
      * intros all' s' W' Q' H'. eapply step_iff; [| |exact H'].
        -- intros d. symmetry. exact (oneof_leads p t name Ht Hd d).
        -- symmetry. exact (oneof_broken p t name Ht Hd).
      * apply trouble_iff.
        -- intros d. symmetry. exact (oneof_leads p t name Ht Hd d).
        -- symmetry. exact (oneof_broken p t name Ht Hd).
    + (* a map *)
      destruct Hg as (t & name & kt & typ & num & Ht & Hd). cbn [weight] in Hfuel.
      eapply ends_bind.
      * eapply ends_weaken; [apply (map_ends p t name kt typ num s W Ht Hd)| |].
        -- intros v s1 W1 Q1 H1. exact H1.
        -- intros H. by left.
      * intros v s1 W1 Q1 (Hfl & Hnu & Hl).
        assert (HL : forall d, leads (Some v) d <-> leads (Some (NAst KMap a p)) d).
        { intros d. rewrite (flat_lead _ _ d Hfl). exact (Hl d). }
        assert (HK : snag (Some v) <-> snag (Some (NAst KMap a p))).
        { split; [intros H; by apply (flat_snag _ _ Hfl) in H|]. intros H. by apply Hnu in H. }
        eapply ends_weaken; [apply (IH all (Some v) s1 ps W1)| |].
        -- by eapply collected_quiet.
        -- done.
        -- by apply flat_good.
        -- rewrite (flat_weight _ _ Hfl). lia.
        -- intros l s3 W3 Q3 H3. eapply step_iff; [exact HL|exact HK|exact H3].
        -- apply trouble_iff; [exact HL|exact HK].
  - (* a list *)
    cbn [good] in Hg. cbn [weight] in Hfuel.
    assert (HL : forall d, leads el d <-> leads (Some (NRepeated a el)) d).
    { intros d. by rewrite (flat_lead _ _ d Hg). }
    assert (HK : snag el <-> snag (Some (NRepeated a el))).
    { split; [intros H; by apply (flat_snag _ _ Hg) in H|]. by intros []. }
    eapply ends_weaken; [apply (IH all el s ps W Hc Hn)| |].
    -- by apply flat_good.
    -- rewrite (flat_weight _ _ Hg). lia.
    -- intros l s3 W3 Q3 H3. eapply step_iff; [exact HL|exact HK|exact H3].
    -- apply trouble_iff; [exact HL|exact HK].
Qed.

Lemma gather_walk fuel q k a0 p s : during s -> found s0 q (NAst k a0 p) -> k ∈ [KMessage; KEnum] ->
  2 * length universe < fuel ->
  ends (gather_named fuel q) s (fun l s' => exists ps, collected s' l ps /\ NoDup ps /\
      (forall d, d ∈ ps <-> rtc (mentions s0) p d) /\ forall d, rtc (mentions s0) p d -> ~ broken s0 d)
    (exists d, rtc (mentions s0) p d /\ broken s0 d).
Proof.
  intros W0 Hf Hk Hfuel. pose proof W0 as (Is & Qs & _).
  destruct (found_at _ _ _ _ _ I0 Hf) as (Hn0 & t & Ht & Hr). pose proof Hn0 as Hn. rewrite <- (q_names _ _ Qs) in Hn.
  destruct (lookup_named _ _ _ Is Hn) as (f & t' & k' & a & s1 & Ht' & _ & Hw' & Hk' & E & Q & N & Hc).
  assert (k' = k) as ->.
  { assert (Hp : heap_at s p = Some t') by (unfold heap_at; by rewrite Ht').
    rewrite (quiet_heap_at _ _ _ Qs) in Hp. assert (t' = t) as -> by congruence. rewrite represented_wrap in Hr. congruence. }
  assert (Hft : ftcache s1 = ftcache s).
  { assert (Hkp : keeps same_ft (wrap (VPtr p))) by apply same_ft_wrap.
    unfold node_by_full_name in E. rewrite rbind_get, Hn in E. specialize (Hkp s). by rewrite E in Hkp. }
  assert (W : during s1).
  { apply (during_quiet s); [done|done|by eapply quiet_Inv|done]. }
  unfold gather_named. eapply ends_bind.
  { unfold ends. right. rewrite E. split; [exact W|]. split; [exact Q|]. 
    assert (Hg : Some (NAst k a p) = Some (NAst k a p) /\ me_node s1 p (NAst k a p)) by (split; [done|]; by exists k, a).
    exact ((fun x s' H => H) (Some (NAst k a p)) s1 Hg : (fun x s' => x = Some (NAst k a p) /\ me_node s' p (NAst k a p)) (Some (NAst k a p)) s1). }
  intros x s2 W2 Q2 [-> Hme].
  assert (Hle : unseen [] <= length universe) by (unfold unseen; clear; induction universe as [|x l IH]; [done|]; cbn in *; destruct (negb _); cbn; lia).
  assert (Hl : forall d, leads (Some (NAst k a p)) d <-> d = p) by (intros d; apply in_me in Hk as [->| ->]; done).
  assert (Hs : ~ snag (Some (NAst k a p))) by (apply in_me in Hk as [->| ->]; intros []).
  eapply ends_weaken; [apply (gather_ends fuel [] (Some (NAst k a p)) s2 [])| |].
  - done.
  - constructor.
  - constructor.
  - apply in_me in Hk as [->| ->]; exact Hme.
  - assert (weight (Some (NAst k a p)) = 0) as -> by (apply in_me in Hk as [->| ->]; done). lia.
  - intros l s3 W3 Q3 (new & Hc3 & Hn3 & Hl3 & Hr3 & Hm3 & _ & Hb3). cbn [app] in *.
    assert (Hiff : forall d, d ∈ new <-> rtc (mentions s0) p d).
    { intros d. split.
      - intros H. destruct (Hr3 d H) as (e & He & H'). apply Hl in He as ->. done.
      - assert (Hp : p ∈ new) by (by apply Hl3, Hl). clear -Hp Hm3.
        induction 1 as [|e x d Hmx _ IH]; [done|]. apply IH. by eapply Hm3. }
    exists new. split; [done|]. split; [done|]. split; [done|]. intros d H. by apply Hb3, Hiff.
  - intros [H|(d & (e & He & H) & Hb)]; [done|]. apply Hl in He as ->. eauto.
Qed.

(** questions asked before *)
Definition asked_step (s s' : registry) : Prop := during s -> during s'.
Lemma asked_quiet {A} (m : R A) : keeps quiet m -> keeps inv_step m -> (forall s, ftcache (m s).2 = ftcache s) -> keeps asked_step m.
Proof.
  intros Q K F s W. destruct W as (I & Qs & Hft). apply (during_quiet s); [done|exact (Q s)|by apply K|apply F].
Qed.
Lemma asked_field a q : loose -> keeps asked_step (field_type a q).
Proof.
  intros Hl s W. pose proof W as (I & Q & Hft). pose proof (quiet_field_type a q s) as Q'.
  destruct (inv_step_field_type a q s I) as [I' _]. split; [done|]. split; [by eapply quiet_trans|].
  intros a' q' t' ty' Ht' Hf' Hc.
  destruct (ftcache s !! (a', q')) as [ty|] eqn:Hold.
  { pose proof (q_ftcache _ _ Q' _ _ Hold) as Hn. assert (ty = ty') as -> by congruence.
    destruct (Hft _ _ _ _ Ht' Hf' Hold) as [H1|H1]; [left; by eapply (ok_quiet s)|by right]. }
  pose proof (field_body_ends q' t' s I Q Ht' Hf') as H.
  assert (Hsame := field_type_body_ft q s). unfold same_ft in Hsame.
  destruct (decide ((a, q) = (a', q'))) as [[= -> ->]|Hne].
  - pose proof (field_ends a' q' t' s W Ht' Hf') as [He|He]; [by right|].
    rewrite field_type_unfold, Hold in Hc, He.
    destruct (field_type_body q' s) as [[r|m|] s1] eqn:Eb; cbn in Hc, He.
    + left. rewrite lookup_insert in Hc. injection Hc as <-. destruct He as (_ & _ & He). rewrite field_type_unfold, Hold, Eb. exact He.
    + right. done.
    + done.
  - exfalso. rewrite field_type_unfold in Hc. destruct (ftcache s !! (a, q)); [cbn in Hc; congruence|].
    destruct (field_type_body q s) as [[r|m|] s1]; cbn in Hc, Hsame; try (rewrite lookup_insert_ne in Hc by done); congruence.
Qed.
Lemma asked_client {A} (m : R A) : loose -> client Queries m -> keeps asked_step m.
Proof.
  intros Hl. apply (keeps_client asked_step); unfold asked_step; try done.
  - intros s1 s2 s3 H1 H2 H. by apply H2, H1.
  - apply asked_quiet; [apply quiet_alloc|apply inv_step_alloc|done].
  - intros v. apply asked_quiet; [apply quiet_wrap|apply inv_step_wrap|]. intros s. apply same_ft_wrap.
  - intros a p. by apply asked_field.
Qed.
Lemma unasked_during : nothing_asked s0 -> during s0.
Proof.
  intros H. split; [done|]. split; [apply quiet_refl|]. intros a q t ty _ _ Hc. by rewrite H in Hc.
Qed.
End gather.

(** ** C79 *)

(** The walk collects each message and enum that is needed, directly or indirectly, exactly once, if none
    of the messages on the way has a field whose type cannot be had, whatever questions [m] were asked
    about the registry before (also if some of them panicked and the panics were recovered).  The depth
    of the recursion is at most twice the number of elements of the loaded files. *)
Theorem C79_after_queries {A} (m : R A) s els fuel q k a p :
  reachable s -> nothing_asked s -> refs_scoped s -> (forall p t, element_at s p t -> p ∈ els) ->
  2 * length els < fuel -> found s q (NAst k a p) -> k ∈ [KMessage; KEnum] ->
  (forall d, rtc (mentions s) p d -> ~ broken s d) -> client Queries m ->
  exists l s' ps, gather_named fuel q (m s).2 = (Ret l, s') /\ Forall2 (shows s') ps l /\ NoDup ps /\
    forall d, d ∈ ps <-> rtc (mentions s) p d.
Proof.
  intros Hs Hask Hsc Hels Hfuel Hf Hk Hok Hm. pose proof (reachable_Inv _ Hs) as I.
  pose proof (asked_client s els Hels I Hsc True m Logic.I Hm s (unasked_during s I True Hask)) as W.
  pose proof (gather_walk s els Hels I Hsc True fuel q k a p (m s).2 W Hf Hk Hfuel) as [[_ (d & Hd & Hb)]|H];
    [by apply Hok in Hd|].
  destruct (gather_named fuel q (m s).2) as [[l|e|] s'].
  - destruct H as ((I' & _) & _ & ps & Hc & Hn & Hiff & _). exists l, s', ps. split; [done|]. split; [|done].
    eapply Forall2_impl; [exact Hc|]. intros d n (k' & a' & -> & _ & Hn').
    destruct (nd_cache _ (proj2 I') _ _ Hn') as (p' & k2 & a2 & t & [= <-] & [= <- <-] & Ht & Hk2).
    exists t, k', a'. split; [by apply heap_element|]. by rewrite represented_wrap.
  - destruct H as (d & Hd & Hb). by apply Hok in Hd.
  - done.
Qed.

(** In particular if no field was asked for its type yet. *)
Theorem C79_type_graph s els fuel q k a p :
  reachable s -> nothing_asked s -> refs_scoped s -> (forall p t, element_at s p t -> p ∈ els) ->
  2 * length els < fuel -> found s q (NAst k a p) -> k ∈ [KMessage; KEnum] ->
  (forall d, rtc (mentions s) p d -> ~ broken s d) ->
  exists l s' ps, gather_named fuel q s = (Ret l, s') /\ Forall2 (shows s') ps l /\ NoDup ps /\
    forall d, d ∈ ps <-> rtc (mentions s) p d.
Proof.
  intros H1 H2 H3 H4 H5 H6 H7 H8. exact (C79_after_queries (ret tt) s els fuel q k a p H1 H2 H3 H4 H5 H6 H7 H8 (cl_ret _ _ _)).
Qed.

(** It panics exactly if one of them, however far away, has such a field. *)
Theorem C79_broken_panics s els fuel q k a p :
  reachable s -> nothing_asked s -> refs_scoped s -> (forall p t, element_at s p t -> p ∈ els) ->
  2 * length els < fuel -> found s q (NAst k a p) -> k ∈ [KMessage; KEnum] ->
  (exists msg, (gather_named fuel q s).1 = Panic msg) <-> (exists d, rtc (mentions s) p d /\ broken s d).
Proof.
  intros Hs Hask Hsc Hels Hfuel Hf Hk. pose proof (reachable_Inv _ Hs) as I.
  pose proof (gather_walk s els Hels I Hsc False fuel q k a p s (unasked_during s I False Hask) Hf Hk Hfuel) as [[[] _]|H].
  destruct (gather_named fuel q s) as [[l|m|] s'].
  - destruct H as (_ & _ & ps & _ & _ & _ & Hno). split; [intros [msg E]; discriminate E|].
    intros (d & Hd & Hb). exfalso. by eapply Hno.
  - split; [done|]. intros _. by eexists.
  - done.
Qed.

(** a decision procedure for [refs_scoped], used by examples *)
Definition check_refs (s : registry) : bool :=
  forallb (fun gf => forallb (fun π =>
    match Ast.walk gf.2 π with
    | Some t => match t_data t with
                | DNormalField _ _ _ _ _ | DOneOfField _ _ _ =>
                    let sc := scope_of s (VPtr (gf.1, π)) in
                    String.eqb (dotted (scope_comps sc)) sc &&
                    forallb (fun c => negb (String.eqb c "") && no_dot c) (scope_comps sc)
                | _ => true
                end
    | None => true
    end) (all_paths [] gf.2)) (imap (fun g f => (g, f)) (heap s)).
Lemma check_refs_ok s : check_refs s = true -> refs_scoped s.
Proof.
  unfold check_refs. rewrite List.forallb_forall. intros H [g π] t (path & f & (_ & Hf & _) & Hw) Hd.
  cbn [fst snd] in *. specialize (H (g, f)). rewrite List.forallb_forall in H.
  assert (Hin : In (g, f) (imap (fun g f => (g, f)) (heap s))).
  { apply elem_of_list_In, elem_of_lookup_imap. eauto. }
  specialize (H Hin π). cbn [fst snd] in H. rewrite Hw in H.
  pose proof (all_paths_complete f [] π t Hw) as Hp. rewrite app_nil_r in Hp. apply elem_of_list_In in Hp.
  specialize (H Hp).
  assert (H' : String.eqb (dotted (scope_comps (scope_of s (VPtr (g, π))))) (scope_of s (VPtr (g, π))) = true /\
    forallb (fun c => negb (String.eqb c "") && no_dot c) (scope_comps (scope_of s (VPtr (g, π)))) = true).
  { destruct (t_data t); try done; by apply andb_prop in H. }
  destruct H' as [H1 H2]. apply String.eqb_eq in H1.
  exists (scope_comps (scope_of s (VPtr (g, π)))). split; [|by apply idents].
  exists KField, 0%N. split; [constructor|]. unfold node_index. rewrite rbind_get. cbn. by rewrite H1.
Qed.
Definition all_elements (s : registry) : list ptr :=
  concat (imap (fun g f => map (fun π => (g, π)) (all_paths [] f)) (heap s)).
Lemma all_elements_ok s p t : element_at s p t -> p ∈ all_elements s.
Proof.
  destruct p as [g π]. intros (path & f & (_ & Hg & _) & Hw). cbn [fst snd] in *. unfold all_elements.
  apply elem_of_list_In, in_concat.
  exists (map (fun π => (g, π)) (all_paths [] f)). split.
  - apply elem_of_list_In, elem_of_lookup_imap. eauto.
  - apply in_map, elem_of_list_In. pose proof (all_paths_complete f [] π t Hw) as H. by rewrite app_nil_r in H.
Qed.
Definition check_unasked (s : registry) : bool := bool_decide (map_to_list (ftcache s) = []).
Lemma check_unasked_ok s : check_unasked s = true -> nothing_asked s.
Proof.
  unfold check_unasked. rewrite bool_decide_eq_true. intros H%map_to_list_empty_iff key. rewrite H. apply lookup_empty.
Qed.

Definition graph_f := "graph.proto".
Definition graph_files : list (string * list tree) :=
  (std_files ++
   [ (graph_f,
      [ el graph_f 1 (DPackage "g") [];
        el graph_f 2 (DEnum "E") [ el graph_f 3 (DEnumField "A" 0) [] ];
        msg graph_f 4 "Leaf" [];
        msg graph_f 5 "Tree"
          [ fld graph_f 6 "Tree" "left" 1; rfld graph_f 7 "Leaf" "leaves" 2;
            el graph_f 8 (DOneof "x") [ el graph_f 9 (DOneOfField "e" "E" 3) []; el graph_f 10 (DOneOfField "o" ".g.Other" 4) [] ];
            el graph_f 11 (DMapField "m" "string" "g.Leaf" 5) [];
            fld graph_f 12 "string" "name" 6; fld graph_f 13 "no.Such" "u" 7 ];
        msg graph_f 14 "Other" [ fld graph_f 15 "g.Tree" "back" 1 ];
        msg graph_f 16 "Lonely" [ fld graph_f 17 "Leaf" "leaf" 1 ];
        msg graph_f 18 "Far" [ fld graph_f 19 "Bad" "bad" 1 ];
        msg graph_f 20 "Bad" [ el graph_f 21 (DMapField "m" "string" ".g.Leaf" 1) [] ] ]) ])%list.
Definition graph_world : registry := Worlds.world graph_files [graph_f].
Definition graph_check : bool :=
  starts graph_files && check_refs graph_world && check_unasked graph_world &&
  Nat.ltb (2 * length (all_elements graph_world)) 100 &&
  match (node_by_full_name ".g.Tree" graph_world).1 with
  | Ret (Some (NAst KMessage a p)) => bool_decide (a = 1%N /\ p = (1, [3])) | _ => false end &&
  match (node_by_full_name ".g.Far" graph_world).1 with
  | Ret (Some (NAst KMessage a p)) => bool_decide (a = 1%N /\ p = (1, [6])) | _ => false end &&
  match (gather_named 100 ".g.Tree" graph_world).1 with
  | Ret l => bool_decide (omap element_ptr l = [(1, [3]); (1, [2]); (1, [1]); (1, [4])])
  | _ => false end &&
  match (gather_named 100 ".g.Far" graph_world).1 with
  | Panic m => true
  | _ => false end.
Example C79_example : exists l,
  reachable graph_world /\ nothing_asked graph_world /\ refs_scoped graph_world /\
  (forall p t, element_at graph_world p t -> p ∈ all_elements graph_world) /\ 2 * length (all_elements graph_world) < 100 /\
  found graph_world ".g.Tree" (NAst KMessage 1 (1, [3])) /\
  (forall d, rtc (mentions graph_world) (1, [3]) d -> ~ broken graph_world d) /\
  (gather_named 100 ".g.Tree" graph_world).1 = Ret l /\
  omap element_ptr l = [(1, [3]); (1, [2]); (1, [1]); (1, [4])] /\
  found graph_world ".g.Far" (NAst KMessage 1 (1, [6])) /\
  exists d, rtc (mentions graph_world) (1, [6]) d /\ broken graph_world d.
Proof.
  assert (H : graph_check = true) by (vm_compute; reflexivity). revert H. unfold graph_check.
  assert (Hr : starts graph_files = true -> reachable graph_world) by apply world_reachable.
  revert Hr. generalize graph_world as s. intros s Hr.
  rewrite !andb_true_iff. intros (((((((H1 & H2) & H3) & H4) & H5) & H6) & H7) & H8).
  specialize (Hr H1). apply check_refs_ok in H2. apply check_unasked_ok in H3. apply Nat.ltb_lt in H4.
  assert (F1 : found s ".g.Tree" (NAst KMessage 1 (1, [3]))).
  { unfold found. destruct (node_by_full_name ".g.Tree" s).1 as [[[[]| | | | |]|]| |]; try discriminate H5. by apply bool_decide_eq_true in H5 as [-> ->]. }
  assert (F2 : found s ".g.Far" (NAst KMessage 1 (1, [6]))).
  { unfold found. destruct (node_by_full_name ".g.Far" s).1 as [[[[]| | | | |]|]| |]; try discriminate H6. by apply bool_decide_eq_true in H6 as [-> ->]. }
  pose proof (all_elements_ok s) as Hall.
  assert (Hk : KMessage ∈ [KMessage; KEnum]) by constructor.
  pose proof (C79_broken_panics s _ 100 _ _ _ _ Hr H3 H2 Hall H4 F1 Hk) as B1.
  pose proof (C79_broken_panics s _ 100 _ _ _ _ Hr H3 H2 Hall H4 F2 Hk) as B2.
  destruct (gather_named 100 ".g.Tree" s).1 as [l| |]; try discriminate H7. apply bool_decide_eq_true in H7.
  exists l. do 6 (split; [done|]). split.
  { intros d Hd Hb. destruct (proj2 B1 (ex_intro _ d (conj Hd Hb))) as [m E]. discriminate E. }
  split; [done|]. split; [exact H7|]. split; [done|].
  apply B2. destruct (gather_named 100 ".g.Far" s).1 as [|m|]; try discriminate H8. by exists m.
Qed.

(** After a recovered panic the same walk can miss that a type cannot be had: MessageField.Type then answers nil.

      package t;  message M { S f = 1; }  service S {} *)
Definition again_f := "again.proto".
Definition again_files : list (string * list tree) :=
  (std_files ++ [ (again_f, [ el again_f 1 (DPackage "t") []; msg again_f 2 "M" [ fld again_f 3 "S" "f" 1 ];
                              el again_f 4 (DService "S") [] ]) ])%list.
Definition again_world : registry := Worlds.world again_files [again_f].
Theorem C79_second_walk_refuted :
  calm again_world /\
  (gather_named 100 ".t.M" again_world).1 = Panic (PError (ENew "node *proto.Service does not represent a type")) /\
  exists l, ((recover (gather_named 100 ".t.M") ;;; gather_named 100 ".t.M") again_world).1 = Ret l /\
    omap element_ptr l = [(1, [1])].
Proof.
  split; [apply world_calm; vm_compute; reflexivity|]. split; [vm_compute; reflexivity|].
  eexists. split; vm_compute; reflexivity.
Qed.
