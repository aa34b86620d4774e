(** * C70: queries do not disturb later answers. *)
From Verif Require Export Stable.
From Verif Require Import Frame Navigate Identity Api.

(** ** Properties of [same_node] and the like *)

Section mono.
Context (P Q : ptr -> ptr -> Prop) (D D' : ptr -> Prop) (E E' : ids).
Context (HP : forall p p', P p p' -> Q p p') (HD : forall p, D p -> D' p) (HE : more E E').
Lemma same_opt_mono o o' : same_opt P D o o' -> same_opt Q D' o o'.
Proof. intros []; constructor; auto. Qed.
Lemma same_opto_mono o o' : same_opto P D o o' -> same_opto Q D' o o'.
Proof. intros []; constructor. by apply same_opt_mono. Qed.
Lemma same_hdr_mono h h' : same_hdr P h h' -> same_hdr Q h h'.
Proof. intros [? ? ? ? ? []]; constructor; constructor; auto. Qed.
Lemma same_val_mono : forall v v', same_val P v v' -> same_val Q v v'.
Proof.
  fix IH 3. intros v v' H.
  assert (IHs : forall l l', same_vals P l l' -> same_vals Q l l').
  { fix IHs 3. intros l l' Hl. destruct Hl; constructor; [by apply IH|by apply IHs]. }
  assert (IHi : forall l l', same_items P l l' -> same_items Q l l').
  { fix IHi 3. intros l l' Hl. destruct Hl; constructor; [by apply IH|by apply IHi]. }
  destruct H; constructor; auto using same_hdr_mono.
Qed.
Lemma same_node_mono n n' : same_node P D E n n' -> same_node Q D' E' n n'.
Proof.
  induction 1; constructor; auto using same_opt_mono, same_val_mono. destruct H0; auto.
Qed.
Lemma same_nodeo_mono n n' : same_nodeo P D E n n' -> same_nodeo Q D' E' n n'.
Proof. intros []; constructor. by apply same_node_mono. Qed.
Lemma same_answer_mono {A} (x y : A) : same_answer P D E x y -> same_answer Q D' E' x y.
Proof.
  intros []; constructor; auto using same_node_mono, same_nodeo_mono, same_opt_mono, same_opto_mono, same_val_mono.
  destruct H; constructor. by apply same_node_mono.
Qed.
End mono.

Section trans.
Context (P Q S : ptr -> ptr -> Prop) (D : ptr -> Prop).
Context (HT : forall p q r, P p q -> Q q r -> S p r).
Lemma same_ptro_trans x y z : same_ptro P x y -> same_ptro Q y z -> same_ptro S x z.
Proof. intros [|x1 y1 Hxy] K; inversion K; subst; constructor. eauto. Qed.
Lemma same_hdr_trans x y z : same_hdr P x y -> same_hdr Q y z -> same_hdr S x z.
Proof. intros [] K. inversion K; subst. constructor. eauto using same_ptro_trans. Qed.
Lemma same_val_trans : forall x y z, same_val P x y -> same_val Q y z -> same_val S x z.
Proof.
  fix IH 4. intros x y z H.
  assert (IHs : forall x y z, same_vals P x y -> same_vals Q y z -> same_vals S x z).
  { fix IHs 4. intros l l' l'' Hl. destruct Hl; intros Hz; inversion Hz; subst; constructor;
      [by eapply IH|by eapply IHs]. }
  assert (IHi : forall x y z, same_items P x y -> same_items Q y z -> same_items S x z).
  { fix IHi 4. intros l l' l'' Hl. destruct Hl; intros Hz; inversion Hz; subst; constructor;
      [by eapply IH|by eapply IHi]. }
  destruct H; intros K; inversion K; subst; constructor; eauto using same_hdr_trans.
Qed.
Lemma same_opt_trans x y z :
  same_opt P D x y -> same_opt Q (fun _ => True) y z -> same_opt S D x z.
Proof. intros [] K. inversion K; subst. constructor; eauto. Qed.
Lemma same_node_trans x y z :
  same_node P D anyid x y -> same_node Q (fun _ => True) anyid y z -> same_node S D anyid x z.
Proof.
  intros H. revert z.
  induction H as [k a a' p p' Hp Hd _|b|a a' t t' H IH|a a'|o o' H|v v' H|k v v' H]; intros z K;
    inversion K; subst; constructor; eauto using same_val_trans, same_opt_trans.
Qed.
Lemma same_nodeo_trans x y z :
  same_nodeo P D anyid x y -> same_nodeo Q (fun _ => True) anyid y z -> same_nodeo S D anyid x z.
Proof.
  intros [|x1 y1 Hxy] K; inversion K; subst; constructor. by eapply same_node_trans.
Qed.
End trans.

Section refl.
Context (P : ptr -> ptr -> Prop) (D : ptr -> Prop).
Context (HP : forall p, P p p) (HD : forall p, D p).
Lemma same_opt_refl o : same_opt P D o o.
Proof. destruct o. by constructor. Qed.
Lemma same_hdr_refl h : same_hdr P h h.
Proof. destruct h as [a [p|] l]; by repeat constructor. Qed.
Lemma same_val_refl v : same_val P v v.
Proof.
  induction v as [| | | | | | |h l IH|h l IH] using oval_nested_ind; constructor;
    auto using same_hdr_refl.
  - induction IH; by constructor.
  - induction IH as [|[k x] l Hx _ IH]; by constructor.
Qed.
Lemma same_node_refl n : same_node P D anyid n n.
Proof.
  induction n as [k a p|b|a|a t IH|o|v|k v] using node_nested_ind; constructor;
    auto using same_opt_refl, same_val_refl.
Qed.
Lemma same_nodeo_refl x : same_nodeo P D anyid x x.
Proof. destruct x; constructor. apply same_node_refl. Qed.

(** every API call is [same_call] to itself *)
Lemma api_same_call {A} (c : R A) :
  api c ->
  (exists a p, existT (P := R) A c = existT (P := R) (option node) (field_type a p)) \/
  exists RA, same_call P D anyid RA c c /\ forall x y, RA anyid x y -> same_answer P D anyid x y.
Proof.
  intros H. destruct H; first
    [ left; do 2 eexists; reflexivity
    | right; eexists; split;
      [constructor; solve [auto using same_node_refl, same_opt_refl, same_val_refl]|];
      intros ? ?; first [intros <-; constructor|intros; by constructor] ].
Qed.
Lemma api_same_loop {A} (q : seq A) :
  api_seq q -> exists RA, same_loop P D anyid RA q q /\ forall x y, RA anyid x y -> same_answer P D anyid x y.
Proof.
  intros H. destruct H; (eexists; split;
      [constructor; solve [auto using same_node_refl]|];
      intros ? ?; first [intros <-; constructor|intros; by constructor]).
Qed.
End refl.

(** ** One registry at two times *)

Definition anywhere : ptr -> Prop := fun _ => True.
Notation pq := (pts (@eq nat)).
Lemma pq_eq p p' : pq p p' -> p = p'.
Proof. destruct p, p'. intros [H1 H2]. cbn in *. by subst. Qed.
Lemma pq_refl p : pq p p.
Proof. by split. Qed.

(** what was nil when the first call was made *)
Definition nil_in (s : registry) (v : visitee) : Prop := cache s !! v = Some None.
Definition every : string -> Prop := fun _ => True.
Definition no_extra : registry -> registry -> Prop := fun _ _ => True.
Notation st_q s := (st (@eq nat) anywhere every every (nil_in s) no_extra).
Notation sim_q s := (sim (@eq nat) anywhere every every (nil_in s) no_extra).

Lemma vs_eq v v' : vs (@eq nat) v v' -> v = v'.
Proof. intros [| | |p p' H]; try done. f_equal. by apply pq_eq. Qed.
Lemma alike_quiet_eq K s s' : quiet s s' -> alike (@eq nat) anywhere every every K s s'.
Proof.
  intros Q. constructor; try done.
  - intros g ? <-. by rewrite (q_heap _ _ Q).
  - intros q p H. exists p. rewrite (q_names _ _ Q). split; [done|apply pq_refl].
  - intros q p p' Hp. apply pq_eq in Hp as <-. by rewrite (q_names _ _ Q).
  - intros _ q. by rewrite (q_names _ _ Q).
  - intros n sc _. by rewrite (q_names _ _ Q).
  - intros path _. rewrite (q_protos _ _ Q). destruct (protos s !! path); by constructor.
  - intros p p' Hp _. apply pq_eq in Hp as <-. unfold scope_of. by rewrite (q_scopes _ _ Q).
Qed.
Lemma alike_eq_quiet K s s' : quiet s s' -> alike (@eq nat) anywhere every every K s' s.
Proof.
  intros Q. constructor; try done.
  - intros g ? <-. by rewrite (q_heap _ _ Q).
  - intros q p H. exists p. rewrite <- (q_names _ _ Q). split; [done|apply pq_refl].
  - intros q p p' Hp. apply pq_eq in Hp as <-. by rewrite (q_names _ _ Q).
  - intros _ q. by rewrite (q_names _ _ Q).
  - intros n sc _. by rewrite (q_names _ _ Q).
  - intros path _. rewrite (q_protos _ _ Q). destruct (protos s !! path); by constructor.
  - intros p p' Hp _. apply pq_eq in Hp as <-. unfold scope_of. by rewrite (q_scopes _ _ Q).
Qed.
Lemma st_quiet s s' : Inv s -> Inv s' -> quiet s s' -> st_q s s s'.
Proof.
  intros I I' Q. constructor; [done|done|by apply alike_quiet_eq|done| |done].
  intros v v' Hv Hn. apply vs_eq in Hv as <-. by apply (q_cache _ _ Q).
Qed.
(** the functions of the API return the same later *)
Lemma later {A} (RA : rel A) s c c' :
  same_call pq anywhere anyid RA c c' -> sim_q s (RA anyid) c c'.
Proof. apply sim_call; unfold anywhere, no_extra; try done; congruence. Qed.
Lemma later_body s p : sim_q s (same_nodeo pq anywhere anyid) (field_type_body p) (field_type_body p).
Proof. apply sim_field_type_body; unfold anywhere, no_extra; try done. Qed.

Notation same_nodeo_eq := (same_nodeo eq anywhere anyid).
Lemma nodeo_eq x y : same_nodeo pq anywhere anyid x y -> same_nodeo_eq x y.
Proof. apply same_nodeo_mono; [apply pq_eq|done|by intros ? ?]. Qed.
Lemma nodeo_eq_refl x : same_nodeo_eq x x.
Proof. by apply same_nodeo_refl. Qed.
Lemma nodeo_eq_trans x y z : same_nodeo_eq x y -> same_nodeo_eq y z -> same_nodeo_eq x z.
Proof. apply same_nodeo_trans. congruence. Qed.

(** ** Types of fields that were computed meanwhile *)

Definition undisturbed (s s' : registry) : Prop :=
  quiet s s' /\
  (Inv s -> Inv s' /\
   forall a p res x s1, ftcache s !! (a, p) = None -> ftcache s' !! (a, p) = Some res ->
     field_type_body p s = (Ret x, s1) -> same_nodeo_eq x res).

Lemma undisturbed_same_ft s s' :
  quiet s s' -> (Inv s -> Inv s') -> ftcache s' = ftcache s -> undisturbed s s'.
Proof.
  intros Q I F. split; [done|]. intros Is. split; [auto|]. intros a p res x s1 H H'. congruence.
Qed.
Lemma undisturbed_refl s : undisturbed s s.
Proof. apply undisturbed_same_ft; [apply quiet_refl|done|done]. Qed.
Lemma undisturbed_trans s1 s2 s3 : undisturbed s1 s2 -> undisturbed s2 s3 -> undisturbed s1 s3.
Proof.
  intros [Q1 H1] [Q2 H2]. split; [by eapply quiet_trans|]. intros I1.
  destruct (H1 I1) as [I2 F1]. destruct (H2 I2) as [I3 F2]. split; [done|].
  intros a p res x s' Hn Hs E. destruct (ftcache s2 !! (a, p)) as [res'|] eqn:Hm.
  - rewrite (q_ftcache _ _ Q2 _ _ Hm) in Hs. injection Hs as <-. by eapply F1.
  - destruct (later_body s1 p _ _ _ _ (st_quiet _ _ I1 I2 Q1) E) as (x' & s2' & E' & Hx & _).
    eapply nodeo_eq_trans; [by apply nodeo_eq|]. by eapply F2.
Qed.
Lemma wrap_ftcache v s : ftcache (wrap v s).2 = ftcache s.
Proof.
  unfold wrap. rewrite rbind_get. destruct (cache s !! v); [done|].
  destruct v as [| | |p]; try done. destruct (heap_at s p) as [t|]; [|done].
  by destruct (wrap_kind (t_data t)).
Qed.
Lemma undisturbed_alloc : keeps undisturbed alloc.
Proof.
  intros s. apply undisturbed_same_ft; [apply quiet_alloc| |done].
  intros I. by destruct (inv_step_alloc s I).
Qed.
Lemma undisturbed_wrap v : keeps undisturbed (wrap v).
Proof.
  intros s. apply undisturbed_same_ft; [apply quiet_wrap| |apply wrap_ftcache].
  intros I. by destruct (inv_step_wrap v s I).
Qed.
Lemma undisturbed_field_type a p : keeps undisturbed (field_type a p).
Proof.
  intros s. split; [apply quiet_field_type|]. intros I.
  split; [by destruct (inv_step_field_type a p s I)|].
  intros b q res x s1 Hn Hs E. unfold field_type in Hs. rewrite rbind_get in Hs.
  destruct (ftcache s !! (a, p)) as [r|] eqn:Hc; [cbn in Hs; congruence|].
  pose proof (keeps_field_type_body undisturbed undisturbed_refl undisturbed_trans
    undisturbed_alloc undisturbed_wrap p s) as [Q K].
  destruct (decide ((a, p) = (b, q))) as [[= -> ->]|Hne].
  - rewrite E in Hs. cbn in Hs. rewrite lookup_insert in Hs. injection Hs as <-.
    apply nodeo_eq_refl.
  - destruct (K I) as [_ F]. clear K Q. revert Hs F.
    destruct (field_type_body p s) as [[r|e|] s0]; cbn; intros Hs F;
      try rewrite lookup_insert_ne in Hs by done; exact (F _ _ _ _ _ Hn Hs E).
Qed.

Lemma query_undisturbed {A} (m : R A) s :
  client Queries m -> Inv s -> undisturbed s (m s).2.
Proof.
  intros Hc _. revert s.
  exact (keeps_client undisturbed undisturbed_refl undisturbed_trans undisturbed_alloc
    undisturbed_wrap undisturbed_field_type Queries m ltac:(done) ltac:(done) Hc).
Qed.

(** ** The theorems *)

(** Every call of the API that returned [x] in some registry returns the same after any program
    of queries has run in between (also one whose calls panicked and recovered). *)
Theorem C70_answer_after_queries {A B} (s : registry) (c : R A) (m : R B) x s1 :
  reachable s -> api c -> c s = (Ret x, s1) -> client Queries m ->
  exists x' s2, c (m s).2 = (Ret x', s2) /\ same_answer eq (fun _ => True) anyid x x'.
Proof.
  intros Hs Hc E Hm. pose proof (reachable_Inv _ Hs) as I.
  destruct (query_undisturbed m s Hm I) as [Q U]. destruct (U I) as [I' F]. clear U.
  set (s' := (m s).2) in *. clearbody s'.
  pose proof (st_quiet _ _ I I' Q) as T.
  destruct (api_same_call pq anywhere pq_refl ltac:(done) c Hc) as [(a & p & He)|(RA & Hcall & HRA)].
  - assert (Hcall : forall o s1, field_type a p s = (Ret o, s1) ->
        exists o' s2, field_type a p s' = (Ret o', s2) /\ same_nodeo_eq o o').
    { clear -T Q F. intros o s1 E. unfold field_type in E |- *. rewrite rbind_get in E. rewrite rbind_get.
      destruct (ftcache s !! (a, p)) as [r|] eqn:Hc.
      - injection E as <- <-. rewrite (q_ftcache _ _ Q _ _ Hc).
        exists r, s'. split; [done|apply nodeo_eq_refl].
      - destruct (field_type_body p s) as [[r|e|] s0] eqn:Eb; try discriminate E.
        injection E as <- _. destruct (ftcache s' !! (a, p)) as [r'|] eqn:Hc'.
        + exists r', s'. split; [done|]. by eapply F.
        + destruct (later_body s p _ _ _ _ T Eb) as (r' & s2 & E2 & Hr & _).
          rewrite E2. eauto using nodeo_eq. }
    clear Hc. revert c x E He.
    assert (Hgen : forall (y : {X : Type & R X}), y = existT (option node) (field_type a p) ->
      forall x s1, projT2 y s = (Ret x, s1) ->
      exists x' s2, projT2 y s' = (Ret x', s2) /\ same_answer eq anywhere anyid x x').
    { intros y -> x s2 E. cbn in *. destruct (Hcall _ _ E) as (o' & s3 & E3 & Ho).
      exists o', s3. split; [done|by constructor]. }
    intros c x E He. exact (Hgen _ He x s1 E).
  - destruct (later _ s _ _ Hcall _ _ _ _ T E) as (x' & s2 & E2 & Hx & _).
    exists x', s2. split; [done|]. eapply same_answer_mono; [apply pq_eq|done|by intros ? ?|]. by apply HRA.
Qed.

(** collecting the elements of a loop *)
Lemma sim_collect_body G D N F K X {A} (RA : A -> A -> Prop) :
  sim_body G D N F K X RA (Forall2 RA) (fun l x => ret (l ++ [x], true)%list)
    (fun l x => ret (l ++ [x], true)%list).
Proof.
  intros c c' x x' Hc Hx. apply sim_ret. split; [|done]. cbn. apply Forall2_app; eauto.
Qed.

(** The elements of every loop over the API, likewise. *)
Theorem C70_loop_after_queries {A B} (s : registry) (sq : seq A) (m : R B) xs s1 :
  reachable s -> api_seq sq -> collect sq s = (Ret xs, s1) -> client Queries m ->
  exists xs' s2, collect sq (m s).2 = (Ret xs', s2) /\
    Forall2 (same_answer eq (fun _ => True) anyid) xs xs'.
Proof.
  intros Hs Hc E Hm. pose proof (reachable_Inv _ Hs) as I.
  destruct (query_undisturbed m s Hm I) as [Q U]. destruct (U I) as [I' F]. clear U.
  destruct (api_same_loop pq anywhere pq_refl ltac:(done) sq Hc) as (RA & Hl & HRA).
  assert (K : sim_q s (Forall2 (RA anyid)) (collect sq) (collect sq)).
  { unfold collect. eapply (sim_loop eq anywhere); try (unfold anywhere, no_extra; done);
      first [exact Hl|apply sim_collect_body|constructor]. }
  destruct (K _ _ _ _ (st_quiet _ _ I I' Q) E) as (x' & s2 & E2 & Hx & _).
  exists x', s2. split; [done|]. eapply Forall2_impl; [exact Hx|]. intros.
  eapply same_answer_mono; [apply pq_eq|done|by intros ? ?|]. by apply HRA.
Qed.

(** Registry.Options followed by a loop, likewise. *)
Theorem C70_options_after_queries {B} (s : registry) n (m : R B) xs s1 :
  reachable s -> (sq <~ options n ;; collect sq) s = (Ret xs, s1) -> client Queries m ->
  exists xs' s2, (sq <~ options n ;; collect sq) (m s).2 = (Ret xs', s2) /\
    Forall2 (same_opt eq (fun _ => True)) xs xs'.
Proof.
  intros Hs E Hm. pose proof (reachable_Inv _ Hs) as I.
  destruct (query_undisturbed m s Hm I) as [Q U]. destruct (U I) as [I' F]. clear U.
  assert (K : sim_q s (Forall2 (same_opt pq anywhere)) (sq <~ options n ;; collect sq)
    (sq <~ options n ;; collect sq)).
  { unfold collect. eapply (sim_options eq anywhere); try (unfold anywhere, no_extra; done);
      first [apply sim_collect_body|constructor|apply same_node_refl; [apply pq_refl|done]]. }
  destruct (K _ _ _ _ (st_quiet _ _ I I' Q) E) as (x' & s2 & E2 & Hx & _).
  exists x', s2. split; [done|]. eapply Forall2_impl; [exact Hx|]. intros.
  eapply same_opt_mono; [apply pq_eq|done|done].
Qed.
(** A case: the type of a repeated field, asked before and after a program that asks for it, too,
    and then loops over the fields of the message. *)
Example C70_example :
  let ask := field_type 9 (1, [10; 6]) in
  let between := (_ <~ ask ;; collect (message_fields (1, [6]))) in
  reachable demo_world /\ api ask /\ client Queries between /\
  (exists n s1, ask demo_world = (Ret (Some n), s1)) /\
  next (between demo_world).2 <> next demo_world.
Proof.
  split; [apply demo_reachable|]. split; [constructor|]. split.
  - apply cl_bind; [apply cl_api; constructor|]. intros _.
    apply (cl_loop Queries node (message_fields (1, [6]))); [constructor|]. intros. constructor.
  - split.
    + assert (H : match (field_type 9 (1, [10; 6]) demo_world).1 with Ret (Some _) => true | _ => false end = true)
        by (vm_compute; reflexivity).
      revert H. generalize demo_world. intros s H.
      destruct (field_type 9 (1, [10; 6]) s) as [[[n|]|e|] s1]; try discriminate H. eauto.
    + assert (H : negb (N.eqb (next ((_ <~ field_type 9 (1, [10; 6]) ;; collect (message_fields (1, [6]))) demo_world).2) (next demo_world)) = true)
        by (vm_compute; reflexivity).
      revert H. generalize demo_world. intros s H He. rewrite He in H. rewrite N.eqb_refl in H. discriminate H.
Qed.
