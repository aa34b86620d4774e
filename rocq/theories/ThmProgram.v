(** * C69: the linter of the README as a whole program. *)
From Verif Require Export ThmReadme ThmMore.
From Verif Require Import Frame Navigate Identity Api.

(** ** Specification *)

(** The element at [p] is the service [name] of the file [path]. *)
Definition service_at (s : registry) (path name : string) (p : ptr) : Prop :=
  exists g f i t, loaded s path g f /\ p = (g, [i]) /\ element_at s p t /\ t_data t = DService name.

(** What should be reported for the service [x.2] of the file [x.1]: what should be reported for its
    methods, in source order. *)
Definition service_findings (s : registry) (sq : string) (x : string * string) (fs : list finding) : Prop :=
  exists p t fss, service_at s x.1 x.2 p /\ element_at s p t /\
    Forall2 (method_findings s sq) (children a_method p t) fss /\ fs = concat fss.

(** The service exists, its methods return messages that exist, and no option statement in them is
    spelled ".meta.v1.non_standard_method" (the grammar cannot spell it). *)
Definition fine_service (s : registry) (x : string * string) : Prop :=
  exists p t, service_at s x.1 x.2 p /\ element_at s p t /\
    (forall m, m ∈ children a_method p t -> sound_method s m) /\
    (forall m mt q oname, m ∈ children a_method p t -> element_at s m mt -> q ∈ children an_option m mt ->
       statement s q oname -> oname <> ".meta.v1.non_standard_method").

(** ** Proofs: a load depends only on the schema, and not on the fuel *)

Section tracks.
Context (Rl : registry -> registry -> Prop).
Hypothesis Rl_heap : forall s t, Rl s t -> heap t = heap s.
Hypothesis Rl_protos : forall s t, Rl s t -> protos t = protos s.
Hypothesis Rl_name : forall q p s t, Rl s t ->
  Rl (set_names (<[q := p]> (names s)) s) (set_names (<[q := p]> (names t)) t).
Hypothesis Rl_scope : forall k q s t, Rl s t ->
  Rl (set_scopes (<[k := q]> (scopes s)) s) (set_scopes (<[k := q]> (scopes t)) t).
Hypothesis Rl_add : forall path els s t, Rl s t -> Rl (add_file path els s) (add_file path els t).

Definition tracks {A} (m1 m2 : R A) : Prop := forall s t a s',
  Rl s t -> m1 s = (Ret a, s') -> exists t', m2 t = (Ret a, t') /\ Rl s' t'.

Lemma tracks_ret {A} (a : A) : tracks (ret a) (ret a).
Proof. intros s t x s' H [= <- <-]. by exists t. Qed.
Lemma tracks_bind {A B} (m1 m2 : R A) (k1 k2 : A -> R B) :
  tracks m1 m2 -> (forall a, tracks (k1 a) (k2 a)) -> tracks (rbind m1 k1) (rbind m2 k2).
Proof.
  intros Hm Hk s t b s' H E. apply rbind_Ret in E as (a & s1 & E1 & E2).
  destruct (Hm _ _ _ _ H E1) as (t1 & E1' & H1). destruct (Hk _ _ _ _ _ H1 E2) as (t2 & E2' & H2).
  exists t2. by rewrite (rbind_val _ _ _ _ _ E1').
Qed.
Lemma tracks_name q p : tracks (put_name q p) (put_name q p).
Proof. intros s t x s' H [= <- <-]. eexists. split; [reflexivity|by apply Rl_name]. Qed.
Lemma tracks_scope k q : tracks (put_scope k q) (put_scope k q).
Proof. intros s t x s' H [= <- <-]. eexists. split; [reflexivity|by apply Rl_scope]. Qed.
Lemma tracks_deref p : tracks (deref p) (deref p).
Proof.
  intros s t x s' H E. unfold deref in *. rewrite rbind_get in E |- *. unfold heap_at in *. rewrite (Rl_heap _ _ H).
  destruct (heap s !! p.1) as [f|]; [|discriminate E]. destruct (walk f p.2) as [u|]; [|discriminate E].
  injection E as <- <-. by exists t.
Qed.
Lemma tracks_panic {A} (m1 m2 : payload) : tracks (panic m1 : R A) (panic m2).
Proof. intros s t x s' H [=]. Qed.

Lemma tracks_visit imp1 imp2 tr : (forall path, tracks (imp1 path) (imp2 path)) ->
  forall v p, tracks (visit imp1 v p tr) (visit imp2 v p tr).
Proof.
  intros Himp. induction tr as [d ps c kids IH] using tree_nested_ind. intros v p.
  assert (Hk : forall v i, tracks (visit_list imp1 p v i kids) (visit_list imp2 p v i kids)).
  { induction IH as [|k l Hk _ IHl]; intros w i; cbn [visit_list];
      [apply tracks_ret|]. apply tracks_bind; auto. }
  pose proof tracks_name as Hn. pose proof tracks_scope as Hs.
  assert (Hr : forall v' : visitor, tracks (ret v') (ret v')) by (intros; apply tracks_ret).
  destruct d; try apply Hr.
  - apply Hk.
  - cbn [visit]. apply tracks_bind; [apply Hs|auto].
  - cbn [visit]. apply tracks_bind; [apply Himp|auto].
  - cbn [visit]. apply tracks_bind.
    + destruct is_extend; [auto|]. apply tracks_bind; [apply Hn|]. intros _. apply tracks_bind; [apply Hs|auto].
    + intros v1. apply tracks_bind; [apply (Hk v1 0)|auto].
  - cbn [visit]. apply tracks_bind; [apply Hn|]. intros _. apply tracks_bind; [apply Hs|auto].
  - cbn [visit]. apply tracks_bind; [apply Hn|]. intros _. apply tracks_bind; [apply Hs|]. intros _.
    apply tracks_bind; [apply (Hk v 0)|auto].
  - cbn [visit]. apply tracks_bind; [apply Hn|]. intros _. apply tracks_bind; [apply Hs|auto].
  - cbn [visit]. apply tracks_bind; [apply Hn|]. intros _. apply tracks_bind; [apply Hs|auto].
  - cbn [visit]. apply tracks_bind; [apply Hn|]. intros _. apply tracks_bind; [apply Hs|]. intros _.
    apply (Hk v 0).
  - cbn [visit]. apply tracks_bind; [apply Hn|auto].
  - cbn [visit]. apply tracks_bind; [apply Hn|]. intros _. apply tracks_bind; [apply Hn|]. intros _.
    apply tracks_bind; [apply Hs|]. intros _. apply tracks_bind; [|auto].
    apply (Hk (set_scope (scoped_name v name) v) 0).
  - cbn [visit]. apply tracks_bind; [apply Hn|]. intros _. apply tracks_bind; [apply Hs|auto].
Qed.

Lemma tracks_proto_file e path : tracks (proto_file e path) (proto_file e path).
Proof.
  intros s t x s' H E. unfold proto_file in *. rewrite rbind_get in E |- *.
  rewrite (Rl_protos _ _ H). destruct (protos s !! path) as [g|]; [injection E as <- <-; by exists t|].
  destruct (find_name (e_resolvers e) path) as [err|nm]; [injection E as <- <-; by exists t|].
  destruct (String.eqb nm ""); [injection E as <- <-; by exists t|].
  destruct (e_read e nm path) as [err|els]; [injection E as <- <-; by exists t|].
  cbn in E |- *. injection E as <- <-. rewrite (Rl_heap _ _ H). eexists. split; [reflexivity|].
  pose proof (Rl_add path els _ _ H) as Ha. unfold add_file in Ha. by rewrite (Rl_heap _ _ H) in Ha.
Qed.

Lemma tracks_import e : forall fuel1 fuel2 path, fuel1 <= fuel2 ->
  tracks (import_file e fuel1 path) (import_file e fuel2 path).
Proof.
  induction fuel1 as [|fuel1 IH]; intros fuel2 path Hf; [intros s t x s' _ [=]|].
  destruct fuel2 as [|fuel2]; [lia|]. cbn [import_file]. intros s t x s' H E.
  rewrite rbind_get in E |- *. rewrite (Rl_protos _ _ H).
  destruct (protos s !! path); [injection E as <- <-; by exists t|]. revert E. revert x s'.
  assert (Ht : tracks
    (r <~ proto_file e path ;;
     match r with
     | inl err => panic (PError (EWrap ("get proto file for import " +:+ path) err))
     | inr g => t <~ deref (root g) ;; visit (import_file e fuel1) (mkVisitor None "" false) (root g) t ;;; ret tt
     end)
    (r <~ proto_file e path ;;
     match r with
     | inl err => panic (PError (EWrap ("get proto file for import " +:+ path) err))
     | inr g => t <~ deref (root g) ;; visit (import_file e fuel2) (mkVisitor None "" false) (root g) t ;;; ret tt
     end)).
  - apply tracks_bind; [apply tracks_proto_file|]. intros [err|g]; [apply tracks_panic|].
    apply tracks_bind; [apply tracks_deref|]. intros tr. apply tracks_bind; [|intros _; apply tracks_ret].
    apply tracks_visit. intros path'. apply IH. lia.
  - intros x s' E. exact (Ht s t x s' H E).
Qed.
Lemma tracks_demark e fuel1 fuel2 path : fuel1 <= fuel2 ->
  tracks (demark_file e fuel1 path) (demark_file e fuel2 path).
Proof.
  intros Hf. unfold demark_file. apply tracks_bind; [apply tracks_proto_file|]. intros [err|g]; [apply tracks_ret|].
  apply tracks_bind; [apply tracks_deref|]. intros tr. apply tracks_bind; [|intros _; apply tracks_ret].
  apply tracks_visit. intros path'. by apply tracks_import.
Qed.

Lemma tracks_load e fuel1 fuel2 path s t k a p s' :
  fuel1 <= fuel2 -> Rl s t -> (forall s t n m, Rl s t -> Rl (set_next n s) (set_next m t)) ->
  proto e fuel1 path s = (Ret (inr (NAst k a p)), s') ->
  exists t', proto e fuel2 path t = (Ret (inr (NAst k (next t) p)), t') /\ Rl s' t'.
Proof.
  intros Hf H Hnext E. unfold proto in *. rewrite rbind_get in E |- *. rewrite (Rl_protos _ _ H).
  destruct (protos s !! path) as [g|] eqn:Hp.
  - unfold new_file in *. unfold rbind at 1 in E. unfold rbind at 1. rewrite rbind_alloc in E |- *.
    cbn in E |- *. injection E as <- <- <- <-. eexists. split; [reflexivity|by apply Hnext].
  - apply rbind_Ret in E as (r & s1 & E1 & E2). destruct r as [err|]; [discriminate E2|].
    destruct (tracks_demark e fuel1 fuel2 path Hf _ _ _ _ H E1) as (t1 & E1' & H1).
    rewrite (rbind_val _ _ _ _ _ E1'). rewrite rbind_get in E2 |- *. rewrite (Rl_protos _ _ H1).
    destruct (protos s1 !! path) as [g|]; [|discriminate E2].
    pose proof (demark_same_nodes e fuel2 path t) as (_ & _ & Hn). rewrite E1' in Hn. cbn in Hn.
    unfold new_file in *. unfold rbind at 1 in E2. unfold rbind at 1. rewrite rbind_alloc in E2 |- *.
    cbn in E2 |- *. injection E2 as <- <- <- <-. rewrite Hn. eexists. split; [reflexivity|by apply Hnext].
Qed.
End tracks.

Definition same_schema (s t : registry) : Prop :=
  heap t = heap s /\ protos t = protos s /\ names t = names s /\ scopes t = scopes s.
Lemma quiet_same s t : quiet s t -> same_schema s t.
Proof. intros Q. by destruct Q. Qed.
Lemma same_schema_trans s t u : same_schema s t -> same_schema t u -> same_schema s u.
Proof. intros (A & B & C & D) (A' & B' & C' & D'). split_and!; congruence. Qed.
Lemma same_schema_sym s t : same_schema s t -> same_schema t s.
Proof. intros (A & B & C & D). by split_and!. Qed.

Lemma load_same e fuel1 fuel2 path s t k a p s' :
  fuel1 <= fuel2 -> same_schema s t -> proto e fuel1 path s = (Ret (inr (NAst k a p)), s') ->
  exists t', proto e fuel2 path t = (Ret (inr (NAst k (next t) p)), t') /\ same_schema s' t'.
Proof.
  intros Hf H E. refine (tracks_load same_schema _ _ _ _ _ e fuel1 fuel2 path s t k a p s' Hf H _ E).
  - by intros ? ? (? & _).
  - by intros ? ? (_ & ? & _).
  - intros q x s1 t1 (A & B & C & D). split_and!; cbn; congruence.
  - intros q x s1 t1 (A & B & C & D). split_and!; cbn; congruence.
  - intros q x s1 t1 (A & B & C & D). split_and!; cbn; congruence.
  - intros s1 t1 n m (A & B & C & D). by split_and!.
Qed.
(** the state after a load does not depend on the fuel either *)
Lemma load_fuel e fuel1 fuel2 path s r s' :
  env_ok e -> schema s ->
  fuel1 <= fuel2 -> proto e fuel1 path s = (Ret (inr r), s') -> proto e fuel2 path s = (Ret (inr r), s').
Proof.
  intros He S Hf E.
  assert (Hr : exists p, r = NAst KFile (next s) p).
  { destruct (proto_ok _ _ _ _ _ _ He S E) as (_ & _ & H).
    inversion H; subst; try (by eexists).
    exfalso. match goal with Hne : forall x, _ <> Ret x |- _ => by eapply Hne end. }
  destruct Hr as [p ->]. unfold proto in *. rewrite rbind_get in E |- *.
  destruct (protos s !! path) as [g|] eqn:Hp; [done|].
  apply rbind_Ret in E as (x & s1 & E1 & E2).
  assert (E1' : demark_file e fuel2 path s = (Ret x, s1)).
  { destruct (tracks_demark (@eq registry)) with (e := e) (fuel1 := fuel1) (fuel2 := fuel2) (path := path) (s := s) (t := s)
      (a := x) (s' := s1) as (t' & H & <-); try done; by intros; subst. }
  by rewrite (rbind_val _ _ _ _ _ E1').
Qed.

(** ** Proofs: further files that capture nothing change nothing *)

Lemma element_root_nil s p t : element_at s p t -> (forall path, t_data t <> DProto path) -> p.2 <> [].
Proof.
  intros H Hd Hnil. destruct p as [g π]. cbn in Hnil. subst π. destruct (element_root _ _ _ H) as [x Hx]. by apply (Hd x).
Qed.

Section later.
Context (s1 s2 : registry) (I1 : Inv s1) (I2 : Inv s2) (T1 : tidy s1) (T2 : tidy s2).
Hypothesis Hmore : forall path g f, loaded s1 path g f -> loaded s2 path g f.
Hypothesis Hcap : no_capture s1 s2.

Lemma el_up p t : element_at s1 p t -> element_at s2 p t.
Proof. intros (path & f & Hl & Hw). exists path, f. split; [by apply Hmore|done]. Qed.
Lemma el_eq p t u : element_at s1 p u -> element_at s2 p t -> t = u.
Proof. intros H1%el_up H2. by eapply element_fun. Qed.
Lemma names_up q p : names s1 !! q = Some p -> names s2 !! q = Some p.
Proof.
  intros H. destruct (same_names s1 s2 q p T1 T2) as (p2 & H2 & (path & f & L1 & L2) & Hp); [|done|].
  - intros path f [g Hl]. exists g. by apply Hmore.
  - apply Hmore in L1. destruct (loaded_fun _ _ _ _ _ _ L1 L2) as [Hg _]. destruct p, p2. cbn in *. by subst.
Qed.
Lemma known_same n q : references s1 n -> may_mean n q -> is_Some (names s1 !! q) <-> is_Some (names s2 !! q).
Proof.
  intros Hn Hq. split; [intros [p H]; apply names_up in H; by eexists|].
  rewrite <- !declares_names by done. exact (Hcap n q Hn Hq).
Qed.
Lemma scope_same p t : element_at s1 p t -> p.2 <> [] -> scope_of s1 (VPtr p) = scope_of s2 (VPtr p).
Proof.
  intros (path & f & Hl & _) Hp. destruct p as [g π]. cbn [fst snd] in *.
  by rewrite (scope_inside _ _ _ _ _ (proj1 T1) Hl Hp), (scope_inside _ _ _ _ _ (proj1 T2) (Hmore _ _ _ Hl) Hp).
Qed.
Lemma in_scope_same p t comps : element_at s1 p t -> p.2 <> [] -> in_scope s1 p comps <-> in_scope s2 p comps.
Proof.
  intros Ht Hp. pose proof (scope_same p t Ht Hp) as E. unfold in_scope.
  assert (Hix : forall k a, k ∈ [KField; KBranch; KMethod] ->
    (node_index (NAst k a p) s1).1 = (node_index (NAst k a p) s2).1).
  { intros k a Hk. rewrite !elem_of_cons, elem_of_nil in Hk.
    destruct Hk as [->|[->|[->|[]]]]; unfold node_index; rewrite !rbind_get; cbn; by rewrite E. }
  split; intros [(k & a & Hk & H) Hid]; (split; [|done]); exists k, a; (split; [done|]);
    [by rewrite <- Hix|by rewrite Hix].
Qed.
Lemma denotes_same comps n q : references s1 n -> denotes s1 comps n q <-> denotes s2 comps n q.
Proof.
  intros Hn. unfold denotes. split.
  - intros [Hf H]. split.
    + apply (found_names _ _ I2). apply (found_names _ _ I1) in Hf as [p Hf]. apply names_up in Hf. by eexists.
    + destruct H as [H|(Ha & k & Hk & -> & H)]; [by left|right]. split; [done|]. exists k. split; [done|]. split; [done|].
      intros j H1 H2. specialize (H j H1 H2). apply (unknown_names _ _ I2). apply (unknown_names _ _ I1) in H.
      apply eq_None_not_Some. rewrite <- (known_same n); [by apply eq_None_not_Some|done|].
      right. by eexists.
  - intros [Hf H]. split.
    + apply (found_names _ _ I1). apply (found_names _ _ I2) in Hf. apply (known_same n); [done| |done].
      destruct H as [[_ ->]|(_ & k & _ & -> & _)]; [by left|right; by eexists].
    + destruct H as [H|(Ha & k & Hk & -> & H)]; [by left|right]. split; [done|]. exists k. split; [done|]. split; [done|].
      intros j H1 H2. specialize (H j H1 H2). apply (unknown_names _ _ I1). apply (unknown_names _ _ I2) in H.
      apply eq_None_not_Some. rewrite (known_same n); [by apply eq_None_not_Some|done|].
      right. by eexists.
Qed.
Lemma found_up q k a p : found s1 q (NAst k a p) -> exists a', found s2 q (NAst k a' p).
Proof.
  intros H. destruct (found_at _ _ _ _ _ I1 H) as (Hn & t & Ht & Hk). apply names_up in Hn.
  apply (names_found _ _ _ t _ I2); [done| |done]. apply element_heap, el_up. by apply heap_element.
Qed.
Lemma found_down q k a p : is_Some (names s1 !! q) -> found s2 q (NAst k a p) -> exists a', found s1 q (NAst k a' p).
Proof.
  intros [p1 H1] H. destruct (found_at _ _ _ _ _ I2 H) as (Hn & t & Ht & Hk).
  pose proof (names_up _ _ H1) as H2. assert (p1 = p) as -> by congruence.
  destruct (sc_names _ (proj1 I1) _ _ H1) as (f & Hf & Hq).
  destruct (heap_loaded _ _ _ (proj1 I1) Hf) as [path Hl]. pose proof (Hmore _ _ _ Hl) as (_ & Hf2 & _).
  apply (names_found _ _ _ t _ I1); [done| |done]. unfold heap_at in *. by rewrite Hf2 in Ht; rewrite Hf.
Qed.

Lemma has_type_same sq q t : element_at s1 q t -> has_type s1 sq q <-> has_type s2 sq q.
Proof.
  intros Ht. split.
  - intros (t' & name & typ & num & opt & comps & Ht' & Hd & Hsc & Hb & Hden).
    exists t', name, typ, num, opt, comps. split; [by apply el_up|]. split; [done|].
    split; [apply (in_scope_same q t'); [done| |done]; eapply element_root_nil; [done|]; intros path; by rewrite Hd|].
    split; [done|]. apply denotes_same; [|done]. exists q, t'. split; [done|]. rewrite Hd. constructor.
  - intros (t' & name & typ & num & opt & comps & Ht' & Hd & Hsc & Hb & Hden).
    rewrite (el_eq _ _ _ Ht Ht') in Hd.
    exists t, name, typ, num, opt, comps. split; [done|]. split; [done|].
    split; [apply (in_scope_same q t); [done| |done]; apply (element_root_nil _ _ _ Ht); intros path; by rewrite Hd|].
    split; [done|]. apply denotes_same; [|done]. exists q, t. split; [done|]. rewrite Hd. constructor.
Qed.
Lemma field_named_same name q t : element_at s1 q t -> field_named s1 name q <-> field_named s2 name q.
Proof.
  intros Ht. split; intros (t' & typ & num & rep & opt & Ht' & Hd).
  - exists t', typ, num, rep, opt. split; [by apply el_up|done].
  - rewrite (el_eq _ _ _ Ht Ht') in Hd. by exists t, typ, num, rep, opt.
Qed.
Lemma returns_up m rp : returns_message s1 m rp -> returns_message s2 m rp.
Proof.
  intros (t & name & req & sreq & rett & sret & comps & rq & ra & Ht & Hd & Hsc & Hb & Hden & Hf).
  destruct (found_up _ _ _ _ Hf) as [ra' Hf'].
  exists t, name, req, sreq, rett, sret, comps, rq, ra'. split; [by apply el_up|]. split; [done|].
  split; [apply (in_scope_same m t); [done| |done]; eapply element_root_nil; [done|]; intros path; by rewrite Hd|].
  split; [done|]. split; [|done]. apply denotes_same; [|done]. exists m, t. split; [done|]. rewrite Hd. constructor.
Qed.
Lemma returns_down m u rp : element_at s1 m u -> returns_message s2 m rp -> returns_message s1 m rp.
Proof.
  intros Hu (t & name & req & sreq & rett & sret & comps & rq & ra & Ht & Hd & Hsc & Hb & Hden & Hf).
  rewrite (el_eq _ _ _ Hu Ht) in Hd. clear t Ht.
  assert (Hden1 : denotes s1 comps rett rq).
  { apply denotes_same; [|done]. exists m, u. split; [done|]. rewrite Hd. constructor. }
  destruct (found_down _ _ _ _ (proj1 (found_names _ _ I1) (proj1 Hden1)) Hf) as [ra' Hf'].
  exists u, name, req, sreq, rett, sret, comps, rq, ra'. split; [done|]. split; [done|].
  split; [|done].
  apply (in_scope_same m u); [done| |done]. apply (element_root_nil _ _ _ Hu). intros path. by rewrite Hd.
Qed.
Lemma sound_field_down q u : element_at s1 q u -> sound_field s2 q -> sound_field s1 q.
Proof.
  intros Hu H t name typ num rep opt Ht Hd. destruct (H t name typ num rep opt (el_up _ _ Ht) Hd) as [Hb|(comps & Hsc & Hall)]; [by left|].
  right. exists comps.
  split; [apply (in_scope_same q t); [done| |done]; apply (element_root_nil _ _ _ Ht); intros path; by rewrite Hd|].
  intros d n Hden Hf. destruct (found_kind _ _ _ I1 Hf) as (k & a & p & ->).
  destruct (found_up _ _ _ _ Hf) as [a' Hf'].
  assert (Hden2 : denotes s2 comps typ d).
  { apply denotes_same; [|done]. exists q, t. split; [done|]. rewrite Hd. constructor. }
  specialize (Hall d _ Hden2 Hf'). by destruct k.
Qed.
Lemma sound_method_down m u : element_at s1 m u -> sound_method s2 m -> sound_method s1 m.
Proof.
  intros Hu (rp & rt & Hr & Hrt & Hso). pose proof (returns_down _ _ _ Hu Hr) as Hr1.
  assert (Hel : element_at s1 rp rt).
  { destruct Hr1 as (t & name & req & sreq & rett & sret & comps & rq & ra & Ht & Hd & Hsc & Hb & Hden & Hf).
    destruct (found_at _ _ _ _ _ I1 Hf) as (_ & v & Hv & _). apply heap_element in Hv; [|done].
    by rewrite (el_eq _ _ _ Hv Hrt). }
  exists rp, rt. split; [done|]. split; [done|]. intros q Hq.
  assert (Hqu : exists v, element_at s1 q v).
  { unfold children in Hq. apply elem_of_list_fmap in Hq as (b & -> & Hb). apply elem_of_list_In, filter_In in Hb as [Hb _].
    exists b.2. apply heap_element; [done|]. eapply kids_heap; [by apply element_heap|]. by apply elem_of_list_In. }
  destruct Hqu as [v Hv]. eapply sound_field_down; [done|]. by apply Hso.
Qed.

Lemma child_element s p t sel q : Inv s -> element_at s p t -> q ∈ children sel p t -> exists v, element_at s q v.
Proof.
  intros I Ht Hq. unfold children in Hq. apply elem_of_list_fmap in Hq as (b & -> & Hb).
  apply elem_of_list_In, filter_In in Hb as [Hb _].
  exists b.2. apply heap_element; [done|]. eapply kids_heap; [by apply element_heap|]. by apply elem_of_list_In.
Qed.
Lemma field_findings_up sq qs fs : (forall q, q ∈ qs -> exists v, element_at s1 q v) ->
  field_findings s1 sq qs fs -> field_findings s2 sq qs fs.
Proof.
  intros Hel H. induction H as [|q qs t fs H1 H2 H3 H4 IH|q qs fs H1 H2 H3 IH|q qs fs H1 H2 IH]; [constructor|..];
    (assert (Hel' : forall q, q ∈ qs -> exists v, element_at s1 q v) by (intros x Hx; apply Hel; by constructor));
    destruct (Hel q (elem_of_list_here _ _)) as [v Hv].
  - apply ff_wrong; [by apply (has_type_same _ _ _ Hv)| |by apply el_up|by apply IH].
    intros H. apply H2. by apply (field_named_same _ _ _ Hv).
  - apply ff_right; [by apply (has_type_same _ _ _ Hv)|by apply (field_named_same _ _ _ Hv)|by apply IH].
  - apply ff_other; [|by apply IH]. intros H. apply H1. by apply (has_type_same _ _ _ Hv).
Qed.
Lemma has_status_same sq qs : (forall q, q ∈ qs -> exists v, element_at s1 q v) ->
  has_status s1 sq qs <-> has_status s2 sq qs.
Proof.
  intros Hel. split; intros (q & Hq & H1 & H2); exists q; (split; [done|]); destruct (Hel q Hq) as [v Hv];
    (split; [by apply (has_type_same _ _ _ Hv)|by apply (field_named_same _ _ _ Hv)]).
Qed.
Lemma method_findings_up sq m fs : method_findings s1 sq m fs -> method_findings s2 sq m fs.
Proof.
  intros [t name req sreq rett Ht Hd|t name req sreq rett rp rt fs1 Ht Hd Hr Hrt Hff Hst
         |t name req sreq rett rp rt fs1 a ix Ht Hd Hr Hrt Hff Hst Hix].
  - eapply mf_stream; [by apply el_up|done].
  - pose proof (fun q => child_element s1 rp rt a_field q I1 Hrt) as Hc.
    eapply mf_with; [by apply el_up|done|by apply returns_up|by apply el_up|by apply field_findings_up|].
    by apply has_status_same.
  - pose proof (fun q => child_element s1 rp rt a_field q I1 Hrt) as Hc.
    eapply mf_without with (a := a); [by apply el_up|done|by apply returns_up|by apply el_up|by apply field_findings_up| |].
    + intros H. apply Hst. by apply has_status_same.
    + revert Hix. unfold node_index. rewrite !rbind_get. cbn. rewrite (scope_same m t); [done|done|].
      eapply element_root_nil; [done|]. intros path. by rewrite Hd.
Qed.
End later.

(** ** Proofs: looking up a top-level element *)

Lemma find_kid_in sel kids (b : ptr * tree) : b ∈ kids -> sel (t_data b.2) = true ->
  exists b', b' ∈ kids /\ sel (t_data b'.2) = true /\ find_kid sel kids = Some b'.1.
Proof.
  induction kids as [|[q u] kids IH]; intros Hb Hs; [by apply elem_of_nil in Hb|]. cbn [find_kid].
  destruct (sel (t_data u)) eqn:E.
  - exists (q, u). split; [constructor|]. done.
  - apply elem_of_cons in Hb as [->|Hb]; [cbn in Hs; congruence|].
    destruct (IH Hb Hs) as (b' & H1 & H2 & H3). exists b'. split; [by constructor|]. done.
Qed.
Lemma kid_heap s g f (b : ptr * tree) : heap_at s (root g) = Some f -> b ∈ kids_at (root g) f ->
  exists j, b.1 = ((g, [j]) : ptr) /\ heap_at s (g, [j]) = Some b.2.
Proof.
  intros Hf Hb. pose proof (kids_heap _ _ _ _ Hf Hb) as H. unfold kids_at in Hb.
  apply elem_of_lookup_imap in Hb as (j & v & -> & _). exists j. done.
Qed.
Lemma heap_kid s g f i u : heap_at s (root g) = Some f -> heap_at s (g, [i]) = Some u ->
  ((g, [i]) : ptr, u) ∈ kids_at (root g) f.
Proof.
  unfold heap_at, kids_at. cbn. destruct (heap s !! g) as [f'|]; [|done]. intros [= ->] Hu.
  apply elem_of_lookup_imap. by exists i, u.
Qed.
Lemma lookup_only s g f i u sel k :
  Inv s -> heap_at s (root g) = Some f -> heap_at s (g, [i]) = Some u -> sel (t_data u) = true ->
  wrap_kind (t_data u) = Some k ->
  (forall j v, heap_at s (g, [j]) = Some v -> sel (t_data v) = true -> j = i) ->
  exists a s', lookup_kid (root g) sel k s = (Ret (Some (NAst k a (g, [i]))), s') /\ quiet s s' /\ Inv s' /\
    ftcache s' = ftcache s /\ cache s' !! VPtr (g, [i]) = Some (Some (NAst k a (g, [i]))).
Proof.
  intros I Hf Hu Hs Hk Honly. unfold lookup_kid. rewrite (rbind_val _ _ _ _ _ (kids_of_ok _ _ _ Hf)).
  destruct (find_kid_in sel (kids_at (root g) f) ((g, [i]), u)) as (b & Hb & Hsb & ->); [by eapply heap_kid|done|].
  destruct (kid_heap _ _ _ _ Hf Hb) as (j & Hbj & Hj). cbn beta iota. rewrite Hbj, (Honly _ _ Hj Hsb).
  destruct (wrap_as_ok k (g, [i]) u s I Hu Hk) as (a & s' & E & Q & I' & Hc & _).
  exists a, s'. rewrite (rbind_val _ _ _ _ _ E). split; [done|]. split; [done|]. split; [done|]. split; [|done].
  assert (Hk' : keeps same_ft (wrap_as k (g, [i])))
    by (apply keeps_wrap_as; unfold same_ft; try done; [congruence|apply same_ft_wrap]).
  specialize (Hk' s). by rewrite E in Hk'.
Qed.
Lemma top_name s path g f i u n : schema s -> loaded s path g f -> walk f [i] = Some u -> own_name (t_data u) = Some n ->
  fqn f [i] = Some (pkg_scope (the_package (t_kids f)) +:+ dotted [n]).
Proof.
  intros S (_ & Hf & Hd) Hw Hn. unfold fqn. rewrite Hw, Hn.
  destruct (sc_heap _ S _ _ Hf) as (path' & els & -> & _). reflexivity.
Qed.
Lemma top_unique s path g f i j u v n : schema s -> unique_names s -> loaded s path g f ->
  walk f [i] = Some u -> walk f [j] = Some v -> own_name (t_data u) = Some n -> own_name (t_data v) = Some n -> j = i.
Proof.
  intros S U Hl Hi Hj Hn Hm.
  pose proof (top_name _ _ _ _ _ _ _ S Hl Hi Hn) as H1. pose proof (top_name _ _ _ _ _ _ _ S Hl Hj Hm) as H2.
  destruct (U _ _ _ _ _ _ _ _ _ Hl Hl H1 H2) as [_ [= ->]]. done.
Qed.

Lemma same_loaded s t path g f : same_schema s t -> loaded s path g f <-> loaded t path g f.
Proof. intros (A & B & _). unfold loaded. by rewrite A, B. Qed.
Lemma same_capture s t s2 : same_schema s t -> no_capture s s2 -> no_capture t s2.
Proof.
  intros H Hc n q (p & u & (path & f & Hl & Hw) & Hr) Hq Hd.
  destruct (Hc n q) as (path' & g & f' & π & Hl' & Hf); [|done|done|].
  - exists p, u. split; [|done]. exists path, f. split; [by apply (same_loaded _ _ _ _ _ H)|done].
  - exists path', g, f', π. split; [by apply (same_loaded _ _ _ _ _ H)|done].
Qed.
Lemma only_loads_app e l1 l2 : forall s1 s2 s3, only_loads e l1 s1 s2 -> only_loads e l2 s2 s3 ->
  only_loads e (l1 ++ l2) s1 s3.
Proof.
  induction l1 as [|path l1 IH]; intros s1 s2 s3 H1 H2; inversion H1; subst; [done|].
  eapply ol_file; [done|]. by eapply IH.
Qed.

(** ** Proofs: the loop over the services *)

Section program.
Context (e : env) (s0 sL : registry) (sq : string) (ps : ptr) (b : N) (ca : N) (class : ptr).
Context (first : string) (services : list (string * string)).
Notation st := (NAst KMessage b ps).
Hypothesis He : env_ok e.
Hypothesis J0 : just_loaded s0.
Hypothesis JL : just_loaded sL.
Hypothesis UL : unique_names sL.
Hypothesis PL : packages_first sL.
Hypothesis Hempty : ~ is_loaded sL "".
Hypothesis Hcap : forall before after s, services = (before ++ after)%list ->
  only_loads e (first :: map fst before) s0 s -> no_capture s sL.
Hypothesis Hclass : found s0 ".google.protobuf.MethodOptions" (NAst KMessage ca class).

Lemma TL : tidy sL.
Proof. split; [by apply calm_complete, just_loaded_calm|done]. Qed.
Lemma IL : Inv sL.
Proof. by apply reachable_Inv, calm_reachable, just_loaded_calm. Qed.

Lemma lint_services_ok rest : forall before l u fs,
  services = (before ++ rest)%list ->
  only_loads e (first :: map fst before) s0 l -> only_loads e (map fst rest) l sL ->
  same_schema l u -> calm u -> cache u !! VPtr ps = Some (Some st) -> names u !! sq = Some ps ->
  (forall a q res, ftcache u !! (a, q) = Some res ->
     (exists t, heap_at u q = Some t) /\ (is_node res st = true <-> has_type sL sq q)) ->
  Forall (fine_service sL) rest ->
  exists fss fuel0, Forall2 (service_findings sL sq) rest fss /\
    forall fuel, fuel0 <= fuel -> exists s', lint_services e fuel st rest fs u = (Ret (fs ++ concat fss)%list, s').
Proof.
  induction rest as [|[path name] rest IH]; intros before l u fs Hsv Hl HL Hlu Cu Hst Hnm Hft Hfine.
  { exists [], 0. split; [constructor|]. intros fuel _. exists u. cbn. by rewrite app_nil_r. }
  inversion HL as [|? ? ? l1 ? fuel1 f1 E1 HL1]; subst; cbn [map fst] in *.
  assert (Jl : just_loaded l) by (by eapply only_loads_just).
  assert (Il : Inv l) by (by apply reachable_Inv, calm_reachable, just_loaded_calm).
  destruct (proto_ret_next _ _ _ _ _ _ Il He E1) as (a1 & g1 & -> & _).
  assert (Hl1 : only_loads e (first :: map fst (before ++ [(path, name)])) s0 l1).
  { rewrite map_app. apply (only_loads_app e (first :: map fst before) [path] s0 l l1); [done|].
    eapply ol_file; [exact E1|constructor]. }
  assert (Jl1 : just_loaded l1) by (by eapply only_loads_just).
  destruct (load_same e fuel1 fuel1 path l u _ _ _ _ (Nat.le_refl _) Hlu E1) as (u1 & Eu & Hlu1).
  assert (Iu : Inv u) by (by apply reachable_Inv, calm_reachable).
  assert (Cu1 : calm u1) by (by eapply calm_loads).
  assert (Iu1 : Inv u1) by (by apply reachable_Inv, calm_reachable).
  destruct (proto_ok _ _ _ _ _ _ He (proj1 Iu) Eu) as (_ & Gu & _).
  (* what the load keeps *)
  assert (Hkeep : cache u1 = cache u /\ ftcache u1 = ftcache u).
  { destruct (proto_ok _ _ _ _ _ _ He (proj1 Iu) Eu) as (_ & _ & H).
    inversion H as [| |els s1 ? ? ? ? (A & B & _)|els o s1 ? ? ? ? ? Hne]; subst; [done| |by exfalso; eapply Hne].
    done. }
  destruct Hkeep as [Hc1 Hf1].
  (* the files of u1 and of sL *)
  assert (Hup : forall path g f, loaded u1 path g f -> loaded sL path g f).
  { intros pth g f Hld. eapply only_loads_grow; [done|exact Jl1|exact HL1|]. by apply (same_loaded _ _ _ _ _ Hlu1). }
  assert (Hmore : has_files_of u1 sL) by (intros pth f [g Hg]; exists g; by apply Hup).
  pose proof (less_tidy u1 sL (calm_complete _ Cu1) TL Hmore) as Tu1.
  assert (Hcap1 : no_capture u1 sL).
  { eapply same_capture; [exact Hlu1|]. eapply Hcap; [|exact Hl1]. by rewrite <- app_assoc. }
  pose proof (fun p t => el_up u1 sL Hup p t) as Hel.
  assert (Hmu : forall path g f, loaded u path g f -> loaded u1 path g f) by (intros pth g f; by apply loaded_grows).
  assert (Tu : tidy u).
  { apply (less_tidy u sL (calm_complete _ Cu) TL). intros pth f [g Hg]. exists g. by apply Hup, Hmu. }
  assert (T0 : tidy s0).
  { apply (less_tidy s0 sL); [by apply calm_complete, just_loaded_calm|apply TL|].
    intros pth f [g Hg]. exists g. eapply only_loads_grow; [done|exact J0| |exact Hg].
    eapply only_loads_app; [exact Hl1|exact HL1]. }
  (* the status message *)
  assert (Hst1 : cache u1 !! VPtr ps = Some (Some st)) by (by rewrite Hc1).
  assert (Hnm1 : names u1 !! sq = Some ps) by (exact (names_up u u1 Tu Tu1 Hmu _ _ Hnm)).
  assert (Hfound : found u1 sq st).
  { unfold found, node_by_full_name. rewrite rbind_get, Hnm1. by rewrite (wrap_hit _ _ _ Hst1). }
  destruct (found_index u1 sq st Cu1 Hfound) as (? & ? & ? & pt & [= <- <- <-] & Hpt & Hname); [done|].
  assert (Hpaths : forall path g f, loaded u1 path g f -> path <> "").
  { intros pth g f Hld ->. apply Hempty. exists g, f. by apply Hup. }
  assert (Hclass1 : exists ca', found u1 ".google.protobuf.MethodOptions" (NAst KMessage ca' class)).
  { assert (I0 : Inv s0) by (by apply reachable_Inv, calm_reachable, just_loaded_calm).
    assert (H01 : forall path g f, loaded s0 path g f -> loaded u1 path g f).
    { intros pth g f Hg. apply (same_loaded _ _ _ _ _ Hlu1).
      eapply only_loads_grow; [done|exact J0|exact Hl1|exact Hg]. }
    exact (found_up s0 u1 I0 Iu1 T0 Tu1 H01 _ _ _ _ Hclass). }
  destruct Hclass1 as [ca1 Hclass1].
  assert (Hft1 : ft_ok u1 sq b ps u1).
  { intros a q res Hq. rewrite Hf1 in Hq. destruct (Hft a q res Hq) as [[t Ht] Hiff].
    assert (Ht1 : heap_at u1 q = Some t) by (by eapply ext_heap_at).
    split; [by exists t|]. rewrite Hiff. symmetry. eapply (has_type_same u1 sL); try done; [apply IL|apply TL|].
    by apply heap_element. }
  (* the service *)
  apply Forall_cons_1 in Hfine as [(p & t & (g & f & i & t' & Hld & -> & Ht' & Hdt) & Ht & Hso & Hno) Hfine].
  pose proof (element_fun _ _ _ _ Ht Ht') as ->. cbn [fst snd] in *.
  destruct (proto_returns_loaded _ _ _ _ _ _ He (proj1 Iu) Eu) as (g' & f' & [= <-] & Hld' & _).
  destruct (loaded_fun _ _ _ _ _ _ Hld (Hup _ _ _ Hld')) as [-> ->].
  assert (Hwi : walk f [i] = Some t).
  { apply element_heap in Ht. destruct Hld as (_ & Hf & _). unfold heap_at in Ht. cbn [fst snd] in Ht. by rewrite Hf in Ht. }
  assert (Htu : element_at u1 (g, [i]) t) by (by exists path, f).
  assert (Hroot : heap_at u1 (root g) = Some f) by (destruct Hld' as (_ & Hf & _); unfold heap_at; cbn; by rewrite Hf).
  destruct (lookup_only u1 g f i t (fun d => match d with DService n => String.eqb n name | _ => false end) KService)
    as (as_ & u2 & E2 & Q2 & I2 & Hft2 & _); [done|done|by apply element_heap|rewrite Hdt; apply String.eqb_refl|by rewrite Hdt| |].
  { intros j v Hv Hs. destruct Hld' as (Hp' & Hf & Hd'). unfold heap_at in Hv. cbn [fst snd] in Hv. rewrite Hf in Hv.
    eapply (top_unique u1 path g f i j t v name); [exact (proj1 Iu1)|exact (proj1 (proj2 Tu1))|done|exact Hwi|exact Hv|by rewrite Hdt|].
    destruct (t_data v); try discriminate Hs. apply String.eqb_eq in Hs as ->. done. }
  destruct (lint_service_ok u1 sq b ps Iu1 Hst1 Hfound Hname Hpaths fs (g, [i]) t u2 ca1 class)
    as (fss1 & u3 & E3 & Q3 & I3 & Hft3 & HF); [done|done| |done|done| | |].
  { intros a q res. rewrite Hft2. apply Hft1. }
  { intros m Hm. destruct (child_element u1 _ _ _ _ Iu1 Htu Hm) as [v Hv].
    eapply (sound_method_down u1 sL Iu1 IL Tu1 TL Hup Hcap1); [exact Hv|by apply Hso]. }
  { intros m mt q oname Hm Hmt Hq (qt & lit & Hqt & Hdq). apply (Hno m mt q oname); [done|by apply Hel|done|].
    exists qt, lit. split; [by apply Hel|done]. }
  pose proof (quiet_trans _ _ _ Q2 Q3) as Q13.
  destruct (IH (before ++ [(path, name)])%list l1 u3 (fs ++ concat fss1)%list) as (fss & fuel2 & HFs & Hrun).
  - by rewrite <- app_assoc.
  - done.
  - done.
  - eapply same_schema_trans; [exact Hlu1|by apply quiet_same].
  - assert (u3 = (lint_service st (g, [i]) fs u2).2) as -> by (by rewrite E3).
    assert (u2 = (file_service (root g) name u1).2) as -> by (unfold file_service; by rewrite E2).
    apply (hist_client CalmLoads); [|apply client_lint_service].
    apply (hist_client CalmLoads); [done|]. apply cl_api. constructor.
  - by apply (q_cache _ _ Q13).
  - by rewrite (q_names _ _ Q13).
  - intros a q res Hq. destruct (Hft3 a q res Hq) as [[v Hv] Hiff].
    split; [exists v; by rewrite (quiet_heap_at _ _ _ Q13)|]. rewrite Hiff.
    eapply (has_type_same u1 sL); try done; [apply IL|apply TL|]. by apply heap_element.
  - done.
  - exists (concat fss1 :: fss), (fuel1 + fuel2). split.
    + constructor; [|done]. exists (g, [i]), t, fss1. split; [exists g, f, i, t; done|]. split; [done|]. split; [|done].
      eapply Forall2_impl; [exact HF|]. intros m fs1. apply (method_findings_up u1 sL Iu1 IL Tu1 TL Hup Hcap1).
    + intros fuel Hfu. destruct (Hrun fuel) as [s' Hs']; [lia|]. exists s'. cbn [lint_services].
      assert (Hle : fuel1 <= fuel) by lia.
      rewrite (rbind_val _ _ _ _ _ (load_fuel _ _ _ _ _ _ _ He (proj1 Iu) Hle Eu)). cbn beta iota.
      unfold file_service. rewrite (rbind_val _ _ _ _ _ E2). cbn beta iota.
      rewrite (rbind_val _ _ _ _ _ E3), Hs'. cbn [concat]. by rewrite app_assoc.
Qed.
End program.

(** ** The theorem *)

(** The whole program of the README: it loads meta/v1/status.proto and then, one after the other, the
    files of the services, and lints each service as soon as its file is there.  With enough fuel it
    returns, and for every service, in the order of the list, it reports exactly what should be reported
    with all the files in view.  The conditions: the loads succeed and [sL] is what they give; names are
    unique; meta/v1/status.proto declares the message ResponseStatus and has no extend block of that
    name; the services are fine; and a file of a later service declares nothing that a reference in the
    earlier files might mean. *)
Theorem C69_program e fuel0 s0 sL services g f i t a sq ca class :
  env_ok e -> new_registry e fuel0 = Ret (inr s0) ->
  only_loads e ("meta/v1/status.proto" :: map fst services) s0 sL ->
  unique_names sL -> packages_first sL -> ~ is_loaded sL "" ->
  (forall before after s, services = (before ++ after)%list ->
     only_loads e ("meta/v1/status.proto" :: map fst before) s0 s -> no_capture s sL) ->
  loaded sL "meta/v1/status.proto" g f -> element_at sL (g, [i]) t ->
  t_data t = DMessage "ResponseStatus" false ->
  (forall j u, element_at sL (g, [j]) u -> t_data u <> DMessage "ResponseStatus" true) ->
  found sL sq (NAst KMessage a (g, [i])) ->
  found s0 ".google.protobuf.MethodOptions" (NAst KMessage ca class) ->
  Forall (fine_service sL) services ->
  exists fss fuel1, Forall2 (service_findings sL sq) services fss /\
    forall fuel, fuel1 <= fuel -> exists s', linter e fuel services s0 = (Ret (concat fss), s').
Proof.
  intros He E0 HL UL PL Hempty Hcap Hld Ht Hd Hext Hfound Hclass Hfine.
  assert (J0 : just_loaded s0) by (by eapply jl_new).
  assert (JL : just_loaded sL) by (by eapply only_loads_just).
  inversion HL as [|? ? ? l ? fuel1 f1 E1 HL1]; subst.
  assert (Jl : just_loaded l) by (eapply jl_load; [exact He|exact J0|exact E1]).
  assert (I0 : Inv s0) by (by apply reachable_Inv, calm_reachable, just_loaded_calm).
  assert (Il : Inv l) by (by apply reachable_Inv, calm_reachable, just_loaded_calm).
  assert (IL' : Inv sL) by (by apply reachable_Inv, calm_reachable, just_loaded_calm).
  destruct (proto_returns_loaded _ _ _ _ _ _ He (proj1 I0) E1) as (g' & f' & -> & Hld' & _).
  assert (Hup : forall path g f, loaded l path g f -> loaded sL path g f).
  { intros pth x y Hx. eapply only_loads_grow; [done|exact Jl|exact HL1|done]. }
  destruct (loaded_fun _ _ _ _ _ _ Hld (Hup _ _ _ Hld')) as [-> ->].
  assert (TL' : tidy sL) by (split; [by apply calm_complete, just_loaded_calm|done]).
  assert (Tl : tidy l).
  { apply (less_tidy l sL); [by apply calm_complete, just_loaded_calm|done|].
    intros pth x [y Hy]. exists y. by apply Hup. }
  assert (Hw : forall j, walk f [j] = None \/ exists u, walk f [j] = Some u /\ element_at sL (g, [j]) u /\ element_at l (g, [j]) u).
  { intros j. destruct (walk f [j]) as [u|] eqn:Hj; [|by left]. right. exists u. split; [done|].
    split; by exists "meta/v1/status.proto", f. }
  assert (Hwi : walk f [i] = Some t).
  { apply element_heap in Ht. destruct Hld as (_ & Hf & _). unfold heap_at in Ht. cbn [fst snd] in Ht. by rewrite Hf in Ht. }
  assert (Htl : element_at l (g, [i]) t) by (by exists "meta/v1/status.proto", f).
  assert (Hroot : heap_at l (root g) = Some f) by (destruct Hld' as (_ & Hf & _); unfold heap_at; cbn; by rewrite Hf).
  destruct (lookup_only l g f i t (fun d => match d with DMessage n _ => String.eqb n "ResponseStatus" | _ => false end) KMessage)
    as (b & u & E2 & Q2 & I2 & Hft2 & Hc2); [done|done|by apply element_heap|rewrite Hd; apply String.eqb_refl|by rewrite Hd| |].
  { intros j v Hv Hs. destruct (Hw j) as [Hj|(v' & Hj & HjL & Hjl)].
    - exfalso. destruct Hld' as (_ & Hf & _). unfold heap_at in Hv. cbn [fst snd] in Hv. rewrite Hf in Hv. congruence.
    - apply element_heap in Hjl. assert (v' = v) as -> by congruence.
      destruct (t_data v) as [| | | | | |n x| | | | | | | | | | | |] eqn:Hdv; try discriminate Hs.
      apply String.eqb_eq in Hs as ->. destruct x; [exfalso; by apply (Hext j v)|].
      eapply (top_unique l "meta/v1/status.proto" g f i j t v "ResponseStatus");
        [exact (proj1 Il)|exact (proj1 (proj2 Tl))|done|exact Hwi|exact Hj|by rewrite Hd|by rewrite Hdv]. }
  assert (Hnl : names l !! sq = Some (g, [i])).
  { destruct (found_at _ _ _ _ _ IL' Hfound) as (Hn & _).
    destruct (sc_names _ (proj1 IL') _ _ Hn) as (fL & HfL & Hq). cbn [fst snd] in HfL, Hq.
    assert (fL = f) as -> by (destruct Hld as (_ & Hf & _); congruence).
    destruct (declared_named l _ _ _ _ _ (proj1 Tl) Hld' Hq) as (p & Hp).
    rewrite (names_up l sL Tl TL' Hup _ _ Hp) in Hn. by injection Hn as ->. }
  destruct (lint_services_ok e s0 sL sq (g, [i]) b ca class "meta/v1/status.proto" services He J0 JL UL PL Hempty Hcap Hclass
    services [] l u []) as (fss & fuel2 & HF & Hrun); try done.
  - eapply ol_file; [exact E1|constructor].
  - by apply quiet_same.
  - assert (u = (file_message (root g) "ResponseStatus" l).2) as -> by (unfold file_message; by rewrite E2).
    apply (hist_client CalmLoads); [by apply just_loaded_calm|]. apply cl_api. constructor.
  - by rewrite (q_names _ _ Q2).
  - intros x q res. rewrite Hft2, (proj2 (just_loaded_empty _ Jl)), lookup_empty. done.
  - exists fss, (fuel1 + fuel2). split; [done|]. intros fuel Hfu. destruct (Hrun fuel) as [s' Hs']; [lia|].
    exists s'. unfold linter.
    assert (Hle : fuel1 <= fuel) by lia.
    rewrite (rbind_val _ _ _ _ _ (load_fuel _ _ _ _ _ _ _ He (proj1 I0) Hle E1)). cbn beta iota.
    unfold file_message. rewrite (rbind_val _ _ _ _ _ E2). cbn beta iota. rewrite Hs'. done.
Qed.
