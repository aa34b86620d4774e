(** * Theorems on go_package: C44, C45. *)
From Verif Require Export ThmValuePos ThmEverything.

(** ** Specification *)

Definition has_semicolon (x : string) : Prop := exists a b, x = a +:+ ";" +:+ b.
(** The text of a go_package option, its path and its name. *)
Inductive splits : string -> go_package_opt -> Prop :=
| sp_path x : ~ has_semicolon x -> splits x (mkGoPkg x "")
| sp_both a b : ~ has_semicolon a -> splits (a +:+ ";" +:+ b) (mkGoPkg a b).

Definition go_package_field := ".google.protobuf.FileOptions.go_package".

(** The descriptor's FileOptions message [class] has one field go_package, [G]. *)
Definition descriptor_has (s : registry) (class G : ptr) : Prop :=
  (exists a, found s ".google.protobuf.FileOptions" (NAst KMessage a class)) /\
  (exists a, found s go_package_field (NAst KField a G)) /\
  exists ct, element_at s class ct /\ children (plain_field_named "go_package") class ct = [G].

(** An element GoPackage passes by: an option statement about another field (in the root scope), or an
    element that has a node. *)
Definition passed_by (s : registry) (class G q : ptr) : Prop :=
  exists u, element_at s q u /\
    if an_option (t_data u)
    then exists oname f, statement s q oname /\ option_target s [] class oname f /\ f <> G
    else represented_by (t_data u) <> None.

(** ** Proofs *)

Lemma index_byte_none x : index_byte ";" x = None <-> ~ has_semicolon x.
Proof.
  split.
  - intros H (a & b & ->). induction a as [|c a IH].
    + rewrite sapp_nil_l in H. rewrite sapp_cons in H. cbn in H. done.
    + rewrite sapp_cons in H. cbn [index_byte] in H. destruct (Ascii.eqb c ";"); [done|].
      destruct (index_byte ";" _); [done|by apply IH].
  - induction x as [|c x IH]; [done|]. intros H. cbn [index_byte].
    destruct (Ascii.eqb_spec c ";") as [->|Hc].
    + destruct H. exists "", x. done.
    + rewrite IH; [done|]. intros (a & b & ->). apply H. exists (String c a), b. by rewrite sapp_cons.
Qed.
Lemma index_byte_some x i : index_byte ";" x = Some i ->
  ~ has_semicolon (str_take i x) /\ x = str_take i x +:+ ";" +:+ str_drop (S i) x.
Proof.
  revert i. induction x as [|c x IH]; intros i; [done|]. cbn [index_byte].
  destruct (Ascii.eqb_spec c ";") as [->|Hc].
  - intros [= <-]. split; [|done]. intros (a & b & H). cbn in H. destruct a; discriminate H.
  - destruct (index_byte ";" x) as [j|] eqn:E; [|done]. intros [= <-].
    destruct (IH j eq_refl) as [H1 H2]. cbn [str_take]. split.
    + intros (a & b & H). destruct a as [|d a].
      * rewrite sapp_nil_l, sapp_cons in H. injection H as -> _. done.
      * rewrite sapp_cons in H. injection H as <- H. apply H1. by exists a, b.
    + rewrite sapp_cons. cbn [str_drop]. f_equal. exact H2.
Qed.
Lemma split_splits x :
  splits x (match index_byte ";" x with
            | None => mkGoPkg x ""
            | Some i => mkGoPkg (str_take i x) (str_drop (S i) x)
            end).
Proof.
  destruct (index_byte ";" x) as [i|] eqn:E.
  - destruct (index_byte_some _ _ E) as [H1 H2]. rewrite H2 at 1. by constructor.
  - constructor. by apply index_byte_none.
Qed.
Lemma semicolon_unique a b a' b' : a +:+ ";" +:+ b = a' +:+ ";" +:+ b' -> ~ has_semicolon a -> ~ has_semicolon a' ->
  a' = a /\ b' = b.
Proof.
  revert a'. induction a as [|c a IH]; intros a' H Ha Ha'.
  - destruct a' as [|c' a']; [injection H as ->; done|].
    change (String ";" b = String c' (a' +:+ ";" +:+ b')) in H. injection H as <- ->. destruct Ha'. by exists "", a'.
  - destruct a' as [|c' a'].
    + change (String c (a +:+ ";" +:+ b) = String ";" b') in H. injection H as -> <-. destruct Ha. by exists "", a.
    + rewrite !sapp_cons in H. injection H as -> H. destruct (IH a' H) as [-> ->].
      * intros (x & y & ->). apply Ha. exists (String c' x), y. by rewrite sapp_cons.
      * intros (x & y & ->). apply Ha'. exists (String c' x), y. by rewrite sapp_cons.
      * done.
Qed.
Lemma splits_fun x g g' : splits x g -> splits x g' -> g' = g.
Proof.
  intros H1 H2. destruct H1 as [x Hx|a b Ha]; inversion H2 as [x' Hx' E|a' b' Ha' E]; subst.
  - done.
  - destruct Hx. by exists a', b'.
  - destruct Hx'. by exists a, b.
  - by destruct (semicolon_unique a b a' b') as [-> ->].
Qed.

Lemma found_names_at s q k a p : Inv s -> found s q (NAst k a p) -> names s !! q = Some p.
Proof. intros I H. by destruct (found_at _ _ _ _ _ I H). Qed.

(** ** C44 *)

(** GoPackageOption of an option of the go_package field gives the path and the name of its text: the
    text itself and no name if there is no semicolon, what is before and after the first one otherwise
    ([splits] is a function of the text).  For options of other fields and for other nodes it is nil.
    The registry is not changed. *)
Theorem C44_split s o f lit G a :
  reachable s -> option_with s o f lit -> found s go_package_field (NAst KField a G) ->
  (f = G -> exists g, go_package_option (NOption o) s = (Ret (Some g), s) /\ splits (lit_source lit) g) /\
  (f <> G -> go_package_option (NOption o) s = (Ret None, s)).
Proof.
  intros Hs ((t & nm & Ht & Hd) & <- & _) Hf. pose proof (reachable_Inv _ Hs) as I.
  cbn [go_package_option]. rewrite rbind_get. unfold go_package_field in Hf. rewrite (found_names_at _ _ _ _ _ I Hf). split.
  - intros ->. rewrite bool_decide_true by done. cbn [negb].
    rewrite (rbind_val _ _ _ _ _ (deref_ok _ _ _ (element_heap _ _ _ Ht))), Hd.
    pose proof (split_splits (lit_source lit)) as H. destruct (index_byte ";" (lit_source lit)); eexists; (split; [reflexivity|done]).
  - intros H. by rewrite bool_decide_false by done.
Qed.
Theorem C44_unique x g g' : splits x g -> splits x g' -> g' = g.
Proof. apply splits_fun. Qed.
Theorem C44_other_nodes s n : match n with NOption _ => False | _ => True end ->
  go_package_option n s = (Ret None, s).
Proof. by destruct n. Qed.
(** Without go_package in the descriptor it panics on every option. *)
Theorem C44_no_descriptor s o : reachable s -> unknown s go_package_field ->
  go_package_option (NOption o) s = (Panic (PError (ENew "no go_package option detected in registry")), s).
Proof.
  intros Hs Hu. pose proof (reachable_Inv _ Hs) as I. cbn [go_package_option]. rewrite rbind_get.
  unfold go_package_field in Hu. by rewrite (proj1 (unknown_names _ _ I) Hu).
Qed.
Theorem C44_valid g : go_package_valid g = true <-> gp_path g <> "" /\ gp_name g <> "".
Proof.
  unfold go_package_valid. destruct (String.eqb_spec (gp_path g) ""), (String.eqb_spec (gp_name g) ""); cbn; naive_solver.
Qed.

(** ** C45 *)

Definition gp_name_text := "(.google.protobuf.FileOptions).go_package".
Definition gp_body (c : option go_package_opt) (a : option node) : R (option go_package_opt * bool) :=
  match a with
  | Some (NOption o) =>
      nm <~ option_name o ;;
      if negb (String.eqb nm "(.google.protobuf.FileOptions).go_package") then ret (c, true)
      else r <~ go_package_option (NOption o) ;; ret (r, false)
  | _ => ret (c, true)
  end.

Lemma sapp_inj_l a b c : a +:+ b = a +:+ c -> b = c.
Proof. induction a as [|x a IH]; [done|]. rewrite !sapp_cons. intros [= H]. by apply IH. Qed.

(** the name of an option of another field is not the name of go_package *)
Lemma other_name s class G q o s' : calm s -> descriptor_has s class G -> about s [] class q o -> o_field o <> G ->
  Inv s' -> quiet s s' -> exists nm, option_name o s' = (Ret nm, s') /\ nm <> "(.google.protobuf.FileOptions).go_package".
Proof.
  intros Hs ([ca Hcl] & [ga HG] & ct & Hct & Hch) Ha Hne I' Q.
  pose proof (reachable_Inv _ (calm_reachable _ Hs)) as I.
  destruct Ha as (Hq & Hc & oname & Hst & Hot). destruct (target_element _ _ _ _ _ I Hot) as (t & Ht & Hp).
  rewrite <- (quiet_heap_at _ _ _ Q) in Ht.
  unfold option_name. case_bool_decide as Hpar.
  - rewrite rbind_get, (rbind_val _ _ _ _ _ (deref_ok _ _ _ Ht)). eexists. split; [reflexivity|].
    rewrite Hc. assert (scope_of s' (VPtr class) = ".google.protobuf.FileOptions") as ->.
    { unfold scope_of. rewrite (q_scopes _ _ Q). exact (field_scope _ _ _ _ _ Hs Hcl ltac:(done)). }
    intros Heq. apply Hne.
    assert (Hn : data_name (t_data t) = "go_package").
    { apply (sapp_inj_l "(.google.protobuf.FileOptions)."). exact Heq. }
    assert (Hin : o_field o ∈ children (plain_field_named "go_package") class ct).
    { rewrite Hc in Hpar. destruct (o_field o) as [g [|i π]]; [done|]. cbn in Hpar. injection Hpar as <-.
      rewrite (quiet_heap_at _ _ _ Q) in Ht. destruct (heap_at_parent _ _ _ _ _ Ht) as (u & Hu & Hi).
      apply element_heap in Hct. assert (u = ct) as -> by congruence.
      unfold children. apply elem_of_list_fmap. exists ((g, i :: π), t). split; [done|].
      apply elem_of_list_In, filter_In. split.
      - apply elem_of_list_In, elem_of_lookup_imap. exists i, t. done.
      - cbn [snd]. destruct (t_data t); try done. cbn in Hn. by rewrite Hn. }
    rewrite Hch in Hin. by apply elem_of_list_singleton in Hin.
  - destruct Hst as (u & lit & Hu & Hd). apply element_heap in Hu.
    rewrite <- (quiet_heap_at _ _ _ Q) in Hu. rewrite Hq, (rbind_val _ _ _ _ _ (deref_ok _ _ _ Hu)), Hd.
    eexists. split; [reflexivity|]. intros ->. apply Hne.
    assert (Hx : strip_parens "(.google.protobuf.FileOptions).go_package" = go_package_field) by reflexivity.
    assert (Hden : denotes s [] go_package_field go_package_field).
    { split; [by exists (NAst KField ga G)|]. left. split; [|done].
      by exists "google.protobuf.FileOptions.go_package". }
    destruct Hot as [y d a' f u' Hy Hyd Hf Hu' Hpu|y ct' f Hy Hno].
    + rewrite <- (refers_strip _ _ Hy), Hx in Hyd. rewrite (denotes_fun _ _ _ _ _ Hden Hyd) in Hf.
      pose proof (found_fun _ _ _ _ HG Hf). congruence.
    + rewrite <- (refers_strip _ _ Hy), Hx in Hno. by apply Hno in Hden.
Qed.

Lemma this_name s class G q o s' : calm s -> descriptor_has s class G -> about s [] class q o -> o_field o = G ->
  quiet s s' -> option_name o s' = (Ret "(.google.protobuf.FileOptions).go_package", s').
Proof.
  intros Hs ([ca Hcl] & [ga HG] & ct & Hct & Hch) Ha Heq Q.
  destruct Ha as (Hq & Hc & _).
  assert (Hin : G ∈ children (plain_field_named "go_package") class ct) by (rewrite Hch; constructor).
  destruct class as [g π]. apply elem_of_children in Hin as (i & u & -> & Hi & Hsel).
  unfold option_name. rewrite bool_decide_true by (by rewrite Heq, Hc).
  assert (Hu : heap_at s' (g, i :: π) = Some u).
  { rewrite (quiet_heap_at _ _ _ Q). apply element_heap in Hct. unfold heap_at in *. cbn [fst snd] in *.
    destruct (heap s !! g) as [f|]; [|done]. cbn [walk]. by rewrite Hct. }
  rewrite rbind_get, Heq, (rbind_val _ _ _ _ _ (deref_ok _ _ _ Hu)), Hc.
  assert (scope_of s' (VPtr (g, π)) = ".google.protobuf.FileOptions") as ->.
  { unfold scope_of. rewrite (q_scopes _ _ Q). exact (field_scope _ _ _ _ _ Hs Hcl ltac:(done)). }
  destruct (t_data u); try done. cbn in Hsel. apply String.eqb_eq in Hsel as ->. done.
Qed.

Lemma pass_step s class G b s1 p t : calm s -> descriptor_has s class G -> heap_at s p = Some t -> b ∈ kids_at p t ->
  passed_by s class G b.1 -> Inv s1 -> quiet s s1 ->
  exists y s2, pick_any opts_file b s1 = (Ret (Some y), s2) /\ quiet s1 s2 /\ Inv s2 /\
    gp_body None y s2 = (Ret (None, true), s2).
Proof.
  intros Hs HD Ht Hb (u & Hu & Hpass) I1 Q1. pose proof (reachable_Inv _ (calm_reachable _ Hs)) as I.
  pose proof (kids_heap _ _ _ _ Ht Hb) as Hbt. apply element_heap in Hu. assert (u = b.2) as -> by congruence.
  pose proof HD as ([ca Hcl] & _). unfold pick_any. destruct (an_option (t_data b.2)) eqn:Ho.
  - replace (is_option (t_data b.2)) with true by (by destruct (t_data b.2)).
    destruct Hpass as (oname & f & Hst & Hot & Hne).
    assert (Hw : well_named s b.1) by (eapply target_named; eauto).
    destruct ((cl <~ option_class opts_file ;; o <~ wrap_option b.1 cl ;; ret (Some (Some (NOption o)))) s1) as [x s2] eqn:E.
    destruct (root_option s opts_file ca class b s1 x s2 (fun o => Some (NOption o)) I Hcl Hbt Ho Hw I1 Q1 E)
      as [(o & -> & Q2 & I2 & Ha)|[Hno _]]; [|by apply (Hno _ _ Hst) in Hot].
    eexists _, s2. split; [reflexivity|]. split; [done|]. split; [done|]. cbn [gp_body].
    assert (Hfne : o_field o <> G).
    { destruct Ha as (_ & _ & oname' & Hst' & Hot').
      assert (oname' = oname) as ->.
      { destruct Hst as (v & l & Hv & Hdv), Hst' as (v' & l' & Hv' & Hdv'). apply element_heap in Hv, Hv'. congruence. }
      by rewrite (option_target_fun _ _ _ _ _ _ I Hot Hot'). }
    destruct (other_name s class G b.1 o s2 Hs HD Ha Hfne I2 (quiet_trans _ _ _ Q1 Q2)) as (nm & En & Hnm).
    rewrite (rbind_val _ _ _ _ _ En). by destruct (String.eqb_spec nm "(.google.protobuf.FileOptions).go_package").
  - replace (is_option (t_data b.2)) with false by (by destruct (t_data b.2)).
    rewrite represented_wrap in Hpass. destruct (wrap_kind (t_data b.2)) as [k|] eqn:Hk; [|done].
    assert (Hbs : heap_at s1 b.1 = Some b.2) by (by rewrite (quiet_heap_at _ _ _ Q1)).
    destruct (wrap_ok s1 b.1 b.2 k (proj2 I1) Hbs Hk) as (a & s2 & E & Q2 & _).
    rewrite (rbind_val _ _ _ _ _ E). eexists _, s2. split; [reflexivity|]. split; [done|].
    split; [|done]. eapply inv_step_ret; [apply inv_step_wrap|exact I1|exact E].
Qed.

Lemma pass_list s class G p t kids rest s1 : calm s -> descriptor_has s class G -> heap_at s p = Some t ->
  (forall b, b ∈ kids -> b ∈ kids_at p t /\ passed_by s class G b.1) -> Inv s1 -> quiet s s1 ->
  exists s2, Inv s2 /\ quiet s s2 /\
    iterate (pick_any opts_file) (kids ++ rest)%list (option go_package_opt) None gp_body s1 =
    iterate (pick_any opts_file) rest (option go_package_opt) None gp_body s2.
Proof.
  intros Hs HD Ht. revert s1. induction kids as [|b kids IH]; intros s1 Hall I1 Q1; [by exists s1|].
  destruct (Hall b (elem_of_list_here _ _)) as [Hb Hp].
  destruct (pass_step s class G b s1 p t Hs HD Ht Hb Hp I1 Q1) as (y & s2 & E & Q2 & I2 & Eb).
  destruct (IH s2) as (s3 & I3 & Q3 & E3); [|done|by eapply quiet_trans|].
  { intros b' Hb'. apply Hall. by constructor. }
  exists s3. split; [done|]. split; [done|]. cbn [app iterate].
  rewrite (rbind_val _ _ _ _ _ E). rewrite (rbind_val _ _ _ _ _ Eb). exact E3.
Qed.

Lemma kids_children p t : map fst (kids_at p t) = children everyone p t.
Proof.
  unfold children. f_equal. induction (kids_at p t) as [|b l IH]; [done|]. cbn [List.filter everyone]. by f_equal.
Qed.
Lemma everyone_split p t pre q post : children everyone p t = (pre ++ q :: post)%list ->
  exists kpre b kpost, kids_at p t = (kpre ++ b :: kpost)%list /\ map fst kpre = pre /\ b.1 = q.
Proof.
  rewrite <- kids_children. intros E. apply List.map_eq_app in E as (k1 & k2 & E & H1 & H2).
  destruct k2 as [|b k2]; [done|]. injection H2 as H2 _. exists k1, b, k2. done.
Qed.

(** The start: GoPackage ranges over Everything of the file of the node. *)
Lemma go_package_starts s p n : Inv s -> points_to s p n ->
  exists s1 t, Inv s1 /\ quiet s s1 /\ heap_at s (root p.1) = Some t /\
    go_package n s = iterate (pick_any opts_file) (kids_at (root p.1) t) (option go_package_opt) None gp_body s1.
Proof.
  intros I Hp. destruct (points_element _ _ _ Hp) as [u [path Hu]].
  destruct (node_file_ok _ _ _ _ _ I Hp Hu) as (m & s1 & E & Q & I1 & Hm).
  assert (exists a, m = NAst KFile a (root p.1)) as [a ->].
  { destruct Hm as (k & a & -> & Hc). destruct (nd_cache _ (proj2 I1) _ _ Hc) as (q & k' & b & t & [= <-] & [= <- <-] & Ht & Hk).
    destruct (element_root s1 p.1 t) as [x Hx]; [by apply heap_element|]. rewrite Hx in Hk. cbn in Hk. injection Hk as <-. eauto. }
  destruct Hu as (f & Hl & Hw). assert (Ht : heap_at s (root p.1) = Some f).
  { destruct Hl as (_ & Hf & _). unfold heap_at. cbn. by rewrite Hf. }
  exists s1, f. split; [done|]. split; [done|]. split; [done|].
  unfold go_package. rewrite (rbind_val _ _ _ _ _ E). unfold file_everything, iter_kids.
  rewrite <- (quiet_heap_at _ _ _ Q) in Ht. by rewrite (rbind_val _ _ _ _ _ (kids_of_ok _ _ _ Ht)).
Qed.

(** If the first go_package statement of the file of the node is preceded only by elements GoPackage
    passes by, GoPackage gives its text, split. *)
Theorem C45_go_package s p n class G t pre q post oname lit :
  calm s -> points_to s p n -> descriptor_has s class G -> element_at s (root p.1) t ->
  children everyone (root p.1) t = (pre ++ q :: post)%list ->
  (forall q', q' ∈ pre -> passed_by s class G q') ->
  (exists u, element_at s q u /\ t_data u = DOption oname lit) -> option_target s [] class oname G ->
  exists g, (go_package n s).1 = Ret (Some g) /\ splits (lit_source lit) g.
Proof.
  intros Hs Hp HD Ht Hch Hpre (u & Hu & Hdu) Hot. pose proof (reachable_Inv _ (calm_reachable _ Hs)) as I.
  destruct (go_package_starts s p n I Hp) as (s1 & t' & I1 & Q1 & Ht' & E). apply element_heap in Ht.
  assert (t' = t) as -> by congruence. rewrite E. clear E.
  destruct (everyone_split _ _ _ _ _ Hch) as (kpre & b & kpost & Hk & <- & <-).
  assert (Hin : forall b', b' ∈ kpre -> b' ∈ kids_at (root p.1) t /\ passed_by s class G b'.1).
  { intros b' Hb'. split; [rewrite Hk; apply elem_of_app; by left|]. apply Hpre. by apply elem_of_list_fmap_1. }
  rewrite Hk. destruct (pass_list s class G _ _ kpre (b :: kpost) s1 Hs HD Ht Hin I1 Q1) as (s2 & I2 & Q2 & E).
  rewrite E. clear E. cbn [iterate].
  assert (Hb : b ∈ kids_at (root p.1) t) by (rewrite Hk; apply elem_of_app; right; constructor).
  pose proof (kids_heap _ _ _ _ Ht Hb) as Hbt. apply element_heap in Hu as Hu'. assert (u = b.2) as -> by congruence.
  pose proof HD as ([ca Hcl] & [ga HG] & _).
  assert (Ho : an_option (t_data b.2) = true) by (by rewrite Hdu).
  assert (Hst : statement s b.1 oname) by (by exists b.2, lit).
  assert (Hw : well_named s b.1) by (eapply target_named; eauto).
  destruct (pick_any opts_file b s2) as [x s3] eqn:E. pose proof E as E'. unfold pick_any in E'.
  replace (is_option (t_data b.2)) with true in E' by (by destruct (t_data b.2)).
  destruct (root_option s opts_file ca class b s2 x s3 (fun o => Some (NOption o)) I Hcl Hbt Ho Hw I2 Q2 E')
    as [(o & -> & Q3 & I3 & Ha)|[Hno _]]; [|by apply (Hno _ _ Hst) in Hot].
  rewrite (rbind_val _ _ _ _ _ E).
  assert (Hof : o_field o = G).
  { destruct Ha as (_ & _ & oname' & Hst' & Hot').
    assert (oname' = oname) as ->.
    { destruct Hst as (v & l & Hv & Hdv), Hst' as (v' & l' & Hv' & Hdv'). apply element_heap in Hv, Hv'. congruence. }
    by rewrite (option_target_fun _ _ _ _ _ _ I Hot Hot'). }
  pose proof (quiet_trans _ _ _ Q2 Q3) as Q.
  destruct Ha as (Hq & Ha').
  assert (Hd3 : heap_at s3 (o_proto o) = Some b.2) by (by rewrite (quiet_heap_at _ _ _ Q), Hq).
  assert (Eg : exists g, go_package_option (NOption o) s3 = (Ret (Some g), s3) /\ splits (lit_source lit) g).
  { cbn [go_package_option]. rewrite rbind_get, (q_names _ _ Q).
    pose proof (found_names_at _ _ _ _ _ I HG) as HGn. unfold go_package_field in HGn. rewrite HGn.
    rewrite bool_decide_true by done. cbn [negb]. rewrite (rbind_val _ _ _ _ _ (deref_ok _ _ _ Hd3)), Hdu.
    pose proof (split_splits (lit_source lit)) as H. destruct (index_byte ";" (lit_source lit)); eexists; (split; [reflexivity|done]). }
  destruct Eg as (g & Eg & Hg). exists g. split; [|done].
  assert (Eb : gp_body None (Some (NOption o)) s3 = (Ret (Some g, false), s3)).
  { cbn [gp_body]. rewrite (rbind_val _ _ _ _ _ (this_name s class G b.1 o s3 Hs HD (conj Hq Ha') Hof Q)).
    rewrite String.eqb_refl. cbn [negb]. by rewrite (rbind_val _ _ _ _ _ Eg). }
  by rewrite (rbind_val _ _ _ _ _ Eb).
Qed.
(** If all elements are passed by, it gives nil. *)
Theorem C45_none s p n class G t :
  calm s -> points_to s p n -> descriptor_has s class G -> element_at s (root p.1) t ->
  (forall q', q' ∈ children everyone (root p.1) t -> passed_by s class G q') ->
  (go_package n s).1 = Ret None.
Proof.
  intros Hs Hp HD Ht Hpre. pose proof (reachable_Inv _ (calm_reachable _ Hs)) as I.
  destruct (go_package_starts s p n I Hp) as (s1 & t' & I1 & Q1 & Ht' & E). apply element_heap in Ht.
  assert (t' = t) as -> by congruence. rewrite E. clear E.
  assert (Hin : forall b', b' ∈ kids_at (root p.1) t -> b' ∈ kids_at (root p.1) t /\ passed_by s class G b'.1).
  { intros b' Hb'. split; [done|]. apply Hpre. rewrite <- kids_children. by apply elem_of_list_fmap_1. }
  destruct (pass_list s class G _ _ (kids_at (root p.1) t) [] s1 Hs HD Ht Hin I1 Q1) as (s2 & I2 & Q2 & E).
  rewrite app_nil_r in E. rewrite E. done.
Qed.
(** Builtin types are in no file. *)
Theorem C45_builtin s b : (forall g f, ~ loaded s "" g f) -> reachable s -> go_package (NBuiltin b) s = (Ret None, s).
Proof.
  intros Hno Hs. pose proof (reachable_Inv _ Hs) as [S _]. unfold go_package, node_file. cbn [node_pos].
  unfold rbind at 1. rewrite rbind_ret, rbind_get. cbn [p_file zero_pos].
  destruct (protos s !! "") as [g|] eqn:Hg; [|done]. exfalso.
  pose proof (proj1 (sc_protos _ S _ _) Hg) as [els Hels]. apply (Hno g (file_tree "" els)). done.
Qed.

(** The go_package of data.proto, asked of one of its messages; meta.proto has elements after its
    options only. *)
Lemma opt_statement s q t oname lit : Inv s -> heap_at s q = Some t -> t_data t = DOption oname lit -> statement s q oname.
Proof. intros I Ht Hd. exists t, lit. split; [by apply heap_element|done]. Qed.
Lemma pass_node s class G q u : Inv s -> heap_at s q = Some u -> an_option (t_data u) = false ->
  represented_by (t_data u) <> None -> passed_by s class G q.
Proof. intros I Hu Ho Hr. exists u. split; [by apply heap_element|]. by rewrite Ho. Qed.
Lemma demo_descriptor : descriptor_has demo_world (0, [2]) (0, [1; 2]).
Proof.
  split; [eexists; unfold found; vm_compute; reflexivity|]. split; [eexists; unfold found; vm_compute; reflexivity|].
  eexists. split; [apply demo_element; vm_compute; reflexivity|]. reflexivity.
Qed.
Example C44_example :
  exists o lit a, option_with demo_world o (0, [1; 2]) lit /\ found demo_world go_package_field (NAst KField a (0, [1; 2])) /\
    lit_source lit = "gopkg/pb;pb" /\ splits (lit_source lit) (mkGoPkg "gopkg/pb" "pb").
Proof.
  exists (mkOptn 0 (1, [2]) (0, [2]) (0, [1; 2])), (lit0 "gopkg/pb;pb"). eexists. split; [|split; [unfold found; vm_compute; reflexivity|]].
  - split; [|split; [done|]].
    + eexists _, _. split; [apply demo_element; vm_compute; reflexivity|reflexivity].
    + eexists _, _, _, _, _, _. split; [apply demo_element; vm_compute; reflexivity|reflexivity].
  - split; [done|]. apply (sp_both "gopkg/pb" "pb"). rewrite <- index_byte_none. reflexivity.
Qed.
Example C45_example :
  exists t post, calm demo_world /\ points_to demo_world (1, [1; 6]) (NAst KField 0 (1, [1; 6])) /\
    descriptor_has demo_world (0, [2]) (0, [1; 2]) /\ element_at demo_world (root 1) t /\
    children everyone (root 1) t = ([(1, [0]); (1, [1])] ++ (1, [2]) :: post)%list /\
    (forall q', q' ∈ [(1, [0]); (1, [1])] -> passed_by demo_world (0, [2]) (0, [1; 2]) q') /\
    (exists u, element_at demo_world (1, [2]) u /\ t_data u = DOption "go_package" (lit0 "gopkg/pb;pb")) /\
    option_target demo_world [] (0, [2]) "go_package" (0, [1; 2]) /\
    (go_package (NAst KField 0 (1, [1; 6])) demo_world).1 = Ret (Some (mkGoPkg "gopkg/pb" "pb")).
Proof.
  assert (I : Inv demo_world) by (apply reachable_Inv, demo_reachable).
  eexists _, _. split; [apply demo_calm|]. split.
  { split; [done|]. eexists. split; [apply demo_element; vm_compute; reflexivity|reflexivity]. }
  split; [apply demo_descriptor|]. split; [apply demo_element; vm_compute; reflexivity|].
  split; [reflexivity|]. split.
  { intros q' Hq. rewrite !elem_of_cons, elem_of_nil in Hq. destruct Hq as [->|[->|[]]];
      (eapply pass_node; [exact I|vm_compute; reflexivity|reflexivity|discriminate]). }
  split. { eexists. split; [apply demo_element; vm_compute; reflexivity|reflexivity]. }
  split; [|vm_compute; reflexivity].
  eapply ot_predefined; [apply (ref_plain "go_package"); reflexivity| |apply demo_element; vm_compute; reflexivity|reflexivity].
  intros q [[n Hn] [[[r Hr] _]|(_ & k & Hk & -> & _)]]; [discriminate Hr|].
  assert (k = 0) as -> by (cbn in Hk; lia). revert Hn. apply (proj2 (unknown_names _ _ I)). vm_compute. reflexivity.
Qed.

(** Elements without a node before the go_package statement make GoPackage panic:

      // a comment, detached by an empty line

      syntax = "proto3"; package g; option go_package = "x/y;y"; message M {} *)
Definition gc_f := "gc.proto".
Definition gc_elems : list tree :=
  [ el gc_f 1 DComment []; el gc_f 3 (DSyntax "proto3") []; el gc_f 4 (DPackage "g") [];
    opt gc_f 5 "go_package" "x/y;y"; msg gc_f 7 "M" [] ].
Definition gc_world : registry := world (std_files ++ [(gc_f, gc_elems)])%list [gc_f].
Theorem C45_comment_refuted :
  calm gc_world /\ loaded gc_world gc_f 1 (file_tree gc_f gc_elems) /\
  points_to gc_world (1, [4]) (NAst KMessage 0 (1, [4])) /\ statement gc_world (1, [3]) "go_package" /\
  (exists msg, (go_package (NAst KMessage 0 (1, [4])) gc_world).1 = Panic msg).
Proof.
  assert (Hs : calm gc_world) by (apply world_calm; vm_compute; reflexivity).
  assert (I : Inv gc_world) by (by apply reachable_Inv, calm_reachable).
  split; [exact Hs|]. split; [split; [|split]; vm_compute; reflexivity|].
  split. { split; [done|]. eexists. split; [apply heap_element; [exact I|vm_compute; reflexivity]|reflexivity]. }
  split; [|eexists; vm_compute; reflexivity].
  eapply opt_statement; [exact I|vm_compute; reflexivity|reflexivity].
Qed.
(** So does an option named relative to the package of the file, which Options understands:

      package g; import "google/protobuf/descriptor.proto";
      extend google.protobuf.FileOptions { bool tag = 50001; }
      option (tag) = true; option go_package = "x/y;y"; *)
Definition gr_elems : list tree :=
  [ el gc_f 1 (DPackage "g") []; el gc_f 2 (DImport desc_f) [];
    extb gc_f 3 "google.protobuf.FileOptions" [ fld gc_f 4 "bool" "tag" 50001 ];
    opt gc_f 5 "(tag)" "true"; opt gc_f 6 "go_package" "x/y;y" ].
Definition gr_world : registry := world (std_files ++ [(gc_f, gr_elems)])%list [gc_f].
Theorem C45_relative_option_refuted :
  calm gr_world /\ loaded gr_world gc_f 1 (file_tree gc_f gr_elems) /\
  (exists o1 o2, ((sq <~ options (NAst KFile 0 (1, [])) ;; collect sq) gr_world).1 = Ret [o1; o2] /\
     (go_package_option (NOption o2) gr_world).1 = Ret (Some (mkGoPkg "x/y" "y"))) /\
  (exists msg, (go_package (NAst KFile 0 (1, [])) gr_world).1 = Panic msg).
Proof.
  split; [apply world_calm; vm_compute; reflexivity|]. split; [split; [|split]; vm_compute; reflexivity|].
  split; [eexists _, _; split; [vm_compute; reflexivity|vm_compute; reflexivity]|]. eexists; vm_compute; reflexivity.
Qed.
