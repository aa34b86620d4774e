(** * C76: the program of the README's "Quick Start". *)
From Verif Require Export Quick ThmMain ThmRender2.
From Verif Require Import Frame Navigate Iterate ThmOptions ThmTypes ThmValues ThmAccessors ValueReads Demo ThmMore Identity Api Values.
Local Open Scope go_scope.
Local Open Scope string_scope.

(** ** What it prints *)

(** The line for the option statement at [q] of a file: the name of the option (the name in the
    statement; for a field [fname] of the options message itself, the full name of that message in
    parentheses, a dot and [fname]) and the text of the value that the literal denotes. *)
Definition option_shown (s : registry) (class : ptr) (f : ptr) (oname shown : string) : Prop :=
  (exists i t fname typ num rep opt, f = child class i /\ element_at s f t /\
     t_data t = DNormalField fname typ num rep opt /\ shown = "(.google.protobuf.FileOptions)." +:+ fname) \/
  ((forall i, f <> child class i) /\ shown = oname).
Definition option_line (fl : floatlib) (s : registry) (comps : list string) (class q : ptr) (line : string) : Prop :=
  exists t oname lit f w x shown,
    element_at s q t /\ t_data t = DOption oname lit /\ option_target s comps class oname f /\
    reads fl s f false lit w /\ prints fl s w x /\ option_shown s class f oname shown /\
    line = "File Option -> " +:+ shown +:+ ": " +:+ x +:+ newline.

(** What is wrong with the option statement at [q], and the panic value that says so: its name stands for
    no field, or its literal denotes no value of the type of that field. *)
Inductive option_fault (fl : floatlib) (s : registry) (comps : list string) (class q : ptr) (msg : payload) : Prop :=
| fault_name oname :
    statement s q oname -> (forall f, ~ option_target s comps class oname f) -> option_complaint s comps oname msg ->
    option_fault fl s comps class q msg
| fault_value t oname lit f c :
    element_at s q t -> t_data t = DOption oname lit -> option_target s comps class oname f ->
    fails fl s f false lit c -> says fl c msg -> option_fault fl s comps class q msg.

(** The lines for an element of the file: for a message its name, and one for each field (a oneof, as a
    whole, is one), nothing for any other element. *)
Definition field_text (message : string) (t : tree) : string :=
  match t_data t with
  | DNormalField f _ _ _ _ | DMapField f _ _ _ | DOneof f => "  Field: " +:+ message +:+ "." +:+ f +:+ newline
  | _ => ""
  end.
Definition message_text (t : tree) : string :=
  match t_data t with
  | DMessage name false =>
      "Message: " +:+ name +:+ newline +:+ String.concat "" (map (field_text name) (t_kids t))
  | _ => ""
  end.

(** ** Proofs *)

Lemma concat_cons x l : String.concat "" (x :: l) = x +:+ String.concat "" l.
Proof. destruct l as [|y l]; cbn [String.concat]; [by rewrite sapp_nil_r|]. done. Qed.

(** a loop over the children whose body appends a text *)
Lemma appending_loop (sel : data -> bool) (k : wkind) (text : tree -> string) (body : string -> node -> R (string * bool)) s0 :
  (forall d, sel d = true -> wrap_kind d = Some k) ->
  (forall t, sel (t_data t) = false -> text t = "") ->
  (forall (b : ptr * tree) a out s, Inv s -> quiet s0 s -> heap_at s b.1 = Some b.2 -> sel (t_data b.2) = true ->
     exists s', body out (NAst k a b.1) s = (Ret (out +:+ text b.2, true), s') /\ Inv s' /\ quiet s s') ->
  forall kids out s, Inv s -> quiet s0 s -> (forall b, b ∈ kids -> heap_at s0 b.1 = Some b.2) ->
  exists s', iterate (pick_kind sel k) kids string out body s
      = (Ret (out +:+ String.concat "" (map text (map snd kids))), s') /\ Inv s' /\ quiet s s'.
Proof.
  intros Hsel Htext Hbody kids. induction kids as [|b kids IH]; intros out s I Q Hk.
  - exists s. split; [|split; [done|apply quiet_refl]]. cbn. by rewrite sapp_nil_r.
  - cbn [iterate map]. rewrite concat_cons.
    assert (Hk' : forall b', b' ∈ kids -> heap_at s0 b'.1 = Some b'.2) by (intros; apply Hk; by constructor).
    destruct (sel (t_data b.2)) eqn:Hs.
    + assert (Hb : heap_at s b.1 = Some b.2).
      { rewrite (quiet_heap_at _ _ _ Q). apply Hk. constructor. }
      destruct (wrap_as_ok k b.1 b.2 s I Hb (Hsel _ Hs)) as (a & s1 & E1 & Q1 & I1 & _).
      assert (Ep : pick_kind sel k b s = (Ret (Some (NAst k a b.1)), s1)).
      { unfold pick_kind. rewrite Hs. by rewrite (rbind_val _ _ _ _ _ E1). }
      rewrite (rbind_val _ _ _ _ _ Ep).
      destruct (Hbody b a out s1 I1 (quiet_trans _ _ _ Q Q1)) as (s2 & E2 & I2 & Q2);
        [by rewrite (quiet_heap_at _ _ _ Q1)|done|].
      rewrite (rbind_val _ _ _ _ _ E2).
      destruct (IH (out +:+ text b.2) s2 I2 (quiet_trans _ _ _ Q (quiet_trans _ _ _ Q1 Q2)) Hk') as (s3 & E3 & I3 & Q3).
      exists s3. split; [rewrite E3; by rewrite sapp_assoc|]. split; [done|].
      exact (quiet_trans _ _ _ Q1 (quiet_trans _ _ _ Q2 Q3)).
    + assert (Ep : pick_kind sel k b s = (Ret None, s)) by (unfold pick_kind; by rewrite Hs).
      rewrite (rbind_val _ _ _ _ _ Ep).
      destruct (IH out s I Q Hk') as (s3 & E3 & I3 & Q3). exists s3. split; [|done].
      rewrite E3, (Htext _ Hs). done.
Qed.

Lemma imap_snd {A B} (f : nat -> A -> B) l : map snd (imap (fun i k => (f i k, k)) l) = l.
Proof. revert f. induction l as [|x l IH]; intros f; [done|]. rewrite imap_cons. cbn [map snd]. f_equal. apply (IH (fun i => f (S i))). Qed.
Lemma kids_at_trees p t : map snd (kids_at p t) = t_kids t.
Proof. apply (imap_snd (fun i _ => child p i)). Qed.


Lemma node_name_ok s p t : heap_at s p = Some t -> node_name p s = (Ret (data_name (t_data t)), s).
Proof. intros H. unfold node_name. by rewrite (rbind_val _ _ _ _ _ (deref_ok _ _ _ H)). Qed.

Lemma quick_message_spec (b : ptr * tree) a out s :
  Inv s -> heap_at s b.1 = Some b.2 -> is_message (t_data b.2) = true ->
  exists s', quick_message out (NAst KMessage a b.1) s = (Ret (out +:+ message_text b.2, true), s') /\ Inv s' /\ quiet s s'.
Proof.
  intros I Hb Hm. destruct b as [p t]. cbn [fst snd] in *. destruct (t_data t) as [| | | | | |name ext| | | | | | | | | | | |] eqn:Hd; try done.
  destruct ext; [done|]. clear Hm.
  assert (Hn : forall s', quiet s s' -> node_name p s' = (Ret name, s')).
  { intros s' Q. rewrite <- (quiet_heap_at _ _ _ Q) in Hb. rewrite (node_name_ok _ _ _ Hb). by rewrite Hd. }
  unfold quick_message. rewrite (rbind_val _ _ _ _ _ (Hn s (quiet_refl s))).
  unfold message_fields, iter_kids.
  destruct (appending_loop is_field KField (field_text name) (quick_field p) s) with (kids := kids_at p t)
    (out := out +:+ ("Message: " +:+ name +:+ newline)) (s := s) as (s' & E & I' & Q').
  - by intros [].
  - unfold field_text. intros u. by destruct (t_data u).
  - intros b a' out' s1 I1 Q1 Hb1 Hf. exists s1. split; [|split; [done|apply quiet_refl]].
    unfold quick_field. rewrite (rbind_val _ _ _ _ _ (Hn s1 Q1)), (rbind_val _ _ _ _ _ (node_name_ok _ _ _ Hb1)).
    unfold field_text. by destruct (t_data b.2).
  - done.
  - apply quiet_refl.
  - intros b. apply kids_heap. exact Hb.
  - exists s'. split; [|done].
    assert (E' : (kids <~ kids_of p ;; iterate (pick_kind is_field KField) kids string
       (out +:+ ("Message: " +:+ name +:+ newline)) (quick_field p)) s =
       (Ret (out +:+ message_text t), s')).
    { rewrite (rbind_val _ _ _ _ _ (kids_of_ok _ _ _ Hb)), E, kids_at_trees. unfold message_text. rewrite Hd.
      by rewrite !sapp_assoc. }
    by rewrite (rbind_val _ _ _ _ _ E').
Qed.

Lemma quick_messages_spec p t out s : Inv s -> heap_at s p = Some t ->
  exists s', file_messages p string out quick_message s = (Ret (out +:+ String.concat "" (map message_text (t_kids t))), s').
Proof.
  intros I Ht. unfold file_messages, iter_kids. rewrite (rbind_val _ _ _ _ _ (kids_of_ok _ _ _ Ht)).
  destruct (appending_loop is_message KMessage message_text quick_message s) with (kids := kids_at p t)
    (out := out) (s := s) as (s' & E & _).
  - by intros [].
  - unfold message_text. intros u. destruct (t_data u) as [| | | | | |nm []| | | | | | | | | | | |]; done.
  - intros b a' out' s1 I1 Q1 Hb1 Hf. by apply quick_message_spec.
  - done.
  - apply quiet_refl.
  - intros b. by apply kids_heap.
  - exists s'. by rewrite E, kids_at_trees.
Qed.

(** *** The loop over the options *)

Lemma prints_quiet fl s s' w x : Inv s -> quiet s s' -> prints fl s' w x -> prints fl s w x.
Proof.
  intros I Q. revert w x. fix IH 3. intros w x H. destruct H.
  1-7: by constructor.
  - eapply pr_enum; [by eapply element_quiet|done|by eapply element_quiet|done].
  - constructor. induction H; constructor; [by apply IH|assumption].
  - constructor. induction H as [|? ? ? ? (z & Hz & ->)]; constructor; [|assumption]. exists z. split; [by apply IH|done].
Qed.

Lemma option_name_shown s0 s comps class ca q o t oname lit :
  calm s0 -> Inv s -> quiet s0 s -> found s0 ".google.protobuf.FileOptions" (NAst KMessage ca class) ->
  about s0 comps class q o -> element_at s0 q t -> t_data t = DOption oname lit ->
  exists shown, option_name o s = (Ret shown, s) /\ option_shown s0 class (o_field o) oname shown.
Proof.
  intros Hs I Q Hf (Hq & Hcl & oname' & Hst & Hot) Ht Hd. pose proof (reachable_Inv _ (calm_reachable _ Hs)) as I0.
  pose proof (quiet_grows _ _ Q) as G.
  destruct (option_class_found _ _ _ _ I0 Hf) as [_ [ct Hct]].
  destruct (target_element _ _ _ _ _ I0 Hot) as (u & Hu & Hp).
  unfold option_name. case_bool_decide as Hc.
  - rewrite rbind_get. pose proof Hu as Hu'. rewrite <- (quiet_heap_at _ _ _ Q) in Hu'.
    rewrite (rbind_val _ _ _ _ _ (deref_ok _ _ _ Hu')). unfold plain_field in Hp. destruct (t_data u) eqn:Hdu; try done.
    rewrite Hcl, (scope_later _ _ _ _ G Hct), (field_scope _ _ _ _ _ Hs Hf) by done.
    eexists. split; [reflexivity|]. left.
    assert (Hi : exists i, o_field o = child class i).
    { rewrite Hcl in Hc. destruct (o_field o) as [g [|i π]]; [done|]. exists i. cbn in Hc. injection Hc as <-. done. }
    destruct Hi as [i Hi]. exists i, u, name, typ, seq, repeated, is_optional. split; [exact Hi|].
    split; [by apply heap_element|]. done.
  - pose proof (element_heap _ _ _ Ht) as Ht'. rewrite <- (quiet_heap_at _ _ _ Q) in Ht'.
    rewrite Hq, (rbind_val _ _ _ _ _ (deref_ok _ _ _ Ht')), Hd. eexists. split; [reflexivity|]. right.
    split; [|done]. intros i Hi. apply Hc. rewrite Hi, Hcl. by destruct class.
Qed.

Lemma option_with_quiet s0 s o f lit : Inv s0 -> quiet s0 s -> option_with s0 o f lit -> option_with s o f lit.
Proof.
  intros I0 Q ((t & n & Ht & Hd) & Hf & (typ & rep & u & nm & num & op & Hu & Hdu)). pose proof (quiet_grows _ _ Q) as G.
  split; [exists t, n; split; [by eapply element_at_grows|done]|]. split; [done|].
  exists typ, rep, u, nm, num, op. split; [by eapply element_at_grows|done].
Qed.

Lemma option_line_parts fl s comps class q t oname lit f line : Inv s ->
  element_at s q t -> t_data t = DOption oname lit -> option_target s comps class oname f ->
  option_line fl s comps class q line -> exists w x shown,
    reads fl s f false lit w /\ prints fl s w x /\ option_shown s class f oname shown /\
    line = "File Option -> " +:+ shown +:+ ": " +:+ x +:+ newline.
Proof.
  intros I Ht Hd Hf (t' & oname' & lit' & f' & w & x & shown & Ht' & Hd' & Hf' & Hr & Hp & Hs & ->).
  rewrite (element_fun _ _ _ _ Ht Ht') in Hd'. rewrite Hd in Hd'. injection Hd' as <- <-.
  pose proof (option_target_fun _ _ _ _ _ _ I Hf Hf') as ->. by exists w, x, shown.
Qed.

Lemma quick_option_spec fl s0 s comps class ca q o out :
  calm s0 -> fields_scoped s0 -> Inv s -> quiet s0 s ->
  found s0 ".google.protobuf.FileOptions" (NAst KMessage ca class) -> about s0 comps class q o ->
  (exists line s', option_line fl s0 comps class q line /\
     quick_option fl out o s = (Ret (out +:+ line, true), s') /\ Inv s' /\ quiet s s') \/
  (exists msg, (quick_option fl out o s).1 = Panic msg /\ option_fault fl s0 comps class q msg).
Proof.
  intros Hc Hfs I Q Hf Ha. pose proof (reachable_Inv _ (calm_reachable _ Hc)) as I0.
  destruct Ha as (Hq & Hcl & oname & (t & lit & Ht & Hd) & Hot).
  assert (Ha : about s0 comps class q o) by (split; [done|]; split; [done|]; exists oname; split; [by exists t, lit|done]).
  destruct (option_name_shown s0 s comps class ca q o t oname lit Hc I Q Hf Ha Ht Hd) as (shown & En & Hsh).
  assert (Ho0 : option_with s0 o (o_field o) lit) by (by eapply about_option_with; [apply calm_reachable| | |]).
  pose proof (option_with_quiet _ _ _ _ _ I0 Q Ho0) as Ho.
  unfold quick_option. rewrite (rbind_val _ _ _ _ _ En).
  pose proof (option_value_build fl o _ _ s Ho) as Eb. destruct Ho0 as (_ & _ & Hft).
  destruct (build_spec fl s0 I0 Hfs lit (Some (o_proto o)) (o_field o) false s I Q Hft)
    as [(v & s' & E & Hr)|(c & msg & E & Hc2 & Hsay)].
  - left. rewrite <- Eb in E. rewrite (rbind_val _ _ _ _ _ E).
    assert (E0 := E). rewrite Eb in E0.
    pose proof (build_enums _ _ _ _ _ _ _ _ I E0) as He.
    pose proof (inv_step_ret _ _ _ _ (inv_step_build _ _ _ _ _) I E0) as [I1 _].
    pose proof (quiet_build fl (Some (o_proto o)) (o_field o) lit false s) as Q1. rewrite E0 in Q1. cbn [snd] in Q1.
    destruct (render_prints fl s' v I1 He) as (x & Hx & Ex). rewrite (rbind_val _ _ _ _ _ Ex).
    eexists _, s'. split; [|split; [reflexivity|done]].
    exists t, oname, lit, (o_field o), (contents v), x, shown. split; [done|]. split; [done|]. split; [done|].
    split; [done|]. split; [eapply prints_quiet; [exact I0|exact (quiet_trans _ _ _ Q Q1)|exact Hx]|]. by split.
  - right. exists msg. split; [apply rbind_panic; by rewrite Eb|]. by eapply fault_value.
Qed.

Lemma quick_options_loop fl s0 comps class ca ct sc :
  calm s0 -> fields_scoped s0 -> found s0 ".google.protobuf.FileOptions" (NAst KMessage ca class) ->
  Forall ident comps -> scope_text comps sc -> heap_at s0 class = Some ct ->
  forall kids out s, Inv s -> quiet s0 s ->
  (forall b, b ∈ kids -> heap_at s0 b.1 = Some b.2 /\ (an_option (t_data b.2) = true -> well_named s0 b.1)) ->
  (exists lines s',
     Forall2 (option_line fl s0 comps class) (map fst (List.filter (fun b => an_option (t_data b.2)) kids)) lines /\
     iterate (pick_option sc class) kids string out (quick_option fl) s = (Ret (out +:+ String.concat "" lines), s') /\
     Inv s' /\ quiet s s') \/
  (exists msg i q lines, (iterate (pick_option sc class) kids string out (quick_option fl) s).1 = Panic msg /\
     map fst (List.filter (fun b : ptr * tree => an_option (t_data b.2)) kids) !! i = Some q /\
     option_fault fl s0 comps class q msg /\
     Forall2 (option_line fl s0 comps class) (take i (map fst (List.filter (fun b : ptr * tree => an_option (t_data b.2)) kids))) lines).
Proof.
  intros Hc Hfs Hf Hid Hsc Hct. pose proof (reachable_Inv _ (calm_reachable _ Hc)) as I0.
  induction kids as [|b kids IH]; intros out s I Q Hk.
  - left. exists [], s. split; [constructor|]. split; [cbn; by rewrite sapp_nil_r|]. split; [done|apply quiet_refl].
  - assert (Hk' : forall b', b' ∈ kids -> heap_at s0 b'.1 = Some b'.2 /\ (an_option (t_data b'.2) = true -> well_named s0 b'.1))
      by (intros; apply Hk; by constructor).
    destruct (Hk b) as [Hb Hw]; [constructor|]. cbn [iterate List.filter].
    destruct (an_option (t_data b.2)) eqn:Ho; cycle 1.
    { rewrite (rbind_val _ _ _ _ _ (skip_option sc class b s Ho)). by apply IH. }
    specialize (Hw eq_refl). cbn [map].
    destruct (pick_option sc class b s) as [x s1] eqn:Ep.
    destruct (option_pick s0 sc comps class ct b s x s1 I0 Hid Hsc Hct Hb Ho Hw I Q Ep)
      as [(o & -> & Q1 & I1 & Ha)|[Hno (msg & onm & -> & Hst & Hoc)]]; cycle 1.
    { right. exists msg, 0, b.1, []. split; [apply rbind_panic; by rewrite Ep|]. split; [done|]. split; [|constructor].
      eapply fault_name; [exact Hst|intros f; by apply Hno|exact Hoc]. }
    rewrite (rbind_val _ _ _ _ _ Ep).
    destruct (quick_option_spec fl s0 s1 comps class ca b.1 o out Hc Hfs I1 (quiet_trans _ _ _ Q Q1) Hf Ha)
      as [(line & s2 & Hl & E2 & I2 & Q2)|(msg & E2 & Hfault)]; cycle 1.
    { right. exists msg, 0, b.1, []. split; [by apply rbind_panic|]. split; [done|]. split; [done|constructor]. }
    rewrite (rbind_val _ _ _ _ _ E2).
    destruct (IH (out +:+ line) s2 I2 (quiet_trans _ _ _ Q (quiet_trans _ _ _ Q1 Q2)) Hk')
      as [(lines & s3 & HF & E3 & I3 & Q3)|(msg & i & q & lines & E3 & Hi & Hq & HF)].
    + left. exists (line :: lines), s3. split; [by constructor|].
      split; [rewrite E3, concat_cons; by rewrite sapp_assoc|]. split; [done|].
      exact (quiet_trans _ _ _ Q1 (quiet_trans _ _ _ Q2 Q3)).
    + right. exists msg, (S i), q, (line :: lines). split; [exact E3|]. split; [exact Hi|]. split; [exact Hq|].
      cbn [take]. by constructor.
Qed.

(** ** Theorems *)

(** The lines are determined by the schema. *)
Theorem C76_line_unique fl s comps class q line line' :
  reachable s -> fields_scoped s -> option_line fl s comps class q line -> option_line fl s comps class q line' -> line' = line.
Proof.
  intros Hs Hfs (t & oname & lit & f & w & x & sh & Ht & Hd & Hot & Hr & Hp & Hsh & ->) H'.
  pose proof (reachable_Inv _ Hs) as I.
  destruct (option_line_parts _ _ _ _ _ _ _ _ _ _ I Ht Hd Hot H') as (w' & x' & sh' & Hr' & Hp' & Hsh' & ->).
  pose proof (reads_fun _ _ _ I _ _ _ _ Hr Hr') as ->.
  destruct (target_element _ _ _ _ _ I Hot) as (u & Hu & Hpl).
  assert (Hft : exists typ rep, field_of_type s f typ rep).
  { unfold plain_field in Hpl. destruct (t_data u) eqn:Hdu; try done. exists typ, repeated, u, name, seq, is_optional.
    split; [by apply heap_element|done]. }
  assert (x' = x) as ->.
  { destruct (build_reads fl s I Hfs lit None f false s I (quiet_refl s) Hft) as [(v & s' & E & Hv)|[Hno _]];
      [|by apply Hno in Hr].
    pose proof (reads_fun _ _ _ I _ _ _ _ Hr Hv) as Hw. rewrite <- Hw in Hp, Hp'.
    apply prints_render in Hp, Hp'. rewrite Hp in Hp'. by injection Hp' as ->. }
  assert (sh' = sh) as ->; [|done].
  destruct Hsh as [(i & t1 & fn & ty & nu & re & op & Hi & Ht1 & Hd1 & ->)|[Hi ->]],
    Hsh' as [(i' & t2 & fn' & ty' & nu' & re' & op' & Hi' & Ht2 & Hd2 & ->)|[Hi' ->]].
  - rewrite (element_fun _ _ _ _ Ht1 Ht2) in Hd2. congruence.
  - by apply Hi' in Hi.
  - by apply Hi in Hi'.
  - done.
Qed.

(** A statement with a fault has no line. *)
Theorem C76_fault_no_line fl s comps class q msg line :
  reachable s -> option_fault fl s comps class q msg -> ~ option_line fl s comps class q line.
Proof.
  intros Hs Hfa Hl. pose proof (reachable_Inv _ Hs) as I. destruct Hfa as [oname Hst Hno _|t oname lit f c Ht Hd Hot Hfl _].
  - destruct Hl as (t & oname' & lit & f & w & x & sh & Ht & Hd & Hot & _).
    destruct Hst as (t' & lit' & Ht' & Hd'). rewrite (element_fun _ _ _ _ Ht Ht') in Hd'. rewrite Hd in Hd'. injection Hd' as <- <-.
    exact (Hno _ Hot).
  - destruct (option_line_parts _ _ _ _ _ _ _ _ _ _ I Ht Hd Hot Hl) as (w & x & sh & Hr & _).
    exact (fails_none _ _ _ I _ _ _ _ Hfl Hr).
Qed.

(** The program, on a file that is loaded without error: it prints the name and the package of the
    file, the lines for its option statements in their order, and the lines for its elements in their
    order; or some option statement has a fault, and it panics with what is to be said about the first one
    (its name stands for no field, or its literal denotes no value). *)
Theorem C76_quick_start fl e fuel path s n s1 g f ca class comps :
  calm s -> env_ok e -> proto e fuel path s = (Ret (inr n), s1) -> loaded s1 path g f -> fields_scoped s1 ->
  found s1 ".google.protobuf.FileOptions" (NAst KMessage ca class) -> options_scope s1 n comps ->
  (forall q, q ∈ children an_option (root g) f -> well_named s1 q) ->
  (exists lines, Forall2 (option_line fl s1 comps class) (children an_option (root g) f) lines /\
     (quick_start fl e fuel path s).1 = Ret
       ("Package: " +:+ path +:+ " (" +:+ the_package (t_kids f) +:+ ")" +:+ newline +:+
        String.concat "" lines +:+ String.concat "" (map message_text (t_kids f)))) \/
  (exists msg i q lines, (quick_start fl e fuel path s).1 = Panic msg /\
     children an_option (root g) f !! i = Some q /\ option_fault fl s1 comps class q msg /\
     Forall2 (option_line fl s1 comps class) (take i (children an_option (root g) f)) lines).
Proof.
  intros Hc He E Hl Hfs Hf Hsc Hw. pose proof (calm_loads _ _ _ _ _ _ Hc He E) as Hc1.
  pose proof (reachable_Inv _ (calm_reachable _ Hc1)) as I1.
  destruct (proto_returns_loaded e fuel path s n s1 He (proj1 (reachable_Inv _ (calm_reachable _ Hc))) E)
    as (g' & f' & -> & Hl' & _).
  destruct (loaded_fun _ _ _ _ _ _ Hl Hl') as [-> ->].
  assert (Ht : element_at s1 (root g) f) by (exists path, f; by split). pose proof (element_heap _ _ _ Ht) as Hh.
  assert (Hd : t_data f = DProto path) by apply Hl.
  assert (Hp : points_to s1 (root g) (NAst KFile (next s) (root g))).
  { split; [done|]. exists f. split; [done|]. by rewrite Hd. }
  destruct (options_setup s1 _ _ _ _ _ ".google.protobuf.FileOptions" _ _ _ I1 eq_refl Hp Ht ltac:(by rewrite Hd) Hf Hsc)
    as (sc & Hid & Htx & Eo).
  destruct (option_class_found _ _ _ _ I1 Hf) as [_ [ct Hct]].
  unfold quick_start. rewrite (rbind_val _ _ _ _ _ E). cbn [quick_print].
  rewrite (rbind_val _ _ _ _ _ (node_name_ok _ _ _ Hh)). rewrite Hd. cbn [data_name].
  assert (Epk : file_package (root g) s1 = (Ret (the_package (t_kids f)), s1)).
  { unfold file_package. rewrite (rbind_val _ _ _ _ _ (deref_ok _ _ _ Hh)). by rewrite package_of_the. }
  rewrite (rbind_val _ _ _ _ _ Epk), (rbind_val _ _ _ _ _ Eo).
  set (out := "Package: " +:+ path +:+ " (" +:+ the_package (t_kids f) +:+ ")" +:+ newline).
  assert (Ek : iter_kids (root g) (pick_option sc class) string out (quick_option fl) s1 =
               iterate (pick_option sc class) (kids_at (root g) f) string out (quick_option fl) s1).
  { unfold iter_kids. by rewrite (rbind_val _ _ _ _ _ (kids_of_ok _ _ _ Hh)). }
  destruct (quick_options_loop fl s1 comps class ca ct sc Hc1 Hfs Hf Hid Htx Hct (kids_at (root g) f) out s1 I1 (quiet_refl s1))
    as [(lines & s2 & HF & E2 & I2 & Q2)|(msg & i & q & lines & E2 & Hrest)].
  { intros b Hb. split; [exact (kids_heap _ _ _ _ Hh Hb)|]. intros Ho. apply Hw. exact (kid_statement _ _ _ _ I1 Hh Hb Ho). }
  - left. exists lines. split; [exact HF|]. rewrite E2 in Ek. rewrite (rbind_val _ _ _ _ _ Ek).
    rewrite <- (quiet_heap_at _ _ _ Q2) in Hh.
    destruct (quick_messages_spec (root g) f (out +:+ String.concat "" lines) s2 I2 Hh) as [s3 E3]. rewrite E3. cbn [fst].
    unfold out. by rewrite !sapp_assoc.
  - right. exists msg, i, q, lines. split; [apply rbind_panic; by rewrite Ek|exact Hrest].
Qed.

Definition quick_path := "service/utopia/v1/service_hash_download.proto".

Lemma quick_start_fuel fl e fuel1 fuel2 path s n s1 : env_ok e -> schema s -> fuel1 <= fuel2 ->
  proto e fuel1 path s = (Ret (inr n), s1) -> quick_start fl e fuel2 path s = quick_start fl e fuel1 path s.
Proof.
  intros He S Hf E. unfold quick_start. pose proof (load_fuel _ _ _ _ _ _ _ He S Hf E) as E2.
  by rewrite (rbind_val _ _ _ _ _ E), (rbind_val _ _ _ _ _ E2).
Qed.

(** The whole program: if the resolvers can be built, the registry created and the file loaded, it
    prints what is said above, or panics, as is said above. *)
Theorem C76_main fl os read rs fuel0 s0 fuel1 n s g f ca class comps :
  let e := mkEnv (env_resolvers os rs) read in
  built os [WithProtoc; WithRoot ["."; "./vendor"]] = inr rs -> env_ok e -> new_registry e fuel0 = Ret (inr s0) ->
  proto e fuel1 quick_path s0 = (Ret (inr n), s) -> loaded s quick_path g f -> fields_scoped s ->
  found s ".google.protobuf.FileOptions" (NAst KMessage ca class) -> options_scope s n comps ->
  (forall q, q ∈ children an_option (root g) f -> well_named s q) ->
  (exists lines, Forall2 (option_line fl s comps class) (children an_option (root g) f) lines /\
     forall fuel, fuel0 + fuel1 <= fuel -> quick_main fl os read fuel = Ret
       ("Package: " +:+ quick_path +:+ " (" +:+ the_package (t_kids f) +:+ ")" +:+ newline +:+
        String.concat "" lines +:+ String.concat "" (map message_text (t_kids f)))) \/
  (exists msg i q lines, (forall fuel, fuel0 + fuel1 <= fuel -> quick_main fl os read fuel = Panic msg) /\
     children an_option (root g) f !! i = Some q /\ option_fault fl s comps class q msg /\
     Forall2 (option_line fl s comps class) (take i (children an_option (root g) f)) lines).
Proof.
  intros e Hrs He E0 E Hl Hfs Hf Hsc Hw.
  assert (J0 : just_loaded s0) by (by eapply jl_new). pose proof (just_loaded_calm _ J0) as Hc.
  assert (Hrun : forall fuel, fuel0 + fuel1 <= fuel -> quick_main fl os read fuel = (quick_start fl e fuel1 quick_path s0).1).
  { intros fuel Hfu. unfold quick_main. unfold built in Hrs. cbn [fold_left run_call] in Hrs. rewrite Hrs. fold e.
    assert (H0 : fuel0 <= fuel) by lia. rewrite (new_registry_fuel e fuel0 fuel _ H0 E0).
    assert (H1 : fuel1 <= fuel) by lia.
    assert (S : schema s0) by (exact (proj1 (reachable_Inv _ (calm_reachable _ Hc)))).
    rewrite <- (quick_start_fuel fl e fuel1 fuel quick_path s0 n s He S H1 E). reflexivity. }
  destruct (C76_quick_start fl e fuel1 quick_path s0 n s g f ca class comps Hc He E Hl Hfs Hf Hsc Hw)
    as [(lines & HF & Er)|(msg & i & q & lines & Er & Hrest)].
  - left. exists lines. split; [exact HF|]. intros fuel Hfu. by rewrite (Hrun fuel Hfu), Er.
  - right. exists msg, i, q, lines. split; [|exact Hrest]. intros fuel Hfu. by rewrite (Hrun fuel Hfu), Er.
Qed.

(** If the resolvers cannot be built, the registry cannot be created or the file cannot be loaded, the
    program panics with the error it was given. *)
Theorem C76_failures fl os read fuel err :
  (built os [WithProtoc; WithRoot ["."; "./vendor"]] = inl err \/
   exists rs, built os [WithProtoc; WithRoot ["."; "./vendor"]] = inr rs /\
     let e := mkEnv (env_resolvers os rs) read in
     (new_registry e fuel = Ret (inl err) \/
      exists s s1, new_registry e fuel = Ret (inr s) /\ proto e fuel quick_path s = (Ret (inl err), s1))) ->
  quick_main fl os read fuel = Panic (PError err).
Proof.
  unfold built. cbn [fold_left run_call]. intros [H|(rs & H & H')]; unfold quick_main; rewrite H; [done|].
  cbn zeta in H'. destruct H' as [->|(s & s1 & -> & E)]; [done|].
  unfold quick_start. fold quick_path. by rewrite (rbind_val _ _ _ _ _ E).
Qed.

(** ** Examples

    protoc is /usr/bin/protoc; in ./vendor there is

      tags.proto: package tags; import "google/protobuf/descriptor.proto";
        enum Level { LOW = 0; HIGH = 1; }
        message Tag { string name = 1; repeated int32 codes = 2; Level level = 3; }
        extend google.protobuf.FileOptions { Tag tag = 50001; bool strict = 50002; }

    and in the current directory

      service/utopia/v1/service_hash_download.proto: package service.utopia.v1; import "tags.proto";
        option go_package = "utopia/v1";
        option (tags.tag) = {name: "hash" codes: [7, -1] level: HIGH};
        message HashRequest { string url = 1; oneof kind { bool md5 = 2; bool sha = 3; } map<string, int32> sizes = 4;
          message Inner { bool deep = 1; } Inner inner = 5; }
        enum State { NONE = 0; }
        option (tags.strict) = true;
        message HashResponse { bytes hash = 1; }

    In the second example the last option is "(tags.strict) = maybe", which is not a bool. *)
Definition tag_f := "tags.proto".
Definition tag_elems : list tree :=
  [ el tag_f 1 (DSyntax "proto3") []; el tag_f 2 (DPackage "tags") []; el tag_f 3 (DImport desc_f) [];
    el tag_f 4 (DEnum "Level") [ el tag_f 4 (DEnumField "LOW" 0) []; el tag_f 4 (DEnumField "HIGH" 1) [] ];
    msg tag_f 5 "Tag" [ fld tag_f 5 "string" "name" 1; rfld tag_f 5 "int32" "codes" 2; fld tag_f 5 "Level" "level" 3 ];
    extb tag_f 6 "google.protobuf.FileOptions" [ fld tag_f 6 "Tag" "tag" 50001; fld tag_f 6 "bool" "strict" 50002 ] ].
Definition hd_elems (strict : string) : list tree :=
  let f := quick_path in
  [ el f 1 (DSyntax "proto3") []; el f 2 (DPackage "service.utopia.v1") []; el f 3 (DImport tag_f) [];
    opt f 4 "go_package" "utopia/v1";
    el f 5 (DOption "(tags.tag)" (Lit (at_line f 5) "" []
      [("name", Lit (at_line f 5) "hash" [] []);
       ("codes", Lit (at_line f 5) "" [lit0 "7"; lit0 "-1"] []);
       ("level", Lit (at_line f 5) "HIGH" [] [])])) [];
    msg f 6 "HashRequest"
      [ fld f 7 "string" "url" 1;
        el f 8 (DOneof "kind") [ el f 8 (DOneOfField "md5" "bool" 2) []; el f 8 (DOneOfField "sha" "bool" 3) [] ];
        el f 9 (DMapField "sizes" "string" "int32" 4) [];
        msg f 10 "Inner" [ fld f 10 "bool" "deep" 1 ];
        fld f 11 "Inner" "inner" 5 ];
    el f 12 (DEnum "State") [ el f 12 (DEnumField "NONE" 0) [] ];
    opt f 13 "(tags.strict)" strict;
    msg f 14 "HashResponse" [ fld f 14 "bytes" "hash" 1 ] ].
Definition quick_disk (strict : string) : list (string * (string * list tree)) :=
  [ ("/usr/include/google/protobuf/descriptor.proto", (desc_f, descriptor_elems));
    ("/usr/include/google/protobuf/any.proto", (any_f, any_elems));
    ("vendor/tags.proto", (tag_f, tag_elems));
    ("service/utopia/v1/service_hash_download.proto", (quick_path, hd_elems strict)) ].
Definition quick_os (d : list (string * (string * list tree))) : os_view :=
  mkOs (fun f => if String.eqb f "." || String.eqb f "./vendor" then SOk true
                 else match disk_get d f with Some _ => SOk false | None => SError enoent end)
       (inr "/usr/bin/protoc").
Definition quick_resolvers : list resolver := [PRProtoc "/usr/include"; PRRoot "."; PRRoot "./vendor"].


(** the conditions of [C76_main] other than those on the file system *)
Definition check_well_named (t : tree) : bool :=
  match t_data t with
  | DOption (String c r as oname) _ =>
      no_parens oname ||
      Ascii.eqb c "(" && no_parens (substring 0 (String.length r - 1) r) &&
      String.eqb r (substring 0 (String.length r - 1) r +:+ ")")
  | _ => true
  end.
Definition check_quick (e : env) (comps : list string) : bool :=
  match new_registry e 50 with
  | Ret (inr s0) =>
      match load_with e quick_path s0 with
      | Some s =>
          check_scoped s && forallb (fun c => negb (String.eqb c "") && no_dot c) comps &&
          match names s !! ".google.protobuf.FileOptions" with
          | Some p => match heap_at s p with
                      | Some t => match represented_by (t_data t) with Some KMessage => true | _ => false end
                      | None => false end
          | None => false end &&
          match protos s !! quick_path with
          | Some g => match heap s !! g with
                      | Some f => String.eqb ("." +:+ package_of (t_kids f)) (dotted comps) &&
                          forallb check_well_named (t_kids f)
                      | None => false end
          | None => false end
      | None => false end
  | _ => false
  end.

Lemma check_well_named_ok s q t : element_at s q t -> an_option (t_data t) = true -> check_well_named t = true -> well_named s q.
Proof.
  intros Ht Ho H. unfold check_well_named in H. destruct (t_data t) as [| | | | |oname lit| | | | | | | | | | | | |] eqn:Hd; try discriminate Ho.
  assert (Hst : statement s q oname) by (by exists t, lit).
  destruct oname as [|c r]; [exists "", ""; split; [done|by apply ref_plain]|].
  apply orb_prop in H as [H|H].
  - exists (String c r), (String c r). split; [done|]. by apply ref_plain.
  - apply andb_prop in H as [[Hc%Ascii.eqb_eq Hn]%andb_prop Hr%String.eqb_eq]. subst c.
    exists (String "(" r), (substring 0 (String.length r - 1) r). split; [done|].
    rewrite Hr at 1. exact (ref_custom _ Hn).
Qed.

Lemma check_quick_ok e comps : env_ok e -> check_quick e comps = true ->
  exists s0 n s g f ca class,
  new_registry e 50 = Ret (inr s0) /\ proto e 50 quick_path s0 = (Ret (inr n), s) /\ loaded s quick_path g f /\
  fields_scoped s /\ found s ".google.protobuf.FileOptions" (NAst KMessage ca class) /\ options_scope s n comps /\
  (forall q, q ∈ children an_option (root g) f -> well_named s q).
Proof.
  intros He H. unfold check_quick in H.
  destruct (new_registry e 50) as [[err|s0]|m|] eqn:E0; try discriminate H.
  destruct (load_with e quick_path s0) as [s|] eqn:L; [|done]. apply load_with_ok in L as [n L].
  assert (J0 : just_loaded s0) by (by eapply jl_new).
  assert (J : just_loaded s) by (by eapply jl_load).
  assert (I : Inv s) by (by apply reachable_Inv, calm_reachable, just_loaded_calm).
  apply andb_prop in H as [[[Hfs Hid]%andb_prop Hcl]%andb_prop H].
  destruct (names s !! ".google.protobuf.FileOptions") as [p|] eqn:Hmo; [|done].
  destruct (heap_at s p) as [tp|] eqn:Htp; [|done]. destruct (represented_by (t_data tp)) as [k|] eqn:Hk; [|done].
  assert (k = KMessage) as -> by (by destruct k).
  destruct (names_found _ _ _ _ _ I Hmo Htp Hk) as [ca Hca].
  destruct (protos s !! quick_path) as [g|] eqn:Hp; [|done].
  destruct (loaded_protos _ _ _ (proj1 I) Hp) as [f Hl]. pose proof Hl as (_ & Hf & _). rewrite Hf in H.
  apply andb_prop in H as [Hpk%String.eqb_eq Hw].
  destruct (proto_returns_loaded e 50 quick_path s0 n s He
    (proj1 (reachable_Inv _ (calm_reachable _ (just_loaded_calm _ J0)))) L) as (g' & f' & -> & Hl' & _).
  destruct (loaded_fun _ _ _ _ _ _ Hl Hl') as [-> ->].
  assert (Ht : element_at s (root g) f) by (exists quick_path, f; by split). pose proof (element_heap _ _ _ Ht) as Hh.
  eexists s0, _, s, g, f, ca, p. split; [done|]. split; [exact L|]. split; [done|]. split; [by apply check_scoped_ok|].
  split; [done|]. split.
  - split; [by apply idents|]. exists (package_of (t_kids f)). split; [|by right].
    unfold file_package. by rewrite (rbind_val _ _ _ _ _ (deref_ok _ _ _ Hh)).
  - intros q Hq. destruct (child_kid s _ _ _ Hh Hq) as (b & <- & Hb & Ho).
    pose proof (kids_heap _ _ _ _ Hh Hb) as Hbh.
    apply (check_well_named_ok s b.1 b.2); [by apply heap_element|done|].
    rewrite List.forallb_forall in Hw. apply Hw. rewrite <- (kids_at_trees (root g) f). apply in_map. by apply elem_of_list_In.
Qed.

Lemma quick_example strict out :
  let d := quick_disk strict in
  forallb (fun x => parser_output x.2.1 x.2.2) d = true ->
  check_quick (mkEnv (env_resolvers (quick_os d) quick_resolvers) (disk_read d)) ["service"; "utopia"; "v1"] = true ->
  built (quick_os d) [WithProtoc; WithRoot ["."; "./vendor"]] = inr quick_resolvers ->
  quick_main no_float (quick_os d) (disk_read d) 100 = out ->
  exists os read rs s0 n s g f ca class comps,
  let e := mkEnv (env_resolvers os rs) read in
  built os [WithProtoc; WithRoot ["."; "./vendor"]] = inr rs /\ env_ok e /\ new_registry e 50 = Ret (inr s0) /\
  proto e 50 quick_path s0 = (Ret (inr n), s) /\ loaded s quick_path g f /\ fields_scoped s /\
  found s ".google.protobuf.FileOptions" (NAst KMessage ca class) /\ options_scope s n comps /\
  (forall q, q ∈ children an_option (root g) f -> well_named s q) /\
  quick_main no_float os read 100 = out.
Proof.
  intros d Hd Hc Hb Hout.
  destruct (check_quick_ok _ _ (disk_env_ok d _ Hd) Hc) as (s0 & n & s & g & f & ca & class & H1 & H2 & H3 & H4 & H5 & H6 & H7).
  exists (quick_os d), (disk_read d), quick_resolvers, s0, n, s, g, f, ca, class, ["service"; "utopia"; "v1"]. cbn zeta.
  split; [exact Hb|]. split; [exact (disk_env_ok d _ Hd)|].
  exact (conj H1 (conj H2 (conj H3 (conj H4 (conj H5 (conj H6 (conj H7 Hout))))))).
Qed.

Example C76_example : exists os read rs s0 n s g f ca class comps,
  let e := mkEnv (env_resolvers os rs) read in
  built os [WithProtoc; WithRoot ["."; "./vendor"]] = inr rs /\ env_ok e /\ new_registry e 50 = Ret (inr s0) /\
  proto e 50 quick_path s0 = (Ret (inr n), s) /\ loaded s quick_path g f /\ fields_scoped s /\
  found s ".google.protobuf.FileOptions" (NAst KMessage ca class) /\ options_scope s n comps /\
  (forall q, q ∈ children an_option (root g) f -> well_named s q) /\
  quick_main no_float os read 100 = Ret
"Package: service/utopia/v1/service_hash_download.proto (service.utopia.v1)
File Option -> (.google.protobuf.FileOptions).go_package: utopia/v1
File Option -> (tags.tag): {name: hash, codes: [7, -1], level: Level.HIGH}
File Option -> (tags.strict): true
Message: HashRequest
  Field: HashRequest.url
  Field: HashRequest.kind
  Field: HashRequest.sizes
  Field: HashRequest.inner
Message: HashResponse
  Field: HashResponse.hash
".
Proof. apply (quick_example "true"); vm_compute; reflexivity. Qed.

Example C76_panics_example : exists os read rs s0 n s g f ca class comps,
  let e := mkEnv (env_resolvers os rs) read in
  built os [WithProtoc; WithRoot ["."; "./vendor"]] = inr rs /\ env_ok e /\ new_registry e 50 = Ret (inr s0) /\
  proto e 50 quick_path s0 = (Ret (inr n), s) /\ loaded s quick_path g f /\ fields_scoped s /\
  found s ".google.protobuf.FileOptions" (NAst KMessage ca class) /\ options_scope s n comps /\
  (forall q, q ∈ children an_option (root g) f -> well_named s q) /\
  exists err, quick_main no_float os read 100 = Panic (PError err) /\
    error_text err = "convert literal to bool: strconv.ParseBool: parsing ""maybe"": invalid syntax".
Proof.
  assert (H : exists err, quick_main no_float (quick_os (quick_disk "maybe")) (disk_read (quick_disk "maybe")) 100 = Panic (PError err) /\
    error_text err = "convert literal to bool: strconv.ParseBool: parsing ""maybe"": invalid syntax").
  { eexists. split; vm_compute; reflexivity. }
  destruct H as (err & H & Ht).
  destruct (quick_example "maybe" (Panic (PError err))) as (os & read & rs & s0 & n & s & g & f & ca & class & comps
    & H1 & H2 & H3 & H4 & H5 & H6 & H7 & H8 & H9 & H10); [vm_compute; reflexivity|vm_compute; reflexivity|vm_compute; reflexivity|exact H|].
  exists os, read, rs, s0, n, s, g, f, ca, class, comps. cbn zeta.
  exact (conj H1 (conj H2 (conj H3 (conj H4 (conj H5 (conj H6 (conj H7 (conj H8 (conj H9 (ex_intro _ err (conj H10 Ht))))))))))).
Qed.
