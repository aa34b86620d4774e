(** * Slash separated paths: the words used to state properties of file look up, and lemmas
    about the models of filepath.Clean, Join and Split. *)
From Verif Require Export StrLemmas.
From Coq Require Import Sorting.Sorted Sorting.Permutation.

(** ** Words *)

(** components put together: a/b/c *)
Fixpoint slashes (cs : list string) : string :=
  match cs with
  | [] => ""
  | c :: r => match r with [] => c | _ => c +:+ "/" +:+ slashes r end
  end.

Fixpoint no_slash (s : string) : Prop :=
  match s with
  | EmptyString => True
  | String x r => x <> "/"%char /\ no_slash r
  end.

(** an ordinary file or directory name *)
Definition plain (c : string) : Prop := c <> "" /\ c <> "." /\ c <> ".." /\ no_slash c.

(** [p] has the components [cs] (empty ones included: "a//b" has three). *)
Definition components (p : string) (cs : list string) : Prop :=
  cs <> [] /\ Forall no_slash cs /\ p = slashes cs.

(** Read from left to right, starting [depth] names below a directory, the components never
    leave that directory. *)
Fixpoint stays_inside (depth : nat) (cs : list string) : Prop :=
  match cs with
  | [] => True
  | c :: r =>
      (c = "" \/ c = "." -> stays_inside depth r) /\
      (c = ".." -> match depth with 0 => False | S d => stays_inside d r end) /\
      (plain c -> stays_inside (S depth) r)
  end.

(** A tidy directory name, and what it means to follow names below it: "/" and "." are written
    without a separator of their own. *)
Inductive tidy : string -> (list string -> string) -> Prop :=
| tidy_abs cs : Forall plain cs ->
    tidy ("/" +:+ slashes cs) (fun qs => "/" +:+ slashes (cs ++ qs)%list)
| tidy_rel ups cs : Forall (fun c => c = "..") ups -> Forall plain cs -> (ups ++ cs)%list <> [] ->
    tidy (slashes (ups ++ cs)%list) (fun qs => slashes ((ups ++ cs) ++ qs)%list)
| tidy_here : tidy "." (fun qs => match qs with [] => "." | _ => slashes qs end).

(** the usual order of byte strings *)
Inductive before : string -> string -> Prop :=
| before_nil s : before "" s
| before_lt x y a b : (N_of_ascii x < N_of_ascii y)%N -> before (String x a) (String y b)
| before_same x a b : before a b -> before (String x a) (String x b).

(** ** Lemmas: order *)

Lemma ascii_compare_N x y : Ascii.compare x y = N.compare (N_of_ascii x) (N_of_ascii y).
Proof. reflexivity. Qed.
Lemma N_of_ascii_inj x y : N_of_ascii x = N_of_ascii y -> x = y.
Proof. intros H. rewrite <- (ascii_N_embedding x), <- (ascii_N_embedding y). by rewrite H. Qed.

Lemma leb_before a b : String.leb a b = true <-> before a b.
Proof.
  unfold String.leb. revert b. induction a as [|x a IH]; intros [|y b]; cbn [String.compare].
  - split; [constructor|done].
  - split; [constructor|done].
  - split; [done|]. inversion 1.
  - rewrite ascii_compare_N. destruct (N.compare_spec (N_of_ascii x) (N_of_ascii y)) as [E|E|E].
    + apply N_of_ascii_inj in E as ->. rewrite IH. split; [by constructor|].
      inversion 1; subst; [lia|done].
    + split; [|done]. intros _. by constructor.
    + split; [done|]. inversion 1; subst; lia.
Qed.

Lemma before_total a b : before a b \/ before b a.
Proof.
  rewrite <- !leb_before. destruct (String.leb_total a b) as [H|H]; rewrite H; auto.
Qed.
Lemma before_trans a b c : before a b -> before b c -> before a c.
Proof.
  intros H. revert c. induction H as [s|x y a b H|x a b H IH]; intros c Hc.
  - constructor.
  - inversion Hc; subst; constructor; [lia|done].
  - inversion Hc; subst; constructor; [done|by apply IH].
Qed.
Lemma before_antisym a b : before a b -> before b a -> a = b.
Proof.
  induction 1 as [s|x y a b H|x a b H IH]; inversion 1; subst; [done|lia|lia|lia|].
  by rewrite IH.
Qed.

Lemma insert_sorted_perm x l : Permutation (x :: l) (insert_sorted x l).
Proof.
  induction l as [|y l IH]; cbn; [done|]. destruct (String.leb x y); [done|].
  rewrite <- IH. apply perm_swap.
Qed.
Lemma sort_perm l : Permutation l (sort_strings l).
Proof. induction l as [|x l IH]; cbn; [done|]. rewrite <- insert_sorted_perm. by constructor. Qed.

Lemma insert_sorted_sorted x l :
  StronglySorted before l -> StronglySorted before (insert_sorted x l).
Proof.
  induction 1 as [|y l Hl IH Hy]; cbn; [repeat constructor|].
  destruct (String.leb x y) eqn:E.
  - apply leb_before in E. constructor; [by constructor|].
    constructor; [done|]. eapply Forall_impl; [|exact Hy]. intros z. by apply before_trans.
  - assert (before y x) as Hyx.
    { destruct (before_total y x) as [H|H]; [done|]. apply leb_before in H. congruence. }
    constructor; [done|]. rewrite Forall_forall in Hy |- *. intros z Hz.
    apply (Permutation_in z (Permutation_sym (insert_sorted_perm x l))) in Hz.
    destruct Hz as [<-|Hz]; [done|]. by apply Hy.
Qed.
Lemma sort_sorted l : StronglySorted before (sort_strings l).
Proof. induction l as [|x l IH]; cbn; [constructor|]. by apply insert_sorted_sorted. Qed.

Lemma compacted_nodup l : NoDup l -> compacted l = l.
Proof.
  induction 1 as [|x l Hx Hl IH]; [done|]. cbn. destruct l as [|y l]; [done|].
  destruct (String.eqb_spec x y) as [->|]; [|by rewrite IH].
  exfalso. apply Hx. left.
Qed.
Lemma compacted_length l : length (compacted l) <= length l.
Proof.
  induction l as [|x [|y l] IH]; [done|done|].
  change (compacted (x :: y :: l)) with
    (if String.eqb x y then compacted (y :: l) else x :: compacted (y :: l)).
  destruct (String.eqb x y); cbn [length] in *; lia.
Qed.
Lemma compacted_shorter l :
  StronglySorted before l -> ~ NoDup l -> length (compacted l) < length l.
Proof.
  induction l as [|x l IH]; intros Hs Hd; [by destruct Hd; constructor|].
  inversion_clear Hs as [|? ? Hl Hx]. destruct l as [|y l].
  { destruct Hd. constructor; [by intros ?%elem_of_nil|constructor]. }
  change (compacted (x :: y :: l)) with
    (if String.eqb x y then compacted (y :: l) else x :: compacted (y :: l)).
  destruct (String.eqb_spec x y) as [->|Hne].
  { pose proof (compacted_length (y :: l)). cbn [length] in *. lia. }
  cbn [length]. apply le_n_S. change (S (length (compacted (y :: l))) <= length (y :: l)).
  apply IH; [done|]. intros Hn. apply Hd. constructor; [|done]. intros Hin.
  apply elem_of_cons in Hin as [|Hin]; [done|]. apply Hne.
  inversion_clear Hx as [|? ? Hxy Hxl].
  inversion_clear Hl as [|? ? Hl' Hyl]. rewrite Forall_forall in Hyl.
  apply before_antisym; [done|]. apply Hyl. by apply elem_of_list_In.
Qed.

(** the roots as Build uses them *)
Lemma compact_arg_nodup l : NoDup l -> compact_arg l = l.
Proof. intros H. unfold compact_arg. rewrite (compacted_nodup _ H), Nat.sub_diag. by rewrite app_nil_r. Qed.
Lemma compact_arg_dup l : StronglySorted before l -> ~ NoDup l -> "" ∈ compact_arg l.
Proof.
  intros Hs Hd. pose proof (compacted_shorter _ Hs Hd). unfold compact_arg.
  apply elem_of_app. right. destruct (length l - length (compacted l)) as [|n] eqn:E; [lia|].
  cbn. left.
Qed.

(** ** Lemmas: components *)

Lemma slashes_cons c r : r <> [] -> slashes (c :: r) = c +:+ "/" +:+ slashes r.
Proof. by destruct r. Qed.
Lemma slashes_app a b : a <> [] -> b <> [] -> slashes (a ++ b)%list = slashes a +:+ "/" +:+ slashes b.
Proof.
  intros Ha Hb. induction a as [|c a IH]; [done|]. destruct a as [|c' a].
  - cbn [app]. by rewrite slashes_cons.
  - change ((c :: c' :: a) ++ b)%list with (c :: ((c' :: a) ++ b))%list.
    rewrite (slashes_cons c ((c' :: a) ++ b)%list), IH, (slashes_cons c (c' :: a)) by done.
    by rewrite !sapp_assoc.
Qed.
Lemma join_slashes cs : join_with "/" cs = slashes cs.
Proof. induction cs as [|c [|c' cs] IH]; [done|done|]. cbn in *. by rewrite IH. Qed.

Lemma split_plain s : no_slash s -> split_on "/"%char s = [s].
Proof.
  induction s as [|x s IH]; cbn [split_on no_slash]; [done|]. intros [Hx Hs].
  destruct (Ascii.eqb_spec x "/"%char); [done|]. by rewrite IH.
Qed.
Lemma split_app a b : split_on "/"%char (a +:+ "/" +:+ b) = (split_on "/"%char a ++ split_on "/"%char b)%list.
Proof.
  induction a as [|x a IH]; [done|]. rewrite (sapp_cons x a). cbn [split_on].
  destruct (Ascii.eqb x "/"%char); [by rewrite IH|]. rewrite IH.
  destruct (split_on "/"%char a) as [|h t] eqn:E; [|done].
  destruct a as [|y a]; cbn in E; [done|]. destruct (Ascii.eqb _ _); [done|]. by destruct (split_on _ a).
Qed.
Lemma split_slashes cs : cs <> [] -> Forall no_slash cs -> split_on "/"%char (slashes cs) = cs.
Proof.
  intros Hn H. induction H as [|c cs Hc H IH]; [done|]. destruct cs as [|c' cs].
  - by apply split_plain.
  - rewrite slashes_cons by done. rewrite split_app, (split_plain _ Hc), IH; done.
Qed.
Lemma split_components s : components s (split_on "/"%char s).
Proof.
  induction s as [|x s (IHn & IHf & IHs)]; [repeat split; [done|by repeat constructor]|].
  cbn [split_on]. destruct (Ascii.eqb_spec x "/"%char) as [->|Hx].
  - split; [done|]. split; [by constructor|]. rewrite slashes_cons by done. by rewrite <- IHs.
  - destruct (split_on "/"%char s) as [|h t]; [done|]. inversion_clear IHf as [|? ? Hh Ht].
    split; [done|]. split; [by constructor|]. rewrite IHs at 1. by destruct t.
Qed.
Lemma components_split s cs : components s cs -> split_on "/"%char s = cs.
Proof. intros (Hn & Hf & ->). by apply split_slashes. Qed.

Lemma plain_no_slash cs : Forall plain cs -> Forall no_slash cs.
Proof. intros H. eapply Forall_impl; [|exact H]. by intros c (_ & _ & _ & Hc). Qed.

Lemma clean_step_skip r st c : c = "" \/ c = "." -> clean_step r st c = st.
Proof. by intros [-> | ->]. Qed.
Lemma clean_step_plain r st c : plain c -> clean_step r st c = c :: st.
Proof.
  intros (H1 & H2 & H3 & _). unfold clean_step.
  destruct (String.eqb_spec c ""); [done|]. destruct (String.eqb_spec c "."); [done|].
  by destruct (String.eqb_spec c "..").
Qed.
Lemma clean_step_up r st c : plain c -> clean_step r (c :: st) ".." = st.
Proof. intros (H1 & H2 & H3 & _). cbn. by destruct (String.eqb_spec c ".."). Qed.

Lemma comp_cases c : no_slash c -> (c = "" \/ c = ".") \/ c = ".." \/ plain c.
Proof.
  intros H. destruct (decide (c = "")); [auto|]. destruct (decide (c = ".")); [auto|].
  destruct (decide (c = "..")); [auto|]. right. right. done.
Qed.

Lemma fold_plain r cs st : Forall plain cs -> fold_left (clean_step r) cs st = (rev cs ++ st)%list.
Proof.
  intros H. revert st. induction H as [|c cs Hc H IH]; intros st; [done|]. cbn [fold_left].
  rewrite (clean_step_plain _ _ _ Hc), IH. cbn [rev]. by rewrite <- app_assoc.
Qed.
Lemma fold_inside r cs qs st :
  Forall no_slash cs -> Forall plain qs -> stays_inside (length qs) cs ->
  exists qs', Forall plain qs' /\ fold_left (clean_step r) cs (qs ++ st)%list = (qs' ++ st)%list.
Proof.
  intros H. revert qs. induction H as [|c cs Hc H IH]; intros qs Hq Hi; [by exists qs|].
  cbn [fold_left stays_inside] in *. destruct Hi as (H1 & H2 & H3).
  destruct (comp_cases c Hc) as [Hs|[->|Hp]].
  - rewrite clean_step_skip by done. apply IH; auto.
  - specialize (H2 eq_refl). destruct qs as [|q qs]; [done|]. inversion_clear Hq as [|? ? Hq1 Hq2].
    rewrite <- app_comm_cons, clean_step_up by done. by apply IH.
  - rewrite clean_step_plain by done. rewrite app_comm_cons. apply IH; [by constructor|]. by apply H3.
Qed.
Lemma fold_ups ups st : Forall (fun c => c = "..") ups -> Forall (fun c => c = "..") st ->
  fold_left (clean_step false) ups st = (rev ups ++ st)%list.
Proof.
  intros H. revert st. induction H as [|c cs -> H IH]; intros st Hs; [done|]. cbn [fold_left rev].
  assert (clean_step false st ".." = ".." :: st) as ->.
  { destruct Hs as [|x st -> Hs]; done. }
  rewrite IH by (by constructor). by rewrite <- app_assoc.
Qed.

Lemma rooted_app a b : a <> "" -> has_prefix (a +:+ b) "/" = has_prefix a "/".
Proof.
  destruct a as [|x a]; [done|]. intros _. rewrite sapp_cons. unfold has_prefix. cbn [String.prefix].
  destruct (ascii_dec "/" x); [|done]. by destruct a, b.
Qed.
Lemma rooted_slash a : has_prefix ("/" +:+ a) "/" = true.
Proof. apply prefix_app. Qed.
Lemma rooted_noslash a : a <> "" -> no_slash a -> has_prefix a "/" = false.
Proof.
  destruct a as [|x a]; [done|]. intros _ [Hx _]. unfold has_prefix. cbn [String.prefix].
  by destruct (ascii_dec "/" x) as [<-|].
Qed.

(** ** Lemmas: Clean and Join *)

Definition stack_of (s : string) : list string :=
  fold_left (clean_step (has_prefix s "/")) (split_on "/"%char s) [].
Definition written (rooted : bool) (cs : list string) : string :=
  if rooted then "/" +:+ slashes cs else match cs with [] => "." | _ => slashes cs end.

Lemma clean_written s :
  Forall (fun c => c <> "") (stack_of s) ->
  path_clean s = written (has_prefix s "/") (rev (stack_of s)).
Proof.
  intros H. unfold path_clean. fold (stack_of s). rewrite join_slashes. unfold written.
  destruct (has_prefix s "/"); [done|].
  destruct (rev (stack_of s)) as [|c cs] eqn:E; [done|].
  destruct (String.eqb_spec (slashes (c :: cs)) "") as [E'|]; [|done]. exfalso.
  assert (c <> "") as Hc.
  { rewrite List.Forall_forall in H. apply H. apply in_rev. rewrite E. by left. }
  destruct cs; [done|]. rewrite slashes_cons in E' by done. by destruct c.
Qed.

Lemma step_nonempty r st c : Forall (fun c => c <> "") st -> Forall (fun c => c <> "") (clean_step r st c).
Proof.
  intros H. unfold clean_step. destruct (String.eqb_spec c ""); [done|].
  destruct (String.eqb_spec c "."); [done|]. destruct (String.eqb_spec c "..").
  - destruct H as [|x st Hx H]; [destruct r; repeat constructor; done|].
    destruct (String.eqb_spec x ".."); [|done]. by repeat constructor.
  - by constructor.
Qed.
Lemma fold_nonempty r cs st : Forall (fun c => c <> "") st -> Forall (fun c => c <> "") (fold_left (clean_step r) cs st).
Proof. revert st. induction cs; intros st H; cbn; [done|]. auto using step_nonempty. Qed.
Lemma stack_nonempty s : Forall (fun c => c <> "") (stack_of s).
Proof. by apply fold_nonempty. Qed.

Lemma join_written root p : root <> "" ->
  path_join [root; p] =
  written (has_prefix root "/")
    (rev (fold_left (clean_step (has_prefix root "/")) (split_on "/"%char p) (stack_of root))).
Proof.
  intros Hr. unfold path_join. cbn [List.filter].
  destruct (String.eqb_spec root "") as [|_]; [done|]. cbn [negb].
  destruct (String.eqb_spec p "") as [->|Hp]; cbn [negb join_with].
  - rewrite clean_written by apply stack_nonempty. done.
  - rewrite clean_written by apply stack_nonempty. unfold stack_of.
    rewrite (rooted_app root ("/" +:+ p)) by done. by rewrite split_app, fold_left_app.
Qed.

(** the shape of a stack *)
Lemma stack_rooted cs st : Forall no_slash cs -> Forall plain st -> Forall plain (fold_left (clean_step true) cs st).
Proof.
  intros H. revert st. induction H as [|c cs Hc H IH]; intros st Hs; [done|]. cbn [fold_left].
  apply IH. destruct (comp_cases c Hc) as [Hk|[->|Hp]].
  - by rewrite clean_step_skip.
  - destruct Hs as [|x st Hx Hs]; [constructor|]. by rewrite clean_step_up.
  - rewrite clean_step_plain by done. by constructor.
Qed.
Lemma stack_relative cs qs ups : Forall no_slash cs -> Forall plain qs -> Forall (fun c => c = "..") ups ->
  exists qs' ups', Forall plain qs' /\ Forall (fun c => c = "..") ups' /\
    fold_left (clean_step false) cs (qs ++ ups)%list = (qs' ++ ups')%list.
Proof.
  intros H. revert qs ups. induction H as [|c cs Hc H IH]; intros qs ups Hq Hu; [by exists qs, ups|].
  cbn [fold_left]. destruct (comp_cases c Hc) as [Hk|[->|Hp]].
  - rewrite clean_step_skip by done. by apply IH.
  - destruct Hq as [|q qs Hq1 Hq].
    + assert (clean_step false ([] ++ ups)%list ".." = [] ++ (".." :: ups))%list as ->.
      { destruct Hu as [|x ups -> Hu]; done. }
      apply IH; by constructor.
    + rewrite <- app_comm_cons, clean_step_up by done. by apply IH.
  - rewrite clean_step_plain by done. rewrite app_comm_cons. apply IH; [by constructor|done].
Qed.

Lemma Forall_rev_l {A} (P : A -> Prop) l : Forall P l -> Forall P (rev l).
Proof. rewrite !List.Forall_forall. intros H x Hx. apply H. by apply in_rev. Qed.

Lemma slashes_rooted cs : Forall plain cs -> has_prefix (slashes cs) "/" = false.
Proof.
  intros H. destruct H as [|c cs (H1 & _ & _ & H2) H]; [done|]. destruct cs as [|c' cs].
  - by apply rooted_noslash.
  - rewrite slashes_cons, rooted_app by done. by apply rooted_noslash.
Qed.
Lemma slashes_rel_rooted ups cs : Forall (fun c => c = "..") ups -> Forall plain cs ->
  has_prefix (slashes (ups ++ cs)%list) "/" = false.
Proof.
  intros [|c ups' -> Hu] Hc; [by apply slashes_rooted|]. cbn [app].
  destruct (ups' ++ cs)%list eqn:E; [done|]. by rewrite slashes_cons, rooted_app.
Qed.
Lemma ups_no_slash ups : Forall (fun c => c = "..") ups -> Forall no_slash ups.
Proof. intros H. eapply Forall_impl; [|exact H]. intros c ->. repeat split; done. Qed.

(** a tidy root determines its rootedness and stack *)
Lemma tidy_stack root f : tidy root f ->
  root <> "" /\
  forall qs, f qs = written (has_prefix root "/") (rev (stack_of root) ++ qs)%list.
Proof.
  intros [cs Hc|ups cs Hu Hc Hn|].
  - split; [done|]. intros qs. rewrite rooted_slash. cbn [written]. do 2 f_equal.
    f_equal. unfold stack_of. rewrite rooted_slash.
    change ("/" +:+ slashes cs) with ("" +:+ "/" +:+ slashes cs). rewrite split_app.
    destruct cs as [|c cs]; [done|]. rewrite split_slashes; [|done|by apply plain_no_slash].
    rewrite fold_left_app. change (fold_left (clean_step true) (split_on "/"%char "") []) with (@nil string).
    rewrite fold_plain by done. by rewrite app_nil_r, rev_involutive.
  - split.
    { destruct (ups ++ cs)%list as [|c l] eqn:E; [done|].
      assert (c <> "") as Hc1.
      { destruct Hu as [|u ups -> Hu]; cbn in E; [|by injection E as <- _].
        destruct Hc as [|c0 cs (? & _) Hc]; [done|]. by injection E as <- _. }
      destruct l; [done|]. rewrite slashes_cons by done. by destruct c. }
    intros qs. rewrite slashes_rel_rooted by done. cbn [written].
    assert (stack_of (slashes (ups ++ cs)%list) = rev (ups ++ cs)%list) as ->.
    { unfold stack_of. rewrite slashes_rel_rooted by done.
      rewrite split_slashes;
        [|done|apply Forall_app; split; [by apply ups_no_slash|by apply plain_no_slash]].
      rewrite fold_left_app, (fold_ups ups []), fold_plain by first [done | constructor].
      by rewrite app_nil_r, rev_app_distr. }
    rewrite rev_involutive. by destruct (ups ++ cs)%list.
  - split; [done|]. intros qs. cbn. by destruct qs.
Qed.

(** every directory name has a tidy one with the same stack *)
Lemma tidy_exists root : root <> "" -> exists c f, tidy c f /\ c <> "" /\
  has_prefix c "/" = has_prefix root "/" /\ stack_of c = stack_of root.
Proof.
  intros Hr. destruct (split_components root) as (Hn & Hf & _).
  destruct (has_prefix root "/") eqn:E.
  - assert (Forall plain (rev (stack_of root))) as Hp.
    { apply Forall_rev_l. unfold stack_of. rewrite E. by apply stack_rooted. }
    pose proof (tidy_abs _ Hp) as T. eexists _, _. split; [exact T|].
    destruct (tidy_stack _ _ T) as [H1 H2]. split; [done|]. rewrite rooted_slash. split; [done|].
    specialize (H2 []). rewrite rooted_slash in H2. cbn [written] in H2.
    unfold stack_of at 1. rewrite rooted_slash.
    change ("/" +:+ slashes (rev (stack_of root))) with ("" +:+ "/" +:+ slashes (rev (stack_of root))).
    rewrite split_app, fold_left_app. change (split_on "/"%char "") with [""].
    cbn [fold_left]. rewrite clean_step_skip by auto.
    destruct (rev (stack_of root)) as [|c cs] eqn:Er.
    { change (split_on "/"%char (slashes [])) with [""]. cbn [fold_left]. rewrite clean_step_skip by auto.
      rewrite <- (rev_involutive (stack_of root)), Er. done. }
    rewrite split_slashes by (try done; by apply plain_no_slash).
    rewrite fold_plain by done. by rewrite <- Er, rev_involutive, app_nil_r.
  - destruct (stack_relative (split_on "/"%char root) [] [] Hf) as (qs & ups & Hq & Hu & Es);
      [constructor..|].
    assert (stack_of root = (qs ++ ups)%list) as Est by (unfold stack_of; by rewrite E).
    destruct (rev (stack_of root)) as [|c l] eqn:Er.
    + exists ".", (fun qs => match qs with [] => "." | _ => slashes qs end).
      split; [constructor|]. split; [done|]. split; [done|].
      rewrite <- (rev_involutive (stack_of root)), Er. done.
    + assert (rev ups ++ rev qs <> [])%list as Hne.
      { rewrite <- rev_app_distr, <- Est, Er. done. }
      pose proof (tidy_rel (rev ups) (rev qs) (Forall_rev_l _ _ Hu) (Forall_rev_l _ _ Hq) Hne) as T.
      eexists _, _. split; [exact T|]. destruct (tidy_stack _ _ T) as [H1 H2]. split; [done|].
      rewrite slashes_rel_rooted by (by apply Forall_rev_l). split; [done|].
      unfold stack_of at 1. rewrite slashes_rel_rooted by (by apply Forall_rev_l).
      rewrite split_slashes;
        [|done|apply Forall_app; split; [apply ups_no_slash|apply plain_no_slash]; by apply Forall_rev_l].
      rewrite fold_left_app, (fold_ups (rev ups) []), fold_plain by first [done | constructor | by apply Forall_rev_l].
      by rewrite Est, !rev_involutive, app_nil_r.
Qed.
