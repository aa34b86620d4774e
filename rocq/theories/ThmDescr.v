(** * C50-C53: reserved ranges, positions, comments and descriptions. *)
From Verif Require Export ThmTypes ThmNavigation.

(** ** C50 *)

(** The numbers a source range covers. *)
Definition range_covers (r : rng) (z : Z) : Prop :=
  (r_from r <= z)%Z /\ (r_max r = true \/ (z <= r_to r)%Z).
(** The numbers a reserved value covers. *)
Definition value_covers (v : reserved_value) (z : Z) : Prop :=
  match v with
  | RVFrom a => (a <= z)%Z
  | RVSingle a => z = a
  | RVRange a b => (a <= z <= b)%Z
  | RVName _ => False
  end.
Definition name_in (v : reserved_value) (name : string) : Prop :=
  match v with RVName x => x = name | _ => False end.

Lemma iterate_all {B} (l : list B) (c : list B) s :
  iterate (fun x => ret (Some x)) l (list B) c (fun c x => ret ((c ++ [x])%list, true)) s = (Ret (c ++ l)%list, s).
Proof.
  revert c. induction l as [|x l IH]; intros c; [by rewrite app_nil_r|].
  cbn [iterate]. rewrite rbind_ret. cbn beta iota. rewrite rbind_ret. cbn beta iota.
  by rewrite IH, <- app_assoc.
Qed.

(** Reserved.Values gives one value per range, covering the same numbers, and then the names, all in
    source order. *)
Theorem C50_reserved_values s p t ranges names :
  element_at s p t -> t_data t = DReserved ranges names ->
  exists vs, collect (reserved_values p) s = (Ret vs, s) /\
    Forall2 (fun r v => forall z, value_covers v z <-> range_covers r z) ranges (take (length ranges) vs) /\
    Forall2 (fun name v => forall x, name_in v x <-> x = name) names (drop (length ranges) vs).
Proof.
  intros Ht%element_heap Hd. exists (map reserved_of_range ranges ++ map RVName names)%list. split.
  { unfold collect, reserved_values. rewrite (rbind_val _ _ _ _ _ (deref_ok _ _ _ Ht)), Hd.
    apply (iterate_all _ []). }
  rewrite take_app_alt, drop_app_alt by (by rewrite map_length). split.
  - clear. induction ranges as [|r l IH]; constructor; [|done]. intros z.
    unfold reserved_of_range, range_covers. destruct (r_max r); cbn; [naive_solver|].
    destruct (Z.eqb_spec (r_from r) (r_to r)) as [e|e]; cbn; [|naive_solver].
    split; [intros ->; split; [lia|right; lia]|]. intros [? [?|?]]; [done|lia].
  - clear. induction names as [|x l IH]; constructor; [|done]. cbn. naive_solver.
Qed.
(** Taken together: exactly the reserved numbers. *)
Theorem C50_numbers s p t ranges names vs s1 :
  element_at s p t -> t_data t = DReserved ranges names -> collect (reserved_values p) s = (Ret vs, s1) ->
  forall z, (exists v, v ∈ vs /\ value_covers v z) <-> (exists r, r ∈ ranges /\ range_covers r z).
Proof.
  intros Ht Hd E z. destruct (C50_reserved_values _ _ _ _ _ Ht Hd) as (vs' & E' & Hr & Hn).
  rewrite E' in E. injection E as -> _. rewrite <- (take_drop (length ranges) vs). split.
  - intros (v & [Hv|Hv]%elem_of_app & Hz).
    + apply elem_of_list_lookup in Hv as [i Hv].
      destruct (Forall2_lookup_r _ _ _ _ _ Hr Hv) as (r & Hi & Hc). exists r.
      split; [by eapply elem_of_list_lookup_2|]. by apply Hc.
    + apply elem_of_list_lookup in Hv as [i Hv].
      destruct (Forall2_lookup_r _ _ _ _ _ Hn Hv) as (x & Hi & Hc). specialize (Hc x). by destruct v, Hc as [_ ?]; cbn in *.
  - intros (r & Hr' & Hz). apply elem_of_list_lookup in Hr' as [i Hi].
    destruct (Forall2_lookup_l _ _ _ _ _ Hr Hi) as (v & Hv & Hc). exists v.
    split; [apply elem_of_app; left; by eapply elem_of_list_lookup_2|]. by apply Hc.
Qed.
Definition res_f := "res.proto".
Definition res_files : list (string * list tree) :=
  (std_files ++
   [ (res_f, [ T (DMessage "M" false) (at_line res_f 1) (Some ["a message"])
                 [ T (DReserved [mkRng 2 2 false; mkRng 5 9 false; mkRng 100 0 true] ["x"; "y"])
                     (at_line res_f 2) (Some ["reserved"; "things"]) [];
                   T (DOption "deprecated" (Lit zero_pos "true" [] [])) (at_line res_f 3) (Some ["why"]) [];
                   el res_f 4 (DMapField "m" "string" "bool" 10) [];
                   rfld res_f 5 "bool" "r" 11; rfld res_f 6 "M" "rm" 12 ] ]) ])%list.
Definition res_world : registry := world res_files [res_f].
Lemma res_reachable : reachable res_world.
Proof. apply world_reachable. vm_compute. reflexivity. Qed.
Lemma res_element p t : heap_at res_world p = Some t -> element_at res_world p t.
Proof. apply heap_element, reachable_Inv, res_reachable. Qed.
Example C50_example : exists t,
  element_at res_world (1, [0; 0]) t /\
  t_data t = DReserved [mkRng 2 2 false; mkRng 5 9 false; mkRng 100 0 true] ["x"; "y"] /\
  (collect (reserved_values (1, [0; 0])) res_world).1 =
    Ret [RVSingle 2; RVRange 5 9; RVFrom 100; RVName "x"; RVName "y"].
Proof.
  eexists. split; [apply res_element; vm_compute; reflexivity|]. split; [reflexivity|]. vm_compute. reflexivity.
Qed.

(** ** C51 *)

(** The node is not a Repeated type. *)
Definition not_repeated (n : node) : Prop := match n with NRepeated _ _ => False | _ => True end.

(** Pos of the node of an element is the position of the element; for a file it is line 1; the file
    name is the path under which the file was loaded.  Nothing is changed. *)
Theorem C51_pos s path p t n :
  reachable s -> points_to s p n -> not_repeated n -> element_of s path p t -> path <> "" ->
  pos n s = (Ret (match p.2 with [] => mkPos path 0 1 0 | _ => t_pos t end), s) /\
  p_file (match p.2 with [] => mkPos path 0 1 0 | _ => t_pos t end) = path.
Proof.
  intros Hs Hp Hr Ht Hne. pose proof (reachable_Inv _ Hs) as I.
  assert (Hfile : p_file (match p.2 with [] => mkPos path 0 1 0 | _ => t_pos t end) = path).
  { destruct p as [g [|i π]]; cbn [snd]; [done|]. by eapply element_stamp. }
  split; [|done].
  assert (E : pos_body n s = node_pos n s).
  { destruct n as [k a q|b|a o|o|v|key v]; try done. }
  unfold pos. rewrite E, (points_pos _ _ _ _ _ I Hp Ht). unfold pos_deferred. rewrite Hfile.
  destruct (String.eqb_spec path ""); done.
Qed.
(** So is Pos of the type of a map field. *)
Theorem C51_pos_map s path a p t name kt vt num :
  reachable s -> element_of s path p t -> t_data t = DMapField name kt vt num -> path <> "" ->
  pos (NAst KMap a p) s = (Ret (t_pos t), s) /\ p_file (t_pos t) = path.
Proof.
  intros Hs Ht Hd Hne. pose proof (reachable_Inv _ Hs) as I.
  assert (Hh : heap_at s p = Some t) by (apply element_heap; by exists path).
  assert (Hp : p.2 <> []).
  { intros Hnil. destruct p as [g π]. cbn in Hnil. subst π.
    destruct (element_root s g t) as [x Hx]; [by exists path|]. congruence. }
  pose proof (element_stamp _ _ _ _ I Ht Hp) as Hf. split; [|done].
  unfold pos. cbn [pos_body]. rewrite (rbind_val _ _ _ _ _ (deref_ok _ _ _ Hh)). cbn.
  unfold pos_deferred. rewrite Hf. by destruct (String.eqb_spec path "").
Qed.
(** A file can be loaded under the empty path.  Positions in it have no file name, so Pos walks up to the
    file for its (empty) name: it answers the same, and only the nodes it meets become known. *)
Theorem C51_pos_unnamed s p t n :
  reachable s -> points_to s p n -> not_repeated n -> element_of s "" p t -> outside_groups s p ->
  exists s', pos n s = (Ret (match p.2 with [] => mkPos "" 0 1 0 | _ => t_pos t end), s') /\ quiet s s'.
Proof.
  intros Hs Hp Hr Ht Hg. pose proof (reachable_Inv _ Hs) as I.
  set (r := match p.2 with [] => mkPos "" 0 1 0 | _ => t_pos t end).
  assert (Hfile : p_file r = "").
  { subst r. destruct p as [g [|i π]]; cbn [snd]; [done|]. by eapply element_stamp. }
  assert (E : pos_body n s = node_pos n s).
  { destruct n as [k a q|b|a o|o|v|key v]; try done. }
  unfold pos. rewrite E, (points_pos _ _ _ _ _ I Hp Ht). fold r. clearbody r. unfold pos_deferred. rewrite Hfile.
  cbn [String.eqb negb]. destruct p as [g π].
  destruct (hierarchy_ok π g n (node_fuel n) [] s I Hp Hg) as (l & s' & El & Q & I' & Hl).
  { clear - Hp Hr. destruct n as [k b q|b|a o|op|v|key v]; try done.
    - apply points_ast in Hp as [-> _]. cbn. lia.
    - cbn in Hp. destruct Hp as [Hp _]. cbn [node_fuel]. rewrite Hp. cbn. lia. }
  unfold collect, node_hierarchy. rewrite (rbind_val _ _ _ _ _ El). cbn [app].
  exists s'. split; [|done].
  assert (Hroot : exists f, heap_at s' (root g) = Some f /\ t_data f = DProto "").
  { destruct Ht as (f & (_ & Hf & Hd) & _). exists f. unfold heap_at. cbn. rewrite (q_heap _ _ Q).
    cbn [fst] in Hf. rewrite Hf. done. }
  destruct Hroot as (f & Hf & Hd).
  assert (exists a, list.last (n :: l) = Some (NAst KFile a (root g))) as [a ->].
  { destruct π as [|i π].
    - apply Forall2_nil_inv_l in Hl as ->. cbn.
      destruct n as [k a q|b|a o|op|v|key v]; try done.
      + apply points_ast in Hp as [-> (u & Hu & Hk)]. apply element_heap in Hu.
        rewrite (quiet_heap_at _ _ _ Q) in Hf. change (g, [] : list nat) with (root g) in Hu. rewrite Hf in Hu.
        injection Hu as <-. rewrite Hd in Hk. exists a. destruct Hk as [Hk|(-> & x & Hk)]; [|done].
        cbn in Hk. by injection Hk as <-.
      + exfalso. cbn in Hp. destruct Hp as [_ (u & Hu & Ho)]. apply element_heap in Hu.
        rewrite (quiet_heap_at _ _ _ Q) in Hf. change (g, [] : list nat) with (root g) in Hu. rewrite Hf in Hu.
        injection Hu as <-. by rewrite Hd in Ho.
    - assert (exists x, list.last (n :: l) = Some x /\ node_at s' (root g) x) as (x & -> & k & a & -> & Hc).
      { clear - Hl. revert n l i Hl. induction π as [|j π IH]; intros n l i H; cbn in H;
          apply Forall2_cons_inv_l in H as (x & l'' & Hx & Hl' & ->).
        - apply Forall2_nil_inv_l in Hl' as ->. by exists x.
        - destruct (IH x l'' j Hl') as (y & Hy & Hr). by exists y. }
      exists a. destruct (nd_cache _ (proj2 I') _ _ Hc) as (p' & k' & a' & t' & [= <-] & [= <- <-] & Ht' & Hk').
      rewrite Hf in Ht'. injection Ht' as <-. rewrite Hd in Hk'. by injection Hk' as <-. }
  rewrite (rbind_val _ _ _ _ _ (deref_ok _ _ _ Hf)), Hd. destruct r as [rf ro rl rc]. cbn in Hfile |- *. by subst rf.
Qed.
(** Pos of the type of a map field of such a file panics: NodeParent does not know these types. *)
Theorem C51_pos_map_unnamed s a p t name kt vt num :
  reachable s -> element_of s "" p t -> t_data t = DMapField name kt vt num ->
  pos (NAst KMap a p) s = (Panic (PText "unsupported node type: *core.Map"), s).
Proof.
  intros Hs Ht Hd. pose proof (reachable_Inv _ Hs) as I.
  assert (Hh : heap_at s p = Some t) by (apply element_heap; by exists "").
  assert (Hp : p.2 <> []).
  { intros Hnil. destruct p as [g π]. cbn in Hnil. subst π.
    destruct (element_root s g t) as [x Hx]; [by exists ""|]. congruence. }
  pose proof (element_stamp _ _ _ _ I Ht Hp) as Hf.
  unfold pos. cbn [pos_body]. rewrite (rbind_val _ _ _ _ _ (deref_ok _ _ _ Hh)). cbn [ret].
  unfold pos_deferred. rewrite Hf. reflexivity.
Qed.
(** Pos panics on builtin types and on Repeated types. *)
Theorem C51_builtin_panics s n :
  (exists b, n = NBuiltin b) \/ (exists a b, n = NRepeated a (Some (NBuiltin b))) \/ (exists a, n = NRepeated a None) ->
  exists msg, pos n s = (Panic msg, s).
Proof.
  intros [[b ->]|[(a & b & ->)|[a ->]]]; eexists; reflexivity.
Qed.
Theorem C51_repeated_panics s a p n :
  reachable s -> points_to s p (NRepeated a (Some n)) -> outside_groups s p ->
  exists msg, (pos (NRepeated a (Some n)) s).1 = Panic msg.
Proof.
  intros Hs Hp Hg. pose proof (reachable_Inv _ Hs) as I. unfold pos. cbn [pos_body panic].
  destruct (pos_deferred (NRepeated a (Some n)) zero_pos s) as [o s1] eqn:E.
  assert (o <> Diverge) as Ho.
  { intros ->. unfold pos_deferred in E. cbn [p_file zero_pos String.eqb negb] in E.
    destruct p as [g π].
    destruct (hierarchy_ok π g (NRepeated a (Some n)) (node_fuel (NRepeated a (Some n))) [] s I Hp Hg)
      as (l & s' & El & _ & I' & Hl).
    { clear - Hp. cbn [points_to] in Hp.
      change (length π < S (node_fuel n)).
      induction n as [k b q|b|b|b e IH|op|v|key v] using node_nested_ind; try done.
      - apply points_ast in Hp as [-> _]. cbn. lia.
      - cbn [points_to] in Hp. specialize (IH Hp). cbn [node_fuel]. lia.
      - cbn in Hp. destruct Hp as [Hp _]. cbn [node_fuel]. rewrite Hp. cbn. lia. }
    unfold collect, node_hierarchy in E. rewrite (rbind_val _ _ _ _ _ El) in E.
    destruct (list.last ([] ++ NRepeated a (Some n) :: l)) as [[[]| | | | |]|]; try discriminate E.
    unfold rbind in E. destruct (deref p s') as [[u|m|] s2] eqn:Ed; try discriminate E.
    + destruct (t_data u); discriminate E.
    + unfold deref in Ed. rewrite rbind_get in Ed. by destruct (heap_at s' p). }
  destruct o; [eexists; reflexivity|eexists; reflexivity|done].
Qed.
Example C51_example : exists path t n,
  element_of res_world path (1, [0; 0]) t /\ path <> "" /\ points_to res_world (1, [0; 0]) n /\
  not_repeated n /\ p_line (t_pos t) = 2%Z /\
  exists a m, points_to res_world (1, [0]) (NRepeated a (Some m)) /\ outside_groups res_world (1, [0]).
Proof.
  assert (H : exists t, element_at res_world (1, [0; 0]) t /\ p_file (t_pos t) = res_f /\ p_line (t_pos t) = 2%Z /\
    represented_by (t_data t) = Some KReserved).
  { eexists. split; [apply res_element; vm_compute; reflexivity|]. repeat split; reflexivity. }
  assert (H2 : exists t, element_at res_world (1, [0]) t /\ represented_by (t_data t) = Some KMessage).
  { eexists. split; [apply res_element; vm_compute; reflexivity|]. repeat split; reflexivity. }
  assert (H3 : exists path, element_at res_world (1, []) (file_tree path (default [] (table_get res_files res_f)))).
  { eexists. apply res_element; vm_compute; reflexivity. }
  pose proof res_reachable as Hs. revert Hs H H2 H3. generalize res_world as s.
  intros s Hs (t & [path Ht] & Hf & Hl & Hk) (u & Hu & Hku) (rp & Hr).
  pose proof (element_stamp _ _ _ _ (reachable_Inv _ Hs) Ht ltac:(done)) as E. rewrite Hf in E. subst path.
  exists res_f, t, (NAst KReserved 0%N (1, [0; 0])). split; [done|]. split; [discriminate|].
  split; [split; [done|]; exists t; split; [by exists res_f|done]|]. split; [done|]. split; [done|].
  exists 0%N, (NAst KMessage 0%N (1, [0])). split; [split; [done|]; exists u; done|].
  intros q v name Hq Hv Hd. cbn in Hq. apply elem_of_list_singleton in Hq as ->.
  apply element_heap in Hv, Hr. rewrite Hv in Hr. injection Hr as ->. discriminate Hd.
Qed.

Definition unnamed_elems : list tree :=
  [ T (DMessage "M" false) (at_line "" 7) None [el "" 8 (DMapField "m" "string" "bool" 1) []] ].
(** a resolver that finds a file for the empty path *)
Definition unnamed_env : env :=
  mkEnv [("unnamed", fun path => if String.eqb path "" then RName "root.proto" else RError not_exist)]
    (fun name path => if String.eqb path "" then inr unnamed_elems else inl not_exist).
Definition unnamed_world : registry := (proto_or_exit unnamed_env 50 "" (start std_files)).2.
Lemma unnamed_reachable : reachable unnamed_world.
Proof.
  assert (H : starts std_files = true) by (vm_compute; reflexivity).
  assert (He : env_ok unnamed_env).
  { intros name path els. cbn. destruct (String.eqb_spec path "") as [->|]; [|done]. intros [= <-]. vm_compute. reflexivity. }
  apply (hist_client _ _ (proto_or_exit unnamed_env 50 "")); [by apply start_history|]. by apply cl_proto_or_exit.
Qed.
Example C51_unnamed_example : reachable unnamed_world /\
  exists t u n, element_of unnamed_world "" (1, [0]) t /\ points_to unnamed_world (1, [0]) n /\ not_repeated n /\
    outside_groups unnamed_world (1, [0]) /\ p_line (t_pos t) = 7%Z /\
    element_of unnamed_world "" (1, [0; 0]) u /\ t_data u = DMapField "m" "string" "bool" 1.
Proof.
  pose proof unnamed_reachable as Hs.
  assert (H : heap_at unnamed_world (1, [0]) = Some (T (DMessage "M" false) (at_line "" 7) None [el "" 8 (DMapField "m" "string" "bool" 1) []]))
    by (vm_compute; reflexivity).
  assert (H3 : exists u, heap_at unnamed_world (1, []) = Some u /\ t_data u = DProto "" /\ protos unnamed_world !! "" = Some 1).
  { eexists. split; [vm_compute; reflexivity|]. split; [reflexivity|]. vm_compute. reflexivity. }
  assert (H4 : exists u, heap_at unnamed_world (1, [0; 0]) = Some u /\ t_data u = DMapField "m" "string" "bool" 1).
  { eexists. split; [vm_compute; reflexivity|]. reflexivity. }
  split; [exact Hs|]. revert Hs H H3 H4. generalize unnamed_world as s.
  intros s Hs H (r & Hr & Hd & Hp) (u & Hu & Hdu). pose proof (reachable_Inv _ Hs) as I.
  assert (Hl : loaded s "" 1 r).
  { split; [done|]. split; [|done]. unfold heap_at in Hr. cbn in Hr. destruct (heap s !! 1) as [x|]; [|done].
    cbn in Hr. by injection Hr as <-. }
  assert (Hof : forall π t, heap_at s (1, π) = Some t -> element_of s "" (1, π) t).
  { intros π t Ht. exists r. split; [done|]. unfold heap_at in Ht. cbn [fst snd] in *.
    destruct Hl as (_ & Hl & _). by rewrite Hl in Ht. }
  pose proof (Hof _ _ H) as E1. pose proof (Hof _ _ Hu) as E2.
  eexists _, u, (NAst KMessage 0%N (1, [0])).
  split; [exact E1|]. split; [split; [done|]; eexists; split; [by exists ""|reflexivity]|].
  split; [done|]. split; [|split; [reflexivity|split; [exact E2|done]]].
  intros q v name Hq Hv Hdv. cbn in Hq. apply elem_of_list_singleton in Hq as ->.
  apply element_heap in Hv. rewrite Hv in Hr. injection Hr as ->. congruence.
Qed.

(** ** C52 *)

(** Comment gives the lines of the comment in front of the declaration, nothing if there is none. *)
Theorem C52_comment s path p t n :
  reachable s -> element_of s path p t -> p.2 <> [] ->
  (points_to s p n /\ (exists k a, n = NAst k a p)) \/ (exists a name kt vt num, n = NAst KMap a p /\ t_data t = DMapField name kt vt num) ->
  comment n s = (Ret (match t_comment t with Some lines => lines | None => [] end), s).
Proof.
  intros Hs Ht Hne Hn. pose proof (reachable_Inv _ Hs) as I.
  assert (Hh : heap_at s p = Some t) by (apply element_heap; by exists path).
  assert (exists k a, n = NAst k a p /\ k <> KFile) as (k & a & -> & Hk).
  { destruct Hn as [[Hp (k & a & ->)]|(a & name & kt & vt & num & -> & Hd)]; [|by exists KMap, a].
    exists k, a. split; [done|]. intros ->. apply points_ast in Hp as (_ & u & Hu & [Hk|[? _]]); [|done].
    apply element_heap in Hu. assert (u = t) as -> by congruence.
    destruct p as [g [|i π]]; [done|].
    destruct (parent_allowed _ _ _ _ _ I Hh) as (v & _ & _ & Hal).
    destruct (t_data t); try discriminate Hk. by destruct (t_data v). }
  destruct k; try done; cbn [comment]; by rewrite (rbind_val _ _ _ _ _ (deref_ok _ _ _ Hh)).
Qed.
(** Files, options, option values, builtin and repeated types have no comment. *)
Theorem C52_no_comment s n :
  match n with NAst KFile _ _ | NBuiltin _ | NRepeated _ _ | NOption _ | NValue _ | NMapItem _ _ => True | _ => False end ->
  comment n s = (Ret [], s).
Proof. by destruct n as [[]| | | | |]. Qed.

(** So the comment of an option statement cannot be asked for. *)
Theorem C52_option_comment_refuted :
  exists s p t m n s1, reachable s /\ element_at s p t /\ t_comment t = Some ["why"] /\ route m /\
    m s = (Ret (Some n), s1) /\ element_ptr n = Some p /\ (comment n s1).1 = Ret [].
Proof.
  set (m := o <~ kth_of_loop 1 (message_everything (1, [0])) unit tt (fun c _ => ret (c, true)) ;; ret (default None o)).
  assert (H : exists n, (m res_world).1 = Ret (Some n) /\ element_ptr n = Some (1, [1; 0]) /\
     match n with NOption _ => True | _ => False end).
  { eexists. split; [vm_compute; reflexivity|]. split; [reflexivity|exact I]. }
  assert (Ht : exists t, element_at res_world (1, [1; 0]) t /\ t_comment t = Some ["why"]).
  { eexists. split; [apply res_element; vm_compute; reflexivity|]. reflexivity. }
  pose proof res_reachable as Hs. revert Hs H Ht. generalize res_world as s.
  intros s Hs (n & E & Hp & Hn) (t & Ht & Hc). exists s, (1, [1; 0]), t, m, n, (m s).2.
  split; [done|]. split; [done|]. split; [done|].
  split; [apply r_everything; [constructor|intros; constructor]|].
  split; [rewrite <- E; apply surjective_pairing|]. split; [done|]. by destruct n.
Qed.
Example C52_example : exists t,
  element_at res_world (1, [0; 0]) t /\ represented_by (t_data t) = Some KReserved /\
  t_comment t = Some ["reserved"; "things"].
Proof. eexists. split; [apply res_element; vm_compute; reflexivity|]. split; reflexivity. Qed.

(** ** C53 *)

(** The word for an element. *)
Definition kind_word (d : data) : string :=
  match d with
  | DProto _ => "file"
  | DSyntax _ => "syntax"
  | DPackage _ => "package"
  | DImport _ => "import"
  | DOption _ _ => "option"
  | DMessage _ _ => "message"
  | DEnum _ => "enum"
  | DEnumField _ _ => "enum value"
  | DService _ => "service"
  | DRPC _ _ _ _ _ => "method"
  | DNormalField _ _ _ _ _ | DMapField _ _ _ _ | DOneof _ => "message field"
  | DOneOfField _ _ _ => "oneof branch"
  | DReserved _ _ => "reserved"
  | _ => ""
  end.
(** Types: the type of a oneof is "oneof", a repeated type has "[]" in front. *)
Fixpoint described (d : data) (n : node) : string :=
  match n with
  | NAst KOneOf _ _ => "oneof"
  | NRepeated _ (Some e) => "[]" +:+ described d e
  | _ => kind_word d
  end.

Theorem C53_description s p t n :
  points_to s p n -> element_at s p t ->
  node_description n s = (Ret (described (t_data t) n), s).
Proof.
  intros Hp Ht%element_heap. induction n as [k a q|b|a|a e IH|o|v|key v] using node_nested_ind; try done.
  - apply points_ast in Hp as (-> & u & Hu%element_heap & Hk). assert (u = t) as -> by congruence.
    destruct Hk as [Hk|[-> _]]; [|done]. destruct (t_data t); try discriminate Hk; injection Hk as <-; done.
  - cbn [points_to] in Hp. cbn [node_description described]. by rewrite (rbind_val _ _ _ _ _ (IH Hp)).
  - cbn [points_to] in Hp. destruct Hp as (_ & u & Hu%element_heap & Ho). assert (u = t) as -> by congruence.
    destruct (t_data t); done.
Qed.
(** On all other types handed out, NodeDescription panics: builtin types, types of map fields,
    Repeated of a builtin or unresolved type. *)
Theorem C53_other_types_panic s n :
  handed_out s n -> (forall p, ~ points_to s p n) -> exists msg, (node_description n s).1 = Panic msg.
Proof.
  intros H Hno. destruct H as [p n H|a p t name kt vt num Ht Hd|b|a b|a]; try (eexists; reflexivity).
  - by apply Hno in H.
  - cbn [node_description]. apply element_heap in Ht. unfold map_key.
    unfold rbind at 1. rewrite (rbind_val _ _ _ _ _ (deref_ok _ _ _ Ht)), Hd.
    destruct (builtin_comparable kt); eexists; reflexivity.
Qed.
Example C53_example :
  (exists t, element_at res_world (1, [0; 0]) t /\ points_to res_world (1, [0; 0]) (NAst KReserved 0 (1, [0; 0]))) /\
  (exists n, (field_type 0 (1, [4; 0]) res_world).1 = Ret (Some n) /\
     (node_description n (field_type 0 (1, [4; 0]) res_world).2).1 = Ret "[]message") /\
  (exists n msg, (field_type 0 (1, [2; 0]) res_world).1 = Ret (Some n) /\
     (node_description n (field_type 0 (1, [2; 0]) res_world).2).1 = Panic msg).
Proof.
  split. { eexists. split; [apply res_element; vm_compute; reflexivity|]. split; [done|]. eexists.
           split; [apply res_element; vm_compute; reflexivity|]. reflexivity. }
  split; [eexists; split; [vm_compute; reflexivity|vm_compute; reflexivity]|]. eexists _, _. split; [vm_compute; reflexivity|vm_compute; reflexivity].
Qed.
