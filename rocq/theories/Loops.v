(** * Loops over iterators whose steps can panic (Options, Everything). *)
From Verif Require Export Navigate.

(** [pick] skips the children that are not selected and, when it returns, produces for the others
    an element related to the child by [P]. *)
Record steps {A} (sel : data -> bool) (P : ptr -> A -> registry -> Prop)
    (pick : ptr * tree -> R (option A)) : Prop := mkSteps {
  st_skip : forall (b : ptr * tree) s, sel (t_data b.2) = false -> pick b s = (Ret None, s);
  st_pick : forall (b : ptr * tree) s o s', Inv s -> heap_at s b.1 = Some b.2 -> sel (t_data b.2) = true ->
    pick b s = (Ret o, s') -> exists x, o = Some x /\ P b.1 x s';
  st_inv : forall b, keeps inv_step (pick b);
  st_grows : forall p x s s', grows s s' -> P p x s -> P p x s'
}.

Lemma loop_steps {A C} sel P (pick : ptr * tree -> R (option A)) kids (body : C -> A -> R (C * bool)) :
  steps sel P pick -> (forall c x, client Loads (body c x)) ->
  forall c l0 s c' l s', Inv s -> (forall b, b ∈ kids -> heap_at s b.1 = Some b.2) ->
  iterate pick kids (C * list A)%type (c, l0) (recording body) s = (Ret (c', l), s') ->
  Inv s' /\ grows s s' /\
  exists l1 k, l = (l0 ++ l1)%list /\
    Forall2 (fun q x => P q x s') (take k (map fst (List.filter (fun b => sel (t_data b.2)) kids))) l1 /\
    ((forall c x s c' s', body c x s <> (Ret (c', false), s')) ->
     length (List.filter (fun b => sel (t_data b.2)) kids) <= k).
Proof.
  intros Hp Hb. induction kids as [|b kids IH]; intros c l0 s c' l s' I Hk E; cbn [iterate List.filter] in *.
  - injection E as <- <- <-. split; [done|]. split; [apply grows_refl|].
    exists [], 0. rewrite app_nil_r. split; [done|]. split; [constructor|]. done.
  - assert (Hsub : forall s1, grows s s1 -> forall b', b' ∈ kids -> heap_at s1 b'.1 = Some b'.2).
    { intros s1 G b' Hb'. eapply ext_heap_at; [exact G|]. apply Hk. by constructor. }
    destruct (sel (t_data b.2)) eqn:Hsel.
    + apply rbind_Ret in E as (o & s1 & E1 & E).
      destruct (inv_step_ret _ _ _ _ (st_inv _ _ _ Hp b) I E1) as [I1 G1].
      destruct (st_pick _ _ _ Hp b s o s1 I (Hk b (elem_of_list_here _ _)) Hsel E1) as (n & -> & Hn).
      apply rbind_Ret in E as ([[c2 l2] go] & s2 & E2 & E3). unfold recording in E2.
      apply rbind_Ret in E2 as ([c3 go3] & s3 & E2 & E4). cbn in E2, E4.
      injection E4 as <- <- <- <-.
      destruct (inv_step_ret _ _ _ _ (client_inv_step _ _ (Hb _ _)) I1 E2) as [I3 G3].
      pose proof (grows_trans _ _ _ G1 G3) as G13.
      destruct go3.
      * destruct (IH _ _ _ _ _ _ I3 (Hsub _ G13) E3) as (I' & G' & l1 & k & -> & H1 & H2).
        split; [done|]. split; [exact (grows_trans _ _ _ G13 G')|].
        exists (n :: l1), (S k). rewrite <- app_assoc. split; [done|]. cbn [map take]. split.
        -- constructor; [|done]. eapply (st_grows _ _ _ Hp); [exact G'|]. exact (st_grows _ _ _ Hp _ _ _ _ G3 Hn).
        -- intros H. cbn. specialize (H2 H). lia.
      * injection E3 as <- <- <-. split; [done|]. split; [done|].
        exists [n], 1. split; [done|]. cbn [map take]. split.
        -- constructor; [exact (st_grows _ _ _ Hp _ _ _ _ G3 Hn)|]. destruct (map _ _); constructor.
        -- intros H. by apply H in E2.
    + rewrite (rbind_val _ _ _ _ _ (st_skip _ _ _ Hp b s Hsel)) in E. eapply IH; [exact I| |exact E].
      apply Hsub, grows_refl.
Qed.

Lemma loop_iter {A C} p sel P (pick : ptr * tree -> R (option A)) t s (c : C) body c' l s' :
  steps sel P pick -> Inv s -> heap_at s p = Some t -> (forall c x, client Loads (body c x)) ->
  iter_kids p pick (C * list A)%type (c, []) (recording body) s = (Ret (c', l), s') ->
  Inv s' /\ grows s s' /\
  Forall2 (fun q x => P q x s') (take (length l) (children sel p t)) l /\
  ((forall c x s c' s', body c x s <> (Ret (c', false), s')) -> length l = length (children sel p t)).
Proof.
  intros Hp I Ht Hb E. unfold iter_kids in E. rewrite (rbind_val _ _ _ _ _ (kids_of_ok _ _ _ Ht)) in E.
  destruct (loop_steps sel P pick (kids_at p t) body Hp Hb c [] s c' l s' I) as (I' & G & l1 & k & -> & H1 & H2);
    [intros b; by apply kids_heap|exact E|].
  split; [done|]. split; [done|]. fold (children sel p t) in H1. cbn [app].
  pose proof (Forall2_length _ _ _ H1) as Hl. rewrite take_length in Hl. split.
  - assert (take (length l1) (children sel p t) = take k (children sel p t)) as ->; [|done].
    destruct (decide (k <= length (children sel p t))).
    + f_equal. lia.
    + rewrite !take_ge by lia. done.
  - intros H. specialize (H2 H). unfold children in *. rewrite map_length in *. lia.
Qed.
