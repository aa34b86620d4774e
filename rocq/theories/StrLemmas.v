(** * Lemmas about byte strings. *)
From Verif Require Export GoBase.

Lemma sapp_cons x a b : String x a +:+ b = String x (a +:+ b).
Proof. reflexivity. Qed.
Lemma sapp_nil_l b : "" +:+ b = b.
Proof. reflexivity. Qed.
Lemma sapp_assoc a b c : (a +:+ b) +:+ c = a +:+ (b +:+ c).
Proof. induction a as [|x a IH]; [done|]. by rewrite !sapp_cons, IH. Qed.
Lemma sapp_nil_r a : a +:+ "" = a.
Proof. induction a as [|x a IH]; [done|]. by rewrite sapp_cons, IH. Qed.
Lemma slength_app a b : String.length (a +:+ b) = String.length a + String.length b.
Proof. induction a as [|x a IH]; [done|]. rewrite sapp_cons. cbn. by rewrite IH. Qed.

Lemma prefix_app p s : String.prefix p (p +:+ s) = true.
Proof.
  induction p as [|x p IH]; [by destruct s|]. rewrite sapp_cons. cbn [String.prefix].
  destruct (ascii_dec x x); [done|done].
Qed.
Lemma has_prefix_dot s : has_prefix s "." = true <-> exists r, s = "." +:+ r.
Proof.
  unfold has_prefix. split.
  - destruct s as [|x r]; cbn [String.prefix]; [done|].
    destruct (ascii_dec "." x) as [<-|]; [|done]. by exists r.
  - intros [r ->]. apply prefix_app.
Qed.
