(** * Decimal numerals: specification of strconv's integer conversions and proofs. *)
From Verif Require Export StrLemmas.
From Coq Require Import Decimal DecimalFacts DecimalN DecimalPos DecimalString Lia.

(** ** Specification *)

(** The decimal digits. *)
Definition digit (c : ascii) (d : N) : Prop :=
  (c, d) ∈ [("0", 0); ("1", 1); ("2", 2); ("3", 3); ("4", 4);
            ("5", 5); ("6", 6); ("7", 7); ("8", 8); ("9", 9)]%char%N.

(** A nonempty string of digits is the numeral of a number. *)
Inductive numeral : string -> N -> Prop :=
| num_digit c d : digit c d -> numeral (String c "") d
| num_more x n c d : numeral x n -> digit c d -> numeral (x +:+ String c "") (10 * n + d).

(** An optional sign and a numeral. *)
Inductive signed_numeral : string -> Z -> Prop :=
| sn_plain x n : numeral x n -> signed_numeral x (Z.of_N n)
| sn_plus x n : numeral x n -> signed_numeral ("+" +:+ x) (Z.of_N n)
| sn_minus x n : numeral x n -> signed_numeral ("-" +:+ x) (- Z.of_N n).

(** The canonical numeral: no leading zeros (but "0"), no plus sign, no minus zero. *)
Definition canonical_numeral (x : string) (n : N) : Prop :=
  numeral x n /\ (x = "0" \/ ~ exists r, x = "0" +:+ r).
Definition canonical_signed (x : string) (z : Z) : Prop :=
  ((0 <= z)%Z /\ canonical_numeral x (Z.to_N z)) \/
  ((z < 0)%Z /\ exists y, x = "-" +:+ y /\ canonical_numeral y (Z.to_N (- z))).

(** ** Proofs *)

Lemma digit_cases c d : digit c d <-> digit_val c = Some d.
Proof.
  unfold digit. split.
  - rewrite !elem_of_cons, elem_of_nil. intros H.
    repeat destruct H as [[= -> ->]|H]; [reflexivity..|done].
  - destruct c as [[] [] [] [] [] [] [] []]; cbn; intros [= <-]; repeat (first [left|right]); fail.
Qed.

Lemma digits_app x : forall acc y, digits_val acc (x +:+ y) =
  match digits_val acc x with Some m => digits_val m y | None => None end.
Proof.
  induction x as [|c x IH]; intros acc y; [done|]. rewrite sapp_cons. cbn [digits_val].
  destruct (digit_val c); [apply IH|done].
Qed.
Lemma numeral_digits x n : numeral x n -> digits_val 0 x = Some n /\ x <> "".
Proof.
  induction 1 as [c d Hd%digit_cases|x n c d _ [IH Hx] Hd%digit_cases].
  - split; [|done]. cbn [digits_val]. by rewrite Hd.
  - split; [|by destruct x]. rewrite digits_app, IH. cbn [digits_val]. by rewrite Hd.
Qed.
Lemma digits_numeral y : forall x m n, numeral x m -> digits_val m y = Some n -> numeral (x +:+ y) n.
Proof.
  induction y as [|c y IH]; intros x m n Hx Hy; cbn [digits_val] in Hy.
  - injection Hy as ->. by rewrite sapp_nil_r.
  - destruct (digit_val c) as [d|] eqn:Hd; [|done]. apply digit_cases in Hd.
    assert (H : numeral ((x +:+ String c "") +:+ y) n) by (apply (IH _ (10 * m + d)%N); [by constructor|done]).
    by rewrite sapp_assoc in H.
Qed.
Lemma numeral_iff x n : numeral x n <-> digits_val 0 x = Some n /\ x <> "".
Proof.
  split; [apply numeral_digits|]. intros [H Hx]. destruct x as [|c x]; [done|]. cbn [digits_val] in H.
  destruct (digit_val c) as [d|] eqn:Hd; [|done].
  apply (digits_numeral x (String c "") d); [constructor; by apply digit_cases|done].
Qed.
Lemma numeral_fun x n n' : numeral x n -> numeral x n' -> n' = n.
Proof. intros [H _]%numeral_iff [H' _]%numeral_iff. congruence. Qed.

Lemma parse_uint_spec x n : parse_uint x = Some n <-> numeral x n /\ (n < 2 ^ 64)%N.
Proof.
  rewrite numeral_iff. unfold parse_uint. destruct x as [|c x]; [naive_solver|].
  destruct (digits_val 0 (String c x)) as [m|]; [|naive_solver].
  destruct (N.ltb_spec m (2 ^ 64)).
  - split; [intros [= ->]; done|]. intros [[[= ->] _] _]. done.
  - split; [done|]. intros [[[= ->] _] H2]. lia.
Qed.

Lemma digit_not_sign c d : digit c d -> c <> "-"%char /\ c <> "+"%char.
Proof. intros H%digit_cases. split; intros ->; discriminate H. Qed.
Lemma numeral_head x n : numeral x n -> exists c r d, x = String c r /\ digit c d.
Proof.
  intros [H Hx]%numeral_iff. destruct x as [|c r]; [done|]. cbn [digits_val] in H.
  destruct (digit_val c) as [d|] eqn:Hd; [|done]. exists c, r, d. split; [done|]. by apply digit_cases.
Qed.
Lemma numeral_no_sign x n : numeral x n -> forall y, x <> "-" +:+ y /\ x <> "+" +:+ y.
Proof.
  intros (c & r & d & -> & Hd)%numeral_head y. destruct (digit_not_sign _ _ Hd) as [H1 H2].
  change ("-" +:+ y) with (String "-" y). change ("+" +:+ y) with (String "+" y). split; congruence.
Qed.

Lemma atoi_cases x : atoi x =
  match x with
  | String c r =>
      if Ascii.eqb c "-" then
        match parse_uint r with
        | Some n => if (n <=? 2 ^ 63)%N then Some (- Z.of_N n)%Z else None
        | None => None
        end
      else
        match parse_uint (if Ascii.eqb c "+" then r else x) with
        | Some n => if (n <? 2 ^ 63)%N then Some (Z.of_N n) else None
        | None => None
        end
  | EmptyString => None
  end.
Proof.
  destruct x as [|c r]; [done|]. destruct c as [[] [] [] [] [] [] [] []]; reflexivity.
Qed.

(** Atoi succeeds exactly on the signed numerals of 64-bit integers, with that integer. *)
Lemma atoi_spec x z : atoi x = Some z <-> signed_numeral x z /\ (- 2 ^ 63 <= z < 2 ^ 63)%Z.
Proof.
  assert (HP : (Z.of_N (2 ^ 63) = 2 ^ 63)%Z) by reflexivity.
  rewrite atoi_cases. destruct x as [|c r].
  { split; [done|]. intros [H _]. inversion H as [y n Hn|y n Hn Hy|y n Hn Hy]; subst.
    by apply numeral_head in Hn as (? & ? & ? & ? & _). }
  destruct (Ascii.eqb_spec c "-") as [->|Hm].
  - destruct (parse_uint r) as [n|] eqn:E.
    + apply parse_uint_spec in E as [Hn _]. destruct (N.leb_spec n (2 ^ 63)).
      * split.
        -- intros [= <-]. split; [by apply (sn_minus r)|]. lia.
        -- intros [H1 H2]. inversion H1 as [y m Hy|y m Hy Hr|y m Hy Hr]; subst.
           ++ by destruct (numeral_no_sign _ _ Hy r) as [[] _].
           ++ by rewrite (numeral_fun _ _ _ Hn Hy).
      * split; [done|]. intros [H1 H2]. inversion H1 as [y m Hy|y m Hy Hr|y m Hy Hr]; subst.
        -- by destruct (numeral_no_sign _ _ Hy r) as [[] _].
        -- rewrite (numeral_fun _ _ _ Hn Hy) in *. lia.
    + split; [done|]. intros [H1 H2]. inversion H1 as [y m Hy|y m Hy Hr|y m Hy Hr]; subst.
      * by destruct (numeral_no_sign _ _ Hy r) as [[] _].
      * assert (parse_uint r = Some m); [|congruence]. apply parse_uint_spec. split; [done|]. lia.
  - set (y := if Ascii.eqb c "+" then r else String c r).
    assert (Hy : forall w, signed_numeral (String c r) w <-> exists n, w = Z.of_N n /\ numeral y n).
    { intros w. subst y. destruct (Ascii.eqb_spec c "+") as [->|Hp].
      - split.
        + intros H. inversion H as [y m Hy|y m Hy Hr|y m Hy Hr]; subst.
          * by destruct (numeral_no_sign _ _ Hy r) as [_ []].
          * eauto.
        + intros (n & -> & Hn). by apply (sn_plus r).
      - split.
        + intros H. inversion H as [y m Hy|y m Hy Hr|y m Hy Hr]; subst; [eauto|..].
          * done.
          * done.
        + intros (n & -> & Hn). by constructor. }
    rewrite Hy. destruct (parse_uint y) as [n|] eqn:E.
    + apply parse_uint_spec in E as [Hn _]. destruct (N.ltb_spec n (2 ^ 63)).
      * split; [intros [= <-]; split; [eauto|lia]|]. intros [(m & -> & Hm') _]. by rewrite (numeral_fun _ _ _ Hn Hm').
      * split; [done|]. intros [(m & -> & Hm') H2]. rewrite (numeral_fun _ _ _ Hn Hm') in *. lia.
    + split; [done|]. intros [(m & -> & Hm') H2].
      assert (parse_uint y = Some m); [|congruence]. apply parse_uint_spec. split; [done|]. lia.
Qed.

(** *** FormatUint and Itoa *)

Lemma digits_step c d q p r : digit_val c = Some d -> (10 * Npos p + d)%N = Npos q ->
  digits_val (Npos p) (String c r) = digits_val (Npos q) r.
Proof. intros H1 H2. cbn [digits_val]. by rewrite H1, H2. Qed.
Lemma of_uint_acc_digits u : forall p, digits_val (Npos p) (NilEmpty.string_of_uint u) = Some (Npos (Pos.of_uint_acc u p)).
Proof.
  induction u as [|u IH|u IH|u IH|u IH|u IH|u IH|u IH|u IH|u IH|u IH]; intros p; [done|..];
    cbn [NilEmpty.string_of_uint Pos.of_uint_acc]; rewrite <- IH.
  1: apply (digits_step "0" 0); [reflexivity|lia].
  1: apply (digits_step "1" 1); [reflexivity|lia].
  1: apply (digits_step "2" 2); [reflexivity|lia].
  1: apply (digits_step "3" 3); [reflexivity|lia].
  1: apply (digits_step "4" 4); [reflexivity|lia].
  1: apply (digits_step "5" 5); [reflexivity|lia].
  1: apply (digits_step "6" 6); [reflexivity|lia].
  1: apply (digits_step "7" 7); [reflexivity|lia].
  1: apply (digits_step "8" 8); [reflexivity|lia].
  1: apply (digits_step "9" 9); [reflexivity|lia].
Qed.
Lemma of_uint_digits u : digits_val 0 (NilEmpty.string_of_uint u) = Some (N.of_uint u).
Proof.
  unfold N.of_uint.
  induction u as [|u IH|u IH|u IH|u IH|u IH|u IH|u IH|u IH|u IH|u IH]; [done|..];
    cbn [NilEmpty.string_of_uint digits_val digit_val Pos.of_uint]; [exact IH|..]; apply of_uint_acc_digits.
Qed.
Lemma uint_string x : forall acc n, digits_val acc x = Some n -> exists u, NilEmpty.string_of_uint u = x.
Proof.
  induction x as [|c x IH]; intros acc n H; cbn [digits_val] in H; [by exists Nil|].
  destruct (digit_val c) as [d|] eqn:Hd; [|done]. destruct (IH _ _ H) as [u <-].
  apply digit_cases in Hd. unfold digit in Hd. rewrite !elem_of_cons, elem_of_nil in Hd.
  repeat destruct Hd as [[= -> ->]|Hd]; [| | | | | | | | | |done].
  - by exists (D0 u).
  - by exists (D1 u).
  - by exists (D2 u).
  - by exists (D3 u).
  - by exists (D4 u).
  - by exists (D5 u).
  - by exists (D6 u).
  - by exists (D7 u).
  - by exists (D8 u).
  - by exists (D9 u).
Qed.
Lemma unorm_canonical u : unorm u = u <-> u = D0 Nil \/ (u <> Nil /\ forall v, u <> D0 v).
Proof.
  split.
  - intros H. destruct u as [|v|v|v|v|v|v|v|v|v|v]; try (by right).
    left. rewrite unorm_D0 in H. destruct (uint_eq_dec v Nil) as [->|Hv]; [done|].
      exfalso. assert (Hl : nb_digits (unorm v) <= nb_digits v) by (apply nb_digits_unorm; done).
      rewrite H in Hl. cbn in Hl. lia.
  - intros [->|[H1 H2]]; [done|]. destruct u as [|v|v|v|v|v|v|v|v|v|v]; try done. by destruct (H2 v).
Qed.
Lemma to_uint_norm n : unorm (N.to_uint n) = N.to_uint n.
Proof. by rewrite <- DecimalN.Unsigned.to_of, DecimalN.Unsigned.of_to. Qed.

Lemma format_uint_canonical n : canonical_numeral (format_uint n) n.
Proof.
  unfold format_uint. split.
  - apply numeral_iff. split; [by rewrite of_uint_digits, DecimalN.Unsigned.of_to|].
    pose proof (to_uint_norm n) as H%unorm_canonical. destruct H as [->|[H _]]; [done|].
    by destruct (N.to_uint n).
  - pose proof (to_uint_norm n) as H%unorm_canonical. destruct H as [->|[H1 H2]]; [by left|right].
    intros [r Hr]. destruct (N.to_uint n) as [|v|v|v|v|v|v|v|v|v|v]; try done. by destruct (H2 v).
Qed.
Lemma canonical_unique x n : canonical_numeral x n -> x = format_uint n.
Proof.
  intros [[Hd Hx]%numeral_iff Hz]. destruct (uint_string _ _ _ Hd) as [u <-].
  rewrite of_uint_digits in Hd. injection Hd as <-. unfold format_uint. f_equal.
  rewrite DecimalN.Unsigned.to_of. symmetry. apply unorm_canonical.
  destruct Hz as [H|H].
  - left. destruct u as [|v|v|v|v|v|v|v|v|v|v]; try done. injection H. by destruct v.
  - right. split; [by intros ->|]. intros v ->. apply H. by exists (NilEmpty.string_of_uint v).
Qed.
Lemma itoa_canonical z : canonical_signed (itoa z) z.
Proof.
  destruct z as [|p|p]; cbn [itoa].
  - left. split; [done|]. apply format_uint_canonical.
  - left. split; [done|]. apply format_uint_canonical.
  - right. split; [done|]. eexists. split; [reflexivity|]. apply format_uint_canonical.
Qed.
Lemma canonical_signed_unique x z : canonical_signed x z -> x = itoa z.
Proof.
  intros [[Hz H]|(Hz & y & -> & H)]; apply canonical_unique in H as ->.
  - by destruct z.
  - by destruct z.
Qed.
Lemma canonical_signed_numeral x z : canonical_signed x z -> signed_numeral x z.
Proof.
  intros [[Hz [H _]]|(Hz & y & -> & [H _])].
  - apply sn_plain in H. by rewrite Z2N.id in H.
  - apply sn_minus in H. rewrite Z2N.id in H by lia. by rewrite Z.opp_involutive in H.
Qed.
Lemma signed_fun x z z' : signed_numeral x z -> signed_numeral x z' -> z' = z.
Proof.
  intros H1 H2. destruct H1 as [x n Hn|x n Hn|x n Hn]; inversion H2 as [y m Hm Hy|y m Hm Hy|y m Hm Hy]; subst;
    try (by rewrite (numeral_fun _ _ _ Hn Hm)).
  - by destruct (numeral_no_sign _ _ Hn y) as [_ []].
  - by destruct (numeral_no_sign _ _ Hn y) as [[] _].
  - by destruct (numeral_no_sign _ _ Hm x) as [_ []].
  - by destruct (numeral_no_sign _ _ Hm x) as [[] _].
Qed.
