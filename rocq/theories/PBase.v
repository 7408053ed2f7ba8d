(* General lemmas used by the proof files. *)
From Coq Require Import ZArith List Bool Lia.
From Verif Require Import Res SpecEcc.
Import ListNotations.
Local Open Scope Z_scope.

(* ---- finite ranges ---- *)
Fixpoint zfrom (n : nat) (z : Z) : list Z :=
  match n with O => [] | S n' => z :: zfrom n' (z + 1) end.
Definition zrange (n : nat) : list Z := zfrom n 0.

Lemma in_zfrom : forall n a z, a <= z < a + Z.of_nat n -> In z (zfrom n a).
Proof.
  induction n as [|n IH]; intros a z H; [lia|]. cbn [zfrom].
  destruct (Z.eq_dec z a) as [-> | Hne]; [left; reflexivity|right]. apply IH. lia.
Qed.

Lemma in_zrange : forall n z, 0 <= z < Z.of_nat n -> In z (zrange n).
Proof. intros n z H. apply in_zfrom. lia. Qed.

Lemma zfrom_length : forall n a, length (zfrom n a) = n.
Proof. induction n as [|n IH]; intros a; [reflexivity|]. cbn [zfrom length]. now rewrite IH. Qed.

Lemma zfrom_nth : forall n a i d, (i < n)%nat -> nth i (zfrom n a) d = a + Z.of_nat i.
Proof.
  induction n as [|n IH]; intros a i d H; [lia|]. destruct i as [|i]; cbn [zfrom nth]; [lia|].
  rewrite IH by lia. lia.
Qed.

Lemma zrange_forallb : forall n (P : Z -> bool),
  forallb P (zrange n) = true -> forall z, 0 <= z < Z.of_nat n -> P z = true.
Proof.
  intros n P H z Hz. rewrite forallb_forall in H. apply H. apply in_zrange; exact Hz.
Qed.

(* all lists of n bits *)
Fixpoint allbits (n : nat) : list (list Z) :=
  match n with
  | O => [[]]
  | S n' => map (cons 0) (allbits n') ++ map (cons 1) (allbits n')
  end.

Lemma in_allbits : forall n l, is_bits n l -> In l (allbits n).
Proof.
  induction n as [|n IH]; intros l [Hlen Hb].
  - destruct l; [left; reflexivity|discriminate].
  - destruct l as [|x l]; [discriminate|]. inversion Hb as [|? ? Hx Hl]; subst.
    cbn [allbits]. apply in_or_app.
    assert (Hin : In l (allbits n)) by (apply IH; split; [now injection Hlen|assumption]).
    destruct Hx as [-> | ->]; [left|right]; apply in_map; exact Hin.
Qed.

Lemma allbits_forallb : forall n (P : list Z -> bool),
  forallb P (allbits n) = true -> forall l, is_bits n l -> P l = true.
Proof.
  intros n P H l Hl. rewrite forallb_forall in H. apply H. apply in_allbits; exact Hl.
Qed.

(* ---- values and weights ---- *)
Lemma val_range : forall l, Forall is_bit l -> 0 <= val l < 2 ^ Z.of_nat (length l).
Proof.
  induction l as [|b l IH]; intros H.
  - cbn; lia.
  - inversion H as [|? ? Hb Hl]; subst. specialize (IH Hl).
    cbn [val length]. rewrite Nat2Z.inj_succ, Z.pow_succ_r by lia.
    destruct Hb as [-> | ->]; lia.
Qed.

Lemma testbit_val_0 : forall b l, is_bit b -> Z.testbit (b + 2 * val l) 0 = (b =? 1).
Proof.
  intros b l [-> | ->].
  - rewrite Z.add_0_l, Z.testbit_even_0. reflexivity.
  - rewrite Z.add_comm, Z.testbit_odd_0. reflexivity.
Qed.

Lemma testbit_val_succ : forall b l n, is_bit b -> 0 <= n ->
  Z.testbit (b + 2 * val l) (Z.succ n) = Z.testbit (val l) n.
Proof.
  intros b l n [-> | ->] Hn.
  - rewrite Z.add_0_l. apply Z.testbit_even_succ; exact Hn.
  - rewrite Z.add_comm. apply Z.testbit_odd_succ; exact Hn.
Qed.

Lemma testbit_val : forall l i, Forall is_bit l -> (i < length l)%nat ->
  Z.testbit (val l) (Z.of_nat i) = (nth i l 0 =? 1).
Proof.
  induction l as [|b l IH]; intros i Hb Hi; [cbn in Hi; lia|].
  inversion Hb as [|? ? Hb0 Hl]; subst. cbn [val].
  destruct i as [|i].
  - cbn [nth]. change (Z.of_nat 0) with 0. apply testbit_val_0; assumption.
  - rewrite Nat2Z.inj_succ, testbit_val_succ by (assumption || lia).
    cbn [nth]. apply IH; [assumption|cbn in Hi; lia].
Qed.

Lemma weight_nonneg : forall n v, 0 <= weight n v.
Proof.
  induction n as [|n IH]; intros v; cbn [weight]; [lia|].
  specialize (IH v). destruct (Z.testbit v (Z.of_nat n)); cbn [Z.b2z]; lia.
Qed.

Lemma weight_lxor_le : forall n a b, weight n (Z.lxor a b) <= weight n a + weight n b.
Proof.
  induction n as [|n IH]; intros a b; cbn [weight]; [lia|].
  specialize (IH a b). rewrite Z.lxor_spec.
  destruct (Z.testbit a (Z.of_nat n)), (Z.testbit b (Z.of_nat n)); cbn [xorb Z.b2z]; lia.
Qed.

Lemma weight_0_testbit : forall n v, weight n v = 0 -> forall i, (i < n)%nat -> Z.testbit v (Z.of_nat i) = false.
Proof.
  induction n as [|n IH]; intros v H i Hi; [lia|]. cbn [weight] in H.
  pose proof (weight_nonneg n v) as Hn.
  destruct (Z.testbit v (Z.of_nat n)) eqn:E; cbn [Z.b2z] in H; [lia|].
  destruct (Nat.eq_dec i n) as [-> | Hne]; [exact E|]. apply IH; lia.
Qed.

Lemma lxor_range : forall n a b, 0 <= a < 2 ^ n -> 0 <= b < 2 ^ n -> 0 <= n -> 0 <= Z.lxor a b < 2 ^ n.
Proof.
  intros n a b Ha Hb Hn. split; [apply Z.lxor_nonneg; lia|].
  destruct (Z.eq_dec (Z.lxor a b) 0) as [E | NE]; [rewrite E; apply Z.pow_pos_nonneg; lia|].
  assert (H0 : 0 <= Z.lxor a b) by (apply Z.lxor_nonneg; lia).
  apply Z.log2_lt_pow2; [lia|].
  pose proof (Z.log2_lxor a b ltac:(lia) ltac:(lia)) as Hl.
  assert (Hlog : forall x, 0 <= x < 2 ^ n -> 0 < n -> Z.log2 x < n).
  { intros x Hx Hn0. destruct (Z.eq_dec x 0) as [-> | Hx0]; [rewrite Z.log2_nonpos; lia|].
    apply Z.log2_lt_pow2; lia. }
  destruct (Z.eq_dec n 0) as [-> | Hn0].
  - change (2 ^ 0) with 1 in *. assert (a = 0) by lia. assert (b = 0) by lia. subst. now exfalso.
  - pose proof (Hlog a Ha ltac:(lia)). pose proof (Hlog b Hb ltac:(lia)). lia.
Qed.

Lemma testbit_high : forall v n i, 0 <= v < 2 ^ n -> n <= i -> Z.testbit v i = false.
Proof.
  intros v n i Hv Hi. destruct (Z.eq_dec v 0) as [-> | Hv0]; [apply Z.bits_0|].
  apply Z.bits_above_log2; [lia|].
  assert (Hn : 0 <= n).
  { destruct (Z.lt_ge_cases n 0); [rewrite Z.pow_neg_r in Hv by lia; lia|lia]. }
  assert (Z.log2 v < n) by (apply Z.log2_lt_pow2; lia). lia.
Qed.

Lemma eq_of_testbit : forall n a b, 0 <= a < 2 ^ Z.of_nat n -> 0 <= b < 2 ^ Z.of_nat n ->
  (forall i, (i < n)%nat -> Z.testbit a (Z.of_nat i) = Z.testbit b (Z.of_nat i)) -> a = b.
Proof.
  intros n a b Ha Hb H. apply Z.bits_inj'. intros i Hi.
  destruct (Z.lt_ge_cases i (Z.of_nat n)) as [Hlt | Hge].
  - rewrite <- (Z2Nat.id i) by lia. apply H. lia.
  - rewrite !(testbit_high _ (Z.of_nat n)) by assumption. reflexivity.
Qed.

Lemma weight_0_eq : forall n v, 0 <= v < 2 ^ Z.of_nat n -> weight n v = 0 -> v = 0.
Proof.
  intros n v Hv Hw. apply (eq_of_testbit n); [assumption| |].
  - split; [lia|apply Z.pow_pos_nonneg; lia].
  - intros i Hi. rewrite Z.bits_0. apply (weight_0_testbit n v Hw i Hi).
Qed.

Lemma lxor_cancel : forall a b, Z.lxor a (Z.lxor a b) = b.
Proof. intros a b. now rewrite <- Z.lxor_assoc, Z.lxor_nilpotent, Z.lxor_0_l. Qed.

Lemma lxor_eq_swap : forall a b c, Z.lxor a b = c -> a = Z.lxor b c.
Proof. intros a b c <-. now rewrite (Z.lxor_comm a b), lxor_cancel. Qed.

(* Hamming distance and the weight of the difference *)
Lemma hdist_nonneg : forall a b, 0 <= hdist a b.
Proof.
  induction a as [|x a IH]; intros [|y b]; cbn [hdist]; try lia.
  specialize (IH b). destruct (x =? y); lia.
Qed.

Lemma val_lxor_cons : forall x y a b, is_bit x -> is_bit y ->
  Z.lxor (x + 2 * a) (y + 2 * b) = Z.lxor x y + 2 * Z.lxor a b.
Proof.
  intros x y a b Hx Hy.
  apply Z.bits_inj'. intros n Hn.
  rewrite Z.lxor_spec.
  destruct (Z.eq_dec n 0) as [-> | Hn0].
  - destruct Hx as [-> | ->], Hy as [-> | ->];
      change (Z.lxor 0 0) with 0; change (Z.lxor 0 1) with 1; change (Z.lxor 1 0) with 1; change (Z.lxor 1 1) with 0;
      rewrite ?Z.add_0_l, ?(Z.add_comm 1), ?Z.testbit_even_0, ?Z.testbit_odd_0; reflexivity.
  - replace n with (Z.succ (n - 1)) by lia.
    destruct Hx as [-> | ->], Hy as [-> | ->];
      change (Z.lxor 0 0) with 0; change (Z.lxor 0 1) with 1; change (Z.lxor 1 0) with 1; change (Z.lxor 1 1) with 0;
      rewrite ?Z.add_0_l, ?(Z.add_comm 1), ?Z.testbit_even_succ, ?Z.testbit_odd_succ by lia;
      rewrite Z.lxor_spec; reflexivity.
Qed.

(* weight counted from the low end *)
Lemma weight_low : forall n x a, is_bit x -> weight (S n) (x + 2 * a) = x + weight n a.
Proof.
  induction n as [|n IH]; intros x a Hx.
  - cbn [weight]. change (Z.of_nat 0) with 0. destruct Hx as [-> | ->].
    + rewrite Z.add_0_l, Z.testbit_even_0. reflexivity.
    + rewrite (Z.add_comm 1 (2 * a)), Z.testbit_odd_0. reflexivity.
  - cbn [weight] in *. specialize (IH x a Hx).
    replace (Z.testbit (x + 2 * a) (Z.of_nat (S n))) with (Z.testbit a (Z.of_nat n)).
    + lia.
    + rewrite Nat2Z.inj_succ. destruct Hx as [-> | ->].
      * rewrite Z.add_0_l, Z.testbit_even_succ by lia. reflexivity.
      * rewrite (Z.add_comm 1), Z.testbit_odd_succ by lia. reflexivity.
Qed.

Lemma hdist_weight : forall n a b, is_bits n a -> is_bits n b ->
  hdist a b = weight n (Z.lxor (val a) (val b)).
Proof.
  induction n as [|n IH]; intros a b [La Ha] [Lb Hb].
  - destruct a; [|discriminate]. destruct b; [|discriminate]. reflexivity.
  - destruct a as [|x a]; [discriminate|]. destruct b as [|y b]; [discriminate|].
    inversion Ha as [|? ? Hx Ha']; inversion Hb as [|? ? Hy Hb']; subst.
    cbn [val hdist]. rewrite val_lxor_cons by assumption.
    rewrite weight_low.
    + rewrite <- (IH a b); [|split; [now injection La|assumption]|split; [now injection Lb|assumption]].
      destruct Hx as [-> | ->], Hy as [-> | ->]; reflexivity.
    + destruct Hx as [-> | ->], Hy as [-> | ->]; [left|right|right|left]; reflexivity.
Qed.

Lemma val_inj : forall n a b, is_bits n a -> is_bits n b -> val a = val b -> a = b.
Proof.
  induction n as [|n IH]; intros a b [La Ha] [Lb Hb] E.
  - destruct a; [|discriminate]. destruct b; [|discriminate]. reflexivity.
  - destruct a as [|x a]; [discriminate|]. destruct b as [|y b]; [discriminate|].
    inversion Ha as [|? ? Hx Ha']; inversion Hb as [|? ? Hy Hb']; subst.
    cbn [val] in E.
    assert (x = y) by (destruct Hx as [-> | ->], Hy as [-> | ->]; lia).
    subst y. f_equal. apply IH; [split; [now injection La|assumption]|split; [now injection Lb|assumption]|lia].
Qed.

(* the n-bit list of a number *)
Fixpoint bits_of (n : nat) (v : Z) : list Z :=
  match n with O => [] | S n' => (v mod 2) :: bits_of n' (v / 2) end.

Lemma bits_of_bits : forall n v, is_bits n (bits_of n v).
Proof.
  induction n as [|n IH]; intros v; [split; [reflexivity|constructor]|].
  destruct (IH (v / 2)) as [L F]. split; [cbn; now rewrite L|]. cbn [bits_of]. constructor; [|assumption].
  pose proof (Z.mod_pos_bound v 2 ltac:(lia)). unfold is_bit. lia.
Qed.

Lemma val_bits_of : forall n v, 0 <= v < 2 ^ Z.of_nat n -> val (bits_of n v) = v.
Proof.
  induction n as [|n IH]; intros v Hv.
  - cbn in *. lia.
  - cbn [bits_of val]. rewrite IH.
    + pose proof (Z.div_mod v 2 ltac:(lia)). lia.
    + rewrite Nat2Z.inj_succ, Z.pow_succ_r in Hv by lia.
      split; [apply Z.div_pos; lia|]. apply Z.div_lt_upper_bound; lia.
Qed.

Lemma is_bits_Forall : forall n l, is_bits n l -> Forall is_bit l.
Proof. intros n l [_ H]; exact H. Qed.

(* take apart a list of known length *)
Lemma length_S_inv : forall {A} (l : list A) n, length l = S n -> exists x t, l = x :: t /\ length t = n.
Proof.
  intros A [|x t] n H; [discriminate|]. exists x, t. split; [reflexivity|now injection H].
Qed.

Lemma is_bits_check : forall n l,
  Nat.eqb (length l) n && forallb (fun b => (b =? 0) || (b =? 1)) l = true -> is_bits n l.
Proof.
  intros n l H. apply andb_true_iff in H. destruct H as [H1 H2]. split; [now apply Nat.eqb_eq|].
  rewrite forallb_forall in H2. apply Forall_forall. intros x Hx. specialize (H2 x Hx).
  apply orb_true_iff in H2. unfold is_bit. destruct H2 as [H2 | H2]; apply Z.eqb_eq in H2; lia.
Qed.

(* ---- population count ---- *)
Fixpoint pop (p : positive) : Z :=
  match p with xH => 1 | xO p' => pop p' | xI p' => Z.succ (pop p') end.
Definition popZ (z : Z) : Z := match z with Zpos p => pop p | _ => 0 end.

Lemma weight_0 : forall n, weight n 0 = 0.
Proof. induction n as [|n IH]; [reflexivity|]. cbn [weight]. rewrite Z.bits_0, IH. reflexivity. Qed.

Lemma weight_popZ : forall n v, 0 <= v < 2 ^ Z.of_nat n -> weight n v = popZ v.
Proof.
  intros n v [Hv Hlt]. destruct v as [|p|p]; [apply weight_0| |lia]. clear Hv. cbn [popZ].
  revert p Hlt. induction n as [|n IH]; intros p Hlt; [change (2 ^ Z.of_nat 0) with 1 in Hlt; lia|].
  rewrite Nat2Z.inj_succ, Z.pow_succ_r in Hlt by lia.
  destruct p as [p|p|].
  - replace (Z.pos p~1) with (1 + 2 * Z.pos p) by lia.
    rewrite weight_low by (right; reflexivity). cbn [pop]. rewrite IH by lia. lia.
  - replace (Z.pos p~0) with (0 + 2 * Z.pos p) by lia.
    rewrite weight_low by (left; reflexivity). cbn [pop]. rewrite IH by lia. lia.
  - replace 1 with (1 + 2 * 0) at 1 by lia.
    rewrite weight_low by (right; reflexivity). rewrite weight_0. reflexivity.
Qed.

Lemma weight_split : forall n k v, weight (n + k) v = weight n (Z.shiftr v (Z.of_nat k)) + weight k v.
Proof.
  induction n as [|n IH]; intros k v; [reflexivity|]. cbn [plus weight]. rewrite IH.
  rewrite Z.shiftr_spec by lia. rewrite Nat2Z.inj_add. lia.
Qed.

(* ---- polynomials over GF(2) ---- *)
Lemma clmul_ext : forall g n a b, (forall i, (i < n)%nat -> Z.testbit a (Z.of_nat i) = Z.testbit b (Z.of_nat i)) ->
  clmul n a g = clmul n b g.
Proof.
  induction n as [|n IH]; intros a b H; [reflexivity|]. cbn [clmul]. rewrite (H n) by lia.
  f_equal. apply IH. intros i Hi. apply H. lia.
Qed.

Lemma shiftl_range : forall g D n, 0 <= g < 2 ^ D -> 0 <= n -> 0 <= D -> 0 <= Z.shiftl g n < 2 ^ (n + D).
Proof.
  intros g D n Hg Hn HD. rewrite Z.shiftl_mul_pow2 by lia. rewrite Z.pow_add_r by lia. nia.
Qed.

Lemma clmul_range : forall g D n q, 0 <= D -> 0 <= g < 2 ^ (D + 1) -> 0 <= clmul n q g < 2 ^ (Z.of_nat n + D).
Proof.
  intros g D. induction n as [|n IH]; intros q HD Hg.
  - cbn [clmul]. split; [lia|]. apply Z.pow_pos_nonneg; lia.
  - cbn [clmul]. specialize (IH q HD Hg). apply lxor_range; [| |lia].
    + destruct (Z.testbit q (Z.of_nat n)).
      * pose proof (shiftl_range g (D + 1) (Z.of_nat n) Hg ltac:(lia) ltac:(lia)) as H.
        replace (Z.of_nat (S n) + D) with (Z.of_nat n + (D + 1)) by lia. exact H.
      * split; [lia|]. apply Z.pow_pos_nonneg; lia.
    + split; [lia|]. eapply Z.lt_le_trans; [apply IH|]. apply Z.pow_le_mono_r; lia.
Qed.

Lemma clmul_linear_0 : forall (f : Z -> Z) g n q,
  f 0 = 0 -> (forall a b, f (Z.lxor a b) = Z.lxor (f a) (f b)) ->
  (forall i, (i < n)%nat -> f (Z.shiftl g (Z.of_nat i)) = 0) -> f (clmul n q g) = 0.
Proof.
  intros f g n q F0 FL. induction n as [|n IH]; intros H; [exact F0|]. cbn [clmul]. rewrite FL, IH.
  - destruct (Z.testbit q (Z.of_nat n)); [rewrite H by lia|rewrite F0]; reflexivity.
  - intros i Hi. apply H. lia.
Qed.

Lemma testbit_top_clear : forall v n, 0 <= n -> 0 <= v < 2 ^ (n + 1) -> Z.testbit v n = false -> v < 2 ^ n.
Proof.
  intros v n Hn Hv Hb. destruct (Z.lt_ge_cases v (2 ^ n)) as [H | H]; [exact H|exfalso].
  assert (Hlog : Z.log2 v = n).
  { apply Z.log2_unique; [lia|]. rewrite <- Z.add_1_r. lia. }
  pose proof (Z.bit_log2 v ltac:(lia)) as Hbit. rewrite Hlog, Hb in Hbit. discriminate.
Qed.

Lemma clmul_div : forall g D, 0 <= D -> 0 <= g < 2 ^ (D + 1) -> Z.testbit g D = true ->
  forall n v, 0 <= v < 2 ^ (Z.of_nat n + D) ->
  exists q r, 0 <= q < 2 ^ Z.of_nat n /\ 0 <= r < 2 ^ D /\ v = Z.lxor (clmul n q g) r.
Proof.
  intros g D HD Hg Htop. induction n as [|n IH]; intros v Hv.
  - exists 0, v. cbn [clmul]. change (2 ^ Z.of_nat 0) with 1. rewrite Z.lxor_0_l.
    change (Z.of_nat 0 + D) with D in Hv. split; [lia|]. split; [exact Hv|reflexivity].
  - destruct (Z.testbit v (Z.of_nat n + D)) eqn:E.
    + set (v' := Z.lxor v (Z.shiftl g (Z.of_nat n))).
      assert (Hs : 0 <= Z.shiftl g (Z.of_nat n) < 2 ^ (Z.of_nat n + (D + 1))) by (apply shiftl_range; lia).
      assert (Hv' : 0 <= v' < 2 ^ (Z.of_nat n + D)).
      { assert (H1 : 0 <= v' < 2 ^ (Z.of_nat n + D + 1)).
        { unfold v'. apply lxor_range; [|replace (Z.of_nat n + D + 1) with (Z.of_nat n + (D + 1)) by lia; exact Hs|lia].
          replace (Z.of_nat n + D + 1) with (Z.of_nat (S n) + D) by lia. exact Hv. }
        split; [lia|]. apply testbit_top_clear; [lia|exact H1|].
        unfold v'. rewrite Z.lxor_spec, E, Z.shiftl_spec by lia.
        replace (Z.of_nat n + D - Z.of_nat n) with D by lia. rewrite Htop. reflexivity. }
      destruct (IH v' Hv') as (q & r & Hq & Hr & Heq).
      exists (2 ^ Z.of_nat n + q), r.
      assert (Hqn : Z.testbit q (Z.of_nat n) = false) by (apply (testbit_high q (Z.of_nat n)); lia).
      assert (Hsum : 2 ^ Z.of_nat n + q = Z.lxor (2 ^ Z.of_nat n) q).
      { apply Z.add_nocarry_lxor. apply Z.bits_inj'. intros i Hi. rewrite Z.land_spec, Z.bits_0.
        destruct (Z.eq_dec i (Z.of_nat n)) as [-> | Hne]; [rewrite Hqn; apply andb_false_r|].
        rewrite Z.pow2_bits_false by lia. reflexivity. }
      split; [rewrite Nat2Z.inj_succ, Z.pow_succ_r by lia; lia|]. split; [exact Hr|].
      cbn [clmul]. rewrite Hsum, Z.lxor_spec, Z.pow2_bits_true, Hqn by lia. cbn [xorb].
      rewrite (clmul_ext g n (Z.lxor (2 ^ Z.of_nat n) q) q).
      * rewrite Z.lxor_assoc, <- Heq. unfold v'. rewrite (Z.lxor_comm v), lxor_cancel. reflexivity.
      * intros i Hi. rewrite Z.lxor_spec, Z.pow2_bits_false by lia. apply xorb_false_l.
    + assert (Hv' : 0 <= v < 2 ^ (Z.of_nat n + D)).
      { split; [lia|]. apply testbit_top_clear; [lia| |exact E].
        replace (Z.of_nat n + D + 1) with (Z.of_nat (S n) + D) by lia. exact Hv. }
      destruct (IH v Hv') as (q & r & Hq & Hr & Heq).
      exists q, r. split; [rewrite Nat2Z.inj_succ, Z.pow_succ_r by lia; lia|]. split; [exact Hr|].
      cbn [clmul]. rewrite (testbit_high q (Z.of_nat n)) by lia. rewrite Z.lxor_0_l. exact Heq.
Qed.
