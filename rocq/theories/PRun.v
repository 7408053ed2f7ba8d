(* Reasoning about runs of the model: inversion of binds, loop invariants, array reads and writes. *)
From Coq Require Import ZArith List Bool Lia.
From Verif Require Import Res.
Import ListNotations.
Local Open Scope Z_scope.

Lemma bind_inv : forall {A B} (m : res A) (f : A -> res B) y,
  bind m f = Ok y -> exists x, m = Ok x /\ f x = Ok y.
Proof. intros A B [x|w] f y H; [exists x; split; [reflexivity|exact H]|discriminate H]. Qed.

(* partial correctness: an invariant holds at the exit of a loop that terminates normally *)
Lemma loop_inv : forall {S} (P : Z -> S -> Prop) (body : Z -> S -> res S) st n i s s',
  (forall k s1 s2, (0 <= k < Z.of_nat n) -> P (i + k * st) s1 -> body (i + k * st) s1 = Ok s2 -> P (i + (k + 1) * st) s2) ->
  P i s -> loop n i st body s = Ok s' -> P (i + Z.of_nat n * st) s'.
Proof.
  intros S P body st. induction n as [|n IH]; intros i s s' Hstep H0 H.
  - cbn [loop] in H. injection H as <-. replace (i + Z.of_nat 0 * st) with i by lia. exact H0.
  - cbn [loop] in H. apply bind_inv in H as (s1 & Hb & Hl).
    assert (H1 : P (i + st) s1).
    { specialize (Hstep 0 s s1). replace (i + 0 * st) with i in Hstep by lia.
      replace (i + (0 + 1) * st) with (i + st) in Hstep by lia. apply Hstep; [lia|exact H0|exact Hb]. }
    replace (i + Z.of_nat (Datatypes.S n) * st) with ((i + st) + Z.of_nat n * st) by lia.
    eapply IH; [|exact H1|exact Hl]. intros k a b Hk Ha Hbd.
    replace (i + st + (k + 1) * st) with (i + ((k + 1) + 1) * st) by lia.
    apply (Hstep (k + 1) a b); [lia| |].
    + replace (i + (k + 1) * st) with (i + st + k * st) by lia. exact Ha.
    + replace (i + (k + 1) * st) with (i + st + k * st) by lia. exact Hbd.
Qed.

Lemma for_up_inv : forall {S} (P : Z -> S -> Prop) (body : Z -> S -> res S) lo hi s s',
  lo <= hi ->
  (forall k s1 s2, lo <= k < hi -> P k s1 -> body k s1 = Ok s2 -> P (k + 1) s2) ->
  P lo s -> for_up lo hi body s = Ok s' -> P hi s'.
Proof.
  intros S P body lo hi s s' Hle Hstep H0 H. unfold for_up in H.
  replace hi with (lo + Z.of_nat (Z.to_nat (hi - lo)) * 1) by lia. eapply loop_inv; [|exact H0|exact H].
  intros k a b Hk Ha Hb. replace (lo + k * 1) with (lo + k) in * by lia.
  replace (lo + (k + 1) * 1) with (lo + k + 1) by lia. apply (Hstep _ a b); [lia|exact Ha|exact Hb].
Qed.

(* an invariant that does not depend on the loop variable *)
Lemma for_up_inv0 : forall {S} (P : S -> Prop) (body : Z -> S -> res S) lo hi s s',
  (forall k s1 s2, lo <= k < hi -> P s1 -> body k s1 = Ok s2 -> P s2) ->
  P s -> for_up lo hi body s = Ok s' -> P s'.
Proof.
  intros S P body lo hi s s' Hstep H0 H. destruct (Z_le_gt_dec lo hi) as [Hle|Hgt].
  - exact (for_up_inv (fun _ => P) body lo hi s s' Hle (fun k a b Hk => Hstep k a b Hk) H0 H).
  - unfold for_up in H. replace (Z.to_nat (hi - lo)) with O in H by lia. cbn [loop] in H. injection H as <-. exact H0.
Qed.

Lemma loop_inv0 : forall {S} (P : S -> Prop) (body : Z -> S -> res S) st n i s s',
  (forall k s1 s2, P s1 -> body k s1 = Ok s2 -> P s2) ->
  P s -> loop n i st body s = Ok s' -> P s'.
Proof.
  intros S P body st n i s s' Hstep H0 H.
  apply (loop_inv (fun _ => P) body st n i s s'); [|exact H0|exact H].
  intros k a b _ Ha Hb. exact (Hstep _ a b Ha Hb).
Qed.

(* total correctness: the loop terminates normally *)
Lemma loop_ok : forall {S} (P : Z -> S -> Prop) (body : Z -> S -> res S) st n i s,
  (forall k s1, (0 <= k < Z.of_nat n) -> P (i + k * st) s1 -> exists s2, body (i + k * st) s1 = Ok s2 /\ P (i + (k + 1) * st) s2) ->
  P i s -> exists s', loop n i st body s = Ok s' /\ P (i + Z.of_nat n * st) s'.
Proof.
  intros S P body st. induction n as [|n IH]; intros i s Hstep H0.
  - exists s. split; [reflexivity|]. replace (i + Z.of_nat 0 * st) with i by lia. exact H0.
  - destruct (Hstep 0 s) as (s1 & Hb & H1); [lia|now replace (i + 0 * st) with i by lia|].
    replace (i + 0 * st) with i in Hb by lia. replace (i + (0 + 1) * st) with (i + st) in H1 by lia.
    cbn [loop]. rewrite Hb. cbn [bind].
    destruct (IH (i + st) s1) as (s' & Hs & HP); [|exact H1|].
    + intros k a Hk Ha. replace (i + st + k * st) with (i + (k + 1) * st) in * by lia.
      replace (i + st + (k + 1) * st) with (i + (k + 1 + 1) * st) by lia. apply Hstep; [lia|exact Ha].
    + exists s'. split; [exact Hs|].
      replace (i + Z.of_nat (Datatypes.S n) * st) with ((i + st) + Z.of_nat n * st) by lia. exact HP.
Qed.

Lemma for_up_ok : forall {S} (P : Z -> S -> Prop) (body : Z -> S -> res S) lo hi s,
  lo <= hi ->
  (forall k s1, lo <= k < hi -> P k s1 -> exists s2, body k s1 = Ok s2 /\ P (k + 1) s2) ->
  P lo s -> exists s', for_up lo hi body s = Ok s' /\ P hi s'.
Proof.
  intros S P body lo hi s Hle Hstep H0. unfold for_up.
  destruct (loop_ok P body 1 (Z.to_nat (hi - lo)) lo s) as (s' & Hs & HP); [|exact H0|].
  - intros k a Hk Ha. replace (lo + k * 1) with (lo + k) in * by lia.
    replace (lo + (k + 1) * 1) with (lo + k + 1) by lia. apply Hstep; [lia|exact Ha].
  - exists s'. split; [exact Hs|]. replace hi with (lo + Z.of_nat (Z.to_nat (hi - lo)) * 1) by lia. exact HP.
Qed.

Lemma for_up_ok0 : forall {S} (P : S -> Prop) (body : Z -> S -> res S) lo hi s,
  (forall k s1, lo <= k < hi -> P s1 -> exists s2, body k s1 = Ok s2 /\ P s2) ->
  P s -> exists s', for_up lo hi body s = Ok s' /\ P s'.
Proof.
  intros S P body lo hi s Hstep H0. destruct (Z_le_gt_dec lo hi) as [Hle|Hgt].
  - exact (for_up_ok (fun _ => P) body lo hi s Hle (fun k a Hk => Hstep k a Hk) H0).
  - exists s. unfold for_up. replace (Z.to_nat (hi - lo)) with O by lia. split; [reflexivity|exact H0].
Qed.

(* equal bodies give equal loops *)
Lemma loop_ext : forall {S} (b1 b2 : Z -> S -> res S) st n i s,
  (forall k s1, (0 <= k < Z.of_nat n) -> b1 (i + k * st) s1 = b2 (i + k * st) s1) ->
  loop n i st b1 s = loop n i st b2 s.
Proof.
  intros S b1 b2 st. induction n as [|n IH]; intros i s H; [reflexivity|]. cbn [loop].
  pose proof (H 0 s) as H0. replace (i + 0 * st) with i in H0 by lia. rewrite H0 by lia.
  destruct (b2 i s) as [s1|w]; [|reflexivity]. cbn [bind]. apply IH. intros k a Hk.
  replace (i + st + k * st) with (i + (k + 1) * st) by lia. apply H. lia.
Qed.

Lemma for_up_ext : forall {S} (b1 b2 : Z -> S -> res S) lo hi s,
  (forall k s1, lo <= k < hi -> b1 k s1 = b2 k s1) -> for_up lo hi b1 s = for_up lo hi b2 s.
Proof.
  intros S b1 b2 lo hi s H. unfold for_up. apply loop_ext. intros k a Hk.
  replace (lo + k * 1) with (lo + k) by lia. apply H. lia.
Qed.

Lemma for_up_empty : forall {S} (body : Z -> S -> res S) lo hi s, hi <= lo -> for_up lo hi body s = Ok s.
Proof. intros S body lo hi s H. unfold for_up. now replace (Z.to_nat (hi - lo)) with O by lia. Qed.

Lemma for_up_step : forall {S} (body : Z -> S -> res S) lo hi s, lo < hi ->
  for_up lo hi body s = bind (body lo s) (fun s' => for_up (lo + 1) hi body s').
Proof.
  intros S body lo hi s H. unfold for_up. replace (Z.to_nat (hi - lo)) with (Datatypes.S (Z.to_nat (hi - (lo + 1)))) by lia.
  reflexivity.
Qed.

(* arrays *)
Lemma rd_inv : forall {A} (l : list A) i x, rd l i = Ok x -> 0 <= i < Z.of_nat (length l) /\ nth_error l (Z.to_nat i) = Some x.
Proof.
  intros A l i x H. unfold rd in H. destruct (i <? 0) eqn:E; [discriminate|]. apply Z.ltb_ge in E.
  destruct (nth_error l (Z.to_nat i)) as [y|] eqn:F; [|discriminate]. injection H as <-.
  assert (Hl : (Z.to_nat i < length l)%nat) by (apply nth_error_Some; congruence). split; [lia|reflexivity].
Qed.

Lemma rd_some : forall {A} (l : list A) i x, 0 <= i -> nth_error l (Z.to_nat i) = Some x -> rd l i = Ok x.
Proof.
  intros A l i x Hi H. unfold rd. destruct (i <? 0) eqn:E; [apply Z.ltb_lt in E; lia|]. now rewrite H.
Qed.

Lemma rd_ok : forall {A} (l : list A) i, 0 <= i < Z.of_nat (length l) -> exists x, rd l i = Ok x.
Proof.
  intros A l i H. destruct (nth_error l (Z.to_nat i)) as [x|] eqn:E.
  - exists x. apply rd_some; [lia|exact E].
  - apply nth_error_None in E. lia.
Qed.

Lemma rd_oob : forall {A} (l : list A) i, i < 0 \/ Z.of_nat (length l) <= i -> rd l i = UB OOB.
Proof.
  intros A l i H. unfold rd. destruct (i <? 0) eqn:E; [reflexivity|]. apply Z.ltb_ge in E.
  destruct (nth_error l (Z.to_nat i)) as [y|] eqn:F; [|reflexivity].
  assert ((Z.to_nat i < length l)%nat) by (apply nth_error_Some; congruence). lia.
Qed.

Lemma set_nth_length : forall {A} n v (l : list A), length (set_nth n v l) = length l.
Proof. intros A n v l. revert n. induction l as [|x l IH]; intros [|n]; cbn; try reflexivity. now rewrite IH. Qed.

Lemma nth_set_nth_same : forall {A} n v (l : list A), (n < length l)%nat -> nth_error (set_nth n v l) n = Some v.
Proof.
  intros A n v l. revert n. induction l as [|x l IH]; intros [|n] H; cbn in *; try lia; [reflexivity|]. apply IH. lia.
Qed.

Lemma nth_set_nth_other : forall {A} n m v (l : list A), n <> m -> nth_error (set_nth n v l) m = nth_error l m.
Proof.
  intros A n m v l. revert n m. induction l as [|x l IH]; intros [|n] [|m] H; cbn; try reflexivity; try congruence.
  apply IH. congruence.
Qed.

Lemma wr_inv : forall {A} (l : list A) i v l', wr l i v = Ok l' ->
  0 <= i < Z.of_nat (length l) /\ l' = set_nth (Z.to_nat i) v l.
Proof.
  intros A l i v l' H. unfold wr in H. destruct (i <? 0) eqn:E; [discriminate|]. apply Z.ltb_ge in E.
  destruct (Z.to_nat i <? length l)%nat eqn:F; [|discriminate]. apply Nat.ltb_lt in F. injection H as <-.
  split; [lia|reflexivity].
Qed.

Lemma wr_length : forall {A} (l : list A) i v l', wr l i v = Ok l' -> length l' = length l.
Proof. intros A l i v l' H. apply wr_inv in H as [_ ->]. apply set_nth_length. Qed.

Lemma wr_ok : forall {A} (l : list A) i v, 0 <= i < Z.of_nat (length l) -> wr l i v = Ok (set_nth (Z.to_nat i) v l).
Proof.
  intros A l i v H. unfold wr. destruct (i <? 0) eqn:E; [apply Z.ltb_lt in E; lia|].
  destruct (Z.to_nat i <? length l)%nat eqn:F; [reflexivity|]. apply Nat.ltb_ge in F. lia.
Qed.

Lemma rd_wr_same : forall {A} (l : list A) i v l', wr l i v = Ok l' -> rd l' i = Ok v.
Proof.
  intros A l i v l' H. apply wr_inv in H as [Hi ->]. apply rd_some; [lia|]. apply nth_set_nth_same. lia.
Qed.

Lemma rd_wr_other : forall {A} (l : list A) i j v l', wr l i v = Ok l' -> i <> j -> rd l' j = rd l j.
Proof.
  intros A l i j v l' H Hij. apply wr_inv in H as [Hi ->]. unfold rd. destruct (j <? 0) eqn:E; [reflexivity|].
  apply Z.ltb_ge in E. rewrite nth_set_nth_other by lia. reflexivity.
Qed.

Lemma nth_wr_other : forall {A} (l : list A) i k v l', wr l i v = Ok l' -> Z.of_nat k <> i -> nth_error l' k = nth_error l k.
Proof. intros A l i k v l' H Hk. apply wr_inv in H as [Hi ->]. apply nth_set_nth_other. lia. Qed.

Lemma list_eq_nth : forall {A} (a b : list A), length a = length b ->
  (forall i, (i < length a)%nat -> nth_error a i = nth_error b i) -> a = b.
Proof.
  intros A. induction a as [|x a IH]; intros [|y b] L H; try discriminate L; [reflexivity|]. f_equal.
  - pose proof (H 0%nat) as H0. cbn in H0. assert (0 < S (length a))%nat by lia. apply H0 in H1. congruence.
  - apply IH; [now injection L|]. intros i Hi. apply (H (Datatypes.S i)). cbn. lia.
Qed.

Lemma list_eq_rd : forall {A} (a b : list A), length a = length b ->
  (forall i, 0 <= i < Z.of_nat (length a) -> rd a i = rd b i) -> a = b.
Proof.
  intros A a b L H. apply list_eq_nth; [exact L|]. intros i Hi. specialize (H (Z.of_nat i)).
  unfold rd in H. assert (E : (Z.of_nat i <? 0) = false) by (apply Z.ltb_ge; lia). rewrite E, Nat2Z.id in H.
  specialize (H ltac:(lia)).
  destruct (nth_error a i) eqn:F, (nth_error b i) eqn:G; try congruence.
Qed.

(* writing every cell of an array: the result does not depend on its previous contents *)
Lemma fill_all : forall {A} (g : Z -> res A) n (l l' : list A),
  length l = n -> for_up 0 (Z.of_nat n) (fun i a => x <- g i ;; wr a i x) l = Ok l' ->
  length l' = n /\ forall i, 0 <= i < Z.of_nat n -> g i = rd l' i.
Proof.
  intros A g n l l' Hl H.
  assert (Q : length l' = n /\ forall i, 0 <= i < Z.of_nat n -> g i = rd l' i); [|exact Q].
  apply (for_up_inv (fun k a => length a = n /\ forall i, 0 <= i < k -> g i = rd a i)
                    (fun i a => x <- g i ;; wr a i x) 0 (Z.of_nat n) l l'); [lia| | |exact H].
  - intros k a b Hk [La Ha] Hb. apply bind_inv in Hb as (x & Hx & Hw). split; [rewrite (wr_length _ _ _ _ Hw); exact La|].
    intros i Hi. destruct (Z.eq_dec i k) as [->|Hne].
    + rewrite (rd_wr_same _ _ _ _ Hw). exact Hx.
    + rewrite (rd_wr_other _ _ _ _ _ Hw) by lia. apply Ha. lia.
  - split; [exact Hl|]. intros i Hi. lia.
Qed.

Lemma to_int_ok : forall z, -2147483648 <= z <= 2147483647 -> to_int z = Ok z.
Proof. intros z H. unfold to_int, in_int. destruct ((-2147483648 <=? z) && (z <=? 2147483647)) eqn:E; [reflexivity|lia]. Qed.
Lemma to_int_inv : forall z y, to_int z = Ok y -> y = z /\ -2147483648 <= z <= 2147483647.
Proof.
  intros z y H. unfold to_int, in_int in H.
  destruct ((-2147483648 <=? z) && (z <=? 2147483647)) eqn:E; [|discriminate]. injection H as <-. lia.
Qed.

(* invert the leading bind of a hypothesis *)
Ltac inv_bind H x Hx := apply bind_inv in H as (x & Hx & H).

(* ---- two related runs ---- *)
Definition res_rel {A B} (R : A -> B -> Prop) (x : res A) (y : res B) : Prop :=
  match x, y with Ok a, Ok b => R a b | UB v, UB w => v = w | _, _ => False end.

Lemma bind_rel : forall {A B C D} (R : A -> B -> Prop) (Q : C -> D -> Prop) x y f g,
  res_rel R x y -> (forall a b, R a b -> res_rel Q (f a) (g b)) -> res_rel Q (bind x f) (bind y g).
Proof. intros A B C D R Q [a|v] [b|w] f g H HF; cbn in *; try contradiction; auto. Qed.

Lemma res_rel_eq : forall {A} (x y : res A), res_rel eq x y -> x = y.
Proof. intros A [a|v] [b|w] H; cbn in H; try contradiction; congruence. Qed.
Lemma res_rel_refl : forall {A} (x : res A), res_rel eq x x.
Proof. intros A [a|v]; reflexivity. Qed.
Lemma res_rel_mono : forall {A B} (R Q : A -> B -> Prop) x y, (forall a b, R a b -> Q a b) -> res_rel R x y -> res_rel Q x y.
Proof. intros A B R Q [a|v] [b|w] H HR; cbn in *; auto. Qed.

Lemma loop_rel : forall {S T} (R : Z -> S -> T -> Prop) (f : Z -> S -> res S) (g : Z -> T -> res T) st n i s t,
  (forall k a b, 0 <= k < Z.of_nat n -> R (i + k * st) a b ->
     res_rel (R (i + (k + 1) * st)) (f (i + k * st) a) (g (i + k * st) b)) ->
  R i s t -> res_rel (R (i + Z.of_nat n * st)) (loop n i st f s) (loop n i st g t).
Proof.
  intros S T R f g st. induction n as [|n IH]; intros i s t Hs H0.
  - cbn [loop res_rel]. replace (i + Z.of_nat 0 * st) with i by lia. exact H0.
  - cbn [loop]. apply (bind_rel (R (i + st))).
    + specialize (Hs 0 s t). replace (i + 0 * st) with i in Hs by lia.
      replace (i + (0 + 1) * st) with (i + st) in Hs by lia. apply Hs; [lia|exact H0].
    + intros a b Hab. replace (i + Z.of_nat (Datatypes.S n) * st) with ((i + st) + Z.of_nat n * st) by lia.
      apply IH; [|exact Hab]. intros k x y Hk Hxy.
      replace (i + st + (k + 1) * st) with (i + (k + 1 + 1) * st) by lia.
      replace (i + st + k * st) with (i + (k + 1) * st) in * by lia. apply Hs; [lia|exact Hxy].
Qed.

Lemma for_up_rel : forall {S T} (R : Z -> S -> T -> Prop) (f : Z -> S -> res S) (g : Z -> T -> res T) lo hi s t,
  lo <= hi ->
  (forall k a b, lo <= k < hi -> R k a b -> res_rel (R (k + 1)) (f k a) (g k b)) ->
  R lo s t -> res_rel (R hi) (for_up lo hi f s) (for_up lo hi g t).
Proof.
  intros S T R f g lo hi s t Hle Hs H0. unfold for_up.
  replace hi with (lo + Z.of_nat (Z.to_nat (hi - lo)) * 1) at 1 by lia. apply loop_rel; [|exact H0].
  intros k a b Hk Hab. replace (lo + k * 1) with (lo + k) in * by lia.
  replace (lo + (k + 1) * 1) with (lo + k + 1) by lia. apply Hs; [lia|exact Hab].
Qed.

(* arrays that agree on their first k cells *)
Definition agree {A} (n : nat) (k : Z) (a b : list A) : Prop :=
  length a = n /\ length b = n /\ forall i, 0 <= i < k -> rd a i = rd b i.
Lemma agree_wr : forall {A} n k (a b : list A) v, agree n k a b -> 0 <= k ->
  res_rel (agree n (k + 1)) (wr a k v) (wr b k v).
Proof.
  intros A n k a b v (La & Lb & H) Hk. destruct (Z_lt_ge_dec k (Z.of_nat n)) as [Hn|Hn].
  - assert (Wa : wr a k v = Ok (set_nth (Z.to_nat k) v a)) by (apply wr_ok; lia).
    assert (Wb : wr b k v = Ok (set_nth (Z.to_nat k) v b)) by (apply wr_ok; lia).
    rewrite Wa, Wb. cbn [res_rel]. repeat split; try (rewrite set_nth_length; assumption). intros i Hi.
    destruct (Z.eq_dec i k) as [->|N].
    + rewrite (rd_wr_same _ _ _ _ Wa), (rd_wr_same _ _ _ _ Wb). reflexivity.
    + rewrite (rd_wr_other _ _ i _ _ Wa), (rd_wr_other _ _ i _ _ Wb) by lia. apply H. lia.
  - unfold wr. destruct (k <? 0); [reflexivity|].
    destruct (Z.to_nat k <? length a)%nat eqn:E; [apply Nat.ltb_lt in E; lia|].
    destruct (Z.to_nat k <? length b)%nat eqn:F; [apply Nat.ltb_lt in F; lia|]. reflexivity.
Qed.
Lemma agree_start : forall {A} n (a b : list A), length a = n -> length b = n -> agree n 0 a b.
Proof. intros A n a b La Lb. repeat split; try assumption. intros i Hi. lia. Qed.
Lemma agree_end : forall {A} n (a b : list A), agree n (Z.of_nat n) a b -> a = b.
Proof. intros A n a b (La & Lb & H). apply list_eq_rd; [congruence|]. rewrite La. exact H. Qed.
