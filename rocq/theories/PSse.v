(* The vector loops of the SSE2 and NEON builds: updates are those of the scalar loops, sums are sums in four lanes. *)
From Coq Require Import ZArith List Bool Lia.
From Verif Require Import Res F32 MSse SpecSum PRun PArr.
Import ListNotations.
Local Open Scope Z_scope.

Lemma mul_comm : forall x y, fmul x y = fmul y x.
Proof.
  intros [sx|sx| |sx mx ex] [sy|sy| |sy my ey]; try reflexivity; try (cbn; now rewrite xorb_comm).
  unfold fmul, SFmul. now rewrite xorb_comm, Pos.mul_comm, Z.add_comm.
Qed.
Lemma add_comm : forall x y, fadd x y = fadd y x.
Proof.
  intros [[|]|[|]| |sx mx ex] [[|]|[|]| |sy my ey]; try reflexivity. unfold fadd, SFadd. cbv zeta. rewrite (Z.min_comm ex ey), (Z.add_comm (SpecFloat.cond_Zopp sx _)). reflexivity.
Qed.
Lemma abs_square : forall x, fmul (fabs x) (fabs x) = fmul x x.
Proof. intros [[|]|[|]| |[|] m e]; reflexivity. Qed.

Lemma loop_app : forall {S} (body : Z -> S -> res S) a b i s, loop (a + b) i 1 body s = (s' <- loop a i 1 body s ;; loop b (i + Z.of_nat a) 1 body s').
Proof.
  intros S body a b. induction a as [|a IH]; intros i s.
  - cbn [Nat.add loop bind]. replace (i + Z.of_nat 0) with i by lia. reflexivity.
  - cbn [Nat.add loop bind]. destruct (body i s) as [s'|w]; [|reflexivity]. cbn [bind]. rewrite IH. replace (i + Z.of_nat (Datatypes.S a)) with (i + 1 + Z.of_nat a) by lia. reflexivity.
Qed.

(* ---- updates ---- *)
Definition vmap (g : f32 -> f32) (v : m128) : m128 := m4 (g (lane0 v)) (g (lane1 v)) (g (lane2 v)) (g (lane3 v)).
Definition upd (g : f32 -> f32) (i : Z) (u : list f32) : res (list f32) := x <- rd u i ;; wr u i (g x).
Lemma upd_ok : forall g i u, 0 <= i < Z.of_nat (length u) -> exists x, rd u i = Ok x /\ upd g i u = Ok (set_nth (Z.to_nat i) (g x) u).
Proof. intros g i u H. destruct (rd_ok u i H) as [x Hx]. exists x. split; [exact Hx|]. unfold upd. rewrite Hx. cbn [bind]. apply wr_ok, H. Qed.
Lemma vec_step : forall g i u, 0 <= i -> i + 4 <= Z.of_nat (length u) ->
  (v <- mm_loadu u i ;; mm_storeu u i (vmap g v)) = (u <- upd g i u ;; u <- upd g (i + 1) u ;; u <- upd g (i + 1 + 1) u ;; upd g (i + 1 + 1 + 1) u).
Proof.
  intros g i u H0 H1. destruct (rd_ok u i) as [a Ha]; [lia|]. destruct (rd_ok u (i + 1)) as [b Hb]; [lia|]. destruct (rd_ok u (i + 2)) as [c Hc]; [lia|]. destruct (rd_ok u (i + 3)) as [d Hd]; [lia|].
  replace (i + 1 + 1) with (i + 2) by lia. replace (i + 2 + 1) with (i + 3) by lia. unfold mm_loadu. rewrite Ha, Hb, Hc, Hd. cbn [bind]. unfold mm_storeu, vmap. cbn [lane0 lane1 lane2 lane3]. unfold upd. rewrite Ha. cbn [bind].
  repeat (rewrite wr_ok by (rewrite ?set_nth_length; lia); cbn [bind]; rewrite ?rd_set_other by lia; rewrite ?Hb, ?Hc, ?Hd; cbn [bind]). reflexivity.
Qed.
Lemma upd_length : forall g i u u', upd g i u = Ok u' -> length u' = length u.
Proof. intros g i u u' H. unfold upd in H. destruct (rd u i) as [x|]; [|discriminate H]. cbn [bind] in H. unfold wr in H. destruct (i <? 0); [discriminate H|]. destruct (_ <? _)%nat; [|discriminate H]. injection H as <-. apply set_nth_length. Qed.
Lemma vec_update : forall g body q i u, (forall k s, body k s = (v <- mm_loadu s k ;; mm_storeu s k (vmap g v))) -> 0 <= i -> i + 4 * Z.of_nat q <= Z.of_nat (length u) ->
  loop q i 4 body u = loop (4 * q) i 1 (upd g) u.
Proof.
  intros g body q. induction q as [|q IH]; intros i u HB H0 H1; [reflexivity|].
  replace (4 * Datatypes.S q)%nat with (Datatypes.S (Datatypes.S (Datatypes.S (Datatypes.S (4 * q))))) by lia. cbn [loop]. rewrite HB, vec_step by lia. replace (i + 4) with (i + 1 + 1 + 1 + 1) by lia.
  destruct (upd g i u) as [u1|] eqn:E1; [|reflexivity]. cbn [bind]. destruct (upd g (i + 1) u1) as [u2|] eqn:E2; [|reflexivity]. cbn [bind].
  destruct (upd g (i + 1 + 1) u2) as [u3|] eqn:E3; [|reflexivity]. cbn [bind]. destruct (upd g (i + 1 + 1 + 1) u3) as [u4|] eqn:E4; [|reflexivity]. cbn [bind].
  apply IH; [exact HB|lia|]. rewrite (upd_length _ _ _ _ E4), (upd_length _ _ _ _ E3), (upd_length _ _ _ _ E2), (upd_length _ _ _ _ E1). lia.
Qed.

(* ---- sums ---- *)
Fixpoint zfrom (i : Z) (n : nat) : list Z := match n with O => [] | Datatypes.S n => i :: zfrom (i + 1) n end.
Lemma zfrom_seq : forall n k, zfrom (Z.of_nat k) n = map Z.of_nat (seq k n).
Proof. induction n as [|n IH]; intros k; [reflexivity|]. cbn [zfrom seq map]. f_equal. rewrite <- IH. f_equal. lia. Qed.
Lemma zfrom_length : forall n i, length (zfrom i n) = n.
Proof. induction n as [|n IH]; intros i; cbn; [reflexivity|now rewrite IH]. Qed.
Lemma zfrom_in : forall n i k, In k (zfrom i n) <-> i <= k < i + Z.of_nat n.
Proof. induction n as [|n IH]; intros i k; cbn [zfrom In]; [lia|]. rewrite IH. lia. Qed.
Lemma fold_loop : forall f body n i s, (forall k s, i <= k < i + Z.of_nat n -> body k s = Ok (fadd s (f k))) ->
  loop n i 1 body s = Ok (fold_left fadd (map f (zfrom i n)) s).
Proof.
  intros f body n. induction n as [|n IH]; intros i s H; [reflexivity|]. cbn [loop zfrom map fold_left]. rewrite H by lia. cbn [bind]. apply IH. intros k a Hk. apply H. lia.
Qed.
Lemma hsum_lanes : forall simd v, hsum simd v = lane_join simd (lane0 v) (lane1 v) (lane2 v) (lane3 v).
Proof. intros [| |] v; reflexivity. Qed.
Lemma hsum_power_lanes : forall simd v, hsum_power simd v = lane_join simd (lane0 v) (lane1 v) (lane2 v) (lane3 v).
Proof. intros [| |] v; unfold hsum_power, hsum_reverse, mm_add, mm_swap_pairs, mm_reverse; cbn [lane0 lane1 lane2 lane3 lane_join]; rewrite ?(add_comm (lane3 v)); reflexivity. Qed.
Lemma lanes_short : forall simd a b c d xs, (length xs < 4)%nat -> lane_sum simd a b c d xs = fold_left fadd xs (lane_join simd a b c d).
Proof. intros simd a b c d [|x [|y [|z [|w xs]]]] H; cbn [length] in H; try lia; reflexivity. Qed.
(* four at a time, then one by one *)
Lemma lanes_loop : forall simd f bodyv bodys q r i v, (r < 4)%nat ->
  (forall k v, i <= k -> k + 4 <= i + Z.of_nat (4 * q) -> bodyv k v = Ok (mm_add v (m4 (f k) (f (k + 1)) (f (k + 2)) (f (k + 3))))) ->
  (forall k s, i + Z.of_nat (4 * q) <= k < i + Z.of_nat (4 * q + r) -> bodys k s = Ok (fadd s (f k))) ->
  (v <- loop q i 4 bodyv v ;; loop r (i + Z.of_nat (4 * q)) 1 bodys (hsum simd v)) = Ok (lane_sum simd (lane0 v) (lane1 v) (lane2 v) (lane3 v) (map f (zfrom i (4 * q + r)))).
Proof.
  intros simd f bodyv bodys q r. induction q as [|q IH]; intros i v Hr HV HS.
  - cbn [loop bind Nat.mul Nat.add]. replace (i + Z.of_nat 0) with i by lia. rewrite lanes_short by (rewrite map_length, zfrom_length; exact Hr). rewrite hsum_lanes. apply fold_loop. intros k s Hk. apply HS. lia.
  - replace (4 * Datatypes.S q + r)%nat with (Datatypes.S (Datatypes.S (Datatypes.S (Datatypes.S (4 * q + r))))) by lia. cbn [loop zfrom map lane_sum]. rewrite HV by lia. cbn [bind].
    replace (i + Z.of_nat (4 * Datatypes.S q)) with (i + 4 + Z.of_nat (4 * q)) by lia. rewrite IH; [|exact Hr| |].
    + cbn [mm_add lane0 lane1 lane2 lane3]. replace (i + 1 + 1) with (i + 2) by lia. replace (i + 2 + 1) with (i + 3) by lia. replace (i + 3 + 1) with (i + 4) by lia. reflexivity.
    + intros k w H1 H2. apply HV; lia.
    + intros k s Hk. apply HS. lia.
Qed.
(* a vector loop that keeps two sums is two vector loops *)
Lemma loop_pair : forall {A B} (f : Z -> A -> A) (g : Z -> B -> B) body st n i a b,
  (forall k a b, 0 <= k < Z.of_nat n -> body (i + k * st) (a, b) = Ok (f (i + k * st) a, g (i + k * st) b)) ->
  exists a' b', loop n i st body (a, b) = Ok (a', b') /\ loop n i st (fun k a => Ok (f k a)) a = Ok a' /\ loop n i st (fun k b => Ok (g k b)) b = Ok b'.
Proof.
  intros A B f g body st n. induction n as [|n IH]; intros i a b H.
  - exists a, b. auto.
  - pose proof (H 0 a b ltac:(lia)) as H0. rewrite Z.mul_0_l, Z.add_0_r in H0. cbn [loop]. rewrite H0. cbn [bind]. apply IH.
    intros k x y Hk. replace (i + st + k * st) with (i + (k + 1) * st) by lia. apply H. lia.
Qed.
Lemma loop_len : forall g n i u u', loop n i 1 (upd g) u = Ok u' -> length u' = length u.
Proof. intros g n. induction n as [|n IH]; intros i u u' H; cbn [loop] in H; [congruence|]. destruct (upd g i u) as [v|] eqn:E; [|discriminate H]. cbn [bind] in H. rewrite (IH _ _ _ H). apply (upd_length _ _ _ _ E). Qed.
