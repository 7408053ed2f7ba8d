(* The parts shared by the parameter decoders: two-dimensional arrays, interpolation of the previous frame. *)
From Coq Require Import ZArith List Bool Lia Reals Lra.
From Verif Require Import Res F32 MParms MAdaptive MUnvoiced MSynth MImbe MAmbe SpecWola PBase PRun PArr PFloat PFloat2 PAdapt PGen POut PWola PSpeech.
From Flocq Require Import Core.Core IEEE754.BinarySingleNaN.
Import ListNotations.
Local Open Scope Z_scope.

(* ---- two-dimensional arrays ---- *)
Definition shape {A} (n m : nat) (a : list (list A)) : Prop := length a = n /\ Forall (fun r => length r = m) a.
Lemma shape_row : forall {A} n m (a : list (list A)) i r, shape n m a -> rd a i = Ok r -> length r = m.
Proof.
  intros A n m a i r [_ F] H. apply rd_inv in H as [_ H]. apply nth_error_In in H. rewrite Forall_forall in F. auto.
Qed.
Lemma shape_fresh : forall {A} n m, shape (Z.to_nat n) (Z.to_nat m) (@fresh2 A n m).
Proof.
  intros A n m. unfold fresh2, fresh. split; [apply repeat_length|]. apply Forall_forall. intros r H. apply repeat_spec in H. subst r. apply repeat_length.
Qed.
Lemma shape_set : forall {A} n m (a : list (list A)) i r, shape n m a -> length r = m -> shape n m (set_nth i r a).
Proof.
  intros A n m a i r [L F] Lr. split; [now rewrite set_nth_length|]. clear L. revert i. induction F as [|x a Hx F IH]; intros [|i]; cbn; auto.
Qed.
Lemma rd2_ok : forall {A} n m (a : list (list A)) i j, shape n m a -> 0 <= i < Z.of_nat n -> 0 <= j < Z.of_nat m -> exists x, rd2 a i j = Ok x.
Proof.
  intros A n m a i j S Hi Hj. unfold rd2. destruct (rd_ok a i) as [r Hr]; [destruct S; lia|]. rewrite Hr. cbn [bind].
  apply rd_ok. rewrite (shape_row _ _ _ _ _ S Hr). lia.
Qed.
Lemma wr2_ok : forall {A} n m (a : list (list A)) i j v, shape n m a -> 0 <= i < Z.of_nat n -> 0 <= j < Z.of_nat m ->
  exists a', wr2 a i j v = Ok a' /\ shape n m a' /\ rd2 a' i j = Ok v /\
    forall i' j', i' <> i \/ j' <> j -> rd2 a' i' j' = rd2 a i' j'.
Proof.
  intros A n m a i j v S Hi Hj. unfold wr2. destruct (rd_ok a i) as [r Hr]; [destruct S; lia|]. rewrite Hr. cbn [bind].
  pose proof (shape_row _ _ _ _ _ S Hr) as Lr. rewrite wr_ok by lia. cbn [bind].
  pose proof S as [La _]. rewrite wr_ok by lia. eexists. split; [reflexivity|].
  split; [apply shape_set; [exact S|now rewrite set_nth_length]|].
  assert (Q : rd (set_nth (Z.to_nat i) (set_nth (Z.to_nat j) v r) a) i = Ok (set_nth (Z.to_nat j) v r)) by (apply rd_set_same; lia).
  split; [unfold rd2; rewrite Q; cbn [bind]; apply rd_set_same; lia|].
  intros i' j' N. unfold rd2. destruct (Z.eq_dec i' i) as [->|Ni].
  - rewrite Q, Hr. cbn [bind]. destruct N as [N|N]; [congruence|]. unfold rd. destruct (j' <? 0) eqn:E; [reflexivity|].
    apply Z.ltb_ge in E. rewrite nth_set_nth_other by lia. reflexivity.
  - replace (rd (set_nth (Z.to_nat i) (set_nth (Z.to_nat j) v r) a) i') with (rd a i'); [reflexivity|].
    unfold rd. destruct (i' <? 0) eqn:E; [reflexivity|]. apply Z.ltb_ge in E. rewrite nth_set_nth_other by lia. reflexivity.
Qed.
Lemma rd2_fresh : forall {A} n m i j, 0 <= i < n -> 0 <= j < m -> rd2 (@fresh2 A n m) i j = Ok None.
Proof.
  intros A n m i j Hi Hj. unfold rd2, fresh2.
  assert (Q : forall B (x : B) k z, 0 <= z < Z.of_nat k -> rd (repeat x k) z = Ok x).
  { intros B x k z Hz. apply rd_some; [lia|]. assert (H : (Z.to_nat z < k)%nat) by lia. generalize (Z.to_nat z) H. clear.
    intros z H. revert z H. induction k as [|k IH]; intros [|z] H; cbn; try lia; [reflexivity|]. apply IH. lia. }
  rewrite Q by lia. cbn [bind]. unfold fresh. rewrite Q by lia. reflexivity.
Qed.
Lemma rdi2_some : forall {A} (a : list (list (option A))) i j v, rd2 a i j = Ok (Some v) -> rdi2 a i j = Ok v.
Proof. intros A a i j v H. unfold rdi2. rewrite H. reflexivity. Qed.

(* ---- interpolation ---- *)
Lemma rnd_err64 : forall r, (Rabs r <= 64)%R -> (Rabs (rndf r - r) <= / 131072)%R.
Proof.
  intros r H. unfold rndf, rnd.
  assert (VE : Valid_exp (SpecFloat.fexp 24 128)). { apply (fexp_correct 24 128). reflexivity. }
  pose proof (error_le_half_ulp radix2 (SpecFloat.fexp 24 128) (fun x => negb (Z.even x)) r) as E.
  eapply Rle_trans; [exact E|].
  assert (U : (ulp radix2 (SpecFloat.fexp 24 128) r <= bpow radix2 (-17))%R).
  { apply (Rle_trans _ (ulp radix2 (SpecFloat.fexp 24 128) (bpow radix2 6))).
    - apply ulp_le. + exact VE. + apply (fexp_monotone 24 128). + rewrite (Rabs_pos_eq (bpow radix2 6)) by (apply bpow_ge_0). cbn. lra.
    - rewrite ulp_bpow. apply bpow_le. vm_compute. discriminate. }
  cbn in U. lra.
Qed.
Definition flokl (pL cL l : Z) : f32 := fmul (fdiv (f_of_Z pL) (f_of_Z cL)) (f_of_Z l).
Lemma flokl_R : forall pL cL l, 0 <= pL <= 56 -> 9 <= cL <= 56 -> 0 <= l <= cL ->
  ff (flokl pL cL l) /\ (0 <= R_of (flokl pL cL l) <= IZR pL + /512)%R /\ (IZR pL * IZR l / IZR cL - / 512 <= R_of (flokl pL cL l))%R.
Proof.
  intros pL cL l HP HC HL. unfold flokl.
  destruct (of_Z_R pL) as [P1 P2]; [lia|]. destruct (of_Z_R cL) as [C1 C2]; [lia|]. destruct (of_Z_R l) as [L1 L2]; [lia|].
  destruct (of_Z_R 8) as [E1 E2]; [lia|]. destruct (of_Z_R 64) as [G1 G2]; [lia|]. assert (Z0 : ff fzero) by (apply ff_const; reflexivity).
  assert (HP' : (0 <= IZR pL <= 56)%R) by (split; apply IZR_le; lia). assert (HC' : (9 <= IZR cL <= 56)%R) by (split; apply IZR_le; lia).
  assert (HL' : (0 <= IZR l <= IZR cL)%R) by (split; apply IZR_le; lia).
  set (q := (IZR pL / IZR cL)%R).
  assert (Q0 : (q * IZR cL = IZR pL)%R) by (unfold q; field; lra).
  assert (Q : (0 <= q <= 8)%R). { split; nra. }
  destruct (fdiv_b (f_of_Z pL) (f_of_Z cL) fzero (f_of_Z 8) P1 C1) as (D1 & D2 & D3); [rewrite C2; lra|exact Z0|exact E1| |].
  { rewrite P2, C2, E2. change (R_of fzero) with 0%R. exact Q. }
  rewrite P2, C2 in D3. fold q in D3. change (R_of fzero) with 0%R in D2. rewrite E2 in D2.
  pose proof (rnd_err q) as R1. rewrite <- D3 in R1. assert (A1 : (Rabs q <= 8)%R) by (apply Rabs_le; lra). specialize (R1 A1). apply Rabs_le_inv in R1.
  set (w := fdiv (f_of_Z pL) (f_of_Z cL)) in *.
  assert (B1 : (q * IZR l - / 2097152 * 56 <= R_of w * IZR l <= q * IZR l + / 2097152 * 56)%R) by nra.
  assert (B2 : (0 <= q * IZR l <= IZR pL)%R) by nra.
  assert (B3 : (0 <= R_of w * IZR l)%R) by nra.
  destruct (fmul_b w (f_of_Z l) fzero (f_of_Z 64) D1 L1 Z0 G1) as (M1 & M2 & M3).
  { rewrite L2, G2. change (R_of fzero) with 0%R. lra. }
  rewrite L2 in M3. change (R_of fzero) with 0%R in M2. pose proof (rnd_err64 (R_of w * IZR l)) as R2. rewrite <- M3 in R2.
  assert (A2 : (Rabs (R_of w * IZR l) <= 64)%R) by (apply Rabs_le; lra). specialize (R2 A2). apply Rabs_le_inv in R2.
  split; [exact M1|]. split; [lra|]. unfold Rdiv. replace (IZR pL * IZR l * / IZR cL)%R with (q * IZR l)%R by (unfold q; field; lra). lra.
Qed.
Lemma interp_ok : forall pL cL l, 0 <= pL <= 56 -> 9 <= cL <= 56 -> 0 <= l <= cL ->
  exists k dl, interp pL cL l = Ok (k, dl) /\ 0 <= k <= pL /\ k = Ztrunc (R_of (flokl pL cL l)) /\ dl = fsub (flokl pL cL l) (f_of_Z k).
Proof.
  intros pL cL l HP HC HL. destruct (flokl_R pL cL l HP HC HL) as ((V & F) & B & _). unfold interp. cbv zeta. fold (flokl pL cL l).
  unfold sf_to_int. rewrite trunc_R by exact F. set (k := Ztrunc (R_of (flokl pL cL l))).
  assert (K : 0 <= k <= pL).
  { unfold k. rewrite Ztrunc_floor by lra. split.
    - apply Zfloor_lub. lra.
    - assert (H : Zfloor (R_of (flokl pL cL l)) < pL + 1); [|lia]. apply lt_IZR. rewrite plus_IZR. pose proof (Zfloor_lb (R_of (flokl pL cL l))). lra. }
  assert (I : in_int k = true) by (unfold in_int; lia). rewrite I. cbn [bind]. do 2 eexists. split; [reflexivity|]. auto.
Qed.

(* ---- the previous frame, extended ---- *)
Definition but_logs (m m' : parms) : Prop := m' = set_log2Ml (p_log2Ml m') (set_Ml (p_Ml m') m).
Definition logs_len (m m' : parms) : Prop := length (p_Ml m') = length (p_Ml m) /\ length (p_log2Ml m') = length (p_log2Ml m).
Lemma but_logs_refl : forall m, but_logs m m /\ logs_len m m.
Proof. intros m. split; [now destruct m|split; reflexivity]. Qed.
Lemma but_logs_trans : forall a b c, but_logs a b -> but_logs b c -> but_logs a c.
Proof. unfold but_logs. intros a b c H K. rewrite K, H. reflexivity. Qed.
Lemma but_logs_wf : forall m m', but_logs m m' -> logs_len m m' -> wf_parms m -> wf_parms m'.
Proof. intros m m' B [L1 L2] W. unfold but_logs in B. rewrite B. unfold wf_parms in *. fields. rewrite L1, L2. tauto. Qed.
Lemma but_logs_field : forall {A} (g : parms -> A) m m', but_logs m m' ->
  (forall x y, g (set_log2Ml x (set_Ml y m)) = g m) -> g m' = g m.
Proof. intros A g m m' B H. rewrite B. apply H. Qed.

Lemma extend_prev_total : forall L prev, wf_parms prev -> 0 <= p_L prev <= 56 -> L <= 56 ->
  exists prev', imbe_extend_prev L prev = Ok prev' /\ but_logs prev prev' /\ logs_len prev prev'.
Proof.
  intros L prev W HP HL. unfold imbe_extend_prev. cbv zeta. destruct (p_L prev <? L); [|exists prev; split; [reflexivity|apply but_logs_refl]].
  match goal with |- exists p, for_up _ _ ?b ?s0 = _ /\ _ =>
    destruct (for_up_ok0 (fun x => but_logs prev x /\ logs_len prev x) b (p_L prev + 1) (L + 1) s0) as (p & E & B) end;
    [|apply but_logs_refl|eexists; split; [eassumption|assumption]].
  intros k x Hk [A B]. pose proof (but_logs_wf _ _ A B W) as (_ & LM & LG & _).
  destruct (rd_ok (p_Ml x) (p_L prev)) as [m Hm]; [lia|]. destruct (rd_ok (p_log2Ml x) (p_L prev)) as [g Hg]; [lia|].
  rewrite Hm. cbn [bind]. rewrite wr_ok by lia. cbn [bind]. rewrite Hg. cbn [bind]. rewrite wr_ok by lia. cbn [bind].
  eexists. split; [reflexivity|]. destruct B as [B1 B2]. split; [|split; fields; rewrite set_nth_length; auto].
  unfold but_logs in *. fields. rewrite A. reflexivity.
Qed.
Lemma ambe_extend_total : forall L prev, wf_parms prev -> 0 <= p_L prev <= 56 -> L <= 56 ->
  exists prev', ambe_extend_prev L prev = Ok prev' /\ but_logs prev prev' /\ logs_len prev prev'.
Proof.
  intros L prev W HP HL. unfold ambe_extend_prev. destruct (extend_prev_total L prev W HP HL) as (p & -> & B & S). cbn [bind].
  pose proof (but_logs_wf _ _ B S W) as (_ & LM & LG & _).
  destruct (rd_ok (p_log2Ml p) 1) as [g Hg]; [lia|]. destruct (rd_ok (p_Ml p) 1) as [m Hm]; [lia|].
  rewrite Hg. cbn [bind]. rewrite wr_ok by lia. cbn [bind]. rewrite Hm. cbn [bind]. rewrite wr_ok by lia. cbn [bind].
  eexists. split; [reflexivity|]. destruct S as [S1 S2]. split; [|split; fields; rewrite set_nth_length; auto].
  unfold but_logs in *. fields. rewrite B. reflexivity.
Qed.

(* ---- a previous frame of 56 harmonics ---- *)
Lemma loop_ub : forall {S} (body : Z -> S -> res S) st w n i s,
  (forall k s1, 0 <= k < Z.of_nat n -> exists s2, body (i + k * st) s1 = Ok s2) ->
  (forall s1, body (i + Z.of_nat n * st) s1 = UB w) -> loop (Datatypes.S n) i st body s = UB w.
Proof.
  intros S body st w. induction n as [|n IH]; intros i s H K.
  - cbn [loop]. specialize (K s). replace (i + Z.of_nat 0 * st) with i in K by lia. rewrite K. reflexivity.
  - destruct (H 0 s) as [s2 E]; [lia|]. replace (i + 0 * st) with i in E by lia.
    change (loop (Datatypes.S (Datatypes.S n)) i st body s) with (bind (body i s) (loop (Datatypes.S n) (i + st) st body)). rewrite E. cbn [bind]. apply IH.
    + intros k s1 Hk. replace (i + st + k * st) with (i + (k + 1) * st) by lia. apply H. lia.
    + intros s1. replace (i + st + Z.of_nat n * st) with (i + Z.of_nat (Datatypes.S n) * st) by lia. apply K.
Qed.
Lemma for_up_ub : forall {S} (body : Z -> S -> res S) lo hi s w, lo < hi ->
  (forall k s1, lo <= k < hi - 1 -> exists s2, body k s1 = Ok s2) -> (forall s1, body (hi - 1) s1 = UB w) -> for_up lo hi body s = UB w.
Proof.
  intros S body lo hi s w H A B. unfold for_up. replace (Z.to_nat (hi - lo)) with (Datatypes.S (Z.to_nat (hi - 1 - lo))) by lia. apply loop_ub.
  - intros k s1 Hk. apply A. lia.
  - intros s1. replace (lo + Z.of_nat (Z.to_nat (hi - 1 - lo)) * 1) with (hi - 1) by lia. apply B.
Qed.
Definition safe56 (cL : Z) : bool := (cL =? 23) || (cL =? 46).
Lemma interp56_all : forallb (fun z => let cL := z + 9 in forallb (fun l =>
   match interp 56 cL (l + 1) with Ok (k, _) => Bool.eqb (k =? 56) ((l + 1 =? cL) && negb (safe56 cL)) | UB _ => false end) (zrange (Z.to_nat cL))) (zrange 48) = true.
Proof. vm_compute. reflexivity. Qed.
Lemma interp56 : forall cL l, 9 <= cL <= 56 -> 1 <= l <= cL -> exists k dl, interp 56 cL l = Ok (k, dl) /\ 0 <= k <= 56 /\ (k = 56 <-> l = cL /\ safe56 cL = false).
Proof.
  intros cL l HC Hl. destruct (interp_ok 56 cL l) as (k & dl & E & K & _); [lia|lia|lia|]. exists k, dl. split; [exact E|]. split; [exact K|].
  pose proof (zrange_forallb 48 _ interp56_all (cL - 9) ltac:(lia)) as A. cbv beta zeta in A. replace (cL - 9 + 9) with cL in A by lia.
  pose proof (zrange_forallb (Z.to_nat cL) _ A (l - 1) ltac:(lia)) as B. cbv beta in B. replace (l - 1 + 1) with l in B by lia. rewrite E in B.
  destruct (Z.eqb_spec k 56), (Z.eqb_spec l cL), (safe56 cL); cbn in B; try discriminate B; split; intros; try split; try lia; try congruence; tauto.
Qed.

(* ---- prediction ---- *)
(* the previous frame can be used to predict a frame of cL harmonics *)
Definition prev_ok (cL : Z) (prev : parms) : Prop := wf_parms prev /\ (0 <= p_L prev <= 55 \/ p_L prev = 56 /\ safe56 cL = true).
Lemma history_total : forall prev cL l, prev_ok cL prev -> 9 <= cL <= 56 -> 1 <= l <= cL ->
  exists k dl a b, interp (p_L prev) cL l = Ok (k, dl) /\ rd (p_log2Ml prev) k = Ok a /\ rd (p_log2Ml prev) (k + 1) = Ok b.
Proof.
  intros prev cL l [W HL] HC Hl.
  assert (I : exists k dl, interp (p_L prev) cL l = Ok (k, dl) /\ 0 <= k <= 55).
  { destruct HL as [HL|[HL SL]].
    - destruct (interp_ok (p_L prev) cL l) as (k & dl & E & K & _); [lia|lia|lia|]. exists k, dl. split; [exact E|lia].
    - destruct (interp56 cL l HC Hl) as (k & dl & E & K & N). rewrite HL. exists k, dl. split; [exact E|]. assert (k <> 56) by (intros ->; destruct N as [N _]; destruct (N eq_refl); congruence). lia. }
  destruct I as (k & dl & E & K). destruct W as (_ & _ & LG & _). destruct (rd_ok (p_log2Ml prev) k) as [a Ha]; [lia|]. destruct (rd_ok (p_log2Ml prev) (k + 1)) as [b Hb]; [lia|].
  do 4 eexists. split; [exact E|]. split; eassumption.
Qed.
Lemma sum77_total : forall L rho prev, prev_ok L prev -> 9 <= L <= 56 -> exists s, imbe_sum77 L rho prev = Ok s.
Proof.
  intros L rho prev P HL. unfold imbe_sum77.
  match goal with |- exists s, bind (for_up _ _ ?b ?s0) _ = _ => destruct (for_up_ok0 (fun _ : f32 => True) b 1 (L + 1) s0) as (s & E & _) end;
    [|exact I|rewrite E; cbn [bind]; eauto].
  intros l s Hl _. destruct (history_total prev L l P) as (k & dl & a & b & E & Ha & Hb); [lia|lia|]. rewrite E. cbn [bind]. rewrite Ha. cbn [bind]. rewrite Hb. cbn [bind]. eauto.
Qed.
Lemma sum43_total : forall L prev, prev_ok L prev -> 9 <= L <= 56 -> exists s, ambe_sum43 L prev = Ok s.
Proof.
  intros L prev P HL. unfold ambe_sum43.
  match goal with |- exists s, bind (for_up _ _ ?b ?s0) _ = _ => destruct (for_up_ok0 (fun _ : f32 => True) b 1 (L + 1) s0) as (s & E & _) end;
    [|exact I|rewrite E; cbn [bind]; eauto].
  intros l s Hl _. destruct (history_total prev L l P) as (k & dl & a & b & E & Ha & Hb); [lia|lia|]. rewrite E. cbn [bind]. rewrite Ha. cbn [bind]. rewrite Hb. cbn [bind]. eauto.
Qed.
Lemma imbe_log2_total : forall L rho s prev Tl l, prev_ok L prev -> 9 <= L <= 56 -> 1 <= l <= L -> length Tl = 57%nat -> exists g, imbe_log2 L rho s prev Tl l = Ok g.
Proof.
  intros L rho s prev Tl l P HL Hl LT. unfold imbe_log2. destruct (history_total prev L l P) as (k & dl & a & b & E & Ha & Hb); [lia|lia|].
  rewrite E. cbn [bind]. rewrite Ha. cbn [bind]. rewrite Hb. cbn [bind]. destruct (rd_ok Tl l) as [t Ht]; [lia|]. rewrite Ht. cbn [bind]. eauto.
Qed.
Lemma ambe_log2_total : forall L s bg prev Tl l, prev_ok L prev -> 9 <= L <= 56 -> 1 <= l <= L -> length Tl = 57%nat -> exists g, ambe_log2 L s bg prev Tl l = Ok g.
Proof.
  intros L s bg prev Tl l P HL Hl LT. unfold ambe_log2. destruct (history_total prev L l P) as (k & dl & a & b & E & Ha & Hb); [lia|lia|].
  rewrite E. cbn [bind]. rewrite Ha. cbn [bind]. rewrite Hb. cbn [bind]. destruct (rd_ok Tl l) as [t Ht]; [lia|]. rewrite Ht. cbn [bind]. eauto.
Qed.
Lemma big_gamma_total : forall o L g Tl, 0 <= L <= 56 -> length Tl = 57%nat -> exists s, ambe_big_gamma o L g Tl = Ok s.
Proof.
  intros o L g Tl HL LT. unfold ambe_big_gamma.
  match goal with |- exists s, bind (for_up _ _ ?b ?s0) _ = _ => destruct (for_up_ok0 (fun _ : f32 => True) b 1 (L + 1) s0) as (s & E & _) end;
    [|exact I|rewrite E; cbn [bind]; eauto].
  intros l s Hl _. destruct (rd_ok Tl l) as [t Ht]; [lia|]. rewrite Ht. cbn [bind]. eauto.
Qed.

(* log2Ml and Ml of bands 1..L are rewritten, nothing else *)
Definition bands_kept (L : Z) (m m' : parms) : Prop :=
  forall l, l < 1 \/ L < l -> rd (p_Ml m') l = rd (p_Ml m) l /\ rd (p_log2Ml m') l = rd (p_log2Ml m) l.
Lemma imbe_predict_total : forall o L prev Tl cur, prev_ok L prev -> wf_parms cur -> 9 <= L <= 56 -> length Tl = 57%nat ->
  exists cur', imbe_predict o L prev Tl cur = Ok cur' /\ but_logs cur cur' /\ logs_len cur cur' /\ bands_kept L cur cur'.
Proof.
  intros o L prev Tl cur P W HL LT. unfold imbe_predict. cbv zeta. destruct (sum77_total L (imbe_rho L) prev P HL) as [s Hs]. rewrite Hs. cbn [bind].
  match goal with |- exists p, for_up _ _ ?b ?s0 = _ /\ _ =>
    destruct (for_up_ok0 (fun x => but_logs cur x /\ logs_len cur x /\ bands_kept L cur x) b 1 (L + 1) s0) as (p & E & B) end;
    [| |eexists; split; [eassumption|assumption]].
  2:{ destruct (but_logs_refl cur). split; [assumption|split; [assumption|]]. intros l _. auto. }
  intros l x Hl (A & B & K). pose proof (but_logs_wf _ _ A B W) as (_ & LM & LG & _).
  destruct (imbe_log2_total L (imbe_rho L) s prev Tl l P HL) as [g Hg]; [lia|exact LT|]. rewrite Hg. cbn [bind].
  pose proof (wr_ok (p_log2Ml x) l g ltac:(lia)) as W1. pose proof (wr_ok (p_Ml x) l (exp2f o g) ltac:(lia)) as W2.
  rewrite W1. cbn [bind]. rewrite W2. cbn [bind]. eexists. split; [reflexivity|]. destruct B as [B1 B2].
  split; [unfold but_logs in *; fields; rewrite A; reflexivity|]. split; [split; fields; rewrite set_nth_length; auto|].
  intros i Hi. fields. rewrite (rd_wr_other _ _ i _ _ W1), (rd_wr_other _ _ i _ _ W2) by lia. apply K, Hi.
Qed.
Lemma ambe_predict_total : forall o u L prev Tl cur, prev_ok L prev -> wf_parms cur -> 9 <= L <= 56 -> length Tl = 57%nat ->
  exists cur', ambe_predict o u L prev Tl cur = Ok cur' /\ but_logs cur cur' /\ logs_len cur cur' /\ bands_kept L cur cur'.
Proof.
  intros o u L prev Tl cur P W HL LT. unfold ambe_predict. cbv zeta. destruct (sum43_total L prev P HL) as [s Hs]. rewrite Hs. cbn [bind].
  destruct (big_gamma_total o L (p_gamma cur) Tl) as [bg Hbg]; [lia|exact LT|]. rewrite Hbg. cbn [bind].
  match goal with |- exists p, for_up _ _ ?b ?s0 = _ /\ _ =>
    destruct (for_up_ok0 (fun x => but_logs cur x /\ logs_len cur x /\ bands_kept L cur x) b 1 (L + 1) s0) as (p & E & B) end;
    [| |eexists; split; [eassumption|assumption]].
  2:{ destruct (but_logs_refl cur). split; [assumption|split; [assumption|]]. intros l _. auto. }
  intros l x Hl (A & B & K). pose proof (but_logs_wf _ _ A B W) as (LV & LM & LG & _).
  destruct (ambe_log2_total L s bg prev Tl l P HL) as [g Hg]; [lia|exact LT|]. rewrite Hg. cbn [bind].
  pose proof (wr_ok (p_log2Ml x) l g ltac:(lia)) as W1. rewrite W1. cbn [bind]. destruct (rd_ok (p_Vl x) l) as [v Hv]; [lia|]. rewrite Hv. cbn [bind].
  match goal with |- context [wr (p_Ml x) l ?v] => pose proof (wr_ok (p_Ml x) l v ltac:(lia)) as W2 end.
  rewrite W2. cbn [bind]. eexists. split; [reflexivity|]. destruct B as [B1 B2].
  split; [unfold but_logs in *; fields; rewrite A; reflexivity|]. split; [split; fields; rewrite set_nth_length; auto|].
  intros i Hi. fields. rewrite (rd_wr_other _ _ i _ _ W1), (rd_wr_other _ _ i _ _ W2) by lia. apply K, Hi.
Qed.

(* ---- what a successful run changes, with no assumption on the states ---- *)
Lemma wr_len : forall {A} (a : list A) i v a', wr a i v = Ok a' -> length a' = length a.
Proof. intros A a i v a' H. unfold wr in H. destruct (i <? 0); [discriminate|]. destruct (_ <? _)%nat; [|discriminate]. injection H as <-. apply set_nth_length. Qed.
Lemma extend_prev_effect : forall L prev prev', imbe_extend_prev L prev = Ok prev' -> but_logs prev prev' /\ logs_len prev prev'.
Proof.
  intros L prev prev' H. unfold imbe_extend_prev in H. cbv zeta in H. destruct (p_L prev <? L); [|injection H as <-; apply but_logs_refl].
  refine (for_up_inv0 (fun x => but_logs prev x /\ logs_len prev x) _ _ _ _ _ _ _ H); [|apply but_logs_refl].
  intros k x x' Hk [A [B1 B2]] E. apply bind_inv in E as (m & _ & E). apply bind_inv in E as (ml & W1 & E). apply bind_inv in E as (g & _ & E). apply bind_inv in E as (lg & W2 & E).
  injection E as <-. apply wr_len in W1. apply wr_len in W2. split; [|split; fields; congruence]. unfold but_logs in *. fields. rewrite A. reflexivity.
Qed.
Lemma ambe_extend_effect : forall L prev prev', ambe_extend_prev L prev = Ok prev' -> but_logs prev prev' /\ logs_len prev prev'.
Proof.
  intros L prev prev' H. unfold ambe_extend_prev in H. apply bind_inv in H as (p & E & H). apply extend_prev_effect in E as [A [B1 B2]].
  apply bind_inv in H as (g & _ & H). apply bind_inv in H as (lg & W1 & H). apply bind_inv in H as (m & _ & H). apply bind_inv in H as (ml & W2 & H).
  injection H as <-. apply wr_len in W1. apply wr_len in W2. split; [|split; fields; congruence]. unfold but_logs in *. fields. rewrite A. reflexivity.
Qed.
Lemma predict_effect : forall o L prev Tl cur cur', imbe_predict o L prev Tl cur = Ok cur' -> but_logs cur cur' /\ logs_len cur cur' /\ bands_kept L cur cur'.
Proof.
  intros o L prev Tl cur cur' H. unfold imbe_predict in H. cbv zeta in H. apply bind_inv in H as (s & _ & H).
  refine (for_up_inv0 (fun x => but_logs cur x /\ logs_len cur x /\ bands_kept L cur x) _ _ _ _ _ _ _ H).
  2:{ destruct (but_logs_refl cur). split; [assumption|split; [assumption|]]. intros l _. auto. }
  intros l x x' Hl (A & [B1 B2] & K) E. apply bind_inv in E as (g & _ & E). apply bind_inv in E as (lg & W1 & E). apply bind_inv in E as (ml & W2 & E).
  injection E as <-. pose proof (wr_len _ _ _ _ W1). pose proof (wr_len _ _ _ _ W2). split; [unfold but_logs in *; fields; rewrite A; reflexivity|]. split; [split; fields; congruence|].
  intros i Hi. fields. rewrite (rd_wr_other _ _ i _ _ W1), (rd_wr_other _ _ i _ _ W2) by lia. apply K, Hi.
Qed.
Lemma ambe_predict_effect : forall o u L prev Tl cur cur', ambe_predict o u L prev Tl cur = Ok cur' -> but_logs cur cur' /\ logs_len cur cur' /\ bands_kept L cur cur'.
Proof.
  intros o u L prev Tl cur cur' H. unfold ambe_predict in H. cbv zeta in H. apply bind_inv in H as (s & _ & H). apply bind_inv in H as (bg & _ & H).
  refine (for_up_inv0 (fun x => but_logs cur x /\ logs_len cur x /\ bands_kept L cur x) _ _ _ _ _ _ _ H).
  2:{ destruct (but_logs_refl cur). split; [assumption|split; [assumption|]]. intros l _. auto. }
  intros l x x' Hl (A & [B1 B2] & K) E. apply bind_inv in E as (g & _ & E). apply bind_inv in E as (lg & W1 & E). apply bind_inv in E as (v & _ & E). apply bind_inv in E as (ml & W2 & E).
  injection E as <-. pose proof (wr_len _ _ _ _ W1). pose proof (wr_len _ _ _ _ W2). split; [unfold but_logs in *; fields; rewrite A; reflexivity|]. split; [split; fields; congruence|].
  intros i Hi. fields. rewrite (rd_wr_other _ _ i _ _ W1), (rd_wr_other _ _ i _ _ W2) by lia. apply K, Hi.
Qed.


(* the other way round: from 56 harmonics to any other number but 23 and 46 the history is read out of range *)
Lemma history_56 : forall prev cL l, wf_parms prev -> p_L prev = 56 -> 9 <= cL <= 56 -> 1 <= l < cL -> exists k dl a b,
  interp (p_L prev) cL l = Ok (k, dl) /\ rd (p_log2Ml prev) k = Ok a /\ rd (p_log2Ml prev) (k + 1) = Ok b.
Proof.
  intros prev cL l W HP HC Hl. destruct (interp56 cL l HC ltac:(lia)) as (k & dl & E & K & N). assert (k <> 56) by lia.
  destruct W as (_ & _ & LG & _). destruct (rd_ok (p_log2Ml prev) k) as [a Ha]; [lia|]. destruct (rd_ok (p_log2Ml prev) (k + 1)) as [b Hb]; [lia|].
  rewrite HP. do 4 eexists. split; [exact E|]. split; eassumption.
Qed.
Lemma history_last : forall prev cL, wf_parms prev -> p_L prev = 56 -> 9 <= cL <= 56 -> safe56 cL = false -> exists dl a,
  interp (p_L prev) cL cL = Ok (56, dl) /\ rd (p_log2Ml prev) 56 = Ok a /\ rd (p_log2Ml prev) (56 + 1) = UB OOB.
Proof.
  intros prev cL W HP HC HS. destruct (interp56 cL cL HC ltac:(lia)) as (k & dl & E & K & N). assert (k = 56) by (apply N; auto). subst k.
  destruct W as (_ & _ & LG & _). destruct (rd_ok (p_log2Ml prev) 56) as [a Ha]; [lia|].
  exists dl, a. rewrite HP. split; [exact E|]. split; [exact Ha|]. unfold rd. cbn [Z.ltb Z.compare Z.add Pos.add Pos.succ].
  replace (nth_error (p_log2Ml prev) (Z.to_nat 57)) with (@None f32); [reflexivity|]. symmetry. apply nth_error_None. lia.
Qed.
Lemma sum77_oob : forall L rho prev, wf_parms prev -> p_L prev = 56 -> 9 <= L <= 56 -> safe56 L = false -> imbe_sum77 L rho prev = UB OOB.
Proof.
  intros L rho prev W HP HL HS. unfold imbe_sum77.
  match goal with |- bind ?x _ = _ => assert (E : x = UB OOB) end; [|rewrite E; reflexivity].
  apply for_up_ub; [lia| |].
  - intros l s Hl. destruct (history_56 prev L l W HP HL ltac:(lia)) as (k & dl & a & b & E & Ha & Hb). rewrite E. cbn [bind]. rewrite Ha. cbn [bind]. rewrite Hb. cbn [bind]. eauto.
  - intros s. replace (L + 1 - 1) with L by lia. destruct (history_last prev L W HP HL HS) as (dl & a & E & Ha & Hb). rewrite E. cbn [bind]. rewrite Ha. cbn [bind]. rewrite Hb. reflexivity.
Qed.
Lemma sum43_oob : forall L prev, wf_parms prev -> p_L prev = 56 -> 9 <= L <= 56 -> safe56 L = false -> ambe_sum43 L prev = UB OOB.
Proof.
  intros L prev W HP HL HS. unfold ambe_sum43.
  match goal with |- bind ?x _ = _ => assert (E : x = UB OOB) end; [|rewrite E; reflexivity].
  apply for_up_ub; [lia| |].
  - intros l s Hl. destruct (history_56 prev L l W HP HL ltac:(lia)) as (k & dl & a & b & E & Ha & Hb). rewrite E. cbn [bind]. rewrite Ha. cbn [bind]. rewrite Hb. cbn [bind]. eauto.
  - intros s. replace (L + 1 - 1) with L by lia. destruct (history_last prev L W HP HL HS) as (dl & a & E & Ha & Hb). rewrite E. cbn [bind]. rewrite Ha. cbn [bind]. rewrite Hb. reflexivity.
Qed.
