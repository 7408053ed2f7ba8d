(* Proofs about oscillators whose products may be fused. *)
From Coq Require Import ZArith List Bool Lia Reals Lra.
From Verif Require Import Res F32 Build TabSynth TabWola MParms MAdaptive MUnvoiced MSynth MFma MRate MOscFma SpecAdaptive SpecGen SpecWola SpecOut SpecAmp SpecSynth SpecTrig SpecNum SpecFftErr SpecOscFma
  PBase PRun PArr PSse PFloat PFloat2 PReal PEnh3 PGen POut PSpeech PSynth PSynth2 PNum POsc PFma PRate.
From Flocq Require Import Core.Core IEEE754.BinarySingleNaN.
Import ListNotations.
Local Open Scope Z_scope.

(* ---- the loop: the state before sample n ---- *)
Fixpoint osc_state (k : contraction) (c s sd cd : f32) (n : nat) : f32 * f32 :=
  match n with
  | O => (c, s)
  | S n => let p := osc_state k c s sd cd n in osc_step_c k (Z.of_nat n) (fst p) (snd p) sd cd
  end.
Definition osc_done_c (k0 : contraction) (sm : build) (off : Z) (amp c s sd cd : f32) (a0 : list f32) (k : Z) (z : list f32 * f32 * f32) : Prop :=
  length (fst (fst z)) = 160%nat /\ (snd (fst z), snd z) = osc_state k0 c s sd cd (Z.to_nat k) /\
  (forall i x, 0 <= i < k -> rd a0 i = Ok x -> rd (fst (fst z)) i = Ok (voiced_add_c k0 i sm x (fade (i + off)) amp (fst (osc_state k0 c s sd cd (Z.to_nat i))))) /\
  (forall i, k <= i -> rd (fst (fst z)) i = rd a0 i).
Lemma osc_done_c_step : forall k0 sm off amp c s sd cd a0 k a c1 s1, 0 <= off <= 160 -> 0 <= k < 160 -> osc_done_c k0 sm off amp c s sd cd a0 k (a, c1, s1) -> length a0 = 160%nat ->
  exists z, (x <- rd a k ;; wk <- rd Ws (k + off) ;;
    aout <- wr a k (voiced_add_c k0 k sm x wk amp c1) ;;
    let '(c', s') := osc_step_c k0 k c1 s1 sd cd in Ok (aout, c', s')) = Ok z /\ osc_done_c k0 sm off amp c s sd cd a0 (k + 1) z.
Proof.
  intros k0 sm off amp c s sd cd a0 k a c1 s1 Ho Hk (L & I & P & Q) L0. cbn [fst snd] in *.
  destruct (rd_ok a0 k) as [x Hx]; [lia|]. rewrite (Q k) by lia. rewrite Hx. cbn [bind]. rewrite fade_rd by lia. cbn [bind].
  rewrite wr_ok by lia. cbn [bind]. destruct (osc_step_c k0 k c1 s1 sd cd) as [c' s'] eqn:ES. eexists. split; [reflexivity|]. unfold osc_done_c. cbn [fst snd].
  split; [now rewrite set_nth_length|]. split.
  { replace (Z.to_nat (k + 1)) with (S (Z.to_nat k)) by lia. cbn [osc_state]. rewrite <- I. cbn [fst snd]. rewrite Z2Nat.id by lia. symmetry. exact ES. }
  split.
  - intros i y Hi Hy. destruct (Z.eq_dec k i) as [<-|N].
    + rewrite rd_set_same by lia. rewrite Hx in Hy. injection Hy as <-. rewrite <- I. cbn [fst]. reflexivity.
    + rewrite rd_set_other by lia. apply P; [lia|exact Hy].
  - intros i Hi. rewrite rd_set_other by lia. apply Q. lia.
Qed.
Lemma block4_c_val : forall k0 sm off amp c s sd cd a0 n a c1 s1, 0 <= off <= 160 -> 0 <= n -> n + 4 <= 160 -> length a0 = 160%nat ->
  osc_done_c k0 sm off amp c s sd cd a0 n (a, c1, s1) ->
  exists z, mbe_add_voiced_block4_c k0 sm a n (n + off) amp c1 s1 sd cd = Ok z /\ osc_done_c k0 sm off amp c s sd cd a0 (n + 4) z.
Proof.
  intros k0 sm off amp c s sd cd a0 n a c1 s1 Ho Hn Hn4 L0 D. unfold mbe_add_voiced_block4_c.
  match goal with |- exists r, for_up _ _ ?b ?s0 = _ /\ _ =>
    destruct (for_up_ok (fun k z => osc_done_c k0 sm off amp c s sd cd a0 (n + k) z) b 0 4 s0) as (r & E & D') end; [lia| |now rewrite Z.add_0_r|eauto].
  intros k [[a1 c2] s2] Hk Dk. rewrite Z.add_assoc.
  replace (n + off + k) with (n + k + off) by lia. apply osc_done_c_step; auto. lia.
Qed.
Lemma osc_c_value : forall k0 sm aout off amp c s sd cd, length aout = 160%nat -> off = 0 \/ off = 160 ->
  exists r, add_oscillator_c k0 sm aout off amp c s sd cd = Ok r /\ length r = 160%nat /\
  forall i x, 0 <= i < 160 -> rd aout i = Ok x -> rd r i = Ok (voiced_add_c k0 i sm x (fade (i + off)) amp (fst (osc_state k0 c s sd cd (Z.to_nat i)))).
Proof.
  intros k0 sm aout off amp c s sd cd L Ho. unfold add_oscillator_c.
  destruct (loop_ok (fun n z => osc_done_c k0 sm off amp c s sd cd aout n z) (fun n '(aout, c, s) => mbe_add_voiced_block4_c k0 sm aout n (n + off) amp c s sd cd) 4 40 0 (aout, c, s))
    as ([[r c1] s1] & E & D).
  - intros k [[a c1] s1] Hk D. replace (0 + (k + 1) * 4) with (0 + k * 4 + 4) by lia.
    apply block4_c_val; auto; lia.
  - unfold osc_done_c. cbn [fst snd]. split; [exact L|]. split; [reflexivity|]. split; [intros; lia|reflexivity].
  - rewrite E. cbn [bind]. destruct D as (Lr & _ & P & _). exists r. split; [reflexivity|]. split; [exact Lr|]. intros i x Hi. apply P. lia.
Qed.
(* without fusing it is the oscillator of MSynth *)
Lemma state_unfused : forall c s sd cd n, osc_state (fun _ _ => false) c s sd cd n = Nat.iter n (rotate cd sd) (c, s).
Proof. intros c s sd cd n. induction n as [|n IH]; [reflexivity|]. cbn [osc_state]. rewrite IH. reflexivity. Qed.
Lemma add_oscillator_unfused : forall sm aout off amp c s sd cd, length aout = 160%nat -> off = 0 \/ off = 160 ->
  add_oscillator_c (fun _ _ => false) sm aout off amp c s sd cd = add_oscillator sm aout off amp c s sd cd.
Proof.
  intros sm aout off amp c s sd cd L Ho. destruct (osc_c_value (fun _ _ => false) sm aout off amp c s sd cd L Ho) as (r & -> & Lr & P). destruct (osc_value sm aout off amp c s sd cd L Ho) as (r' & -> & Lr' & P').
  f_equal. apply list_eq_nth; [congruence|]. intros i Hi. destruct (rd_ok aout (Z.of_nat i)) as [x Hx]; [lia|].
  specialize (P (Z.of_nat i) x ltac:(lia) Hx). specialize (P' (Z.of_nat i) x ltac:(lia) Hx). assert (E : rd r (Z.of_nat i) = rd r' (Z.of_nat i)).
  { rewrite P, P'. f_equal. unfold voiced_add_c, osc_val, voiced_term, macc. rewrite state_unfused. destruct (lanes4 sm); reflexivity. }
  rewrite P in E. symmetry in E. apply rd_inv in P as [_ P]. apply rd_inv in E as [_ E]. rewrite Nat2Z.id in P, E. congruence.
Qed.
Local Open Scope R_scope.

(* ---- one step ---- *)
(* a b - c d where one product may be fused *)
Lemma msub_e : forall f g a b c d P Q, ff a -> ff b -> ff c -> ff d -> Rabs (R_of a * R_of b) <= P -> Rabs (R_of c * R_of d) <= Q -> P + Q <= 1e36 ->
  let y := if f : bool then ffma a b (fopp (fmul c d)) else if g : bool then ffma (fopp c) d (fmul a b) else fsub (fmul a b) (fmul c d) in
  ff y /\ Rabs (R_of y - (R_of a * R_of b - R_of c * R_of d)) <= 2.01 * (u24 * (P + Q)) + 4 * tiny.
Proof.
  intros f g a b c d P Q A B C D HP HQ S. cbv zeta. set (p := R_of a * R_of b) in *. set (q := R_of c * R_of d) in *.
  pose proof (Rabs_pos p) as P0. pose proof (Rabs_pos q) as Q0. pose proof tiny_40 as T. pose proof tiny_pos as T0.
  assert (Uv := u24_val). assert (U : 0 < u24 <= 6e-8) by (rewrite Uv; lra).
  assert (UP : 0 <= u24 * P <= 6e-8 * P) by (split; [apply Rmult_le_pos; lra|apply Rmult_le_compat_r; lra]).
  assert (UQ : 0 <= u24 * Q <= 6e-8 * Q) by (split; [apply Rmult_le_pos; lra|apply Rmult_le_compat_r; lra]).
  destruct (fmul_e a b A B) as [FP EP]; [fold p; unfold huge; lra|]. destruct (fmul_e c d C D) as [FQ EQ]; [fold q; unfold huge; lra|]. fold p in EP. fold q in EQ.
  set (x := fmul a b) in *. set (y := fmul c d) in *.
  assert (KP : u24 * Rabs p <= u24 * P) by (apply Rmult_le_compat_l; lra). assert (KQ : u24 * Rabs q <= u24 * Q) by (apply Rmult_le_compat_l; lra).
  assert (XS : Rabs (R_of x) <= P + u24 * P + tiny). { replace (R_of x) with ((R_of x - p) + p) by ring. eapply Rle_trans; [apply Rabs_triang|]. lra. }
  assert (YS : Rabs (R_of y) <= Q + u24 * Q + tiny). { replace (R_of y) with ((R_of y - q) + q) by ring. eapply Rle_trans; [apply Rabs_triang|]. lra. }
  assert (fin : forall z w e, Rabs w <= P + Q + (u24 * P + u24 * Q) + 2 * tiny -> Rabs (z - w) <= u24 * Rabs w + tiny -> Rabs (w - (p - q)) <= e -> e <= u24 * P + u24 * Q + 2 * tiny ->
    Rabs (z - (p - q)) <= 2.01 * (u24 * (P + Q)) + 4 * tiny).
  { intros z w e Hw Hz He Hb. assert (W : u24 * Rabs w <= u24 * (P + Q + (u24 * P + u24 * Q) + 2 * tiny)) by (apply Rmult_le_compat_l; lra).
    assert (W2 : u24 * (u24 * P + u24 * Q) <= 6e-8 * (u24 * P + u24 * Q)) by (apply Rmult_le_compat_r; lra). assert (W3 : u24 * tiny <= 6e-8 * tiny) by (apply Rmult_le_compat_r; lra).
    replace (z - (p - q)) with ((z - w) + (w - (p - q))) by ring. eapply Rle_trans; [apply Rabs_triang|]. lra. }
  destruct f; [|destruct g].
  - assert (W : Rabs (- R_of y + p) <= P + Q + (u24 * P + u24 * Q) + 2 * tiny) by (eapply Rle_trans; [apply Rabs_triang|]; rewrite Rabs_Ropp; lra).
    destruct (ffma_e a b (fopp y) A B (fopp_ff _ FQ)) as [F E]; [rewrite ?R_fopp; fold p; unfold huge; lra|rewrite ?R_fopp; fold p; unfold huge; lra|]. rewrite R_fopp in E. fold p in E. split; [exact F|].
    apply (fin _ (- R_of y + p) (u24 * Q + tiny) W E); [|lra]. replace (- R_of y + p - (p - q)) with (- (R_of y - q)) by ring. rewrite Rabs_Ropp. lra.
  - assert (NQ : - R_of c * R_of d = - q) by (unfold q; ring). assert (W : Rabs (R_of x + - q) <= P + Q + (u24 * P + u24 * Q) + 2 * tiny) by (eapply Rle_trans; [apply Rabs_triang|]; rewrite Rabs_Ropp; lra).
    destruct (ffma_e (fopp c) d x (fopp_ff _ C) D FP) as [F E]; [rewrite ?R_fopp, ?NQ; unfold huge; lra|rewrite ?R_fopp, ?NQ, ?Rabs_Ropp; unfold huge; lra|]. rewrite R_fopp, NQ in E. split; [exact F|].
    apply (fin _ (R_of x + - q) (u24 * P + tiny) W E); [|lra]. replace (R_of x + - q - (p - q)) with (R_of x - p) by ring. lra.
  - assert (W : Rabs (R_of x - R_of y) <= P + Q + (u24 * P + u24 * Q) + 2 * tiny) by (unfold Rminus; eapply Rle_trans; [apply Rabs_triang|]; rewrite Rabs_Ropp; lra).
    destruct (fsub_e x y FP FQ) as [F E]; [unfold huge; lra|]. split; [exact F|].
    apply (fin _ (R_of x - R_of y) (u24 * P + u24 * Q + 2 * tiny) W E); [|lra]. replace (R_of x - R_of y - (p - q)) with ((R_of x - p) + - (R_of y - q)) by ring.
    eapply Rle_trans; [apply Rabs_triang|]. rewrite Rabs_Ropp. lra.
Qed.
Lemma step_c_near : forall k j c1 s1 c s phi theta E, ff c1 -> ff s1 -> ff c -> ff s -> Rabs (R_of c1 - cos theta) <= 2 * u24 -> Rabs (R_of s1 - sin theta) <= 2 * u24 ->
  E <= / 100 -> N2 (R_of c - cos phi) (R_of s - sin phi) <= E ->
  let p := osc_step_c k j c s s1 c1 in ff (fst p) /\ ff (snd p) /\ N2 (R_of (fst p) - cos (phi + theta)) (R_of (snd p) - sin (phi + theta)) <= E + 12 * u24.
Proof.
  intros k j c1 s1 c s phi theta E C1 S1 C S H1 H2 HE HN. cbv zeta.
  assert (U : u24 <= / 1000000) by (unfold u24; lra). assert (U0 : 0 < u24) by (unfold u24; lra).
  pose proof tiny_40 as T. pose proof tiny_pos as T0. assert (T' : tiny <= u24 / 1000) by (unfold u24; lra).
  pose proof (COS_bound phi) as B1. pose proof (SIN_bound phi) as B2. pose proof (COS_bound theta) as B3. pose proof (SIN_bound theta) as B4.
  pose proof (N2_fst (R_of c - cos phi) (R_of s - sin phi)) as F1. pose proof (N2_snd (R_of c - cos phi) (R_of s - sin phi)) as F2.
  assert (G1 : Rabs (R_of c) <= 1.01). { assert (Q : Rabs (R_of c - cos phi) <= / 100) by lra. apply Rabs_le_inv in Q. apply Rabs_le. lra. }
  assert (G2 : Rabs (R_of s) <= 1.01). { assert (Q : Rabs (R_of s - sin phi) <= / 100) by lra. apply Rabs_le_inv in Q. apply Rabs_le. lra. }
  assert (K3 : Rabs (cos theta) <= 1) by (apply Rabs_le; lra). assert (K4 : Rabs (sin theta) <= 1) by (apply Rabs_le; lra).
  assert (X : forall x y b, Rabs (R_of x) <= 1.01 -> Rabs b <= 1 -> Rabs (R_of y - b) <= 2 * u24 -> Rabs (R_of x * R_of y - R_of x * b) <= 2.02 * u24 /\ Rabs (R_of x * R_of y) <= 1.0101).
  { intros x y b HX HB HY. assert (D : Rabs (R_of x * R_of y - R_of x * b) <= 2.02 * u24).
    { replace (R_of x * R_of y - R_of x * b) with (R_of x * (R_of y - b)) by ring. rewrite Rabs_mult. apply Rle_trans with (1.01 * (2 * u24)); [apply Rmult_le_compat; auto using Rabs_pos|lra]. }
    split; [exact D|]. assert (Y : Rabs (R_of x * b) <= 1.01) by (rewrite Rabs_mult; apply Rle_trans with (1.01 * 1); [apply Rmult_le_compat; auto using Rabs_pos|lra]).
    replace (R_of x * R_of y) with ((R_of x * R_of y - R_of x * b) + R_of x * b) by ring. eapply Rle_trans; [apply Rabs_triang|lra]. }
  destruct (X c c1 _ G1 K3 H1) as [Q1 R1]. destruct (X s s1 _ G2 K4 H2) as [Q2 R2]. destruct (X s c1 _ G2 K3 H1) as [Q3 R3]. destruct (X c s1 _ G1 K4 H2) as [Q4 R4]. clear X.
  destruct (msub_e (k 40%Z j) (k 41%Z j) c c1 s s1 1.0101 1.0101 C C1 S S1 R1 R2) as [A1 D1]; [lra|].
  destruct (mix_e (fun z => k (z + 22)%Z) j s c1 c s1 1.0101 1.0101 S C1 C S1 R3 R4) as [A2 D2]; [lra|].
  change (mix_c (fun z => k (z + 22)%Z) j s c1 c s1) with (snd (osc_step_c k j c s s1 c1)) in A2, D2.
  match type of A1 with ff ?t => change t with (fst (osc_step_c k j c s s1 c1)) in A1, D1 end.
  split; [exact A1|]. split; [exact A2|]. set (x := R_of (fst (osc_step_c k j c s s1 c1))) in *. set (y := R_of (snd (osc_step_c k j c s s1 c1))) in *.
  rewrite cos_plus, sin_plus.
  replace (x - (cos phi * cos theta - sin phi * sin theta)) with
    (((R_of c - cos phi) * cos theta - (R_of s - sin phi) * sin theta) + (x - (R_of c * cos theta - R_of s * sin theta))) by ring.
  replace (y - (sin phi * cos theta + cos phi * sin theta)) with
    (((R_of s - sin phi) * cos theta + (R_of c - cos phi) * sin theta) + (y - (R_of s * cos theta + R_of c * sin theta))) by ring.
  eapply Rle_trans; [apply N2_tri|]. rewrite N2_rot. apply Rplus_le_compat; [exact HN|].
  eapply Rle_trans; [apply (N2_max _ _ (8.4 * u24))|lra].
  - apply Rabs_le_inv in D1. apply Rabs_le_inv in Q1. apply Rabs_le_inv in Q2. apply Rabs_le. lra.
  - apply Rabs_le_inv in D2. apply Rabs_le_inv in Q3. apply Rabs_le_inv in Q4. apply Rabs_le. lra.
Qed.
Lemma state_near : forall k o start step n, (n <= 160)%nat -> trig_close o start -> trig_close o step ->
  near (fst (osc_state k (cosf o start) (sinf o start) (sinf o step) (cosf o step) n)) (cos (R_of start + INR n * R_of step)) (/ 8192).
Proof.
  intros k o start step n Hn (A1 & A2 & A3 & A4) (B1 & B2 & B3 & B4). unfold near.
  assert (U : 2 * u24 = / 8388608) by (unfold u24; lra). rewrite <- U in A3, A4, B3, B4.
  assert (Q : let p := osc_state k (cosf o start) (sinf o start) (sinf o step) (cosf o step) n in let phi := R_of start + INR n * R_of step in
    ff (fst p) /\ ff (snd p) /\ N2 (R_of (fst p) - cos phi) (R_of (snd p) - sin phi) <= INR n * (12 * u24) + 3 * u24).
  { induction n as [|n IH].
    - cbn [osc_state]. cbv zeta. cbn [fst snd]. split; [exact A1|]. split; [exact A2|]. cbn [INR]. replace (R_of start + 0 * R_of step) with (R_of start) by ring.
      eapply Rle_trans; [apply (N2_max _ _ (2 * u24)); auto|]. unfold u24. lra.
    - specialize (IH ltac:(lia)). cbv zeta in IH |- *. cbn [osc_state]. cbv zeta.
      destruct (osc_state k (cosf o start) (sinf o start) (sinf o step) (cosf o step) n) as [c s]. cbn [fst snd] in IH |- *. destruct IH as (C & S & I).
      assert (HI : INR n <= 160). { apply (Rle_trans _ (INR 160)); [apply le_INR; lia|]. rewrite INR_IZR_INZ. apply IZR_le. lia. }
      assert (HE : INR n * (12 * u24) + 3 * u24 <= / 100) by (unfold u24; lra).
      destruct (step_c_near k (Z.of_nat n) (cosf o step) (sinf o step) c s _ (R_of step) _ B1 B2 C S B3 B4 HE I) as (X & Y & Z).
      split; [exact X|]. split; [exact Y|]. rewrite S_INR. replace (R_of start + (INR n + 1) * R_of step) with (R_of start + INR n * R_of step + R_of step) by ring. lra. }
  cbv zeta in Q. destruct Q as (C & _ & I). split; [exact C|]. eapply Rle_trans; [apply N2_fst|]. eapply Rle_trans; [exact I|].
  assert (HI : INR n <= 160). { apply (Rle_trans _ (INR 160)); [apply le_INR; lia|]. rewrite INR_IZR_INZ. apply IZR_le. lia. }
  unfold u24. lra.
Qed.

(* ---- the sum ---- *)
Lemma macc_e : forall f x a b P, ff x -> ff a -> ff b -> Rabs (R_of a * R_of b) <= P -> Rabs (R_of x) <= 1e36 -> P <= 1e36 ->
  ff (macc f x a b) /\ Rabs (R_of (macc f x a b) - (R_of x + R_of a * R_of b)) <= 6e-8 * Rabs (R_of x) + 1.3e-7 * P + 1e-39.
Proof.
  intros f x a b P X A B HP HX S. set (p := R_of a * R_of b) in *. pose proof (Rabs_pos p) as P0. pose proof (Rabs_pos (R_of x)) as X0. pose proof tiny_40 as T. pose proof tiny_pos as T0.
  assert (U : 0 < u24 <= 5.97e-8) by (rewrite u24_val; lra).
  assert (K : forall z, u24 * Rabs z <= 5.97e-8 * Rabs z) by (intro z; apply Rmult_le_compat_r; [apply Rabs_pos|lra]).
  destruct f; cbn [macc].
  - pose proof (Rabs_triang (R_of x) p) as W. destruct (ffma_e a b x A B X) as [F E]; [fold p; unfold huge; lra|fold p; unfold huge; lra|]. fold p in E. split; [exact F|]. specialize (K (R_of x + p)). lra.
  - destruct (fmul_e a b A B) as [F E]; [fold p; unfold huge; lra|]. fold p in E. set (y := fmul a b) in *. pose proof (K p) as K1.
    assert (YS : Rabs (R_of y) <= Rabs p + (5.97e-8 * Rabs p + 1e-40)). { replace (R_of y) with (p + (R_of y - p)) by ring. eapply Rle_trans; [apply Rabs_triang|]. lra. }
    pose proof (Rabs_triang (R_of x) (R_of y)) as W. destruct (fadd_e x y X F) as [F2 E2]; [unfold huge; lra|]. split; [exact F2|]. specialize (K (R_of x + R_of y)).
    replace (R_of (fadd x y) - (R_of x + p)) with ((R_of (fadd x y) - (R_of x + R_of y)) + (R_of y - p)) by ring. eapply Rle_trans; [apply Rabs_triang|]. lra.
Qed.
Lemma prod2 : forall x y X Y, Rabs x <= X -> Rabs y <= Y -> Rabs (x * y) <= X * Y.
Proof. intros x y X Y HX HY. rewrite Rabs_mult. apply Rmult_le_compat; auto using Rabs_pos. Qed.
Lemma mul_sz : forall a b X, ff a -> ff b -> Rabs (R_of a * R_of b) <= X -> X <= 1e36 ->
  ff (fmul a b) /\ Rabs (R_of (fmul a b) - R_of a * R_of b) <= 6e-8 * X + 1e-40 /\ Rabs (R_of (fmul a b)) <= 1.0000001 * X + 1e-40.
Proof.
  intros a b X A B H HX. set (p := R_of a * R_of b) in *. pose proof (Rabs_pos p) as P0. pose proof tiny_40 as T. assert (U : 0 < u24 <= 6e-8) by (rewrite u24_val; lra).
  destruct (fmul_e a b A B) as [F E]; [fold p; unfold huge; lra|]. fold p in E. assert (K : u24 * Rabs p <= 6e-8 * Rabs p) by (apply Rmult_le_compat_r; lra).
  assert (D : Rabs (R_of (fmul a b) - p) <= 6e-8 * X + 1e-40) by lra. split; [exact F|]. split; [exact D|].
  replace (R_of (fmul a b)) with ((R_of (fmul a b) - p) + p) by ring. eapply Rle_trans; [apply Rabs_triang|]. lra.
Qed.
Lemma voiced_add_near : forall k j sm x w amp c t, ff x -> ff amp -> Rabs (R_of x) <= 1e30 -> Rabs (R_of amp) <= 1e30 -> sized 1 w -> near c (cos t) (/ 8192) ->
  adds_cosine x (voiced_add_c k j sm x w amp c) (R_of w) (R_of amp) t.
Proof.
  intros k j sm x w amp c t X A BX BA [W BW] [C BC]. pose proof (COS_bound t) as CB.
  assert (C1 : Rabs (R_of c) <= 1.001) by (apply Rabs_le_inv in BC; apply Rabs_le; lra).
  assert (F2 : ff f_two) by (split; reflexivity). assert (E2 : R_of f_two = 2) by (change f_two with (f_of_Z 2); apply two_R).
  set (M := Rabs (R_of amp)) in *. pose proof (Rabs_pos (R_of amp)) as M0. fold M in M0. pose proof (Rabs_pos (R_of x)) as X0.
  assert (fin : forall f a b, ff a -> ff b -> Rabs (R_of a * R_of b - 2 * R_of w * R_of amp * R_of c) <= 3e-7 * M + 1e-39 -> adds_cosine x (macc f x a b) (R_of w) (R_of amp) t).
  { intros f a b FA FB D. assert (Q : Rabs (2 * R_of w * R_of amp * R_of c) <= 2 * 1 * M * 1.001).
    { apply prod2; [|exact C1]. apply prod2; [|unfold M; lra]. apply prod2; [rewrite Rabs_pos_eq; lra|exact BW]. }
    assert (P : Rabs (R_of a * R_of b) <= 2.01 * M + 1e-39). { replace (R_of a * R_of b) with ((R_of a * R_of b - 2 * R_of w * R_of amp * R_of c) + 2 * R_of w * R_of amp * R_of c) by ring. eapply Rle_trans; [apply Rabs_triang|]. lra. }
    destruct (macc_e f x a b _ X FA FB P) as [F E]; [lra|lra|]. split; [exact F|]. fold M.
    assert (V : Rabs (2 * R_of w * R_of amp * (R_of c - cos t)) <= 2 * 1 * M * / 8192).
    { apply prod2; [|exact BC]. apply prod2; [|unfold M; lra]. apply prod2; [rewrite Rabs_pos_eq; lra|exact BW]. }
    replace (R_of (macc f x a b) - (R_of x + 2 * R_of w * R_of amp * cos t)) with
      ((R_of (macc f x a b) - (R_of x + R_of a * R_of b)) + ((R_of a * R_of b - 2 * R_of w * R_of amp * R_of c) + 2 * R_of w * R_of amp * (R_of c - cos t))) by ring.
    eapply Rle_trans; [apply Rabs_triang|]. match goal with |- _ + ?g <= _ => assert (Z : g <= 3e-7 * M + 1e-39 + 2 * 1 * M * / 8192) by (eapply Rle_trans; [apply Rabs_triang|lra]) end. lra. }
  unfold voiced_add_c. destruct (lanes4 sm).
  - assert (B1 : Rabs (R_of c * R_of w) <= 1.001 * 1) by (apply prod2; auto). assert (B2 : Rabs (R_of f_two * R_of amp) <= 2 * M) by (rewrite E2; apply prod2; [rewrite Rabs_pos_eq; lra|unfold M; lra]).
    destruct (mul_sz c w _ C W B1) as (G1 & D1 & S1); [lra|]. destruct (mul_sz f_two amp _ F2 A B2) as (G2 & D2 & S2); [lra|]. rewrite E2 in *.
    apply fin; auto. set (a := R_of (fmul c w)) in *. set (b := R_of (fmul f_two amp)) in *.
    replace (a * b - 2 * R_of w * R_of amp * R_of c) with ((a - R_of c * R_of w) * b + (R_of c * R_of w) * (b - 2 * R_of amp)) by ring.
    pose proof (prod2 _ _ _ _ D1 S2) as Z1. pose proof (prod2 _ _ _ _ B1 D2) as Z2. eapply Rle_trans; [apply Rabs_triang|]. lra.
  - assert (B1 : Rabs (R_of f_two * R_of w) <= 2 * 1) by (rewrite E2; apply prod2; [rewrite Rabs_pos_eq; lra|exact BW]).
    destruct (mul_sz f_two w _ F2 W B1) as (G1 & D1 & S1); [lra|]. assert (B2 : Rabs (R_of (fmul f_two w) * R_of amp) <= 2.000001 * M) by (apply prod2; [lra|unfold M; lra]).
    destruct (mul_sz (fmul f_two w) amp _ G1 A B2) as (G2 & D2 & S2); [lra|]. rewrite E2 in *.
    apply fin; auto. set (a := R_of (fmul f_two w)) in *. set (b := R_of (fmul (fmul f_two w) amp)) in *.
    replace (b * R_of c - 2 * R_of w * R_of amp * R_of c) with ((b - a * R_of amp) * R_of c + (a - 2 * R_of w) * R_of amp * R_of c) by ring.
    assert (Z0 : Rabs ((a - 2 * R_of w) * R_of amp) <= (6e-8 * (2 * 1) + 1e-40) * M) by (apply prod2; [exact D1|unfold M; lra]).
    pose proof (prod2 _ _ _ _ D2 C1) as Z1. pose proof (prod2 _ _ _ _ Z0 C1) as Z2. eapply Rle_trans; [apply Rabs_triang|]. lra.
Qed.
Lemma oscillator_c_adds : forall k simd o start step amp aout off, length aout = 160%nat -> off = 0%Z \/ off = 160%Z -> trig_close o start -> trig_close o step ->
  ff amp -> Rabs (R_of amp) <= 1e30 -> Forall (fun x => ff x /\ Rabs (R_of x) <= 1e30) aout ->
  exists r, add_oscillator_c k simd aout off amp (cosf o start) (sinf o start) (sinf o step) (cosf o step) = Ok r /\ length r = 160%nat /\
  forall n x, (0 <= n < 160)%Z -> rd aout n = Ok x -> exists y, rd r n = Ok y /\ adds_cosine x y (R_of (fade (n + off))) (R_of amp) (R_of start + IZR n * R_of step).
Proof.
  intros k simd o start step amp aout off L Ho T1 T2 FA BA HX.
  destruct (osc_c_value k simd aout off amp (cosf o start) (sinf o start) (sinf o step) (cosf o step) L Ho) as (r & E & Lr & V).
  exists r. split; [exact E|]. split; [exact Lr|]. intros n x Hn Hx. eexists. split; [exact (V n x Hn Hx)|].
  apply rd_inv in Hx as [_ Hx]. apply nth_error_In in Hx. rewrite Forall_forall in HX. destruct (HX x Hx) as [FX BX].
  apply voiced_add_near; auto; [apply fade_sized; lia|].
  pose proof (state_near k o start step (Z.to_nat n) ltac:(lia) T1 T2) as H. rewrite INR_IZR_INZ, Z2Nat.id in H by lia. exact H.
Qed.
Lemma oscillator_c_close : forall k k' simd simd' o start step amp aout off, length aout = 160%nat -> off = 0%Z \/ off = 160%Z -> trig_close o start -> trig_close o step ->
  ff amp -> Rabs (R_of amp) <= 1e30 -> Forall (fun x => ff x /\ Rabs (R_of x) <= 1e30) aout ->
  exists r r', add_oscillator_c k simd aout off amp (cosf o start) (sinf o start) (sinf o step) (cosf o step) = Ok r /\
    add_oscillator_c k' simd' aout off amp (cosf o start) (sinf o start) (sinf o step) (cosf o step) = Ok r' /\
  forall n x, (0 <= n < 160)%Z -> rd aout n = Ok x -> exists y y', rd r n = Ok y /\ rd r' n = Ok y' /\ ff y /\ ff y' /\
    Rabs (R_of y - R_of y') <= Rabs (R_of x) * 2e-7 + Rabs (R_of amp) * 5.2e-4 + 2e-36.
Proof.
  intros k k' simd simd' o start step amp aout off L Ho T1 T2 FA BA HX.
  destruct (oscillator_c_adds k simd o start step amp aout off L Ho T1 T2 FA BA HX) as (r & E & _ & V).
  destruct (oscillator_c_adds k' simd' o start step amp aout off L Ho T1 T2 FA BA HX) as (r' & E' & _ & V').
  exists r, r'. split; [exact E|]. split; [exact E'|]. intros n x Hn Hx. destruct (V n x Hn Hx) as (y & Y & F & D). destruct (V' n x Hn Hx) as (y' & Y' & F' & D').
  exists y, y'. split; [exact Y|]. split; [exact Y'|]. split; [exact F|]. split; [exact F'|].
  set (z := R_of x + 2 * R_of (fade (n + off)) * R_of amp * cos (R_of start + IZR n * R_of step)) in *.
  replace (R_of y - R_of y') with ((R_of y - z) + - (R_of y' - z)) by ring. eapply Rle_trans; [apply Rabs_triang|]. rewrite Rabs_Ropp. lra.
Qed.
(* an oscillator of amplitude 5 fading out over samples of -10: sample 4 differs in every build *)
Lemma osc_identical_refuted : exists k start step amp aout, length aout = 160%nat /\ trig_close simple_oracle start /\ trig_close simple_oracle step /\
  ff amp /\ Rabs (R_of amp) <= 1e30 /\ Forall (fun x => ff x /\ Rabs (R_of x) <= 1e30) aout /\
  forall simd, add_oscillator_c k simd aout 160 amp (cosf simple_oracle start) (sinf simple_oracle start) (sinf simple_oracle step) (cosf simple_oracle step) <>
    add_oscillator simd aout 160 amp (cosf simple_oracle start) (sinf simple_oracle start) (sinf simple_oracle step) (cosf simple_oracle step).
Proof.
  assert (O : ff (f_of_Z (-10)) /\ Rabs (R_of (f_of_Z (-10))) <= 1e30) by (split; [split; reflexivity|]; R_val (f_of_Z (-10)); apply Rabs_le; lra).
  exists (fun _ _ => true), zero, small_step, (f_of_Z 5), (repeat (f_of_Z (-10)) 160). split; [reflexivity|]. split; [exact simple_zero|]. split; [exact simple_small|]. split; [split; reflexivity|].
  split; [R_val (f_of_Z 5); rewrite Rabs_pos_eq; lra|]. split; [apply Forall_forall; intros x Hx; apply repeat_spec in Hx; now subst x|]. intros simd E.
  assert (L : length (repeat (f_of_Z (-10)) 160) = 160%nat) by reflexivity. assert (X : rd (repeat (f_of_Z (-10)) 160) 4 = Ok (f_of_Z (-10))) by reflexivity. assert (Z4 : (0 <= 4 < 160)%Z) by lia.
  match type of E with add_oscillator_c ?k ?sm ?a ?o ?m ?c ?s ?sd ?cd = _ =>
    destruct (osc_c_value k sm a o m c s sd cd L (or_intror eq_refl)) as (r & E1 & _ & V); destruct (osc_value sm a o m c s sd cd L (or_intror eq_refl)) as (r' & E2 & _ & V') end.
  specialize (V 4%Z _ Z4 X). specialize (V' 4%Z _ Z4 X). rewrite E1, E2 in E. injection E as E. rewrite E, V' in V. destruct simd; vm_compute in V; discriminate V.
Qed.
