(* Proofs about the noise generators. *)
From Coq Require Import ZArith List Bool Lia Reals Lra Znumtheory.
From Verif Require Import Res F32 MParms MAdaptive MUnvoiced PRun PFloat SpecAdaptive SpecGen.
Import ListNotations.
Local Open Scope Z_scope.

(* ---- full period of x -> a x + c mod m ---- *)
Section Lcg.
Variables a c : Z.
(* 1 + a + ... + a^(n-1) *)
Fixpoint geo (n : nat) : Z := match n with O => 0 | S k => 1 + a * geo k end.
Definition affine (x : Z) : Z := a * x + c.
Fixpoint pw (n : nat) : Z := match n with O => 1 | S k => a * pw k end.

Lemma geo_pw : forall n, pw n = (a - 1) * geo n + 1.
Proof. induction n as [|n IH]; cbn [pw geo]; [ring|]. rewrite IH. ring. Qed.
Lemma iter_affine : forall n x, Nat.iter n affine x = x + geo n * ((a - 1) * x + c).
Proof.
  induction n as [|n IH]; intros x; [cbn; ring|]. change (Nat.iter (S n) affine x) with (affine (Nat.iter n affine x)).
  rewrite IH. unfold affine. cbn [geo]. ring.
Qed.
Lemma iter_mod : forall m (f : Z -> Z), (forall x, f x = affine x mod m) -> 0 < m ->
  forall n x, 0 <= x < m -> Nat.iter n f x = Nat.iter n affine x mod m.
Proof.
  intros m f Hf Hm. induction n as [|n IH]; intros x Hx; [cbn; symmetry; apply Z.mod_small; lia|].
  change (Nat.iter (S n) f x) with (f (Nat.iter n f x)). rewrite IH, Hf by exact Hx.
  change (Nat.iter (S n) affine x) with (affine (Nat.iter n affine x)). unfold affine at 1 3.
  rewrite <- Z.add_mod_idemp_l, Z.mul_mod_idemp_r, Z.add_mod_idemp_l by lia. reflexivity.
Qed.
Lemma iter_fix : forall m (f : Z -> Z), (forall x, f x = affine x mod m) -> 0 < m ->
  forall n x, 0 <= x < m -> (Nat.iter n f x = x <-> (m | geo n * ((a - 1) * x + c))).
Proof.
  intros m f Hf Hm n x Hx. rewrite (iter_mod m f Hf Hm n x Hx), iter_affine. split.
  - intros E. exists ((x + geo n * ((a - 1) * x + c)) / m).
    pose proof (Z.div_mod (x + geo n * ((a - 1) * x + c)) m ltac:(lia)). lia.
  - intros [q E]. rewrite E. rewrite Z.mod_add by lia. apply Z.mod_small. exact Hx.
Qed.
Lemma geo_add : forall n k, geo (n + k) = geo n + pw n * geo k.
Proof. induction n as [|n IH]; intros k; cbn [geo pw Nat.add]; [ring|]. rewrite IH. ring. Qed.
Lemma pw_add : forall n k, pw (n + k) = pw n * pw k.
Proof. induction n as [|n IH]; intros k; cbn [pw Nat.add]; [ring|]. rewrite IH. ring. Qed.
Lemma geo_mod : forall p n, (p | a - 1) -> (p | geo n - Z.of_nat n).
Proof.
  intros p n Hp. induction n as [|n IH]; [exists 0; reflexivity|]. cbn [geo].
  replace (1 + a * geo n - Z.of_nat (S n)) with ((a - 1) * geo n + (geo n - Z.of_nat n)) by lia.
  apply Z.divide_add_r; [now apply Z.divide_mul_l|exact IH].
Qed.
Lemma pw_mod : forall p n, (p | a - 1) -> (p | pw n - 1).
Proof. intros p n Hp. rewrite geo_pw. replace ((a - 1) * geo n + 1 - 1) with ((a - 1) * geo n) by ring. now apply Z.divide_mul_l. Qed.

(* powers of two *)
Lemma geo_pow2 : (4 | a - 1) -> forall m n, (2 ^ Z.of_nat m | geo n) <-> (2 ^ Z.of_nat m | Z.of_nat n).
Proof.
  intros Ha. induction m as [|m IH]; intros n; [split; intros _; apply Z.divide_1_l|].
  assert (H2 : (2 | a - 1)) by (apply Z.divide_trans with 4; [exists 2; reflexivity|exact Ha]).
  assert (P : 2 ^ Z.of_nat (S m) = 2 * 2 ^ Z.of_nat m) by (rewrite Nat2Z.inj_succ; apply Z.pow_succ_r; lia).
  assert (Par : (2 | geo n) <-> (2 | Z.of_nat n)).
  { pose proof (geo_mod 2 n H2) as D. split; intros K.
    - replace (Z.of_nat n) with (geo n - (geo n - Z.of_nat n)) by ring. now apply Z.divide_sub_r.
    - replace (geo n) with (geo n - Z.of_nat n + Z.of_nat n) by ring. now apply Z.divide_add_r. }
  assert (T2 : (2 | 2 ^ Z.of_nat (S m))) by (rewrite P; exists (2 ^ Z.of_nat m); ring).
  destruct (Zdivide_dec 2 (Z.of_nat n)) as [E|N].
  2:{ split; intros K; exfalso; apply N; [apply Par|]; now apply Z.divide_trans with (2 ^ Z.of_nat (S m)). }
  destruct E as [k Hk]. assert (Hk0 : 0 <= k) by lia.
  assert (En : n = (Z.to_nat k + Z.to_nat k)%nat) by lia. set (h := Z.to_nat k) in *.
  rewrite En, geo_add.
  destruct (pw_mod 4 h Ha) as [q Hq]. assert (Ep : pw h = 4 * q + 1) by lia.
  replace (geo h + pw h * geo h) with (2 * (geo h * (2 * q + 1))) by (rewrite Ep; ring).
  replace (Z.of_nat (h + h)) with (2 * Z.of_nat h) by lia. rewrite P.
  rewrite !Z.mul_divide_cancel_l by lia. rewrite <- IH. split; intros K.
  - apply Z.gauss with (2 * q + 1); [now rewrite Z.mul_comm|]. apply Zgcd_1_rel_prime.
    assert (R : rel_prime (2 * q + 1) 2).
    { apply bezout_rel_prime. apply Bezout_intro with 1 (- q). ring. }
    clear - R. apply rel_prime_sym. induction m as [|m IHm]; [apply rel_prime_sym, rel_prime_1|].
    rewrite Nat2Z.inj_succ, Z.pow_succ_r by lia. apply rel_prime_mult; assumption.
  - now apply Z.divide_mul_l.
Qed.

(* powers of five *)
Lemma geo_pow5 : (5 | a - 1) -> forall m n, (5 ^ Z.of_nat m | geo n) <-> (5 ^ Z.of_nat m | Z.of_nat n).
Proof.
  intros Ha. induction m as [|m IH]; intros n; [split; intros _; apply Z.divide_1_l|].
  assert (P : 5 ^ Z.of_nat (S m) = 5 * 5 ^ Z.of_nat m) by (rewrite Nat2Z.inj_succ; apply Z.pow_succ_r; lia).
  assert (Par : (5 | geo n) <-> (5 | Z.of_nat n)).
  { pose proof (geo_mod 5 n Ha) as D. split; intros K.
    - replace (Z.of_nat n) with (geo n - (geo n - Z.of_nat n)) by ring. now apply Z.divide_sub_r.
    - replace (geo n) with (geo n - Z.of_nat n + Z.of_nat n) by ring. now apply Z.divide_add_r. }
  assert (T2 : (5 | 5 ^ Z.of_nat (S m))) by (rewrite P; exists (5 ^ Z.of_nat m); ring).
  destruct (Zdivide_dec 5 (Z.of_nat n)) as [E|N].
  2:{ split; intros K; exfalso; apply N; [apply Par|]; now apply Z.divide_trans with (5 ^ Z.of_nat (S m)). }
  destruct E as [k Hk]. assert (Hk0 : 0 <= k) by lia. set (h := Z.to_nat k).
  assert (En : n = (h + (h + (h + (h + h))))%nat) by lia.
  destruct (pw_mod 5 h Ha) as [q Hq]. assert (Ep : pw h = 5 * q + 1) by lia.
  replace (geo n) with (5 * (geo h * (1 + 5 * (2 * q + 10 * q * q + 25 * q * q * q + 25 * q * q * q * q)))).
  2:{ rewrite En, !geo_add, Ep. ring. }
  replace (Z.of_nat n) with (5 * Z.of_nat h) by lia. rewrite P.
  set (u := 2 * q + 10 * q * q + 25 * q * q * q + 25 * q * q * q * q).
  rewrite !Z.mul_divide_cancel_l by lia. rewrite <- IH. split; intros K.
  - apply Z.gauss with (1 + 5 * u); [now rewrite Z.mul_comm|]. apply Zgcd_1_rel_prime.
    assert (R : rel_prime (1 + 5 * u) 5).
    { apply bezout_rel_prime. apply Bezout_intro with 1 (- u). ring. }
    clear - R. apply rel_prime_sym. induction m as [|m IHm]; [apply rel_prime_sym, rel_prime_1|].
    rewrite Nat2Z.inj_succ, Z.pow_succ_r by lia. apply rel_prime_mult; assumption.
  - now apply Z.divide_mul_l.
Qed.
End Lcg.

(* ---- the Java generator ---- *)
Lemma java_step_affine : forall x, java_step x = affine 25214903917 11 x mod 2 ^ 48.
Proof. intros x. unfold java_step, affine. f_equal. ring. Qed.
Lemma java_step_range : forall x, 0 <= java_step x < 2 ^ 48.
Proof. intros x. unfold java_step. apply Z.mod_pos_bound. lia. Qed.
Lemma java_period : forall x n, 0 <= x < 2 ^ 48 -> (Nat.iter n java_step x = x <-> Z.of_nat n mod 2 ^ 48 = 0).
Proof.
  intros x n Hx. rewrite (iter_fix 25214903917 11 (2 ^ 48) java_step java_step_affine ltac:(lia) n x Hx).
  rewrite Z.mod_divide by lia. change 48 with (Z.of_nat 48). rewrite <- (geo_pow2 25214903917 ltac:(exists 6303725979; reflexivity)).
  set (g := geo 25214903917 n). set (h := (25214903917 - 1) * x + 11). split; intros K.
  - apply Z.gauss with h; [now rewrite Z.mul_comm|]. apply Zgcd_1_rel_prime. apply rel_prime_sym.
    assert (R : rel_prime h 2).
    { apply bezout_rel_prime. apply Bezout_intro with 1 (- (12607451958 * x + 5)). unfold h. ring. }
    clear - R. generalize 48%nat. induction n as [|m IHm]; [apply rel_prime_sym, rel_prime_1|].
    rewrite Nat2Z.inj_succ, Z.pow_succ_r by lia. apply rel_prime_mult; assumption.
  - now apply Z.divide_mul_l.
Qed.

Lemma mask48 : forall x, Z.land x JAVA_MASK = x mod 2 ^ 48.
Proof. intros x. change JAVA_MASK with (Z.ones 48). apply Z.land_ones. lia. Qed.
Lemma mod_64_48 : forall x, (x mod U64) mod 2 ^ 48 = x mod 2 ^ 48.
Proof. intros x. symmetry. apply Zmod_div_mod; [reflexivity|reflexivity|]. exists 65536. reflexivity. Qed.

(* the seed the next draw starts from *)
Definition java_pre (t : tls) : Z :=
  if t_seeded t then t_seed48 t else Z.land (Z.lxor JAVA_INIT_SEED JAVA_MULT) JAVA_MASK.
Definition with_java (s : Z) (t : tls) : tls :=
  mktls (t_rng t) s true (t_rm0 t) (t_rm0_valid t) (t_rm0_owner t) (t_uv_seed t) (t_uv_override t).
Lemma java_draw : forall t, mbe_java_random_next_bits 24 t =
  (with_java (java_step (java_pre t)) t, java_step (java_pre t) / 2 ^ 24).
Proof.
  intros t. unfold mbe_java_random_next_bits. cbv zeta. fold (java_pre t).
  assert (E : Z.land ((java_pre t * JAVA_MULT + JAVA_ADD) mod U64) JAVA_MASK = java_step (java_pre t)).
  { rewrite mask48, mod_64_48. reflexivity. }
  rewrite E. f_equal. change (48 - 24) with 24. rewrite Z.shiftr_div_pow2 by lia. unfold to_u32. apply Z.mod_small.
  pose proof (java_step_range (java_pre t)) as R. split; [apply Z.div_pos; lia|].
  apply Z.lt_le_trans with (2 ^ 24); [|discriminate]. apply Z.div_lt_upper_bound; [lia|]. exact (proj2 R).
Qed.
Lemma java_pre_with : forall s t, java_pre (with_java s t) = s.
Proof. reflexivity. Qed.
Lemma with_java_twice : forall s s' t, with_java s (with_java s' t) = with_java s t.
Proof. reflexivity. Qed.

Lemma sample_eq : forall b, comfort_sample b = noise_sample (fdiv (f_of_Z b) (f_of_Z 16777216)).
Proof.
  intros b. unfold comfort_sample, noise_sample. change comfort_gain with noise_gain. change fone with (f_of_Z 1). reflexivity.
Qed.

(* one comfort-noise frame *)
Lemma comfort_frame : forall aout t, length aout = 160%nat ->
  mbe_synthesizeComfortNoisef aout t =
  Ok (map (fun i => noise_sample (fdiv (f_of_Z (Nat.iter (S i) java_step (java_pre t) / 2 ^ 24)) (f_of_Z 16777216))) (seq 0 160),
      with_java (Nat.iter 160 java_step (java_pre t)) t).
Proof.
  intros aout t L. set (g := fun i : nat => noise_sample (fdiv (f_of_Z (Nat.iter (S i) java_step (java_pre t) / 2 ^ 24)) (f_of_Z 16777216))).
  assert (Q : exists r, mbe_synthesizeComfortNoisef aout t = Ok r /\
    (length (fst r) = 160%nat /\ snd r = with_java (Nat.iter 160 java_step (java_pre t)) t /\
     forall i, (i < 160)%nat -> nth_error (fst r) i = Some (g i))).
  { unfold mbe_synthesizeComfortNoisef.
    destruct (for_up_ok (fun k (r : list f32 * tls) => length (fst r) = 160%nat /\
       java_pre (snd r) = Nat.iter (Z.to_nat k) java_step (java_pre t) /\
       with_java 0 (snd r) = with_java 0 t /\ (0 < k -> t_seeded (snd r) = true) /\
       forall i, (i < Z.to_nat k)%nat -> nth_error (fst r) i = Some (g i))
       (fun i '(aout, t) => let (t, b) := mbe_java_random_next_bits 24 t in
          aout <- wr aout i (comfort_sample b) ;; Ok (aout, t)) 0 160 (aout, t)) as (r & Hr & La & Ht & Hw & Hs & Ha).
    - lia.
    - intros k [b u] Hk (La & Hp & Hw & Hs & Ha). cbn [fst snd] in *. rewrite java_draw.
      assert (W : wr b k (comfort_sample (java_step (java_pre u) / 2 ^ 24)) = Ok (set_nth (Z.to_nat k) (comfort_sample (java_step (java_pre u) / 2 ^ 24)) b))
        by (apply wr_ok; lia).
      rewrite W. cbn [bind]. eexists. split; [reflexivity|]. cbn [fst snd]. replace (Z.to_nat (k + 1)) with (S (Z.to_nat k)) by lia.
      split; [rewrite set_nth_length; exact La|]. split; [rewrite java_pre_with, Hp; reflexivity|].
      split; [rewrite with_java_twice; exact Hw|]. split; [reflexivity|].
      intros i Hi. destruct (Nat.eq_dec i (Z.to_nat k)) as [->|N].
      + rewrite nth_set_nth_same by lia. f_equal. rewrite sample_eq. unfold g. rewrite Hp. reflexivity.
      + rewrite nth_set_nth_other by lia. apply Ha. lia.
    - cbn [fst snd]. split; [exact L|]. split; [reflexivity|]. split; [reflexivity|]. split; [lia|]. intros i Hi. lia.
    - exists r. split; [exact Hr|]. split; [exact La|]. split; [|exact Ha]. change (Z.to_nat 160) with 160%nat in Ht.
      rewrite <- Ht. destruct r as [b u]. cbn [fst snd] in *. specialize (Hs ltac:(lia)). clear - Hs Hw.
      apply (f_equal (with_java (java_pre u))) in Hw. rewrite !with_java_twice in Hw. rewrite <- Hw.
      unfold java_pre. rewrite Hs. unfold with_java. destruct u. cbn in *. now subst. }
  destruct Q as ([b u] & E & La & Ht & Ha). cbn [fst snd] in *. rewrite E. f_equal. f_equal; [|exact Ht].
  apply list_eq_nth; [rewrite map_length, seq_length; exact La|]. intros i Hi. rewrite La in Hi. rewrite Ha by exact Hi.
  rewrite nth_error_map. rewrite (nth_error_nth' (seq 0 160) 0%nat) by (rewrite seq_length; exact Hi).
  rewrite seq_nth by exact Hi. reflexivity.
Qed.

Lemma iter_add : forall {A} (f : A -> A) n m x, Nat.iter (n + m) f x = Nat.iter n f (Nat.iter m f x).
Proof. intros A f n m x. induction n as [|n IH]; [reflexivity|]. cbn [Nat.add]. cbn. f_equal. exact IH. Qed.

Lemma java_frame_eq : forall x seed k, x = java_state seed (160 * k) ->
  map (fun i => noise_sample (fdiv (f_of_Z (Nat.iter (S i) java_step x / 2 ^ 24)) (f_of_Z 16777216))) (seq 0 160) = java_frame seed k.
Proof.
  intros x seed k ->. unfold java_frame. apply map_ext. intros i. unfold java_nextFloat, java_next24, java_state.
  do 4 f_equal. rewrite <- iter_add. f_equal. lia.
Qed.
Lemma java_state_add : forall seed k n, Nat.iter n java_step (java_state seed k) = java_state seed (n + k).
Proof. intros. unfold java_state. symmetry. apply iter_add. Qed.
Lemma comfort_frames_gen : forall bufs t seed k, Forall (fun b => length b = 160%nat) bufs ->
  java_pre t = java_state seed (160 * k) ->
  comfort_frames bufs t = Ok (map (java_frame seed) (seq k (length bufs)),
    if (length bufs =? 0)%nat then t else with_java (java_state seed (160 * (k + length bufs))) t).
Proof.
  induction bufs as [|b bs IH]; intros t seed k HF Hp; [reflexivity|]. inversion HF as [|x xs Lb HF']; subst.
  cbn [comfort_frames]. rewrite comfort_frame by exact Lb. rewrite (java_frame_eq _ _ _ Hp), Hp, java_state_add.
  cbn [bind]. rewrite (IH _ seed (S k) HF').
  2:{ rewrite java_pre_with. f_equal. lia. }
  cbn [bind length]. change (seq k (S (length bs))) with (k :: seq (S k) (length bs)). cbn [map].
  f_equal. f_equal. change (S (length bs) =? 0)%nat with false. destruct (length bs =? 0)%nat eqn:E.
  + apply Nat.eqb_eq in E. rewrite E. do 2 f_equal. lia.
  + rewrite with_java_twice. do 2 f_equal. lia.
Qed.
Lemma seed_state : forall s t, java_pre (mbe_setThreadRngSeed s t) = java_state (effective_seed s) 0.
Proof.
  intros s t. unfold mbe_setThreadRngSeed, mbe_seedUnvoicedNoiseLcg, mbe_seedComfortNoiseRng, java_pre, effective_seed, DEFAULT_SEED.
  cbn [t_seeded t_seed48]. unfold java_state. cbn [Nat.iter]. unfold java_scramble. rewrite mask48.
  destruct (s =? 0) eqn:E; [reflexivity|]. rewrite E. reflexivity.
Qed.
Lemma seeded_noise : forall s t bufs, Forall (fun b => length b = 160%nat) bufs ->
  exists t', comfort_frames bufs (mbe_setThreadRngSeed s t) = Ok (map (java_frame (effective_seed s)) (seq 0 (length bufs)), t').
Proof.
  intros s t bufs HF. eexists. apply (comfort_frames_gen bufs _ (effective_seed s) 0 HF). apply seed_state.
Qed.

(* ---- C32 ---- *)
Lemma ff_const : forall x, valid_binary 24 128 x && is_finite_sf x = true -> ff x.
Proof. intros x H. apply andb_prop in H. exact H. Qed.
Lemma sample_bound : forall b, 0 <= b < 2 ^ 24 ->
  ff (comfort_sample b) /\ (R_of (fopp noise_gain) <= R_of (comfort_sample b) <= R_of noise_gain)%R.
Proof.
  intros b Hb. unfold comfort_sample. change comfort_gain with noise_gain.
  assert (Hb1 : (0 <= IZR b <= 16777216)%R) by (split; apply IZR_le; lia).
  destruct (of_Z_R b ltac:(lia)) as [Fb Eb]. destruct (of_Z_R 16777216 ltac:(lia)) as [F24 E24].
  destruct (of_Z_R 0 ltac:(lia)) as [F0 E0]. destruct (of_Z_R 1 ltac:(lia)) as [F1 E1]. destruct (of_Z_R 2 ltac:(lia)) as [F2 E2].
  destruct (of_Z_R (-1) ltac:(lia)) as [Fm Em].
  destruct (fdiv_b (f_of_Z b) (f_of_Z 16777216) (f_of_Z 0) (f_of_Z 1)) as (Fd & Bd & _); try assumption.
  { rewrite E24. lra. } { rewrite Eb, E24, E0, E1. lra. }
  set (d := fdiv (f_of_Z b) (f_of_Z 16777216)) in *. rewrite E0, E1 in Bd.
  destruct (fmul_b d (f_of_Z 2) (f_of_Z 0) (f_of_Z 2)) as (Fm2 & Bm & _); try assumption. { rewrite E0, E2. lra. }
  set (m := fmul d (f_of_Z 2)) in *. rewrite E0, E2 in Bm. change fone with (f_of_Z 1).
  destruct (fsub_b m (f_of_Z 1) (f_of_Z (-1)) (f_of_Z 1)) as (Fs & Bs & _); try assumption. { rewrite E1, Em. lra. }
  set (s := fsub m (f_of_Z 1)) in *. rewrite E1, Em in Bs.
  assert (Fg : ff noise_gain) by (apply ff_const; vm_compute; reflexivity).
  destruct (fmul_b s noise_gain (fopp noise_gain) noise_gain) as (Fr & Br & _); try assumption; try now apply fopp_ff.
  - rewrite R_fopp. assert (0 < R_of noise_gain)%R by (R_val noise_gain; lra).
    generalize dependent (R_of noise_gain). intros g Hg. clear - Bs Hg. generalize dependent (R_of s). intros y [Hy1 Hy2]. split.
    + replace (- g)%R with (-1 * g)%R by ring. apply Rmult_le_compat_r; lra.
    + replace g with (1 * g)%R at 2 by ring. apply Rmult_le_compat_r; lra.
  - split; [exact Fr|exact Br].
Qed.
Lemma java_bits_range : forall k x, 0 <= Nat.iter (S k) java_step x / 2 ^ 24 < 2 ^ 24.
Proof.
  intros k x. change (Nat.iter (S k) java_step x) with (java_step (Nat.iter k java_step x)). pose proof (java_step_range (Nat.iter k java_step x)) as R. split; [apply Z.div_pos; lia|].
  apply Z.div_lt_upper_bound; [lia|]. exact (proj2 R).
Qed.
Lemma bound_fle : forall x, ff x -> (R_of (fopp noise_gain) <= R_of x <= R_of noise_gain)%R -> fle (fabs x) noise_gain = true.
Proof.
  intros x F B. apply fle_true; [now apply fabs_ff|apply ff_const; vm_compute; reflexivity|].
  rewrite R_fabs. rewrite R_fopp in B. apply Rabs_le. lra.
Qed.
Lemma comfort_bounded : forall aout t, length aout = 160%nat -> exists aout' t',
  mbe_synthesizeComfortNoisef aout t = Ok (aout', t') /\ length aout' = 160%nat /\
  Forall (fun x => binary32 x /\ finite x /\ fle (fabs x) noise_gain = true) aout'.
Proof.
  intros aout t L. rewrite comfort_frame by exact L. eexists. eexists. split; [reflexivity|].
  split; [now rewrite map_length, seq_length|]. apply Forall_forall. intros x Hx. apply in_map_iff in Hx as (i & <- & _).
  rewrite <- sample_eq. destruct (sample_bound _ (java_bits_range i (java_pre t))) as [[V F] B].
  split; [exact V|]. split; [now destruct (comfort_sample _)|]. apply bound_fle; [split; assumption|exact B].
Qed.
(* conversion of a bounded sample *)
Lemma short_bound : forall x, ff x -> (R_of (fopp noise_gain) <= R_of x <= R_of noise_gain)%R ->
  exists z, short_of_sample x = Ok z /\ -98 <= z <= 98.
Proof.
  intros x F B. rewrite R_fopp in B. assert (G : R_of noise_gain = (14725153 / 1048576)%R) by (R_val noise_gain; reflexivity).
  rewrite G in B. unfold short_of_sample. cbv zeta.
  assert (Fh : ff (flit 197 2)) by (apply ff_const; vm_compute; reflexivity).
  assert (Eh : R_of (flit 197 2) = (197/2)%R) by (R_val (flit 197 2); lra).
  assert (Fa : ff again) by (apply ff_const; vm_compute; reflexivity).
  assert (Ea : R_of again = 7%R) by (R_val again; lra).
  destruct (fmul_b again x (fopp (flit 197 2)) (flit 197 2)) as (Fm & Bm & _); try assumption; try now apply fopp_ff.
  { rewrite R_fopp, Eh, Ea. lra. }
  set (y := fmul again x) in *. rewrite R_fopp, Eh in Bm.
  assert (FM : ff max_amplitude) by (apply ff_const; vm_compute; reflexivity).
  assert (EM : (R_of max_amplitude >= 30000)%R) by (R_val max_amplitude; lra).
  assert (C1 : fgt y max_amplitude = false). { apply flt_false; [exact FM|exact Fm|lra]. }
  assert (C2 : flt y (fopp max_amplitude) = false). { apply flt_false; [exact Fm|now apply fopp_ff|rewrite R_fopp; lra]. }
  rewrite C1, C2. unfold sf_to_short. rewrite trunc_R by apply Fm.
  assert (T : -98 <= Flocq.Core.Raux.Ztrunc (R_of y) <= 98) by (apply (trunc_bound _ 98); [lia|lra]).
  eexists. split; [|exact T].
  destruct ((-32768 <=? _) && _) eqn:E; [reflexivity|]. exfalso. apply andb_false_iff in E as [E|E]; [apply Z.leb_gt in E|apply Z.leb_gt in E]; lia.
Qed.
Lemma noise_gain_short : forall b, 0 <= b < 2 ^ 24 -> exists z, short_of_sample (comfort_sample b) = Ok z /\ -98 <= z <= 98.
Proof. intros b Hb. destruct (sample_bound b Hb) as [F B]. now apply short_bound. Qed.
(* ---- orbits ---- *)
Lemma full_orbit : forall m (f : Z -> Z), 0 < m -> (forall x, 0 <= f x < m) ->
  (forall x n, 0 <= x < m -> (Nat.iter n f x = x <-> Z.of_nat n mod m = 0)) ->
  forall x y, 0 <= x < m -> 0 <= y < m -> exists n, Z.of_nat n < m /\ Nat.iter n f x = y.
Proof.
  intros m f Hm Hr Hp x y Hx Hy. set (N := Z.to_nat m). assert (EN : Z.of_nat N = m) by (apply Z2Nat.id; lia). clearbody N.
  assert (R : forall n, 0 <= Nat.iter n f x < m) by (intros [|n]; [exact Hx|apply Hr]).
  assert (Inj : forall i j, (i < j < N)%nat -> Nat.iter i f x <> Nat.iter j f x).
  { intros i j Hij E. replace j with ((j - i) + i)%nat in E by lia. rewrite iter_add in E. symmetry in E.
    apply (Hp _ _ (R i)) in E. rewrite Z.mod_small in E by lia. lia. }
  assert (ND : NoDup (map (fun n => Nat.iter n f x) (seq 0 N))).
  { apply (NoDup_nth (map (fun n => Nat.iter n f x) (seq 0 N)) 0). intros i j Hi Hj E. rewrite map_length, seq_length in Hi, Hj.
    rewrite !(nth_indep _ 0 (Nat.iter 0 f x)) in E by (rewrite map_length, seq_length; assumption).
    rewrite !(map_nth (fun n => Nat.iter n f x)) in E. rewrite !seq_nth in E by assumption. cbn [Nat.add] in E.
    destruct (Nat.lt_trichotomy i j) as [K|[K|K]]; [|exact K|]; exfalso.
    - apply (Inj i j); [lia|exact E].
    - apply (Inj j i); [lia|now symmetry]. }
  assert (In y (map (fun n => Nat.iter n f x) (seq 0 N))) as HI.
  { refine (NoDup_length_incl (l' := map Z.of_nat (seq 0 N)) ND _ _ y _).
    - now rewrite !map_length.
    - intros z Hz. apply in_map_iff in Hz as (n & <- & _). apply in_map_iff. exists (Z.to_nat (Nat.iter n f x)).
      specialize (R n). split; [apply Z2Nat.id; lia|]. apply in_seq. lia.
    - apply in_map_iff. exists (Z.to_nat y). split; [apply Z2Nat.id; lia|]. apply in_seq. lia. }
  apply in_map_iff in HI as (n & E & Hn). apply in_seq in Hn. exists n. split; [lia|exact E].
Qed.

(* ---- the unvoiced noise generator ---- *)
Lemma lcg_step_affine : forall x, lcg_step x = affine 171 11213 x mod 53125.
Proof. reflexivity. Qed.
Lemma lcg_step_range : forall x, 0 <= lcg_step x < 53125.
Proof. intros x. apply Z.mod_pos_bound. lia. Qed.
Lemma divide_mul : forall p q n, rel_prime p q -> ((p * q | n) <-> (p | n) /\ (q | n)).
Proof.
  intros p q n R. split.
  - intros H. split; (eapply Z.divide_trans; [|exact H]); [exists q|exists p]; ring.
  - intros [[k ->] H]. rewrite Z.mul_comm in H. apply Z.gauss in H.
    + destruct H as [j ->]. exists j. ring.
    + apply Zgcd_1_rel_prime. now apply rel_prime_sym.
Qed.
Lemma lcg_period : forall x n, 0 <= x < 53125 -> (Nat.iter n lcg_step x = x <-> Z.of_nat n mod 53125 = 0).
Proof.
  intros x n Hx. rewrite (iter_fix 171 11213 53125 lcg_step lcg_step_affine ltac:(lia) n x Hx).
  rewrite Z.mod_divide by lia. change 53125 with (5 ^ Z.of_nat 5 * 17).
  assert (R5 : rel_prime (5 ^ Z.of_nat 5) 17). { apply bezout_rel_prime. apply Bezout_intro with (-6) 1103. reflexivity. }
  rewrite !divide_mul by exact R5.
  set (h := (171 - 1) * x + 11213).
  assert (H5 : rel_prime h 5). { apply bezout_rel_prime. apply Bezout_intro with 2 (- (68 * x + 4485)). unfold h. ring. }
  assert (H17 : rel_prime h 17). { apply bezout_rel_prime. apply Bezout_intro with 12 (- (120 * x + 7915)). unfold h. ring. }
  assert (H5' : rel_prime h (5 ^ Z.of_nat 5)).
  { clear - H5. generalize 5%nat at 1. induction n as [|m IHm]; [apply rel_prime_sym, rel_prime_1|].
    rewrite Nat2Z.inj_succ, Z.pow_succ_r by lia. apply rel_prime_mult; assumption. }
  assert (C : forall p, rel_prime h p -> ((p | geo 171 n * h) <-> (p | geo 171 n))).
  { intros p Hp. split; intros K; [|now apply Z.divide_mul_l]. apply Z.gauss with h; [now rewrite Z.mul_comm|].
    apply Zgcd_1_rel_prime. now apply rel_prime_sym. }
  rewrite (C _ H5'), (C _ H17), (geo_pow5 171 ltac:(exists 34; reflexivity)).
  assert (D : (17 | geo 171 n) <-> (17 | Z.of_nat n)).
  { pose proof (geo_mod 171 17 n ltac:(exists 10; reflexivity)) as D. split; intros K.
    - replace (Z.of_nat n) with (geo 171 n - (geo 171 n - Z.of_nat n)) by ring. now apply Z.divide_sub_r.
    - replace (geo 171 n) with (geo 171 n - Z.of_nat n + Z.of_nat n) by ring. now apply Z.divide_add_r. }
  rewrite D. reflexivity.
Qed.
Lemma lcg_all : forall x y, 0 <= x < 53125 -> 0 <= y < 53125 -> exists n, Z.of_nat n < 53125 /\ Nat.iter n lcg_step x = y.
Proof. apply (full_orbit 53125 lcg_step); [lia|exact lcg_step_range|exact lcg_period]. Qed.
Lemma java_all : forall x y, 0 <= x < 2 ^ 48 -> 0 <= y < 2 ^ 48 -> exists n, Z.of_nat n < 2 ^ 48 /\ Nat.iter n java_step x = y.
Proof. apply (full_orbit (2 ^ 48) java_step); [reflexivity|exact java_step_range|exact java_period]. Qed.

Lemma lcg_next_eq : forall s, 0 <= s < 53125 -> lcg_next s = lcg_step s.
Proof. intros s H. unfold lcg_next, lcg_step, to_u32. rewrite (Z.mod_small _ 4294967296) by lia. reflexivity. Qed.
Lemma lcg_state_range : forall s k, 0 <= s < 53125 -> 0 <= lcg_state s k < 53125.
Proof. intros s [|k] H; [exact H|]. apply lcg_step_range. Qed.
Lemma u32_of_Z : forall s, 0 <= s < 53125 -> sf_to_u32 (f_of_Z s) = Ok s.
Proof.
  intros s H. unfold sf_to_u32. rewrite trunc_of_Z by lia.
  replace (0 <=? s) with true by lia. replace (s <=? 4294967295) with true by lia. reflexivity.
Qed.
Lemma of_Z_nonneg : forall s, 0 <= s < 53125 -> flt (f_of_Z s) fzero = false.
Proof.
  intros s H. destruct (of_Z_R s ltac:(lia)) as [F E]. apply flt_false; [exact F|split; reflexivity|].
  rewrite E. change fzero with (f_of_Z 0). destruct (of_Z_R 0 ltac:(lia)) as [_ E0]. rewrite E0. apply IZR_le. lia.
Qed.

(* mbe_generate_noise_lcg: the raw generator *)
Lemma noise_lcg_ok : forall buf n s, 0 <= s < 53125 -> length buf = n ->
  mbe_generate_noise_lcg buf (Z.of_nat n) (f_of_Z s) =
  Ok (map (fun i => f_of_Z (lcg_state s i)) (seq 0 n), f_of_Z (lcg_state s n)).
Proof.
  intros buf n s Hs L. unfold mbe_generate_noise_lcg. rewrite u32_of_Z by exact Hs. cbn [bind]. rewrite Z.mod_small by exact Hs.
  destruct (for_up_ok (fun k (r : list f32 * Z) => length (fst r) = n /\ snd r = lcg_state s (Z.to_nat k) /\
     forall i, (i < Z.to_nat k)%nat -> nth_error (fst r) i = Some (f_of_Z (lcg_state s i)))
     (fun i '(buffer, st) => buffer <- wr buffer i (f_of_Z st) ;; Ok (buffer, lcg_next st)) 0 (Z.of_nat n) (buf, s))
     as ([b st] & Hr & Lb & Es & Hb).
  - lia.
  - intros k [b st] Hk (Lb & Es & Hb). cbn [fst snd] in *. rewrite wr_ok by lia. cbn [bind]. eexists. split; [reflexivity|].
    cbn [fst snd]. replace (Z.to_nat (k + 1)) with (S (Z.to_nat k)) by lia. split; [now rewrite set_nth_length|].
    split. { rewrite Es, lcg_next_eq by now apply lcg_state_range. reflexivity. }
    intros i Hi. destruct (Nat.eq_dec i (Z.to_nat k)) as [->|N].
    + rewrite nth_set_nth_same by lia. now rewrite Es.
    + rewrite nth_set_nth_other by lia. apply Hb. lia.
  - cbn [fst snd]. split; [exact L|]. split; [reflexivity|]. intros i Hi. lia.
  - rewrite Hr. cbn [bind fst snd] in *. rewrite Nat2Z.id in *. rewrite Es. do 2 f_equal.
    apply list_eq_nth; [now rewrite map_length, seq_length|]. intros i Hi. rewrite Lb in Hi. rewrite Hb by exact Hi.
    rewrite nth_error_map, (nth_error_nth' (seq 0 n) 0%nat) by (rewrite seq_length; exact Hi).
    now rewrite seq_nth by exact Hi.
Qed.

(* one warm noise buffer *)
Lemma all_init_map : forall {A} (l : list A), all_init (map Some l) = Ok l.
Proof. induction l as [|x l IH]; [reflexivity|]. cbn. now rewrite IH. Qed.
Lemma noise_warm : forall s ov t, 0 <= s < 53125 -> length ov = 96%nat ->
  mbe_generate_noise_with_overlap (f_of_Z s) ov t =
  Ok (ov ++ map (fun i => f_of_Z (lcg_state s i)) (seq 0 160), f_of_Z (lcg_state s 160),
      map (fun i => f_of_Z (lcg_state s (64 + i))) (seq 0 96), t).
Proof.
  intros s ov t Hs Lo. unfold mbe_generate_noise_with_overlap. rewrite of_Z_nonneg by exact Hs.
  set (tail := map (fun i => f_of_Z (lcg_state s i)) (seq 0 160)).
  assert (Lt : length tail = 160%nat) by (unfold tail; now rewrite map_length, seq_length).
  assert (Nt : forall i, (i < 160)%nat -> nth_error tail i = Some (f_of_Z (lcg_state s i))).
  { intros i Hi. unfold tail. rewrite nth_error_map, (nth_error_nth' (seq 0 160) 0%nat) by (rewrite seq_length; exact Hi).
    now rewrite seq_nth by exact Hi. }
  destruct (for_up_ok (fun k (b : list (option f32)) => length b = 256%nat /\
     forall i, (i < Z.to_nat k)%nat -> nth_error b i = option_map Some (nth_error ov i))
     (fun i b => x <- rd ov i ;; wr b i (Some x)) 0 96 (fresh 256)) as (b1 & Hb1 & L1 & N1).
  - lia.
  - intros k b Hk [Lb Nb]. destruct (rd_ok ov k) as [x Hx]; [lia|]. rewrite Hx. cbn [bind]. rewrite wr_ok by lia.
    eexists. split; [reflexivity|]. split; [now rewrite set_nth_length|]. intros i Hi.
    replace (Z.to_nat (k + 1)) with (S (Z.to_nat k)) in Hi by lia. apply rd_inv in Hx as [_ Hx].
    destruct (Nat.eq_dec i (Z.to_nat k)) as [->|N].
    + rewrite nth_set_nth_same by lia. now rewrite Hx.
    + rewrite nth_set_nth_other by lia. apply Nb. lia.
  - split; [reflexivity|]. intros i Hi. lia.
  - rewrite Hb1. cbn [bind]. rewrite u32_of_Z by exact Hs. cbn [bind]. rewrite Z.mod_small by exact Hs.
    change (Z.to_nat 96) with 96%nat in N1.
    destruct (for_up_ok (fun k (r : list (option f32) * Z) => length (fst r) = 256%nat /\ snd r = lcg_state s (Z.to_nat (k - 96)) /\
       (forall i, (i < 96)%nat -> nth_error (fst r) i = option_map Some (nth_error ov i)) /\
       forall i, (i < Z.to_nat (k - 96))%nat -> nth_error (fst r) (96 + i) = Some (Some (f_of_Z (lcg_state s i))))
       (fun i '(b, st) => b <- wr b i (Some (f_of_Z st)) ;; Ok (b, lcg_next st)) 96 256 (b1, s)) as ([b2 st] & Hb2 & L2 & Es & N2 & M2).
    + lia.
    + intros k [b st] Hk (Lb & Es & Nb & Mb). cbn [fst snd] in *. rewrite wr_ok by lia. cbn [bind]. eexists. split; [reflexivity|].
      cbn [fst snd]. replace (Z.to_nat (k + 1 - 96)) with (S (Z.to_nat (k - 96))) by lia. split; [now rewrite set_nth_length|].
      split. { rewrite Es, lcg_next_eq by now apply lcg_state_range. reflexivity. }
      split. { intros i Hi. rewrite nth_set_nth_other by lia. now apply Nb. }
      intros i Hi. destruct (Nat.eq_dec i (Z.to_nat (k - 96))) as [->|N].
      * replace (96 + Z.to_nat (k - 96))%nat with (Z.to_nat k) by lia. rewrite nth_set_nth_same by lia. now rewrite Es.
      * rewrite nth_set_nth_other by lia. apply Mb. lia.
    + cbn [fst snd]. split; [exact L1|]. split; [reflexivity|]. split; [exact N1|]. intros i Hi. lia.
    + rewrite Hb2. cbn [bind fst snd] in *. change (Z.to_nat (256 - 96)) with 160%nat in *.
      assert (E2 : b2 = map Some (ov ++ tail)).
      { apply list_eq_nth; [rewrite map_length, app_length; lia|]. intros i Hi. rewrite nth_error_map.
        destruct (Nat.lt_ge_cases i 96) as [K|K].
        - rewrite N2 by exact K. rewrite nth_error_app1 by lia. reflexivity.
        - rewrite nth_error_app2 by lia. rewrite Lo, Nt by lia. replace i with (96 + (i - 96))%nat at 1 by lia.
          rewrite M2 by lia. reflexivity. }
      rewrite E2, all_init_map. cbn [bind].
      destruct (for_up_ok (fun k (o : list f32) => length o = 96%nat /\
         forall i, (i < Z.to_nat k)%nat -> nth_error o i = Some (f_of_Z (lcg_state s (64 + i))))
         (fun i o => x <- rd (ov ++ tail) (i + 160) ;; wr o i x) 0 96 ov) as (o & Ho & Lo' & No).
      * lia.
      * intros k o Hk [Lo' No]. rewrite (rd_some (ov ++ tail) (k + 160) (f_of_Z (lcg_state s (64 + Z.to_nat k)))).
        2: lia.
        2:{ rewrite nth_error_app2 by lia. rewrite Lo, Nt by lia. do 3 f_equal. lia. }
        cbn [bind]. rewrite wr_ok by lia. eexists. split; [reflexivity|]. split; [now rewrite set_nth_length|]. intros i Hi.
        replace (Z.to_nat (k + 1)) with (S (Z.to_nat k)) in Hi by lia. destruct (Nat.eq_dec i (Z.to_nat k)) as [->|N].
        -- rewrite nth_set_nth_same by lia. reflexivity.
        -- rewrite nth_set_nth_other by lia. apply No. lia.
      * split; [exact Lo|]. intros i Hi. lia.
      * rewrite Ho. cbn [bind]. rewrite Es. do 2 f_equal. f_equal. change (Z.to_nat 96) with 96%nat in No.
        apply list_eq_nth; [now rewrite map_length, seq_length|]. intros i Hi. rewrite Lo' in Hi. rewrite No by exact Hi.
        rewrite nth_error_map, (nth_error_nth' (seq 0 96) 0%nat) by (rewrite seq_length; exact Hi).
        now rewrite seq_nth by exact Hi.
Qed.
Lemma nth_seq_map : forall {A} (f : nat -> A) n i, (i < n)%nat -> nth_error (map f (seq 0 n)) i = Some (f i).
Proof.
  intros A f n i Hi. rewrite nth_error_map, (nth_error_nth' (seq 0 n) 0%nat) by (rewrite seq_length; exact Hi).
  now rewrite seq_nth by exact Hi.
Qed.
Lemma noise_at_nat : forall s k, noise_at s (Z.of_nat k) = f_of_Z (lcg_state s k).
Proof. intros s k. unfold noise_at. destruct (Z.ltb_spec (Z.of_nat k) 0); [lia|]. now rewrite Nat2Z.id. Qed.
Lemma lcg_state_add : forall s n k, lcg_state (lcg_state s k) n = lcg_state s (n + k).
Proof. intros. unfold lcg_state. symmetry. apply iter_add. Qed.
Lemma noise_buffers_gen : forall n s k t, 0 <= s < 53125 ->
  exists f ov, noise_buffers n (f_of_Z (lcg_state s (160 * k))) (map (fun i => noise_at s (160 * Z.of_nat k + Z.of_nat i - 96)) (seq 0 96)) t =
  Ok (map (noise_buffer s) (seq (S k) n), f, ov, t).
Proof.
  induction n as [|n IH]; intros s k t Hs; [eexists; eexists; reflexivity|]. cbn [noise_buffers].
  rewrite noise_warm; [|now apply lcg_state_range|now rewrite map_length, seq_length]. cbn [bind].
  rewrite lcg_state_add. replace (160 + 160 * k)%nat with (160 * S k)%nat by lia.
  assert (E : map (fun i => f_of_Z (lcg_state (lcg_state s (160 * k)) (64 + i))) (seq 0 96) =
              map (fun i => noise_at s (160 * Z.of_nat (S k) + Z.of_nat i - 96)) (seq 0 96)).
  { apply map_ext. intros i. rewrite lcg_state_add. rewrite <- noise_at_nat. f_equal. lia. }
  rewrite E. destruct (IH s (S k) t Hs) as (f & ov & R). rewrite R. cbn [bind]. exists f, ov. do 4 f_equal.
  change (seq (S k) (S n)) with (S k :: seq (S (S k)) n). cbn [map]. f_equal.
  apply list_eq_nth.
  - unfold noise_buffer. now rewrite app_length, !map_length, !seq_length.
  - intros i Hi. rewrite app_length, !map_length, !seq_length in Hi. unfold noise_buffer. rewrite nth_seq_map by exact Hi.
    destruct (Nat.lt_ge_cases i 96) as [K|K].
    + rewrite nth_error_app1 by (now rewrite map_length, seq_length). rewrite nth_seq_map by exact K. do 2 f_equal. lia.
    + rewrite nth_error_app2 by (now rewrite map_length, seq_length). rewrite map_length, seq_length, nth_seq_map by lia.
      rewrite lcg_state_add, <- noise_at_nat. do 2 f_equal. lia.
Qed.
Lemma zeros_at : forall s n c, c + Z.of_nat n <= 0 -> map (fun i => noise_at s (c + Z.of_nat i)) (seq 0 n) = repeat (S754_zero false) n.
Proof.
  intros s n c H. apply list_eq_nth; [now rewrite map_length, seq_length, repeat_length|]. intros i Hi.
  rewrite map_length, seq_length in Hi. rewrite nth_seq_map by exact Hi. rewrite nth_error_repeat by exact Hi.
  unfold noise_at. destruct (Z.ltb_spec (c + Z.of_nat i) 0); [reflexivity|lia].
Qed.
Lemma noise_cold : forall seed ov t, cold seed = true ->
  mbe_generate_noise_with_overlap seed ov t = Ok (repeat (S754_zero false) 256, f_of_Z (cold_seed t), repeat (S754_zero false) 96,
    mktls (t_rng t) (t_seed48 t) (t_seeded t) (t_rm0 t) (t_rm0_valid t) (t_rm0_owner t) (t_uv_seed t) false).
Proof.
  intros seed ov t H. unfold mbe_generate_noise_with_overlap. unfold cold in H. change fzero with (S754_zero false).
  rewrite H. unfold cold_seed. destruct (t_uv_override t) eqn:E; [reflexivity|]. change LCG_DEFAULT_SEED with (f_of_Z 3147).
  destruct t. cbn in *. now subst.
Qed.
Lemma noise_stream : forall n seed ov t, cold seed = true -> 0 <= cold_seed t < 53125 ->
  exists f ov' t', noise_buffers (S n) seed ov t = Ok (map (noise_buffer (cold_seed t)) (seq 0 (S n)), f, ov', t').
Proof.
  intros n seed ov t Hc Hr. cbn [noise_buffers]. rewrite noise_cold by exact Hc. cbn [bind].
  set (t1 := mktls _ _ _ _ _ _ _ _). set (s := cold_seed t) in *.
  destruct (noise_buffers_gen n s 0 t1 Hr) as (f & ov' & R). change (lcg_state s (160 * 0)) with s in R.
  assert (E : map (fun i => noise_at s (160 * Z.of_nat 0 + Z.of_nat i - 96)) (seq 0 96) = repeat (S754_zero false) 96).
  { rewrite <- (zeros_at s 96 (-96)) by lia. apply map_ext. intros i. f_equal. lia. }
  rewrite E in R. rewrite R. cbn [bind]. exists f, ov', t1.
  change (seq 0 (S n)) with (0%nat :: seq 1 n). cbn [map].
  assert (E0 : noise_buffer s 0 = repeat (S754_zero false) 256).
  { rewrite <- (zeros_at s 256 (-256)) by lia. unfold noise_buffer. apply map_ext. intros i. f_equal. lia. }
  rewrite E0. reflexivity.
Qed.
Lemma buffer_overlap : forall s k, skipn 160 (noise_buffer s k) = firstn 96 (noise_buffer s (S k)).
Proof.
  intros s k. apply list_eq_nth.
  - rewrite skipn_length, firstn_length. unfold noise_buffer. now rewrite !map_length, !seq_length.
  - intros i Hi. rewrite skipn_length in Hi. unfold noise_buffer in *. rewrite map_length, seq_length in Hi.
    assert (F : forall l : list f32, nth_error (firstn 96 l) i = nth_error l i).
    { intros l. rewrite <- (firstn_skipn 96 l) at 2. destruct (Nat.lt_ge_cases i (length (firstn 96 l))) as [K|K].
      - now rewrite nth_error_app1.
      - rewrite nth_error_app2 by exact K. rewrite firstn_length in K. rewrite firstn_length.
        assert (K2 : (length l <= i)%nat) by lia. rewrite (proj2 (nth_error_None (firstn 96 l) i)) by (rewrite firstn_length; lia).
        symmetry. apply nth_error_None. rewrite skipn_length. lia. }
    rewrite F, nth_seq_map by lia.
    assert (G : forall l : list f32, nth_error (skipn 160 l) i = nth_error l (160 + i)).
    { intros l. clear. generalize 160%nat. intros n. revert l. induction n as [|n IH]; intros l; [reflexivity|].
      destruct l as [|x l]; [now destruct i|]. cbn. apply IH. }
    rewrite G, nth_seq_map by lia. do 2 f_equal. lia.
Qed.
Lemma noise_at_int : forall s j, 0 <= s < 53125 -> exists z, 0 <= z < 53125 /\ noise_at s j = f_of_Z z /\ sf_trunc (f_of_Z z) = Some z.
Proof.
  intros s j Hs. unfold noise_at. destruct (j <? 0).
  - exists 0. split; [lia|]. split; reflexivity.
  - exists (lcg_state s (Z.to_nat j)). pose proof (lcg_state_range s (Z.to_nat j) Hs) as R. split; [exact R|]. split; [reflexivity|].
    apply trunc_of_Z. lia.
Qed.

(* ---- seeds used by cold starts ---- *)
Definition override_of (t : tls) : option Z := if t_uv_override t then Some (t_uv_seed t) else None.
Lemma noise_warm_tls : forall seed ov t b s o t', cold seed = false -> mbe_generate_noise_with_overlap seed ov t = Ok (b, s, o, t') -> t' = t.
Proof.
  intros seed ov t b s o t' Hc H. unfold mbe_generate_noise_with_overlap in H. unfold cold in Hc. change fzero with (S754_zero false) in H.
  rewrite Hc in H. apply bind_inv in H as (b1 & _ & H). apply bind_inv in H as (x & _ & H). apply bind_inv in H as ([b2 st] & _ & H).
  apply bind_inv in H as (b3 & _ & H). apply bind_inv in H as (o1 & _ & H). now injection H.
Qed.
Lemma comfort_override : forall buf t b t', mbe_synthesizeComfortNoisef buf t = Ok (b, t') -> override_of t' = override_of t.
Proof.
  intros buf t b t' H. unfold mbe_synthesizeComfortNoisef in H.
  refine (for_up_inv0 (fun r : list f32 * tls => override_of (snd r) = override_of t) _ 0 160 (buf, t) (b, t') _ _ H); [|reflexivity].
  intros i [x u] [y v] _ Hu K. rewrite java_draw in K. apply bind_inv in K as (z & _ & K). injection K as <- <-. exact Hu.
Qed.
Lemma run_events_seeds : forall es t l t', run_events es t = Ok (l, t') -> l = cold_seeds (override_of t) es.
Proof.
  induction es as [|e es IH]; intros t l t' H; [now injection H|]. destruct e as [seed ov|buf|a x]; cbn [run_events cold_seeds] in *.
  - apply bind_inv in H as ([[[b s] o] t1] & Hn & H). apply bind_inv in H as ([l1 t2] & Hr & H). injection H as <- <-.
    specialize (IH _ _ _ Hr). destruct (cold seed) eqn:E.
    + rewrite noise_cold in Hn by exact E. injection Hn as <- <- <- <-. cbn [app]. f_equal; [|exact IH].
      unfold cold_seed, override_of. now destruct (t_uv_override t).
    + apply noise_warm_tls in Hn; [|exact E]. subst t1. exact IH.
  - apply bind_inv in H as ([b t1] & Hn & H). apply comfort_override in Hn. rewrite <- Hn. now apply (IH _ _ _ H).
  - replace (override_of t) with (override_of (mbe_setPreEnhRm0 a x t)) by (unfold mbe_setPreEnhRm0; now destruct (fge x fzero)). now apply (IH _ _ _ H).
Qed.
Lemma seed_override : forall s t, override_of (mbe_setThreadRngSeed s t) = Some (effective_seed s mod 53125).
Proof.
  intros s t. unfold mbe_setThreadRngSeed, mbe_seedUnvoicedNoiseLcg, mbe_seedComfortNoiseRng, override_of, effective_seed, DEFAULT_SEED.
  cbn [t_uv_override t_uv_seed]. destruct (s =? 0) eqn:E; [reflexivity|]. now rewrite E.
Qed.
Lemma run_events_ok : forall es t, Forall (fun e => match e with
    | Noise seed ov => cold seed = true \/ (exists z, 0 <= z < 53125 /\ seed = f_of_Z z) /\ length ov = 96%nat
    | Comfort b => length b = 160%nat | Handoff _ _ => True end) es -> exists l t', run_events es t = Ok (l, t').
Proof.
  induction es as [|e es IH]; intros t HF; [eexists; eexists; reflexivity|]. inversion HF as [|x xs He HF']; subst.
  destruct e as [seed ov|buf|a x]; cbn [run_events].
  - destruct He as [Hc|[(z & Hz & ->) Lo]].
    + rewrite noise_cold by exact Hc. cbn [bind]. edestruct (IH) as (l & t' & R); [exact HF'|]. rewrite R. cbn [bind]. eauto.
    + rewrite noise_warm by assumption. cbn [bind]. destruct (IH t HF') as (l & t' & R). rewrite R. cbn [bind]. eauto.
  - rewrite comfort_frame by exact He. cbn [bind]. apply IH. exact HF'.
  - apply IH. exact HF'.
Qed.
