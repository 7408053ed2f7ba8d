(* Tone synthesis: identifiers, frequencies, oscillator phases. *)
From Coq Require Import ZArith List Bool Lia.
From Verif Require Import Res F32 MFrame MParms MAdaptive MUnvoiced MSynth MImbe MAmbe SpecEcc SpecFrame SpecAmbe SpecTone
  PBase PEcc PRun PLoop PState PConv PArr PAmbeDec.
Import ListNotations.
Local Open Scope Z_scope.

Lemma u32_i32 : forall x, 0 <= x < 2 ^ 32 -> to_u32 (to_i32 x) = x.
Proof.
  intros x H. unfold to_u32, to_i32. change (2 ^ 32) with 4294967296 in H.
  rewrite <- (Zminus_mod_idemp_l). destruct (Z_lt_ge_dec x 2147483648).
  - rewrite (Z.mod_small (x + 2147483648)) by lia. rewrite Z.mod_small with (a := x + 2147483648) by lia. replace (x + 2147483648 - 2147483648) with x by lia. apply Z.mod_small. lia.
  - replace (x + 2147483648) with ((x - 2147483648) + 1 * 4294967296) by lia. rewrite Z_mod_plus_full, Z.mod_mod, (Z.mod_small (x - 2147483648)) by lia.
    replace (x - 2147483648 - 2147483648) with (x + (-1) * 4294967296) by lia. rewrite Z_mod_plus_full. apply Z.mod_small. lia.
Qed.
(* rendering, for any pair of frequencies with known steps *)
Definition pair_sample (o : oracle) (dual : bool) (gain : f32) (s1 s2 p1 p2 k : Z) : f32 :=
  if dual then fadd (fmul (fmul fhalf gain) (mbe_toneSampleFromPhase o (osc_phase p1 s1 k))) (fmul (fmul fhalf gain) (mbe_toneSampleFromPhase o (osc_phase p2 s2 k)))
  else fmul gain (mbe_toneSampleFromPhase o (osc_phase p1 s1 k)).
Lemma render_ok : forall o buf cur f1 f2 ad s1 s2, length buf = 160%nat -> fle f1 fzero = false -> mbe_tonePhaseStep (f2d f1) = Ok s1 ->
  (if is_dual f1 f2 then mbe_tonePhaseStep (f2d f2) else Ok 0) = Ok s2 ->
  mbe_renderTonef o buf cur f1 f2 ad =
  Ok (map (fun i => pair_sample o (is_dual f1 f2) (tone_gain ad) s1 s2 (to_u32 (p_swn cur)) (to_u32 (p_un cur)) (Z.of_nat i)) (seq 0 160),
      set_un (stored_phase (to_u32 (p_un cur)) s2 160) (set_swn (stored_phase (to_u32 (p_swn cur)) s1 160) cur)).
Proof.
  intros o buf cur f1 f2 ad s1 s2 L F1 E1 E2. unfold mbe_renderTonef. rewrite F1, E1. cbv zeta. cbn [bind].
  set (dual := is_dual f1 f2) in *. rewrite E2. cbn [bind]. set (p1 := to_u32 (p_swn cur)). set (p2 := to_u32 (p_un cur)).
  assert (S2 : dual = false -> s2 = 0) by (intros D; rewrite D in E2; congruence).
  set (g := fun i : nat => pair_sample o dual (tone_gain ad) s1 s2 p1 p2 (Z.of_nat i)).
  match goal with |- context [for_up 0 160 ?b ?s0] =>
    destruct (for_up_ok (fun k (r : list f32 * Z * Z) => length (fst (fst r)) = 160%nat /\ snd (fst r) = (p1 + s1 * k) mod 2 ^ 32 /\ snd r = (p2 + s2 * k) mod 2 ^ 32 /\
      forall i, (i < Z.to_nat k)%nat -> nth_error (fst (fst r)) i = Some (g i)) b 0 160 s0) as ([[a q1] q2] & -> & La & H1 & H2 & Ha) end; [lia| | |].
  - intros k [[a q1] q2] Hk (La & H1 & H2 & Ha). cbn [fst snd] in *. subst q1 q2.
    assert (N1 : to_u32 ((p1 + s1 * k) mod 2 ^ 32 + s1) = (p1 + s1 * (k + 1)) mod 2 ^ 32) by (unfold to_u32; change 4294967296 with (2 ^ 32); rewrite Zplus_mod_idemp_l; f_equal; lia).
    assert (N2 : to_u32 ((p2 + s2 * k) mod 2 ^ 32 + s2) = (p2 + s2 * (k + 1)) mod 2 ^ 32) by (unfold to_u32; change 4294967296 with (2 ^ 32); rewrite Zplus_mod_idemp_l; f_equal; lia).
    rewrite N1.
    assert (W : forall v, wr a k v = Ok (set_nth (Z.to_nat k) v a)) by (intros v; apply wr_ok; lia).
    assert (Hz : forall v i, v = g (Z.to_nat k) -> (i < Z.to_nat (k + 1))%nat -> nth_error (set_nth (Z.to_nat k) v a) i = Some (g i)).
    { intros v i -> Hi. destruct (Nat.eq_dec i (Z.to_nat k)) as [->|N]; [rewrite nth_set_nth_same by lia; reflexivity|]. rewrite nth_set_nth_other by lia. apply Ha. lia. }
    assert (G : g (Z.to_nat k) = pair_sample o dual (tone_gain ad) s1 s2 p1 p2 k) by (unfold g; rewrite Z2Nat.id by lia; reflexivity).
    destruct dual eqn:D.
    + rewrite N2, W. cbn [bind]. eexists. split; [reflexivity|]. cbn [fst snd]. rewrite set_nth_length. split; [exact La|]. split; [reflexivity|]. split; [reflexivity|].
      intros i Hi. apply Hz; [rewrite G; reflexivity|exact Hi].
    + rewrite W. cbn [bind]. eexists. split; [reflexivity|]. cbn [fst snd]. rewrite set_nth_length. split; [exact La|]. split; [reflexivity|]. 
      split; [rewrite (S2 eq_refl); f_equal; lia|]. intros i Hi. apply Hz; [rewrite G; reflexivity|exact Hi].
  - cbn [fst snd]. split; [exact L|]. rewrite !Z.mul_0_r, !Z.add_0_r. unfold p1, p2, to_u32. change (2 ^ 32) with 4294967296. rewrite !Z.mod_mod by lia.
    split; [reflexivity|]. split; [reflexivity|]. intros i Hi. lia.
  - cbn [bind fst snd] in *. subst q1 q2. f_equal. f_equal.
    apply list_eq_nth; [rewrite map_length, seq_length; exact La|]. intros i Hi. rewrite Ha by lia.
    rewrite nth_error_map, (nth_error_nth' (seq 0 160) 0%nat) by (rewrite seq_length; lia). rewrite seq_nth by lia. reflexivity.
Qed.

(* ---- the identifiers ---- *)
Definition entry_ok (id : Z) : bool :=
  match tone_hz id, mbe_lookupToneFreqs id with
  | None, None => negb ((id =? 5) || (id =? 6) || ((7 <=? id) && (id <=? 122)) || ((128 <=? id) && (id <=? 163)))
  | Some (h1, h2), Some (f1, f2) =>
      ((id =? 5) || (id =? 6) || ((7 <=? id) && (id <=? 122)) || ((128 <=? id) && (id <=? 163))) &&
      negb (fle f1 fzero) && Bool.eqb (is_dual f1 f2) (negb (h2 =? 0)) && Z.eqb (phase_step 0) 0 &&
      (match mbe_tonePhaseStep (f2d f1) with Ok s => s =? phase_step h1 | UB _ => false end) &&
      (match (if is_dual f1 f2 then mbe_tonePhaseStep (f2d f2) else Ok 0) with Ok s => s =? phase_step h2 | UB _ => false end)
  | _, _ => false
  end.
Lemma entries_ok : forallb entry_ok (zrange 256) = true.
Proof. vm_compute. reflexivity. Qed.
Lemma entry : forall id, 0 <= id < 256 ->
  match tone_hz id with
  | None => mbe_lookupToneFreqs id = None /\ ((id =? 5) || (id =? 6) || ((7 <=? id) && (id <=? 122)) || ((128 <=? id) && (id <=? 163))) = false
  | Some (h1, h2) => ((id =? 5) || (id =? 6) || ((7 <=? id) && (id <=? 122)) || ((128 <=? id) && (id <=? 163))) = true /\
      exists f1 f2, mbe_lookupToneFreqs id = Some (f1, f2) /\ fle f1 fzero = false /\ is_dual f1 f2 = negb (h2 =? 0) /\ mbe_tonePhaseStep (f2d f1) = Ok (phase_step h1) /\
      (if is_dual f1 f2 then mbe_tonePhaseStep (f2d f2) else Ok 0) = Ok (phase_step h2)
  end.
Proof.
  intros id H. pose proof (zrange_forallb 256 _ entries_ok id ltac:(lia)) as Q. unfold entry_ok in Q.
  destruct (tone_hz id) as [[h1 h2]|], (mbe_lookupToneFreqs id) as [[f1 f2]|]; try discriminate.
  - apply andb_true_iff in Q as [Q Q5]. apply andb_true_iff in Q as [Q Q4]. apply andb_true_iff in Q as [Q _]. apply andb_true_iff in Q as [Q Q3]. apply andb_true_iff in Q as [Q1 Q2].
    split; [exact Q1|]. exists f1, f2. split; [reflexivity|]. split; [now apply negb_true_iff in Q2|]. split; [now apply eqb_prop|]. split.
    + destruct (mbe_tonePhaseStep (f2d f1)); [|discriminate]. apply Z.eqb_eq in Q4. now subst.
    + destruct (if is_dual f1 f2 then _ else _); [|discriminate]. apply Z.eqb_eq in Q5. now subst.
  - split; [reflexivity|]. now apply negb_true_iff in Q.
Qed.
Lemma wave_eq : forall o ph, mbe_toneSampleFromPhase o ph = osc_wave o ph.
Proof.
  intros o ph. unfold mbe_toneSampleFromPhase, osc_wave. replace TONE_RAD_PER_TICK with (ddiv (dmul (d_of_Z 2) M_PI) (d_of_Z 4294967296)) by (vm_compute; reflexivity).
  replace HALF_PI_D with (ddiv M_PI (d_of_Z 2)) by (vm_compute; reflexivity). reflexivity.
Qed.
Lemma gain_eq : forall ad, 0 <= ad -> tone_gain ad = amp_gain ad.
Proof.
  intros ad H. unfold tone_gain, amp_gain. destruct (Z.ltb_spec ad 0); [lia|]. replace SOFT_CLIP with (fdiv (fmul (f_of_Z 32767) (flit 95 100)) (f_of_Z 7)) by (vm_compute; reflexivity). reflexivity.
Qed.
Lemma pair_eq : forall o h1 h2 ad p1 p2 k, 0 <= ad -> pair_sample o (negb (h2 =? 0)) (tone_gain ad) (phase_step h1) (phase_step h2) p1 p2 k = tone_sample o (h1, h2) ad p1 p2 k.
Proof.
  intros o h1 h2 ad p1 p2 k H. unfold pair_sample, tone_sample. cbn [fst snd]. cbv zeta. rewrite !wave_eq, gain_eq by exact H. replace fhalf with (fdiv (f_of_Z 1) (f_of_Z 2)) by (vm_compute; reflexivity).
  destruct (h2 =? 0); reflexivity.
Qed.
(* ---- the fields of a tone vector ---- *)
Lemma field_range : forall d lo n, is_bits 49 d -> (lo + n <= 49)%nat -> 0 <= num (slice lo n d) < 2 ^ Z.of_nat n.
Proof. intros d lo n Hd H. apply num_range. now apply (slice_bits 49). Qed.
Lemma tone_id_range : forall d, is_bits 49 d -> 0 <= tone_id d < 256.
Proof. intros d Hd. exact (field_range d 12 8 Hd ltac:(lia)). Qed.
Lemma nth_bit : forall d i, is_bits 49 d -> (i < 49)%nat -> num (slice i 1 d) = nth i d 0.
Proof.
  intros d i [L _] Hi. replace (slice i 1 d) with [nth i d 0]; [apply num_single|]. symmetry.
  rewrite slice_snoc by lia. cbn [app]. rewrite Nat.add_0_r. reflexivity.
Qed.
Lemma tone_amp_range : forall d, is_bits 49 d -> 0 <= tone_amp d <= 127.
Proof.
  intros d Hd. unfold tone_amp. pose proof (field_range d 6 6 Hd ltac:(lia)) as R. unfold num in R. change (2 ^ Z.of_nat 6) with 64 in R.
  pose proof (field_range d 44 1 Hd ltac:(lia)) as R1. rewrite nth_bit in R1 by (exact Hd || lia). change (2 ^ Z.of_nat 1) with 2 in R1. lia.
Qed.
Lemma valid_id_ok : forall d, is_bits 49 d -> ambe2450_is_valid_tone_id d =
  Ok ((tone_id d =? 5) || (tone_id d =? 6) || ((7 <=? tone_id d) && (tone_id d <=? 122)) || ((128 <=? tone_id d) && (tone_id d <=? 163))).
Proof.
  intros d Hd. unfold ambe2450_is_valid_tone_id. change 12 with (Z.of_nat 12) at 1. change 20 with (Z.of_nat (12 + 8)) at 1. rewrite (load_field_ok 49) by (exact Hd || lia). reflexivity.
Qed.
Lemma fields_ok : forall d, is_bits 49 d ->
  load_field d 0 12 = Ok (num (slice 0 12 d)) /\ load_field d 12 24 = Ok (num (slice 12 12 d)) /\ load_field d 24 35 = Ok (num (slice 24 11 d)) /\ load_field d 35 49 = Ok (num (slice 35 14 d)).
Proof.
  intros d Hd. split; [|split; [|split]].
  - exact (load_field_ok 49 d 0 12 Hd ltac:(lia) ltac:(lia)).
  - exact (load_field_ok 49 d 12 12 Hd ltac:(lia) ltac:(lia)).
  - exact (load_field_ok 49 d 24 11 Hd ltac:(lia) ltac:(lia)).
  - exact (load_field_ok 49 d 35 14 Hd ltac:(lia) ltac:(lia)).
Qed.
Lemma land_ones : forall x n m, 0 <= n -> m = 2 ^ n - 1 -> Z.land x m = x mod 2 ^ n.
Proof. intros x n m Hn ->. rewrite <- Z.land_ones by lia. f_equal. rewrite Z.ones_equiv. lia. Qed.
Lemma synth_fields : forall o buf d cur, o_tones o = true -> is_bits 49 d ->
  mbe_synthesizeTonef o buf d cur =
  match mbe_lookupToneFreqs (tone_id d) with
  | None => b <- mbe_synthesizeSilencef buf ;; Ok (b, cur)
  | Some (f1, f2) => mbe_renderTonef o buf cur f1 f2 (tone_amp d)
  end.
Proof.
  intros o buf d cur HT Hd. destruct (fields_ok d Hd) as (A & B & C & D). unfold mbe_synthesizeTonef. rewrite HT. cbn [negb]. rewrite A, B, C, D. cbn [bind]. cbv zeta.
  assert (E1 : Z.shiftr (Z.land (num (slice 12 12 d)) 4095) 4 = tone_id d).
  { rewrite (land_ones _ 12) by (lia || reflexivity). rewrite Z.mod_small by exact (field_range d 12 12 Hd ltac:(lia)).
    exact (num_slice_high d 12 8 4 Hd ltac:(lia)). }
  assert (E2 : Z.shiftl (Z.land (num (slice 0 12 d)) 63) 1 + Z.land (Z.shiftr (num (slice 35 14 d)) 4) 1 = tone_amp d).
  { rewrite (land_ones _ 6), (land_ones _ 1) by (lia || reflexivity). rewrite (num_slice_low d 0 6 6 Hd ltac:(lia) : num (slice 0 12 d) mod 2 ^ 6 = _).
    rewrite (num_slice_high d 35 10 4 Hd ltac:(lia) : Z.shiftr (num (slice 35 14 d)) 4 = _). rewrite (num_slice_low d 35 9 1 Hd ltac:(lia) : num (slice 35 10 d) mod 2 ^ 1 = _).
    rewrite Z.shiftl_mul_pow2 by lia. change (35 + 9)%nat with 44%nat. rewrite nth_bit by (exact Hd || lia). unfold tone_amp. fold (num (slice 6 6 d)). change (0 + 6)%nat with 6%nat. lia. }
  rewrite E1, E2. reflexivity.
Qed.
Lemma synth_ok : forall o buf d cur hz, o_tones o = true -> is_bits 49 d -> length buf = 160%nat -> tone_hz (tone_id d) = Some hz ->
  mbe_synthesizeTonef o buf d cur = Ok (tone_frame o hz (to_u32 (p_swn cur)) (to_u32 (p_un cur)) 0 (tone_amp d),
    set_un (stored_phase (to_u32 (p_un cur)) (phase_step (snd hz)) 160) (set_swn (stored_phase (to_u32 (p_swn cur)) (phase_step (fst hz)) 160) cur)).
Proof.
  intros o buf d cur [h1 h2] HT Hd LB H. rewrite synth_fields by assumption. pose proof (entry (tone_id d) (tone_id_range d Hd)) as Q. rewrite H in Q.
  destruct Q as (_ & f1 & f2 & -> & F1 & D & S1 & S2). rewrite (render_ok o buf cur f1 f2 (tone_amp d) _ _ LB F1 S1 S2). cbn [fst snd].
  match goal with |- Ok (?x, _) = Ok (?y, _) => assert (E : x = y) end; [|rewrite E; reflexivity].
  unfold tone_frame. apply map_ext. intros i. rewrite D. apply pair_eq. apply (tone_amp_range d Hd).
Qed.
Lemma dstar_entries : forallb (fun k => let id := k + 5 in match tone_hz id with Some (h1, h2) =>
  (h2 =? 0) && negb (fle (dstar_freq id) fzero) && negb (is_dual (dstar_freq id) (dstar_freq id)) && (match mbe_tonePhaseStep (f2d (dstar_freq id)) with Ok s => s =? phase_step h1 | UB _ => false end) | None => false end) (zrange 118) = true.
Proof. vm_compute. reflexivity. Qed.
Lemma dstar_ok : forall o buf cur id hz, o_tones o = true -> 5 <= id <= 122 -> length buf = 160%nat -> tone_hz id = Some hz ->
  mbe_synthesizeTonefdstar o buf cur id = Ok (tone_frame o hz (to_u32 (p_swn cur)) (to_u32 (p_un cur)) 0 103,
    set_un (stored_phase (to_u32 (p_un cur)) (phase_step (snd hz)) 160) (set_swn (stored_phase (to_u32 (p_swn cur)) (phase_step (fst hz)) 160) cur)).
Proof.
  intros o buf cur id [h1 h2] HT Hid LB H. pose proof (zrange_forallb 118 _ dstar_entries (id - 5) ltac:(lia)) as Q. cbv zeta beta in Q. replace (id - 5 + 5) with id in Q by lia. rewrite H in Q.
  apply andb_true_iff in Q as [Q Q4]. apply andb_true_iff in Q as [Q Q3]. apply andb_true_iff in Q as [Q1 Q2]. apply negb_true_iff in Q2, Q3. apply Z.eqb_eq in Q1. subst h2.
  unfold mbe_synthesizeTonefdstar. rewrite HT. cbn [negb]. cbv iota zeta. rewrite Q2. set (f := dstar_freq id) in *.
  assert (S1 : mbe_tonePhaseStep (f2d f) = Ok (phase_step h1)). { destruct (mbe_tonePhaseStep (f2d f)); [|discriminate]. apply Z.eqb_eq in Q4. now subst. }
  rewrite (render_ok o buf cur f f 103 (phase_step h1) 0 LB Q2 S1); [|rewrite Q3; reflexivity]. cbn [fst snd]. rewrite Q3.
  match goal with |- Ok (?x, _) = Ok (?y, _) => assert (E : x = y) end; [|rewrite E; reflexivity].
  unfold tone_frame. apply map_ext. intros i. apply (pair_eq o h1 0 103). lia.
Qed.

(* ---- a build without tones ---- *)
Lemma silence_ok : forall b, length b = 160%nat -> mbe_synthesizeSilencef b = Ok (repeat (S754_zero false) 160).
Proof.
  intros b L. unfold mbe_synthesizeSilencef. destruct (for_up_ok (fun k a => filled 160 k fzero a) (fun i a => wr a i fzero) 0 160 b) as (a & -> & F); [lia| |apply filled_zero; exact L|].
  - intros k a Hk H. apply filled_step; [exact H|lia].
  - f_equal. exact (filled_all 160 fzero a F).
Qed.
Lemma synth_off : forall o buf d cur, o_tones o = false -> length buf = 160%nat -> mbe_synthesizeTonef o buf d cur = Ok (repeat (S754_zero false) 160, cur).
Proof. intros o buf d cur H L. unfold mbe_synthesizeTonef. rewrite H. cbn [negb]. rewrite silence_ok by exact L. reflexivity. Qed.
Lemma dstar_off : forall o buf cur id, o_tones o = false -> length buf = 160%nat -> mbe_synthesizeTonefdstar o buf cur id = Ok (repeat (S754_zero false) 160, cur).
Proof. intros o buf cur id H L. unfold mbe_synthesizeTonefdstar. rewrite H. cbn [negb]. rewrite silence_ok by exact L. reflexivity. Qed.
Lemma synth_any : forall o buf d cur hz, is_bits 49 d -> length buf = 160%nat -> tone_hz (tone_id d) = Some hz ->
  mbe_synthesizeTonef o buf d cur = Ok (tone_heard o hz (tone_amp d) cur, tone_turned o hz cur cur).
Proof.
  intros o buf d cur hz Hd LB H. unfold tone_heard, tone_turned. destruct (o_tones o) eqn:E; [apply synth_ok|apply synth_off]; assumption.
Qed.
Lemma heard_length : forall o hz ad c, length (tone_heard o hz ad c) = 160%nat.
Proof. intros. unfold tone_heard, tone_frame. destruct (o_tones o); [rewrite map_length, seq_length|rewrite repeat_length]; reflexivity. Qed.
Lemma heard_phases : forall o hz ad c m, p_swn m = p_swn c -> p_un m = p_un c -> tone_heard o hz ad m = tone_heard o hz ad c.
Proof. intros o hz ad c m A B. unfold tone_heard. now rewrite A, B. Qed.
Lemma turned_phases : forall o hz c m x, p_swn m = p_swn c -> p_un m = p_un c -> tone_turned o hz m x = tone_turned o hz c x.
Proof. intros o hz c m x A B. unfold tone_turned. now rewrite A, B. Qed.

(* ---- many frames ---- *)
Lemma osc_shift : forall p s k i, osc_phase ((p + s * k) mod 2 ^ 32) s i = osc_phase p s (k + i).
Proof. intros p s k i. unfold osc_phase. rewrite Zplus_mod_idemp_l. f_equal. lia. Qed.
Lemma tone_frame_shift : forall o hz p1 p2 k ad,
  tone_frame o hz ((p1 + phase_step (fst hz) * (160 * Z.of_nat k)) mod 2 ^ 32) ((p2 + phase_step (snd hz) * (160 * Z.of_nat k)) mod 2 ^ 32) 0 ad = tone_frame o hz p1 p2 k ad.
Proof.
  intros o hz p1 p2 k ad. unfold tone_frame. apply map_ext. intros i. unfold tone_sample. rewrite !osc_shift.
  replace (Z.of_nat (160 * k + i)) with (160 * Z.of_nat k + Z.of_nat (160 * 0 + i)) by lia. reflexivity.
Qed.
Lemma stored_next : forall p s k, to_u32 (stored_phase ((p + s * (160 * Z.of_nat k)) mod 2 ^ 32) s 160) = (p + s * (160 * Z.of_nat (S k))) mod 2 ^ 32.
Proof. intros p s k. unfold stored_phase. rewrite Zplus_mod_idemp_l, u32_i32 by (apply Z.mod_pos_bound; reflexivity). f_equal. lia. Qed.
Definition tone_call (id : Z) (f : list Z * list f32) : Prop := is_bits 49 (fst f) /\ length (snd f) = 160%nat /\ tone_id (fst f) = id.
Lemma tone_frames_gen : forall o id hz p1 p2 fs cur k, o_tones o = true -> tone_hz id = Some hz -> Forall (tone_call id) fs ->
  to_u32 (p_swn cur) = (p1 + phase_step (fst hz) * (160 * Z.of_nat k)) mod 2 ^ 32 -> to_u32 (p_un cur) = (p2 + phase_step (snd hz) * (160 * Z.of_nat k)) mod 2 ^ 32 ->
  exists cur', tone_frames o fs cur = Ok (map (fun x => tone_frame o hz p1 p2 (fst x) (tone_amp (fst (snd x)))) (combine (seq k (length fs)) fs), cur') /\
    cur' = set_un (p_un cur') (set_swn (p_swn cur') cur) /\
    to_u32 (p_swn cur') = (p1 + phase_step (fst hz) * (160 * Z.of_nat (k + length fs))) mod 2 ^ 32 /\ to_u32 (p_un cur') = (p2 + phase_step (snd hz) * (160 * Z.of_nat (k + length fs))) mod 2 ^ 32.
Proof.
  intros o id hz p1 p2 fs. induction fs as [|[d buf] fs IH]; intros cur k HT HZ HF E1 E2.
  - exists cur. cbn [tone_frames length seq combine map]. rewrite Nat.add_0_r. split; [reflexivity|]. split; [now destruct cur|]. auto.
  - inversion HF as [|x xs (Hd & LB & HI) HF']; subst. cbn [fst snd] in *. cbn [tone_frames]. rewrite (synth_ok o buf d cur hz HT Hd LB HZ). cbn [bind].
    rewrite E1, E2, tone_frame_shift.
    edestruct (IH (set_un (stored_phase ((p2 + phase_step (snd hz) * (160 * Z.of_nat k)) mod 2 ^ 32) (phase_step (snd hz)) 160)
      (set_swn (stored_phase ((p1 + phase_step (fst hz) * (160 * Z.of_nat k)) mod 2 ^ 32) (phase_step (fst hz)) 160) cur)) (S k) HT HZ HF') as (cur' & -> & EC & Q1 & Q2).
    + cbn [p_swn set_un set_swn]. apply stored_next.
    + cbn [p_un set_un set_swn]. apply stored_next.
    + cbn [bind]. exists cur'. split; [reflexivity|]. split; [rewrite EC; reflexivity|]. replace (k + length ((d, buf) :: fs))%nat with (S k + length fs)%nat by (cbn [length]; lia). auto.
Qed.
Lemma tone_stream : forall o id hz fs cur, o_tones o = true -> tone_hz id = Some hz -> Forall (tone_call id) fs ->
  exists cur', tone_frames o fs cur = Ok (map (fun x => tone_frame o hz (to_u32 (p_swn cur)) (to_u32 (p_un cur)) (fst x) (tone_amp (fst (snd x)))) (combine (seq 0 (length fs)) fs), cur') /\
    cur' = set_un (p_un cur') (set_swn (p_swn cur') cur) /\
    to_u32 (p_swn cur') = (to_u32 (p_swn cur) + phase_step (fst hz) * (160 * Z.of_nat (length fs))) mod 2 ^ 32.
Proof.
  intros o id hz fs cur HT HZ HF. destruct (tone_frames_gen o id hz (to_u32 (p_swn cur)) (to_u32 (p_un cur)) fs cur 0 HT HZ HF) as (cur' & E & EC & Q1 & _).
  - change (160 * Z.of_nat 0) with 0; rewrite Z.mul_0_r, Z.add_0_r. unfold to_u32. change (2 ^ 32) with 4294967296. rewrite Z.mod_mod by lia. reflexivity.
  - change (160 * Z.of_nat 0) with 0; rewrite Z.mul_0_r, Z.add_0_r. unfold to_u32. change (2 ^ 32) with 4294967296. rewrite Z.mod_mod by lia. reflexivity.
  - exists cur'. split; [exact E|]. split; [exact EC|exact Q1].
Qed.
Lemma dstar_frames_gen : forall o id hz p1 p2 bufs cur k, o_tones o = true -> 5 <= id <= 122 -> tone_hz id = Some hz -> Forall (fun b => length b = 160%nat) bufs ->
  to_u32 (p_swn cur) = (p1 + phase_step (fst hz) * (160 * Z.of_nat k)) mod 2 ^ 32 -> to_u32 (p_un cur) = (p2 + phase_step (snd hz) * (160 * Z.of_nat k)) mod 2 ^ 32 ->
  exists cur', dstar_frames o id bufs cur = Ok (map (fun f => tone_frame o hz p1 p2 f 103) (seq k (length bufs)), cur') /\ cur' = set_un (p_un cur') (set_swn (p_swn cur') cur).
Proof.
  intros o id hz p1 p2 bufs. induction bufs as [|buf bufs IH]; intros cur k HT HI HZ HF E1 E2.
  - exists cur. cbn [dstar_frames length seq map]. split; [reflexivity|now destruct cur].
  - inversion HF as [|x xs LB HF']; subst. cbn [dstar_frames]. rewrite (dstar_ok o buf cur id hz HT HI LB HZ). cbn [bind].
    rewrite E1, E2, tone_frame_shift.
    edestruct (IH (set_un (stored_phase ((p2 + phase_step (snd hz) * (160 * Z.of_nat k)) mod 2 ^ 32) (phase_step (snd hz)) 160)
      (set_swn (stored_phase ((p1 + phase_step (fst hz) * (160 * Z.of_nat k)) mod 2 ^ 32) (phase_step (fst hz)) 160) cur)) (S k) HT HI HZ HF') as (cur' & -> & EC).
    + cbn [p_swn set_un set_swn]. apply stored_next.
    + cbn [p_un set_un set_swn]. apply stored_next.
    + cbn [bind]. exists cur'. split; [reflexivity|]. rewrite EC. reflexivity.
Qed.
Lemma dstar_stream : forall o id hz bufs cur, o_tones o = true -> 5 <= id <= 122 -> tone_hz id = Some hz -> Forall (fun b => length b = 160%nat) bufs ->
  exists cur', dstar_frames o id bufs cur = Ok (map (fun f => tone_frame o hz (to_u32 (p_swn cur)) (to_u32 (p_un cur)) f 103) (seq 0 (length bufs)), cur') /\
    cur' = set_un (p_un cur') (set_swn (p_swn cur') cur).
Proof.
  intros o id hz bufs cur HT HI HZ HF. apply (dstar_frames_gen o id hz _ _ bufs cur 0 HT HI HZ HF);
  change (160 * Z.of_nat 0) with 0; rewrite Z.mul_0_r, Z.add_0_r; unfold to_u32; change (2 ^ 32) with 4294967296; rewrite Z.mod_mod by lia; reflexivity.
Qed.
(* consecutive frames of one amplitude are consecutive samples *)
Lemma frames_concat : forall o hz p1 p2 ad n, concat (map (fun f => tone_frame o hz p1 p2 f ad) (seq 0 n)) = map (fun i => tone_sample o hz ad p1 p2 (Z.of_nat i)) (seq 0 (160 * n)).
Proof.
  intros o hz p1 p2 ad n. induction n as [|n IH]; [reflexivity|]. rewrite seq_S, map_app, concat_app, IH. cbn [map concat]. rewrite app_nil_r.
  replace (160 * S n)%nat with (160 * n + 160)%nat by lia. rewrite seq_app, map_app. f_equal. unfold tone_frame. cbn [plus].
  apply list_eq_nth; [rewrite !map_length, !seq_length; reflexivity|]. intros i Hi. rewrite map_length, seq_length in Hi.
  rewrite !nth_error_map, (nth_error_nth' (seq 0 160) 0%nat), (nth_error_nth' (seq (160 * n) 160) 0%nat) by (rewrite seq_length; lia).
  rewrite !seq_nth by lia. reflexivity.
Qed.
Lemma valid_id : forall d, is_bits 49 d -> exists b, ambe2450_is_valid_tone_id d = Ok b /\ (b = true <-> exists f1 f2, mbe_lookupToneFreqs (tone_id d) = Some (f1, f2)) /\ (b = true <-> exists hz, tone_hz (tone_id d) = Some hz).
Proof.
  intros d Hd. rewrite valid_id_ok by exact Hd. eexists. split; [reflexivity|]. pose proof (entry (tone_id d) (tone_id_range d Hd)) as Q.
  destruct (tone_hz (tone_id d)) as [[h1 h2]|].
  - destruct Q as (-> & f1 & f2 & -> & _). split; split; eauto.
  - destruct Q as (-> & ->). split; (split; [discriminate|]); intros H; [destruct H as (f1 & f2 & H)|destruct H as (hz & H)]; discriminate.
Qed.
Lemma dtmf : forall r c, (r < 4)%nat -> (c < 4)%nat -> mbe_lookupToneFreqs (key_id r c) = Some (f_of_Z (dtmf_col c), f_of_Z (dtmf_row r)).
Proof.
  intros r c Hr Hc. do 4 (destruct r as [|r]; [do 4 (destruct c as [|c]; [vm_compute; reflexivity|]); lia|]). lia.
Qed.
Lemma combine_same : forall (o : oracle) hz p1 p2 ad fs k, Forall (fun x : list Z * list f32 => tone_amp (fst x) = ad) fs ->
  map (fun x => tone_frame o hz p1 p2 (fst x) (tone_amp (fst (snd x)))) (combine (seq k (length fs)) fs) = map (fun f => tone_frame o hz p1 p2 f ad) (seq k (length fs)).
Proof. intros o hz p1 p2 ad fs. induction fs as [|x fs IH]; intros k H; [reflexivity|]. inversion H as [|? ? A B]; subst. cbn [length seq combine map fst snd]. f_equal. apply (IH (S k) B). Qed.
Lemma tone_samples : forall o id hz ad fs cur, o_tones o = true -> tone_hz id = Some hz -> Forall (tone_call id) fs -> Forall (fun x => tone_amp (fst x) = ad) fs ->
  exists bufs cur', tone_frames o fs cur = Ok (bufs, cur') /\
    concat bufs = map (fun i => tone_sample o hz ad (to_u32 (p_swn cur)) (to_u32 (p_un cur)) (Z.of_nat i)) (seq 0 (160 * length fs)).
Proof.
  intros o id hz ad fs cur HT HZ HF HA. destruct (tone_stream o id hz fs cur HT HZ HF) as (cur' & E & _). rewrite (combine_same o hz _ _ ad fs 0 HA) in E.
  eexists. exists cur'. split; [exact E|]. apply frames_concat.
Qed.
