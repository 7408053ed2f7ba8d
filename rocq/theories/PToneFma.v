(* Proofs about tones rendered with products that may be fused. *)
From Coq Require Import ZArith List Bool Lia Reals Lra.
From Verif Require Import Res F32 Build MFrame MParms MAdaptive MUnvoiced MSynth MFma MRate MToneFma SpecEcc SpecFrame SpecTone SpecTrig SpecNum SpecWave SpecState SpecToneFma
  PBase PEcc PRun PLoop PState PConv PArr PFloat PFloat2 PReal PNyq PGen PFftErr PTone PSpeech PWave PWave2 PFma PRate PAmbeDec.
From Flocq Require Import Core.Core IEEE754.BinarySingleNaN.
Import ListNotations.
Local Open Scope Z_scope.

(* ---- rendering, for any pair of frequencies with known steps ---- *)
Definition pair_sample_c (k0 : contraction) (b : Z) (o : oracle) (dual : bool) (gain : f32) (s1 s2 p1 p2 k : Z) : f32 :=
  if dual then mix_c k0 (b + k) (fmul fhalf gain) (mbe_toneSampleFromPhase_c (k0 32 (b + k)) o (osc_phase p1 s1 k)) (fmul fhalf gain) (mbe_toneSampleFromPhase_c (k0 33 (b + k)) o (osc_phase p2 s2 k))
  else fmul gain (mbe_toneSampleFromPhase_c (k0 32 (b + k)) o (osc_phase p1 s1 k)).
Lemma render_c_ok : forall k0 fi o buf cur f1 f2 ad s1 s2, length buf = 160%nat -> fle f1 fzero = false -> mbe_tonePhaseStep_c (k0 30 fi) (f2d f1) = Ok s1 ->
  (if is_dual f1 f2 then mbe_tonePhaseStep_c (k0 31 fi) (f2d f2) else Ok 0) = Ok s2 ->
  mbe_renderTonef_c k0 fi o buf cur f1 f2 ad =
  Ok (map (fun i => pair_sample_c k0 (160 * fi) o (is_dual f1 f2) (tone_gain ad) s1 s2 (to_u32 (p_swn cur)) (to_u32 (p_un cur)) (Z.of_nat i)) (seq 0 160),
      set_un (stored_phase (to_u32 (p_un cur)) s2 160) (set_swn (stored_phase (to_u32 (p_swn cur)) s1 160) cur)).
Proof.
  intros k0 fi o buf cur f1 f2 ad s1 s2 L F1 E1 E2. unfold mbe_renderTonef_c. rewrite F1, E1. cbv zeta. cbn [bind].
  set (dual := is_dual f1 f2) in *. rewrite E2. cbn [bind]. set (p1 := to_u32 (p_swn cur)). set (p2 := to_u32 (p_un cur)).
  assert (S2 : dual = false -> s2 = 0) by (intros D; rewrite D in E2; congruence).
  set (g := fun i : nat => pair_sample_c k0 (160 * fi) o dual (tone_gain ad) s1 s2 p1 p2 (Z.of_nat i)).
  match goal with |- context [for_up 0 160 ?b ?s0] =>
    destruct (for_up_ok (fun k (r : list f32 * Z * Z) => length (fst (fst r)) = 160%nat /\ snd (fst r) = (p1 + s1 * k) mod 2 ^ 32 /\ snd r = (p2 + s2 * k) mod 2 ^ 32 /\
      forall i, (i < Z.to_nat k)%nat -> nth_error (fst (fst r)) i = Some (g i)) b 0 160 s0) as ([[a q1] q2] & -> & La & H1 & H2 & Ha) end; [lia| | |].
  - intros k [[a q1] q2] Hk (La & H1 & H2 & Ha). cbn [fst snd] in *. subst q1 q2.
    assert (N1 : to_u32 ((p1 + s1 * k) mod 2 ^ 32 + s1) = (p1 + s1 * (k + 1)) mod 2 ^ 32) by (unfold to_u32; change 4294967296 with (2 ^ 32); rewrite Zplus_mod_idemp_l; f_equal; lia).
    assert (N2 : to_u32 ((p2 + s2 * k) mod 2 ^ 32 + s2) = (p2 + s2 * (k + 1)) mod 2 ^ 32) by (unfold to_u32; change 4294967296 with (2 ^ 32); rewrite Zplus_mod_idemp_l; f_equal; lia).
    rewrite N1.
    assert (W : forall v, wr a k v = Ok (set_nth (Z.to_nat k) v a)) by (intros v; apply wr_ok; lia).
    assert (Hz : forall v i, v = g (Z.to_nat k) -> (i < Z.to_nat (k + 1))%nat -> nth_error (set_nth (Z.to_nat k) v a) i = Some (g i)).
    { intros v i -> Hi. destruct (Nat.eq_dec i (Z.to_nat k)) as [->|N]; [rewrite nth_set_nth_same by lia; reflexivity|]. rewrite nth_set_nth_other by lia. apply Ha. lia. }
    assert (G : g (Z.to_nat k) = pair_sample_c k0 (160 * fi) o dual (tone_gain ad) s1 s2 p1 p2 k) by (unfold g; rewrite Z2Nat.id by lia; reflexivity).
    destruct dual eqn:D.
    + rewrite N2, W. cbn [bind]. eexists. split; [reflexivity|]. cbn [fst snd]. rewrite set_nth_length. split; [exact La|]. split; [reflexivity|]. split; [reflexivity|].
      intros i Hi. apply Hz; [rewrite G; reflexivity|exact Hi].
    + rewrite W. cbn [bind]. eexists. split; [reflexivity|]. cbn [fst snd]. rewrite set_nth_length. split; [exact La|]. split; [reflexivity|]. 
      split; [rewrite (S2 eq_refl); f_equal; lia|]. intros i Hi. apply Hz; [rewrite G; reflexivity|exact Hi].
  - cbn [fst snd]. split; [exact L|]. rewrite !Z.mul_0_r, !Z.add_0_r. unfold p1, p2, to_u32. change (2 ^ 32) with 4294967296. rewrite !Z.mod_mod by lia.
    split; [reflexivity|]. split; [reflexivity|]. intros i Hi. lia.
  - cbn [bind fst snd] in *. subst q1 q2. f_equal. f_equal.
    apply list_eq_nth; [rewrite map_length, seq_length; exact La|]. intros i Hi. rewrite Ha by lia.
    rewrite nth_error_map, (nth_error_nth' (seq 0 160) 0%nat) by (rewrite seq_length; lia). rewrite seq_nth by lia. reflexivity.
Qed.


(* ---- fusing does not change the steps: the product is exact ---- *)
Definition steps_ok (id : Z) : bool :=
  match mbe_lookupToneFreqs id with
  | None => true
  | Some (f1, f2) => forallb (fun f => match mbe_tonePhaseStep (f2d f), mbe_tonePhaseStep_c true (f2d f) with Ok a, Ok b => a =? b | _, _ => false end) [f1; f2]
  end.
Lemma steps_all : forallb steps_ok (zrange 256) = true.
Proof. vm_compute. reflexivity. Qed.
Lemma step_false : forall f, mbe_tonePhaseStep_c false f = mbe_tonePhaseStep f.
Proof. reflexivity. Qed.
Lemma step_c : forall id f1 f2 b, 0 <= id < 256 -> mbe_lookupToneFreqs id = Some (f1, f2) ->
  mbe_tonePhaseStep_c b (f2d f1) = mbe_tonePhaseStep (f2d f1) /\ mbe_tonePhaseStep_c b (f2d f2) = mbe_tonePhaseStep (f2d f2).
Proof.
  intros id f1 f2 b H E. destruct b; [|split; apply step_false]. pose proof (zrange_forallb 256 _ steps_all id ltac:(lia)) as Q. unfold steps_ok in Q. rewrite E in Q. cbn [forallb] in Q.
  apply andb_true_iff in Q as [Q1 Q]. apply andb_true_iff in Q as [Q2 _].
  destruct (mbe_tonePhaseStep (f2d f1)), (mbe_tonePhaseStep_c true (f2d f1)); try discriminate. destruct (mbe_tonePhaseStep (f2d f2)), (mbe_tonePhaseStep_c true (f2d f2)); try discriminate.
  apply Z.eqb_eq in Q1, Q2. subst. split; reflexivity.
Qed.
Lemma dstar_steps : forallb (fun j => match mbe_tonePhaseStep (f2d (dstar_freq (j + 5))), mbe_tonePhaseStep_c true (f2d (dstar_freq (j + 5))) with Ok a, Ok b => a =? b | _, _ => false end) (zrange 118) = true.
Proof. vm_compute. reflexivity. Qed.
Lemma dstar_step_c : forall id b, 5 <= id <= 122 -> mbe_tonePhaseStep_c b (f2d (dstar_freq id)) = mbe_tonePhaseStep (f2d (dstar_freq id)).
Proof.
  intros id b H. destruct b; [|apply step_false]. pose proof (zrange_forallb 118 _ dstar_steps (id - 5) ltac:(lia)) as Q. cbv beta in Q. replace (id - 5 + 5) with id in Q by lia.
  destruct (mbe_tonePhaseStep (f2d (dstar_freq id))), (mbe_tonePhaseStep_c true (f2d (dstar_freq id))); try discriminate. apply Z.eqb_eq in Q. now subst.
Qed.

(* ---- one frame ---- *)
Lemma synth_fields_c : forall k i o buf d cur, o_tones o = true -> is_bits 49 d ->
  mbe_synthesizeTonef_c k i o buf d cur =
  match mbe_lookupToneFreqs (tone_id d) with
  | None => b <- mbe_synthesizeSilencef buf ;; Ok (b, cur)
  | Some (f1, f2) => mbe_renderTonef_c k i o buf cur f1 f2 (tone_amp d)
  end.
Proof.
  intros k i o buf d cur HT Hd. destruct (fields_ok d Hd) as (A & B & C & D). unfold mbe_synthesizeTonef_c. rewrite HT. cbn [negb]. rewrite A, B, C, D. cbn [bind]. cbv zeta.
  assert (E1 : Z.shiftr (Z.land (num (slice 12 12 d)) 4095) 4 = tone_id d).
  { rewrite (land_ones _ 12) by (lia || reflexivity). rewrite Z.mod_small by exact (field_range d 12 12 Hd ltac:(lia)).
    exact (num_slice_high d 12 8 4 Hd ltac:(lia)). }
  assert (E2 : Z.shiftl (Z.land (num (slice 0 12 d)) 63) 1 + Z.land (Z.shiftr (num (slice 35 14 d)) 4) 1 = tone_amp d).
  { rewrite (land_ones _ 6), (land_ones _ 1) by (lia || reflexivity). rewrite (num_slice_low d 0 6 6 Hd ltac:(lia) : num (slice 0 12 d) mod 2 ^ 6 = _).
    rewrite (num_slice_high d 35 10 4 Hd ltac:(lia) : Z.shiftr (num (slice 35 14 d)) 4 = _). rewrite (num_slice_low d 35 9 1 Hd ltac:(lia) : num (slice 35 10 d) mod 2 ^ 1 = _).
    rewrite Z.shiftl_mul_pow2 by lia. change (35 + 9)%nat with 44%nat. rewrite nth_bit by (exact Hd || lia). unfold tone_amp. fold (num (slice 6 6 d)). change (0 + 6)%nat with 6%nat. lia. }
  rewrite E1, E2. reflexivity.
Qed.
(* sample j (from 0) of the stream *)
Definition tone_sample_c (k : contraction) (o : oracle) (hz : Z * Z) (ad p1 p2 j : Z) : f32 :=
  let s1 := mbe_toneSampleFromPhase_c (k 32 j) o (osc_phase p1 (phase_step (fst hz)) j) in
  if snd hz =? 0 then fmul (amp_gain ad) s1
  else mix_c k j (fmul fhalf (amp_gain ad)) s1 (fmul fhalf (amp_gain ad)) (mbe_toneSampleFromPhase_c (k 33 j) o (osc_phase p2 (phase_step (snd hz)) j)).
Definition at_frame (hz : Z * Z) (p1 p2 i : Z) (cur : parms) : Prop :=
  to_u32 (p_swn cur) = (p1 + phase_step (fst hz) * (160 * i)) mod 2 ^ 32 /\ to_u32 (p_un cur) = (p2 + phase_step (snd hz) * (160 * i)) mod 2 ^ 32.
Definition frame_c_of (k : contraction) (o : oracle) (hz : Z * Z) (ad p1 p2 i : Z) : list f32 := map (fun n => tone_sample_c k o hz ad p1 p2 (160 * i + Z.of_nat n)) (seq 0 160).
Lemma pair_c_eq : forall k i o h1 h2 ad p1 p2 q1 q2 n, 0 <= ad -> q1 = (p1 + phase_step h1 * (160 * i)) mod 2 ^ 32 -> q2 = (p2 + phase_step h2 * (160 * i)) mod 2 ^ 32 ->
  pair_sample_c k (160 * i) o (negb (h2 =? 0)) (tone_gain ad) (phase_step h1) (phase_step h2) q1 q2 n = tone_sample_c k o (h1, h2) ad p1 p2 (160 * i + n).
Proof.
  intros k i o h1 h2 ad p1 p2 q1 q2 n H -> ->. unfold pair_sample_c, tone_sample_c. cbn [fst snd]. cbv zeta. rewrite gain_eq, !osc_shift by exact H. destruct (h2 =? 0); reflexivity.
Qed.
Lemma synth_c_ok : forall k i o buf d cur hz p1 p2, o_tones o = true -> is_bits 49 d -> length buf = 160%nat -> tone_hz (tone_id d) = Some hz -> at_frame hz p1 p2 i cur ->
  mbe_synthesizeTonef_c k i o buf d cur = Ok (frame_c_of k o hz (tone_amp d) p1 p2 i,
    set_un (stored_phase (to_u32 (p_un cur)) (phase_step (snd hz)) 160) (set_swn (stored_phase (to_u32 (p_swn cur)) (phase_step (fst hz)) 160) cur)).
Proof.
  intros k i o buf d cur [h1 h2] p1 p2 HT Hd LB H [A1 A2]. rewrite synth_fields_c by assumption. pose proof (entry (tone_id d) (tone_id_range d Hd)) as Q. rewrite H in Q.
  destruct Q as (_ & f1 & f2 & L & F1 & D & S1 & S2). rewrite L. pose proof (step_c _ f1 f2 (k 30 i) (tone_id_range d Hd) L) as [T1 _]. pose proof (step_c _ f1 f2 (k 31 i) (tone_id_range d Hd) L) as [_ T2].
  rewrite <- T1 in S1. rewrite <- T2 in S2. rewrite (render_c_ok k i o buf cur f1 f2 (tone_amp d) _ _ LB F1 S1 S2). cbn [fst snd] in *.
  match goal with |- Ok (?x, _) = Ok (?y, _) => assert (E : x = y) end; [|rewrite E; reflexivity].
  unfold frame_c_of. apply map_ext. intros n. rewrite D. apply pair_c_eq; auto. apply (tone_amp_range d Hd).
Qed.
Lemma dstar_c_ok : forall k i o buf cur id hz p1 p2, o_tones o = true -> 5 <= id <= 122 -> length buf = 160%nat -> tone_hz id = Some hz -> at_frame hz p1 p2 i cur ->
  mbe_synthesizeTonefdstar_c k i o buf cur id = Ok (frame_c_of k o hz 103 p1 p2 i,
    set_un (stored_phase (to_u32 (p_un cur)) (phase_step (snd hz)) 160) (set_swn (stored_phase (to_u32 (p_swn cur)) (phase_step (fst hz)) 160) cur)).
Proof.
  intros k i o buf cur id [h1 h2] p1 p2 HT Hid LB H [A1 A2]. pose proof (zrange_forallb 118 _ dstar_entries (id - 5) ltac:(lia)) as Q. cbv zeta beta in Q. replace (id - 5 + 5) with id in Q by lia. rewrite H in Q.
  apply andb_true_iff in Q as [Q Q4]. apply andb_true_iff in Q as [Q Q3]. apply andb_true_iff in Q as [Q1 Q2]. apply negb_true_iff in Q2, Q3. apply Z.eqb_eq in Q1. subst h2.
  unfold mbe_synthesizeTonefdstar_c. rewrite HT. cbn [negb]. cbv iota zeta. rewrite Q2. pose proof (dstar_step_c id (k 30 i) Hid) as T. set (f := dstar_freq id) in *.
  assert (S1 : mbe_tonePhaseStep_c (k 30 i) (f2d f) = Ok (phase_step h1)). { rewrite T. destruct (mbe_tonePhaseStep (f2d f)); [|discriminate]. apply Z.eqb_eq in Q4. now subst. }
  rewrite (render_c_ok k i o buf cur f f 103 (phase_step h1) 0 LB Q2 S1); [|rewrite Q3; reflexivity]. cbn [fst snd] in *. rewrite Q3.
  match goal with |- Ok (?x, _) = Ok (?y, _) => assert (E : x = y) end; [|rewrite E; reflexivity].
  unfold frame_c_of. apply map_ext. intros n. apply (pair_c_eq k i o h1 0 103); auto. lia.
Qed.
Lemma turned_at : forall hz p1 p2 i cur, at_frame hz p1 p2 i cur ->
  at_frame hz p1 p2 (i + 1) (set_un (stored_phase (to_u32 (p_un cur)) (phase_step (snd hz)) 160) (set_swn (stored_phase (to_u32 (p_swn cur)) (phase_step (fst hz)) 160) cur)).
Proof.
  intros hz p1 p2 i cur [A B]. unfold at_frame. cbn [p_swn p_un set_swn set_un]. unfold stored_phase.
  rewrite !u32_i32 by (apply Z.mod_pos_bound; reflexivity). rewrite A, B, !Zplus_mod_idemp_l. split; f_equal; lia.
Qed.
Lemma at_start : forall hz cur, at_frame hz (to_u32 (p_swn cur)) (to_u32 (p_un cur)) 0 cur.
Proof.
  intros hz cur. unfold at_frame. change (160 * 0) with 0. rewrite !Z.mul_0_r, !Z.add_0_r. unfold to_u32. change (2 ^ 32) with 4294967296. rewrite !Z.mod_mod by lia. split; reflexivity.
Qed.
Lemma concat_frames_c : forall k o hz ad p1 p2 n i, concat (map (fun f => frame_c_of k o hz ad p1 p2 (Z.of_nat f)) (seq i n)) = map (fun j => tone_sample_c k o hz ad p1 p2 (Z.of_nat j)) (seq (160 * i) (160 * n)).
Proof.
  intros k o hz ad p1 p2 n. induction n as [|n IH]; intros i; [rewrite Nat.mul_0_r; reflexivity|]. cbn [seq map concat]. rewrite IH. replace (160 * S n)%nat with (160 + 160 * n)%nat by lia.
  rewrite seq_app, map_app. f_equal; [|replace (160 * S i)%nat with (160 * i + 160)%nat by lia; reflexivity]. unfold frame_c_of. 
  apply list_eq_nth; [rewrite !map_length, !seq_length; reflexivity|]. intros j Hj. rewrite map_length, seq_length in Hj.
  rewrite !nth_error_map, (nth_error_nth' (seq 0 160) 0%nat), (nth_error_nth' (seq (160 * i) 160) 0%nat) by (rewrite seq_length; lia). rewrite !seq_nth by lia. cbn [option_map]. do 2 f_equal. lia.
Qed.

(* ---- streams of one identifier ---- *)
Lemma frames_c_gen : forall k o id hz ad p1 p2 fs i cur, o_tones o = true -> tone_hz id = Some hz -> Forall (fun x => is_bits 49 (fst x) /\ length (snd x) = 160%nat /\ tone_id (fst x) = id) fs ->
  Forall (fun x => tone_amp (fst x) = ad) fs -> at_frame hz p1 p2 (Z.of_nat i) cur ->
  exists cur', tone_frames_c k (Z.of_nat i) o fs cur = Ok (map (fun f => frame_c_of k o hz ad p1 p2 (Z.of_nat f)) (seq i (length fs)), cur').
Proof.
  intros k o id hz ad p1 p2 fs. induction fs as [|[d buf] fs IH]; intros i cur HT HZ HF HA AT; [exists cur; reflexivity|].
  apply Forall_cons_iff in HF as [(Hd & LB & ID) HF]. apply Forall_cons_iff in HA as [AD HA]. cbn [fst snd] in *. subst id ad. cbn [tone_frames_c].
  rewrite (synth_c_ok k _ o buf d cur hz p1 p2 HT Hd LB HZ AT). cbn [bind]. replace (Z.of_nat i + 1) with (Z.of_nat (S i)) by lia.
  edestruct (IH (S i)) as (cur' & E); [exact HT|exact HZ|exact HF|exact HA| |].
  - replace (Z.of_nat (S i)) with (Z.of_nat i + 1) by lia. apply turned_at. exact AT.
  - rewrite E. cbn [bind]. exists cur'. reflexivity.
Qed.
Lemma dstar_c_gen : forall k o id hz p1 p2 bufs i cur, o_tones o = true -> 5 <= id <= 122 -> tone_hz id = Some hz -> Forall (fun b => length b = 160%nat) bufs -> at_frame hz p1 p2 (Z.of_nat i) cur ->
  exists cur', dstar_frames_c k (Z.of_nat i) o id bufs cur = Ok (map (fun f => frame_c_of k o hz 103 p1 p2 (Z.of_nat f)) (seq i (length bufs)), cur').
Proof.
  intros k o id hz p1 p2 bufs. induction bufs as [|buf bufs IH]; intros i cur HT HI HZ HF AT; [exists cur; reflexivity|].
  apply Forall_cons_iff in HF as [LB HF]. cbn [dstar_frames_c]. rewrite (dstar_c_ok k _ o buf cur id hz p1 p2 HT HI LB HZ AT). cbn [bind]. replace (Z.of_nat i + 1) with (Z.of_nat (S i)) by lia.
  edestruct (IH (S i)) as (cur' & E); [exact HT|exact HI|exact HZ|exact HF| |].
  - replace (Z.of_nat (S i)) with (Z.of_nat i + 1) by lia. apply turned_at. exact AT.
  - rewrite E. cbn [bind]. exists cur'. reflexivity.
Qed.

(* ---- any stream: the parameter set is that of the program without fusing ---- *)
Lemma same_set : forall k o fs i cur, Forall (fun x => is_bits 49 (fst x) /\ length (snd x) = 160%nat) fs ->
  exists bc b cur', tone_frames_c k i o fs cur = Ok (bc, cur') /\ tone_frames o fs cur = Ok (b, cur').
Proof.
  intros k o fs. induction fs as [|[d buf] fs IH]; intros i cur HF; [exists [], [], cur; split; reflexivity|].
  apply Forall_cons_iff in HF as [[Hd LB] HF]. cbn [fst snd] in *. cbn [tone_frames_c tone_frames].
  assert (S : exists xc x c', mbe_synthesizeTonef_c k i o buf d cur = Ok (xc, c') /\ mbe_synthesizeTonef o buf d cur = Ok (x, c')).
  { destruct (o_tones o) eqn:HT.
    - destruct (tone_hz (tone_id d)) as [hz|] eqn:HZ.
      + eexists _, _, _. split; [apply (synth_c_ok k i o buf d cur hz (to_u32 (p_swn cur) - phase_step (fst hz) * (160 * i)) (to_u32 (p_un cur) - phase_step (snd hz) * (160 * i)) HT Hd LB HZ)|apply (synth_ok o buf d cur hz HT Hd LB HZ)].
        unfold at_frame. rewrite !Z.sub_add. unfold to_u32. change (2 ^ 32) with 4294967296. rewrite !Z.mod_mod by lia. split; reflexivity.
      + rewrite synth_fields_c, synth_fields by assumption. pose proof (entry (tone_id d) (tone_id_range d Hd)) as Q. rewrite HZ in Q. destruct Q as [-> _]. rewrite silence_ok by exact LB. cbn [bind]. eexists _, _, _. split; reflexivity.
    - unfold mbe_synthesizeTonef_c, mbe_synthesizeTonef. rewrite HT. cbn [negb]. rewrite silence_ok by exact LB. cbn [bind]. eexists _, _, _. split; reflexivity. }
  destruct S as (xc & x & c' & -> & ->). cbn [bind]. destruct (IH (i + 1) c' HF) as (bc & b & cur' & -> & ->). cbn [bind]. eexists _, _, _. split; reflexivity.
Qed.
Lemma same_set_dstar : forall k o id bufs i cur, Forall (fun b => length b = 160%nat) bufs ->
  exists bc b cur', dstar_frames_c k i o id bufs cur = Ok (bc, cur') /\ dstar_frames o id bufs cur = Ok (b, cur').
Proof.
  intros k o id bufs. induction bufs as [|buf bufs IH]; intros i cur HF; [exists [], [], cur; split; reflexivity|].
  apply Forall_cons_iff in HF as [LB HF]. cbn [dstar_frames_c dstar_frames].
  assert (S : exists xc x c', mbe_synthesizeTonefdstar_c k i o buf cur id = Ok (xc, c') /\ mbe_synthesizeTonefdstar o buf cur id = Ok (x, c')).
  { destruct (o_tones o) eqn:HT.
    - destruct (Z_le_gt_dec 5 id); [destruct (Z_le_gt_dec id 122)|].
      + destruct (tone_hz id) as [hz|] eqn:HZ; [|unfold tone_hz in HZ; destruct (Z.leb_spec 5 id), (Z.leb_spec id 122); try lia; discriminate HZ].
        eexists _, _, _. split; [apply (dstar_c_ok k i o buf cur id hz (to_u32 (p_swn cur) - phase_step (fst hz) * (160 * i)) (to_u32 (p_un cur) - phase_step (snd hz) * (160 * i)) HT ltac:(lia) LB HZ)|apply (dstar_ok o buf cur id hz HT ltac:(lia) LB HZ)].
        unfold at_frame. rewrite !Z.sub_add. unfold to_u32. change (2 ^ 32) with 4294967296. rewrite !Z.mod_mod by lia. split; reflexivity.
      + unfold mbe_synthesizeTonefdstar_c, mbe_synthesizeTonefdstar, dstar_freq. rewrite HT. cbn [negb]. destruct (Z.eqb_spec id 5), (Z.eqb_spec id 6), (Z.leb_spec 7 id), (Z.leb_spec id 122); try lia. cbn [andb]. cbv zeta. change (fle fzero fzero) with true. cbv iota. rewrite silence_ok by exact LB. cbn [bind]. eexists _, _, _. split; reflexivity.
      + unfold mbe_synthesizeTonefdstar_c, mbe_synthesizeTonefdstar, dstar_freq. rewrite HT. cbn [negb]. destruct (Z.eqb_spec id 5), (Z.eqb_spec id 6), (Z.leb_spec 7 id); try lia. cbn [andb]. cbv zeta. change (fle fzero fzero) with true. cbv iota. rewrite silence_ok by exact LB. cbn [bind]. eexists _, _, _. split; reflexivity.
    - unfold mbe_synthesizeTonefdstar_c, mbe_synthesizeTonefdstar. rewrite HT. cbn [negb]. rewrite silence_ok by exact LB. cbn [bind]. eexists _, _, _. split; reflexivity. }
  destruct S as (xc & x & c' & -> & ->). cbn [bind]. destruct (IH (i + 1) c' HF) as (bc & b & cur' & -> & ->). cbn [bind]. eexists _, _, _. split; reflexivity.
Qed.
Local Open Scope R_scope.

(* ---- one fused operation in double precision ---- *)
Lemma dnorm_r : forall z e r, F2R (Float radix2 z e) = r -> Rabs r <= 1000000 ->
  fd (SpecFloat.binary_normalize 53 1024 z e false) /\ R_of (SpecFloat.binary_normalize 53 1024 z e false) = rndd r.
Proof.
  intros z e r E H. destruct (norm_R 53 1024 Hp53 He53 z e false (SFopp dbig) dbig) as [A B]; [rewrite E; now apply d_in|].
  split; [split; [apply (vb_norm 53 1024 Hp53 He53)|exact A]|]. rewrite B, E. reflexivity.
Qed.
Lemma dadd_r : forall x y, fd x -> fd y -> Rabs (R_of x + R_of y) <= 1000000 -> fd (dadd x y) /\ R_of (dadd x y) = rndd (R_of x + R_of y).
Proof.
  intros x y [Vx Fx] [Vy Fy] H. destruct (add_R 53 1024 Hp53 He53 x y _ _ Vx Vy Fx Fy (d_in _ H)) as [A B].
  split; [split; [apply (vb_add 53 1024 Hp53 He53); assumption|exact A]|exact B].
Qed.
Lemma dmul_r : forall x y, fd x -> fd y -> Rabs (R_of x * R_of y) <= 1000000 -> fd (dmul x y) /\ R_of (dmul x y) = rndd (R_of x * R_of y).
Proof.
  intros x y [Vx Fx] [Vy Fy] H. destruct (mul_R 53 1024 Hp53 He53 x y _ _ Vx Vy Fx Fy (d_in _ H)) as [A B].
  split; [split; [apply vd_dmul; assumption|exact A]|exact B].
Qed.
Lemma dfma_r : forall a b c, fd a -> fd b -> fd c -> Rabs (R_of c + R_of a * R_of b) <= 1000000 ->
  fd (dfma a b c) /\ R_of (dfma a b c) = rndd (R_of c + R_of a * R_of b).
Proof.
  intros a b c A B C H.
  assert (ZA : forall s y, fd y -> R_of (dmul (SpecFloat.S754_zero s) y) = 0 /\ fd (dmul (SpecFloat.S754_zero s) y)).
  { intros s y [V F]. destruct y; try discriminate F; cbn; split; try reflexivity; split; reflexivity. }
  assert (ZB : forall s y, fd y -> R_of (dmul y (SpecFloat.S754_zero s)) = 0 /\ fd (dmul y (SpecFloat.S754_zero s))).
  { intros s y [V F]. destruct y; try discriminate F; cbn; split; try reflexivity; split; reflexivity. }
  assert (P0 : forall x, fd x -> R_of x = 0 -> R_of a * R_of b = 0 -> fd (dadd c x) /\ R_of (dadd c x) = rndd (R_of c + R_of a * R_of b)).
  { intros x X E Q. replace (R_of c + R_of a * R_of b) with (R_of c + R_of x) in * by lra. now apply dadd_r. }
  destruct a as [sa| | |sa ma ea]; try (destruct A as [_ A]; discriminate A).
  { destruct (ZA sa b B) as [E F]. change (dfma (SpecFloat.S754_zero sa) b c) with (dadd c (dmul (SpecFloat.S754_zero sa) b)). apply P0; auto. change (R_of (SpecFloat.S754_zero sa)) with 0. ring. }
  destruct b as [sb| | |sb mb eb]; try (destruct B as [_ B]; discriminate B).
  { destruct (ZB sb _ A) as [E F]. change (dfma (SpecFloat.S754_finite sa ma ea) (SpecFloat.S754_zero sb) c) with (dadd c (dmul (SpecFloat.S754_finite sa ma ea) (SpecFloat.S754_zero sb))). apply P0; auto. change (R_of (SpecFloat.S754_zero sb)) with 0. ring. }
  destruct c as [sc| | |sc mc ec]; try (destruct C as [_ C]; discriminate C).
  { change (dfma (SpecFloat.S754_finite sa ma ea) (SpecFloat.S754_finite sb mb eb) (SpecFloat.S754_zero sc)) with (dmul (SpecFloat.S754_finite sa ma ea) (SpecFloat.S754_finite sb mb eb)).
    change (R_of (SpecFloat.S754_zero sc)) with 0 in *. rewrite Rplus_0_l in *. now apply dmul_r. }
  cbn [dfma]. cbv zeta. apply dnorm_r; [|exact H]. rewrite !R_fin. set (e := Z.min (ea + eb) ec). unfold F2R. cbn [Fnum Fexp].
  rewrite plus_IZR, !mult_IZR. change 2%Z with (radix_val radix2). rewrite !IZR_Zpower by (unfold e; lia).
  rewrite Rmult_plus_distr_r, !Rmult_assoc, <- !bpow_plus. replace (ea + eb - e + e)%Z with (ea + eb)%Z by lia. replace (ec - e + e)%Z with ec by lia. rewrite bpow_plus.
  replace (IZR (if xorb sa sb then Z.neg (ma * mb) else Z.pos (ma * mb))) with (IZR (if sa then Z.neg ma else Z.pos ma) * IZR (if sb then Z.neg mb else Z.pos mb)); [ring|].
  rewrite <- mult_IZR. f_equal. destruct sa, sb; reflexivity.
Qed.

(* ---- the angle of a 32-bit phase ---- *)
Definition turn_angle_c (ph : Z) : f32 := d2f (dfma (d_of_Z ph) TONE_RAD_PER_TICK (SFopp HALF_PI_D)).
Lemma turn_near_c : forall ph, (0 <= ph < 4294967296)%Z -> ff (turn_angle_c ph) /\ Rabs (R_of (turn_angle_c ph) - (2 * PI * (IZR ph / 4294967296) - PI / 2)) <= 3.2e-7.
Proof.
  intros ph H. destruct (d_of_Z_R ph H) as [F0 E0]. set (c := TONE_RAD_PER_TICK). set (q := SFopp HALF_PI_D).
  assert (C : fd c /\ R_of c = 2 * R_of M_PI / 4294967296). { split; [split; reflexivity|]. unfold c. R_val TONE_RAD_PER_TICK. R_val M_PI. lra. }
  assert (Q : fd q /\ R_of q = - (R_of M_PI / 2)). { split; [split; reflexivity|]. unfold q. R_val (SFopp HALF_PI_D). R_val M_PI. lra. }
  destruct C as [FC EC], Q as [FQ EQ]. pose proof MPI_near as M. pose proof PI_bounds as P. pose proof dtiny_small as T. set (m := R_of M_PI) in *.
  assert (H0 : 0 <= IZR ph) by (apply IZR_le; lia). assert (H1 : IZR ph <= 4294967296) by (apply IZR_le; lia). set (x := IZR ph) in *.
  set (y := x / 4294967296). assert (Y : 0 <= y <= 1) by (unfold y; lra). clearbody m.
  assert (PR : x * (2 * m / 4294967296) = 2 * (y * m)) by (unfold y; lra). assert (YM : 0 <= y * m <= m) by (split; [apply Rmult_le_pos; lra|replace m with (1 * m) at 2 by ring; apply Rmult_le_compat_r; lra]).
  destruct (dfma_r (d_of_Z ph) c q F0 FC FQ) as [F2 G2]; rewrite E0, EC, EQ, PR in *; [apply Rabs_le; lra|].
  assert (B2 : Rabs (- (m / 2) + 2 * (y * m)) <= 5) by (apply Rabs_le; lra). pose proof (rndd_err (- (m / 2) + 2 * (y * m))) as G1. rewrite <- G2 in G1. clear G2. change (d2f (dfma (d_of_Z ph) c q)) with (turn_angle_c ph). set (b := dfma (d_of_Z ph) c q) in *.
  assert (G2' : Rabs (R_of b - (- (m / 2) + 2 * (y * m))) <= 1e-14) by (unfold u53 in G1; lra). apply Rabs_le_inv in G2'. clear G1.
  assert (B3 : Rabs (R_of b) <= 4.72) by (apply Rabs_le; lra).
  destruct (d2f_e b F2) as [F3 G3]; [lra|]. change (d2f b) with (turn_angle_c ph) in *. split; [exact F3|]. fold y. pose proof tiny_20 as TT.
  assert (G3' : Rabs (R_of (turn_angle_c ph) - R_of b) <= 2.82e-7) by (unfold u24 in G3; lra). apply Rabs_le_inv in G3'.
  assert (YP : Rabs (y * (m - PI)) <= 1e-8). { rewrite Rabs_mult, (Rabs_pos_eq y) by lra. apply Rle_trans with (1 * 1e-8); [apply Rmult_le_compat; try lra; [apply Rabs_pos|apply Rabs_le; lra]|lra]. }
  apply Rabs_le_inv in YP. apply Rabs_le. lra.
Qed.
Lemma wave_near_c : forall f o ph, accurate_turn o -> (0 <= ph < 4294967296)%Z ->
  ff (mbe_toneSampleFromPhase_c f o ph) /\ Rabs (R_of (mbe_toneSampleFromPhase_c f o ph) - sin (2 * PI * (IZR ph / 4294967296) - PI / 2)) <= 4.5e-7.
Proof.
  intros f o ph A H. destruct f; [|change (mbe_toneSampleFromPhase_c false o ph) with (mbe_toneSampleFromPhase o ph); rewrite wave_eq; now apply wave_near].
  destruct (turn_near_c ph H) as [F N]. change (mbe_toneSampleFromPhase_c true o ph) with (sinf o (turn_angle_c ph)). pose proof PI_bounds as P.
  assert (H0 : 0 <= IZR ph) by (apply IZR_le; lia). assert (H1 : IZR ph <= 4294967296) by (apply IZR_le; lia). set (y := IZR ph / 4294967296) in *. assert (Y : 0 <= y <= 1) by (unfold y; lra).
  assert (YP : 0 <= PI * y <= PI) by (split; [apply Rmult_le_pos; lra|replace PI with (PI * 1) at 2 by ring; apply Rmult_le_compat_l; lra]).
  destruct (A (turn_angle_c ph) F) as (_ & S & _ & E). { apply Rabs_le_inv in N. apply Rabs_le. lra. }
  split; [exact S|]. pose proof (sin_lip (R_of (turn_angle_c ph)) (2 * PI * y - PI / 2)) as L. apply Rabs_le_inv in E.
  assert (L' : Rabs (sin (R_of (turn_angle_c ph)) - sin (2 * PI * y - PI / 2)) <= 3.2e-7) by lra. apply Rabs_le_inv in L'. apply Rabs_le. lra.
Qed.

(* ---- the samples ---- *)
Section Sample.
Context (kc : contraction) (o : oracle) (AT : accurate_turn o) (hz : Z * Z) (ad p1 p2 k : Z) (HA : (0 <= ad <= 127)%Z).
Let w h p := sin (2 * PI * (IZR (osc_phase p (phase_step h) k) / 4294967296) - PI / 2).
Lemma sample_wave_c : ff (tone_sample_c kc o hz ad p1 p2 k) /\
  Rabs (R_of (tone_sample_c kc o hz ad p1 p2 k) - (if (snd hz =? 0)%Z then tone_level ad * w (fst hz) p1 else tone_level ad * (w (fst hz) p1 + w (snd hz) p2) / 2)) <= 0.006.
Proof.
  destruct (gain_near ad HA) as (FG & EG & LG). set (g := amp_gain ad) in *. set (v := tone_level ad) in *. assert (AV : Rabs v <= 4447) by (rewrite Rabs_pos_eq; lra).
  destruct (wave_near_c (kc 32%Z k) o _ AT (osc_range p1 (phase_step (fst hz)) k)) as [F1 E1]. fold (w (fst hz) p1) in E1.
  destruct (wave_near_c (kc 33%Z k) o _ AT (osc_range p2 (phase_step (snd hz)) k)) as [F2 E2]. fold (w (snd hz) p2) in E2. unfold tone_sample_c. cbv zeta. fold g.
  assert (W1 : Rabs (w (fst hz) p1) <= 1) by apply sin_1. assert (W2 : Rabs (w (snd hz) p2) <= 1) by apply sin_1.
  set (s1 := mbe_toneSampleFromPhase_c (kc 32%Z k) o _) in *. set (s2 := mbe_toneSampleFromPhase_c (kc 33%Z k) o _) in *. set (x1 := w (fst hz) p1) in *. set (x2 := w (snd hz) p2) in *. destruct (snd hz =? 0)%Z.
  - destruct (mul_near g s1 v x1 0.002 4.5e-7 4447 1 FG F1 EG E1 AV W1) as [F3 E3]; [lra|]. split; [exact F3|]. eapply Rle_trans; [exact E3|lra].
  - assert (FH : ff fhalf) by (apply ff_const; vm_compute; reflexivity). assert (EH : Rabs (R_of fhalf - / 2) <= 0) by (R_val fhalf; apply Rabs_le; lra).
    destruct (mul_near fhalf g (/ 2) v 0 0.002 (/ 2) 4447 FH FG EH EG) as [F3 E3]; [rewrite Rabs_pos_eq; lra|exact AV|lra|]. set (hg := fmul fhalf g) in *.
    assert (AH : Rabs (/ 2 * v) <= 2223.5) by (rewrite Rabs_pos_eq; lra). assert (E3' : Rabs (R_of hg - / 2 * v) <= 0.00114) by lra.
    assert (X : forall s x, Rabs (R_of s - x) <= 4.5e-7 -> Rabs x <= 1 -> Rabs (R_of hg * R_of s - / 2 * v * x) <= 0.00215 /\ Rabs (R_of hg * R_of s) <= 2224).
    { intros s x ES WX. assert (D : Rabs (R_of hg * R_of s - / 2 * v * x) <= 0.00215).
      { replace (R_of hg * R_of s - / 2 * v * x) with ((R_of hg - / 2 * v) * R_of s + / 2 * v * (R_of s - x)) by ring. eapply Rle_trans; [apply Rabs_triang|]. rewrite (Rabs_mult (R_of hg - / 2 * v)), (Rabs_mult (/ 2 * v)).
        assert (SB : Rabs (R_of s) <= 1.000001) by (replace (R_of s) with (x + (R_of s - x)) by ring; eapply Rle_trans; [apply Rabs_triang|lra]).
        apply Rle_trans with (0.00114 * 1.000001 + 2223.5 * 4.5e-7); [|lra]. apply Rplus_le_compat; apply Rmult_le_compat; auto using Rabs_pos. }
      split; [exact D|]. assert (Y : Rabs (/ 2 * v * x) <= 2223.5) by (rewrite Rabs_mult; apply Rle_trans with (2223.5 * 1); [apply Rmult_le_compat; auto using Rabs_pos|lra]).
      replace (R_of hg * R_of s) with ((R_of hg * R_of s - / 2 * v * x) + / 2 * v * x) by ring. eapply Rle_trans; [apply Rabs_triang|lra]. }
    destruct (X s1 x1 E1 W1) as [D1 S1], (X s2 x2 E2 W2) as [D2 S2]. destruct (mix_e kc k hg s1 hg s2 2224 2224 F3 F1 F3 F2 S1 S2) as [F6 E6]; [lra|]. split; [exact F6|]. pose proof tiny_20 as T.
    assert (E6' : Rabs (R_of (mix_c kc k hg s1 hg s2) - (R_of hg * R_of s1 + R_of hg * R_of s2)) <= 0.00055) by (unfold u24 in E6; lra).
    apply Rabs_le_inv in D1, D2, E6'. replace (v * (x1 + x2) / 2) with (/ 2 * v * x1 + / 2 * v * x2) by lra. apply Rabs_le. lra.
Qed.
Lemma sample_near_c : (0 <= fst hz)%Z -> (0 <= snd hz)%Z -> (0 <= k)%Z -> Rabs (R_of (tone_sample_c kc o hz ad p1 p2 k) - tone_wave hz ad p1 p2 k) <= 0.006 + 4e-6 * (IZR k + 1).
Proof.
  intros H1 H2 HK. destruct sample_wave_c as [_ E]. destruct (gain_near ad HA) as (_ & _ & LG). unfold tone_wave. set (v := tone_level ad) in *.
  pose proof (sinusoid_near (fst hz) p1 k H1 HK) as S1. pose proof (sinusoid_near (snd hz) p2 k H2 HK) as S2. fold (w (fst hz) p1) in S1. fold (w (snd hz) p2) in S2. assert (KK : 0 <= IZR k) by (apply IZR_le, HK).
  set (x1 := w (fst hz) p1) in *. set (x2 := w (snd hz) p2) in *. set (z1 := sinusoid (fst hz) p1 k) in *. set (z2 := sinusoid (snd hz) p2 k) in *. set (e := (IZR k + 1) * 7.4e-10) in *.
  assert (Q : 0 <= e) by (unfold e; lra). set (x := R_of (tone_sample_c kc o hz ad p1 p2 k)) in *. clearbody x.
  assert (VE : v * e <= 4447 * e) by (apply Rmult_le_compat_r; lra). destruct (snd hz =? 0)%Z.
  - replace (x - v * z1) with ((x - v * x1) + v * (x1 - z1)) by ring. eapply Rle_trans; [apply Rabs_triang|]. rewrite (Rabs_mult v), (Rabs_pos_eq v) by lra.
    assert (v * Rabs (x1 - z1) <= v * e) by (apply Rmult_le_compat_l; lra). unfold e in *. lra.
  - replace (x - v * (z1 + z2) / 2) with ((x - v * (x1 + x2) / 2) + v * (((x1 - z1) + (x2 - z2)) / 2)) by lra. eapply Rle_trans; [apply Rabs_triang|]. rewrite (Rabs_mult v), (Rabs_pos_eq v) by lra.
    assert (D : Rabs (((x1 - z1) + (x2 - z2)) / 2) <= e) by (apply Rabs_le_inv in S1, S2; apply Rabs_le; lra).
    assert (v * Rabs (((x1 - z1) + (x2 - z2)) / 2) <= v * e) by (apply Rmult_le_compat_l; lra). unfold e in *. lra.
Qed.
End Sample.
Lemma samples_sound_c : forall k o id hz ad p1 p2 n, accurate_turn o -> tone_hz id = Some hz -> (0 <= ad <= 127)%Z ->
  sounds hz ad p1 p2 n (map (fun i => tone_sample_c k o hz ad p1 p2 (Z.of_nat i)) (seq 0 n)).
Proof.
  intros k o id hz ad p1 p2 n AT HZ HA. destruct (hz_range id hz HZ) as [H1 H2]. split; [now rewrite map_length, seq_length|]. intros i Hi.
  rewrite (nth_indep _ fzero (tone_sample_c k o hz ad p1 p2 (Z.of_nat 0))) by (now rewrite map_length, seq_length). rewrite map_nth with (f := fun i => tone_sample_c k o hz ad p1 p2 (Z.of_nat i)), seq_nth by exact Hi. cbn [plus].
  split; [apply (sample_wave_c k o AT hz ad p1 p2 (Z.of_nat i) HA)|]. rewrite INR_IZR_INZ. apply sample_near_c; auto. lia.
Qed.
Lemma frames_sound_c : forall k o id hz ad fs cur, o_tones o = true -> accurate_turn o -> tone_hz id = Some hz -> (0 <= ad <= 127)%Z ->
  Forall (fun x => is_bits 49 (fst x) /\ length (snd x) = 160%nat /\ tone_id (fst x) = id) fs -> Forall (fun x => tone_amp (fst x) = ad) fs ->
  exists bufs cur', tone_frames_c k 0 o fs cur = Ok (bufs, cur') /\ sounds hz ad (to_u32 (p_swn cur)) (to_u32 (p_un cur)) (160 * length fs) (concat bufs).
Proof.
  intros k o id hz ad fs cur HT AT HZ HA HF HD. destruct (frames_c_gen k o id hz ad _ _ fs 0 cur HT HZ HF HD (at_start hz cur)) as (cur' & E). eexists _, cur'. split; [exact E|].
  rewrite concat_frames_c. rewrite Nat.mul_0_r. eapply samples_sound_c; eassumption.
Qed.
Lemma dstar_sound_c : forall k o id hz bufs cur, o_tones o = true -> accurate_turn o -> (5 <= id <= 122)%Z -> tone_hz id = Some hz -> Forall (fun b => length b = 160%nat) bufs ->
  exists r cur', dstar_frames_c k 0 o id bufs cur = Ok (r, cur') /\ sounds hz 103 (to_u32 (p_swn cur)) (to_u32 (p_un cur)) (160 * length bufs) (concat r).
Proof.
  intros k o id hz bufs cur HT AT HI HZ HF. destruct (dstar_c_gen k o id hz _ _ bufs 0 cur HT HI HZ HF (at_start hz cur)) as (cur' & E). eexists _, cur'. split; [exact E|].
  rewrite concat_frames_c. rewrite Nat.mul_0_r. eapply samples_sound_c; [exact AT|exact HZ|lia].
Qed.

(* ---- with and without fusing ---- *)
Lemma frame_apart : forall k o hz ad cur i, accurate_turn o -> (0 <= ad <= 127)%Z ->
  apart_by 0.012 (frame_c_of k o hz ad (to_u32 (p_swn cur) - phase_step (fst hz) * (160 * i)) (to_u32 (p_un cur) - phase_step (snd hz) * (160 * i)) i)
    (tone_frame o hz (to_u32 (p_swn cur)) (to_u32 (p_un cur)) 0 ad).
Proof.
  intros k o hz ad cur i AT HA. unfold frame_c_of, tone_frame, apart_by. induction (seq 0 160) as [|n l IH]; cbn [map]; constructor; [|exact IH].
  set (q1 := to_u32 (p_swn cur)). set (q2 := to_u32 (p_un cur)). destruct (sample_wave_c k o AT hz ad (q1 - phase_step (fst hz) * (160 * i)) (q2 - phase_step (snd hz) * (160 * i)) (160 * i + Z.of_nat n) HA) as [F1 E1].
  destruct (sample_wave o AT hz ad q1 q2 (Z.of_nat (160 * 0 + n)) HA) as [F2 E2]. split; [exact F1|]. split; [exact F2|].
  assert (S : forall p s, osc_phase (p - s * (160 * i)) s (160 * i + Z.of_nat n) = osc_phase p s (Z.of_nat (160 * 0 + n))) by (intros p s; unfold osc_phase; f_equal; rewrite Nat.mul_0_r, Nat.add_0_l; ring).
  rewrite !S in E1. set (a := R_of (tone_sample_c _ _ _ _ _ _ _)) in *. set (b := R_of (tone_sample _ _ _ _ _ _)) in *. match type of E1 with Rabs (_ - ?z) <= _ => set (c := z) in * end.
  apply Rabs_le_inv in E1, E2. apply Rabs_le. lra.
Qed.
Lemma zeros_apart : forall n, apart_by 0.012 (repeat (SpecFloat.S754_zero false) n) (repeat (SpecFloat.S754_zero false) n).
Proof. intros n. induction n as [|n IH]; cbn [repeat]; constructor; [|exact IH]. repeat split; try reflexivity. rewrite Rminus_diag_eq by reflexivity. rewrite Rabs_R0. lra. Qed.
Lemma streams_apart : forall k o fs i cur, accurate_turn o -> Forall (fun x => is_bits 49 (fst x) /\ length (snd x) = 160%nat) fs ->
  exists bc b cur', tone_frames_c k i o fs cur = Ok (bc, cur') /\ tone_frames o fs cur = Ok (b, cur') /\ apart_by 0.012 (concat bc) (concat b).
Proof.
  intros k o fs. induction fs as [|[d buf] fs IH]; intros i cur AT HF; [exists [], [], cur; split; [|split]; try reflexivity; constructor|].
  apply Forall_cons_iff in HF as [[Hd LB] HF]. cbn [fst snd] in *. cbn [tone_frames_c tone_frames].
  assert (S : exists xc x c', mbe_synthesizeTonef_c k i o buf d cur = Ok (xc, c') /\ mbe_synthesizeTonef o buf d cur = Ok (x, c') /\ apart_by 0.012 xc x).
  { destruct (o_tones o) eqn:HT.
    - destruct (tone_hz (tone_id d)) as [hz|] eqn:HZ.
      + eexists _, _, _. split; [|split; [apply (synth_ok o buf d cur hz HT Hd LB HZ)|apply (frame_apart k o hz (tone_amp d) cur i AT (tone_amp_range d Hd))]].
        apply (synth_c_ok k i o buf d cur hz _ _ HT Hd LB HZ). unfold at_frame. rewrite !Z.sub_add. unfold to_u32. change (2 ^ 32)%Z with 4294967296%Z. rewrite !Z.mod_mod by lia. split; reflexivity.
      + rewrite synth_fields_c, synth_fields by assumption. pose proof (entry (tone_id d) (tone_id_range d Hd)) as Q. rewrite HZ in Q. destruct Q as [-> _]. rewrite silence_ok by exact LB. cbn [bind]. eexists _, _, _. split; [reflexivity|]. split; [reflexivity|apply zeros_apart].
    - unfold mbe_synthesizeTonef_c, mbe_synthesizeTonef. rewrite HT. cbn [negb]. rewrite silence_ok by exact LB. cbn [bind]. eexists _, _, _. split; [reflexivity|]. split; [reflexivity|apply zeros_apart]. }
  destruct S as (xc & x & c' & -> & -> & A). cbn [bind]. destruct (IH (i + 1)%Z c' AT HF) as (bc & b & cur' & -> & -> & B). cbn [bind]. eexists _, _, _. split; [reflexivity|]. split; [reflexivity|].
  cbn [concat]. apply Forall2_app; assumption.
Qed.

(* ---- the samples are not the same ---- *)
Definition sharp_d : list Z := (repeat 1 12 ++ [0; 0; 1; 0; 0; 0; 0; 0] ++ repeat 0 24 ++ [1] ++ repeat 0 4)%Z.
Definition sharp_fs : list (list Z * list f32) := [(sharp_d, repeat fzero 160)].
Definition sharp_cur : parms := set_swn 536870913 imbe_initial.
Lemma sharp_bits : is_bits 49 sharp_d.
Proof. split; [reflexivity|]. apply Forall_forall. intros b Hb. unfold sharp_d, is_bit in *. cbn in Hb. lia. Qed.
Lemma one_frame : forall (f g : nat -> f32), [map f (seq 0 160)] = [map g (seq 0 160)] -> f 0%nat = g 0%nat.
Proof. intros f g E. assert (Q : nth 0 (nth 0 [map f (seq 0 160)] []) fzero = nth 0 (nth 0 [map g (seq 0 160)] []) fzero) by (rewrite E; reflexivity). exact Q. Qed.
Lemma fused_differs : forall o, o_tones o = true -> tiny_sines o ->
  exists bc b cur', tone_frames_c (fun _ _ => true) 0 o sharp_fs sharp_cur = Ok (bc, cur') /\ tone_frames o sharp_fs sharp_cur = Ok (b, cur') /\ bc <> b.
Proof.
  intros o HT TS. unfold sharp_fs. cbn [tone_frames_c tone_frames]. assert (HZ : tone_hz (tone_id sharp_d) = Some (100000, 0)%Z) by (vm_compute; reflexivity).
  rewrite (synth_c_ok (fun _ _ => true) 0 o (repeat fzero 160) sharp_d sharp_cur _ _ _ HT sharp_bits eq_refl HZ (at_start _ _)), (synth_ok o (repeat fzero 160) sharp_d sharp_cur _ HT sharp_bits eq_refl HZ).
  cbn [bind]. eexists _, _, _. split; [reflexivity|]. split; [reflexivity|]. intros E. unfold frame_c_of, tone_frame in E. apply one_frame in E.
  unfold tone_sample_c, tone_sample in E. cbn [fst snd] in E. cbv zeta in E. change (0 =? 0)%Z with true in E. cbv iota in E. rewrite <- wave_eq in E. unfold mbe_toneSampleFromPhase_c, mbe_toneSampleFromPhase in E.
  change (osc_phase (to_u32 (p_swn sharp_cur)) (phase_step 100000) (160 * 0 + Z.of_nat 0)) with 1073741825%Z in E. change (osc_phase (to_u32 (p_swn sharp_cur)) (phase_step 100000) (Z.of_nat (160 * 0 + 0))) with 1073741825%Z in E.
  rewrite !TS in E.
  - vm_compute in E. discriminate E.
  - split; vm_compute; reflexivity.
  - R_val (d2f (dsub (dmul (d_of_Z 1073741825) TONE_RAD_PER_TICK) HALF_PI_D)). apply Rabs_le. lra.
  - split; vm_compute; reflexivity.
  - R_val (d2f (dfma (d_of_Z 1073741825) TONE_RAD_PER_TICK (SFopp HALF_PI_D))). apply Rabs_le. lra.
Qed.
Lemma fused_identical_refuted : exists k fs cur, Forall (fun x => is_bits 49 (fst x) /\ length (snd x) = 160%nat) fs /\ forall o, o_tones o = true -> tiny_sines o ->
  exists bc b cur', tone_frames_c k 0 o fs cur = Ok (bc, cur') /\ tone_frames o fs cur = Ok (b, cur') /\ bc <> b.
Proof. exists (fun _ _ => true), sharp_fs, sharp_cur. split; [|exact fused_differs]. constructor; [split; [exact sharp_bits|reflexivity]|constructor]. Qed.
