(* C61, C62, C63: the amplitudes of decoded frames and the parameter bits they come from. *)
From Coq Require Import ZArith List Bool Permutation.
From Verif Require Import Res F32 MParms MAdaptive MUnvoiced MSynth MImbe MAmbe SpecEcc SpecFrame SpecState SpecImbe SpecAmbe SpecAmp PState PExp2 PNyq PropImbe PropAmbe PAmp PAmp2 PUnused.
Import ListNotations.
Local Open Scope Z_scope.

(* some functions for the cosine, the exponential and the logarithm; a previous frame of 20 harmonics with log amplitudes 0, 1, 2, ... *)
Definition wave_oracle : oracle := mkoracle (fun x => fsub fone (fmul fhalf x)) (fun x => x) near_exp2 (fun x => fmul fhalf x) (fun x => x) (fun _ _ => fzero) (fun _ _ => fzero) true Scalar true.
Definition rising : parms := set_log2Ml (map (fun k => f_of_Z (Z.of_nat k)) (seq 0 57)) (set_L 20 ambe_initial).
Definition logs (ls : list Z) (r : res (Z * parms * parms)) : list (res f32) := match r with Ok (_, m, _) => map (rd (p_log2Ml m)) ls | UB _ => [] end.

(* C61: every harmonic of an accepted IMBE frame has the log amplitude of the formula, and the amplitude is its power of two *)
Theorem C61_imbe : forall o d cur prev bad cur' prev', is_bits 88 d -> wf_parms cur -> pitch7200 d <= 207 -> usable_history (imbe_harmonics (pitch7200 d)) prev ->
  mbe_decodeImbe4400Parms o d cur prev = Ok (bad, cur', prev') -> let L := imbe_harmonics (pitch7200 d) in
  forall l, 1 <= l <= L -> rd (p_log2Ml cur') l = Ok (imbe_log_amplitude o L d prev l) /\ rd (p_Ml cur') l = Ok (exp2f o (imbe_log_amplitude o L d prev l)).
Proof. exact imbe_amplitudes. Qed.
Print Assumptions C61_imbe.
Example C61_case : is_bits 88 sample_payload /\ pitch7200 sample_payload = 5 /\ usable_history (imbe_harmonics 5) rising /\
  logs [1; 2; 10] (mbe_decodeImbe4400Parms wave_oracle sample_payload imbe_initial rising) =
    [Ok (S754_finite false 16651171 (-21)); Ok (S754_finite false 14024908 (-23)); Ok (S754_finite true 10951854 (-19))]
  /\ residuals wave_oracle 1 (block_size 10) (imbe_coefficient wave_oracle 10 sample_payload) = [S754_finite false 12100459 (-20)].
Proof.
  split; [split; [reflexivity|repeat (constructor; [first [left; reflexivity|right; reflexivity]|]); constructor]|]. split; [reflexivity|].
  split; [split; [repeat split; reflexivity|left; vm_compute; split; discriminate]|]. split; vm_compute; reflexivity.
Qed.

(* C62: the same for AMBE voice frames *)
Theorem C62_2450 : forall o d cur prev e bad cur' prev', is_bits 49 d -> wf_parms cur -> ~ (tone2450 d /\ e < 6) -> ~ erasure2450 (pitch2450 d) ->
  usable_history (harmonics2450 (pitch2450 d)) prev -> mbe_decodeAmbe2450ParmsInternal o d cur prev e = Ok (bad, cur', prev') ->
  forall l, 1 <= l <= harmonics2450 (pitch2450 d) -> let g := log_amplitude2450 o d prev l in
    rd (p_log2Ml cur') l = Ok g /\ rd (p_Ml cur') l = Ok (ambe_amplitude o (w0_2450 (pitch2450 d)) (voicing2450 d l) g).
Proof. exact amplitudes2450. Qed.
Print Assumptions C62_2450.
Theorem C62_2400 : forall o d cur prev bad cur' prev', is_bits 49 d -> wf_parms cur -> pitch2400 d < 126 -> exp2_close o (exponent2400 (pitch2400 d)) ->
  usable_history (harmonics2400 (pitch2400 d)) prev -> mbe_decodeAmbe2400Parms o d cur prev = Ok (bad, cur', prev') ->
  forall l, 1 <= l <= harmonics2400 (pitch2400 d) -> let g := log_amplitude2400 o d prev l in
    rd (p_log2Ml cur') l = Ok g /\ rd (p_Ml cur') l = Ok (ambe_amplitude o (radians (exp2f o (exponent2400 (pitch2400 d)))) (voicing2400 o d l) g).
Proof. exact amplitudes2400. Qed.
Print Assumptions C62_2400.
Example C62_case : is_bits 49 voice_bits /\ ~ erasure2450 (pitch2450 voice_bits) /\ pitch2400 voice_bits = 40 /\
  usable_history (harmonics2450 (pitch2450 voice_bits)) rising /\ usable_history (harmonics2400 (pitch2400 voice_bits)) rising /\
  logs [1; 2; 18] (mbe_decodeAmbe2450Parms wave_oracle voice_bits ambe_initial rising) =
    [Ok (S754_finite true 14414104 (-22)); Ok (S754_finite true 10714266 (-22)); Ok (S754_finite false 10341994 (-21))] /\
  logs [1; 2; 17] (mbe_decodeAmbe2400Parms wave_oracle voice_bits ambe_initial rising) =
    [Ok (S754_finite true 8681246 (-20)); Ok (S754_finite true 15292674 (-21)); Ok (S754_finite false 12572710 (-22))].
Proof.
  split; [exact (proj1 C20_case)|]. split; [vm_compute; intuition discriminate|]. split; [reflexivity|].
  split; [split; [repeat split; reflexivity|left; vm_compute; split; discriminate]|]. split; [split; [repeat split; reflexivity|left; vm_compute; split; discriminate]|].
  split; vm_compute; reflexivity.
Qed.

(* C63: IMBE processing does not read parameter bit 87, AMBE 2400 processing does not read parameter bit 24 ... *)
Theorem C63_imbe : forall o a buf e2 d d' st uv c0 cv t, same_but 87 d d' ->
  mbe_processImbe4400Dataf_withC0 o a buf e2 d st uv c0 cv t = mbe_processImbe4400Dataf_withC0 o a buf e2 d' st uv c0 cv t.
Proof. exact imbe_but. Qed.
Print Assumptions C63_imbe.
Theorem C63_2400 : forall o a buf e e2 d d' st uv t, same_but 24 d d' ->
  mbe_processAmbe2400Dataf o a buf e e2 d st uv t = mbe_processAmbe2400Dataf o a buf e e2 d' st uv t.
Proof. exact ambe2400_but. Qed.
Print Assumptions C63_2400.
(* ... and the fields of an AMBE voice frame use every other bit exactly once *)
Theorem C63_fields : Permutation (concat fields2450) (map Z.of_nat (seq 0 49)) /\ Permutation (24 :: concat fields2400) (map Z.of_nat (seq 0 49)).
Proof. split; [exact fields2450_all|exact fields2400_all]. Qed.
Print Assumptions C63_fields.
Definition flip24 (d : list Z) : list Z := firstn 24 d ++ [1 - nth 24 d 0] ++ skipn 25 d.
Example C63_case : nth 24 voice_bits 0 = 1 /\ nth 24 (flip24 voice_bits) 0 = 0 /\
  logs [1] (mbe_decodeAmbe2400Parms wave_oracle (flip24 voice_bits) ambe_initial rising) = logs [1] (mbe_decodeAmbe2400Parms wave_oracle voice_bits ambe_initial rising) /\
  logs [1] (mbe_decodeAmbe2450Parms wave_oracle (flip24 voice_bits) ambe_initial rising) <> logs [1] (mbe_decodeAmbe2450Parms wave_oracle voice_bits ambe_initial rising).
Proof. split; [reflexivity|]. split; [reflexivity|]. split; vm_compute; [reflexivity|discriminate]. Qed.
