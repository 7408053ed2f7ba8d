(* Specification of the AMBE process calls as a state machine over frames, independent of the model: the kinds of
   frames, which of them are concealed, and what each kind does to the three parameter sets. *)
From Coq Require Import ZArith List Bool.
From Verif Require Import Res F32 MParms MAdaptive MImbe MAmbe SpecEcc SpecFrame SpecState SpecAmbe SpecTone SpecMachine.
Import ListNotations.
Local Open Scope Z_scope.

(* the filtered error rate after a frame with n errors *)
Definition ambe_rate (prev : f32) (n : Z) : f32 := fadd (fmul (flit 95 100) prev) (fmul (flit 1064 1000000) (f_of_Z n)).
(* a parameter set whose muting threshold is not the AMBE one: more than 1e-6 from 0.096 *)
Definition foreign (m : parms) : bool := fgt (fabs (fsub (p_mutingThreshold m) (flit 96 1000))) (flit 1 1000000).
(* an AMBE call on such a state starts from AMBE initialisation *)
Definition begin (st : dstate) : dstate := if foreign (prev_of st) then start_ambe else st.
Definition ambe_threshold (m : parms) : Prop := p_mutingThreshold m = flit 96 1000.

(* one call: parameter bits, total errors, errors of the first code word (if known), quality, output buffer *)
Record ambe_call := mkambe_call { ac_bits : list Z; ac_errors : Z; ac_c0 : Z; ac_known : bool; ac_uv : Z; ac_buf : list f32 }.
Definition ambe_ok (c : ambe_call) : Prop := is_bits 49 (ac_bits c) /\ 0 <= ac_errors c <= 100 /\ length (ac_buf c) = 160%nat.

(* the error fields every frame starts with *)
Definition with_errors (n : Z) (rate : f32) (m : parms) : parms :=
  set_errorRate rate (set_errorCount4 0 (set_errorCountTotal n (set_mutingThreshold (flit 96 1000) m))).
Definition no_repeats (m : parms) : parms := set_repeatCount 0 (set_repeat 0 m).
Definition one_more (m : parms) : parms := set_repeatCount (p_repeatCount m + 1) (set_repeat (p_repeat m + 1) m).
(* the erased parameter set: no pitch, nine unvoiced bands of amplitude one; phases and noise state of the frame before *)
Definition erased (cur prev : parms) : parms := {|
  p_w0 := S754_zero false; p_L := 9; p_K := 0;
  p_Vl := repeat 0 57; p_Ml := repeat (flit 1 1) 57; p_log2Ml := repeat (S754_zero false) 57;
  p_PHIl := p_PHIl prev; p_PSIl := p_PSIl prev;
  p_gamma := S754_zero false; p_un := 0; p_repeat := 0; p_swn := 0;
  p_localEnergy := flit 75000 1; p_amplitudeThreshold := 20480; p_errorRate := p_errorRate cur;
  p_errorCountTotal := p_errorCountTotal cur; p_errorCount4 := p_errorCount4 cur; p_repeatCount := 0; p_mutingThreshold := p_mutingThreshold cur;
  p_previousUw := p_previousUw prev; p_noiseSeed := p_noiseSeed prev; p_noiseOverlap := p_noiseOverlap prev |}.

(* ---- 2450 ---- *)
Inductive kind := Voice | Erasure | Tone (hz : Z * Z) | UnknownTone.
Definition same_list (a b : list Z) : bool := if list_eq_dec Z.eq_dec a b then true else false.
Definition signature (d : list Z) : bool :=
  same_list (firstn 6 d) [1; 1; 1; 1; 1; 1] && (same_list (slice 45 4 d) [0; 0; 0; 0] || same_list (slice 12 4 d) (slice 20 4 d)).
Definition kind2450 (d : list Z) (n : Z) : kind :=
  if signature d && (n <? 6) then match tone_hz (tone_id d) with Some hz => Tone hz | None => UnknownTone end
  else if (120 <=? pitch2450 d) && (pitch2450 d <=? 123) || (126 <=? pitch2450 d) then Erasure else Voice.
(* must a voice frame be concealed? *)
Definition needs2450 (n : Z) (c0 : option Z) : bool :=
  match c0 with Some c => (4 <=? c) || (2 <=? c) && (6 <=? n) | None => 3 <? n end.
(* consecutive concealed frames: 1, 2, 3, then the reset *)
Definition next_ambe (need : bool) (c : Z) : Z := if need then (if c <? 3 then c + 1 else 0) else 0.
Definition do2450 (o : oracle) (a : Z) (c : ambe_call) (st : dstate) (t : tls) : res (list f32 * list Z * dstate * tls) :=
  mbe_processAmbe2450Dataf_internal o a (ac_buf c) (ac_errors c) (ac_bits c) st (ac_uv c) (ac_c0 c) (ac_known c) t.
Definition kind_of (c : ambe_call) : kind := kind2450 (ac_bits c) (ac_errors c).
Definition needs_of (c : ambe_call) : bool := needs2450 (ac_errors c) (context (ac_c0 c) (ac_known c)).

(* ---- 2400 ---- *)
Definition do2400 (o : oracle) (a : Z) (c : ambe_call) (st : dstate) (t : tls) : res (list f32 * list Z * dstate * tls) :=
  mbe_processAmbe2400Dataf o a (ac_buf c) (ac_c0 c) (ac_errors c) (ac_bits c) st (ac_uv c) t.
Definition voice2400 (c : ambe_call) : bool := pitch2400 (ac_bits c) <? 126.
Definition needs2400 (c : ambe_call) : bool := 3 <? ac_errors c.

(* ---- streams ---- *)
Fixpoint ambe_stream (f : ambe_call -> dstate -> tls -> res (list f32 * list Z * dstate * tls)) (cs : list ambe_call) (st : dstate) (t : tls)
  : res (list (list f32 * list Z) * dstate * tls) :=
  match cs with
  | [] => Ok ([], st, t)
  | c :: cs => '(b, s, st, t) <- f c st t ;; '(r, st, t) <- ambe_stream f cs st t ;; Ok ((b, s) :: r, st, t)
  end.
(* the same spectral model: pitch, voicing, gain and the amplitudes of the bands present *)
Definition same_bands (m m' : parms) : Prop :=
  p_w0 m' = p_w0 m /\ p_L m' = p_L m /\ p_K m' = p_K m /\ p_Vl m' = p_Vl m /\ p_gamma m' = p_gamma m /\
  forall l, 1 <= l <= p_L m -> rd (p_Ml m') l = rd (p_Ml m) l /\ rd (p_log2Ml m') l = rd (p_log2Ml m) l.
(* the status string: one = per error, the markers, NUL *)
Definition status (n : Z) (mark : list Z) : list Z := repeat 61 (Z.to_nat n) ++ mark ++ [0].
(* the samples are comfort noise *)
Definition noise (buf : list f32) (t : tls) (b : list f32) : Prop := exists t1, mbe_synthesizeComfortNoisef buf t = Ok (b, t1).
(* what a spoken voice frame of model m leaves: m is the new history, and the current set is its synthesised form *)
Definition spoken (m : parms) (st' : dstate) : Prop := prev_of st' = m /\ enh_of st' = cur_of st' /\
  p_w0 (cur_of st') = p_w0 m /\ p_L (cur_of st') = p_L m /\ p_repeatCount (cur_of st') = p_repeatCount m /\ p_mutingThreshold (cur_of st') = p_mutingThreshold m /\ p_errorRate (cur_of st') = p_errorRate m.
(* the decoded model of a voice frame of L harmonics and pitch w0 with n errors, after a state (c, p, _) *)
Definition fresh_model (L : Z) (w0 dg : f32) (n : Z) (c p m : parms) : Prop :=
  p_L m = L /\ p_w0 m = w0 /\ p_gamma m = fadd dg (fmul (flit 1 2) (p_gamma p)) /\ p_repeat m = 0 /\ p_repeatCount m = 0 /\ p_errorCountTotal m = n /\ p_errorCount4 m = 0 /\ p_errorRate m = ambe_rate (p_errorRate p) n /\ ambe_threshold m /\
  p_noiseSeed m = p_noiseSeed c /\ p_previousUw m = p_previousUw c /\ p_noiseOverlap m = p_noiseOverlap c /\ p_amplitudeThreshold m = p_amplitudeThreshold c.
(* the model of a concealed frame *)
Definition kept_model (p m : parms) : Prop :=
  same_bands p m /\ p_repeat m = p_repeat p + 1 /\ p_repeatCount m = p_repeatCount p + 1 /\ p_errorCountTotal m = p_errorCountTotal p /\ p_errorCount4 m = p_errorCount4 p /\ p_errorRate m = p_errorRate p /\ p_mutingThreshold m = p_mutingThreshold p /\
  p_noiseSeed m = p_noiseSeed p /\ p_previousUw m = p_previousUw p /\ p_noiseOverlap m = p_noiseOverlap p /\ p_amplitudeThreshold m = p_amplitudeThreshold p.
(* a voice frame: concealed, concealed for the fourth time, or decoded *)
Definition voice_step (need : bool) (n L : Z) (w0 dg : f32) (buf : list f32) (c p : parms) (t : tls) (b : list f32) (str : list Z) (st' : dstate) : Prop :=
  if need then
    if p_repeatCount p <? 3 then str = status n [82] /\ kept_model p (prev_of st') /\ spoken (prev_of st') st'
    else str = status n [82; 77] /\ st' = start_ambe /\ noise buf t b
  else str = status n [] /\ fresh_model L w0 dg n c p (prev_of st') /\ spoken (prev_of st') st'.
(* what a 2450 call does from the state (c, p, e), by kind of frame *)
Definition step2450 (o : oracle) (cl : ambe_call) (c p e : parms) (t : tls) (b : list f32) (str : list Z) (st' : dstate) : Prop :=
  let n := ac_errors cl in let d := ac_bits cl in
  match kind_of cl with
  | Voice => voice_step (needs_of cl) n (harmonics2450 (pitch2450 d)) (w0_2450 (pitch2450 d)) (gain2450 d) (ac_buf cl) c p t b str st'
  | Erasure => str = status n [69] /\ noise (ac_buf cl) t b /\ let m := erased (with_errors n (ambe_rate (p_errorRate p) n) c) p in st' = (m, m, m)
  | Tone hz => str = status n [84] /\ b = tone_heard o hz (tone_amp d) c /\
      st' = (tone_turned o hz c (no_repeats (with_errors n (ambe_rate (p_errorRate p) n) c)), p, e)
  | UnknownTone => str = status n [84] /\
      if p_repeatCount p <? 4 then prev_of st' = p /\ cur_of st' = no_repeats (with_errors n (ambe_rate (p_errorRate p) n) c) /\
           p_w0 (enh_of st') = p_w0 e /\ p_L (enh_of st') = p_L e /\ p_repeatCount (enh_of st') = p_repeatCount e /\ p_mutingThreshold (enh_of st') = p_mutingThreshold e /\ p_errorRate (enh_of st') = p_errorRate e
      else st' = start_ambe /\ noise (ac_buf cl) t b
  end.
(* what a 2400 call does: voice, or comfort noise and a reset for every frame of the tone class *)
Definition marker2400 (cl : ambe_call) : list Z :=
  let id := tone2400 (ac_bits cl) in
  if (5 <=? id) && (id <=? 122) then
    if (7 <=? id) && (ac_c0 cl <? 2) && (ac_errors cl <? 3) then [] else if 3 <? ac_errors cl then [82] else []
  else [84].
Definition step2400 (o : oracle) (cl : ambe_call) (c p e : parms) (t : tls) (b : list f32) (str : list Z) (st' : dstate) : Prop :=
  let n := ac_errors cl in let d := ac_bits cl in
  if voice2400 cl then voice_step (needs2400 cl) n (harmonics2400 (pitch2400 d)) (radians (exp2f o (exponent2400 (pitch2400 d)))) (gain2400 d) (ac_buf cl) c p t b str st'
  else str = status n (marker2400 cl) /\ noise (ac_buf cl) t b /\ st' = start_ambe.

(* both rates as one *)
Inductive codec := R2450 | R2400.
Definition do_ambe (r : codec) := match r with R2450 => do2450 | R2400 => do2400 end.
Definition harmonics (r : codec) (d : list Z) : Z := match r with R2450 => harmonics2450 (pitch2450 d) | R2400 => harmonics2400 (pitch2400 d) end.
(* exp2f is accurate at the pitch codes; 2450 does not use it for the pitch *)
Definition good_exp2 (o : oracle) (r : codec) : Prop := match r with R2450 => True | R2400 => forall b, 0 <= b < 126 -> exp2_close o (exponent2400 b) end.
Definition is_voice (r : codec) (c : ambe_call) : Prop := match r with R2450 => kind_of c = Voice | R2400 => voice2400 c = true end.
Definition needs (r : codec) (c : ambe_call) : bool := match r with R2450 => needs_of c | R2400 => needs2400 c end.
(* a call whose frame has at most 55 harmonics, if it is a voice frame *)
Definition few_bands (r : codec) (c : ambe_call) : Prop := is_voice r c -> harmonics r (ac_bits c) <= 55.
(* ---- the invariant of a decoder that has made an AMBE call ---- *)
Definition settled (st : dstate) : Prop := sane_state st /\ foreign (prev_of st) = false /\ p_repeatCount (prev_of st) <= 3 /\ p_repeatCount (cur_of st) <= 3 /\ p_repeatCount (enh_of st) <= 3.
(* voice frames that must be concealed; voice frames that are decoded, of at most 55 harmonics *)
Definition concealed (r : codec) (c : ambe_call) : Prop := ambe_ok c /\ is_voice r c /\ needs r c = true.
Definition plain_voice (r : codec) (c : ambe_call) : Prop := ambe_ok c /\ is_voice r c /\ needs r c = false /\ harmonics r (ac_bits c) <= 55.
