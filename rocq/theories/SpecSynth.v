(* Specification of error-driven smoothing and of speech synthesis, as formulas in single precision, independent of the model. *)
From Coq Require Import ZArith List Bool.
From Verif Require Import Res F32 MParms SpecAdaptive SpecGen SpecWola SpecOut SpecSum SpecAmp.
Import ListNotations.
Local Open Scope Z_scope.

Definition zero : f32 := S754_zero false.
Definition cell {A} (d : A) (l : list A) (i : Z) : A := nth (Z.to_nat i) l d.
(* a 57-entry array in which the entries from lo to hi are replaced *)
Definition replaced {A} (d : A) (lo hi : Z) (f : Z -> A) (old : list A) : list A :=
  map (fun i => let l := Z.of_nat i in if (lo <=? l) && (l <=? hi) then f l else nth i old d) (seq 0 57).

(* ---- smoothing ---- *)
(* the energy of the frame: the one before enhancement, when the decoder left it for this set, or that of the amplitudes *)
Definition frame_energy (t : tls) (a : Z) (cur : parms) : f32 :=
  if pending t a then t_rm0 t else energy_sum (bands (p_Ml cur) (p_L cur)).
(* the running energy: 0.95 of the previous one (75000 if that is below 10000) and 0.05 of the new one, at least 10000 *)
Definition running_energy (before now : f32) : f32 :=
  let b := if flt before (f_of_Z 10000) then f_of_Z 75000 else before in
  let e := fadd (fmul (flit 95 100) b) (fmul (flit 5 100) now) in
  if flt e (f_of_Z 10000) then f_of_Z 10000 else e.
(* amplitudes above this become voiced *)
Definition voicing_limit (o : oracle) (rate : f32) (total count4 : Z) (energy : f32) : f32 :=
  let root8 := fsqrt (fsqrt (fsqrt energy)) in
  let e := fmul (fmul root8 root8) root8 in
  if fle rate (flit 5 1000) && (total <=? 4) then S754_finite false 16777215 104
  else if fle rate (flit 125 10000) && (count4 =? 0) then fdiv (fmul (flit 45255 1000) e) (expf o (fmul (flit 27726 100) rate))
  else fmul (flit 1414 1000) e.
(* the limit on the sum of the amplitudes *)
Definition amplitude_limit (rate : f32) (total before : Z) : Z :=
  if fle rate (flit 5 1000) && (total <=? 6) then 20480
  else 6000 - 300 * total + (if before <=? 0 then 20480 else before).
Definition smoothing_result (o : oracle) (energy : f32) (cur prev : parms) : parms :=
  let e := running_energy (p_localEnergy prev) energy in
  let v := voicing_limit o (p_errorRate cur) (p_errorCountTotal cur) (p_errorCount4 cur) e in
  let T := amplitude_limit (p_errorRate cur) (p_errorCountTotal cur) (p_amplitudeThreshold prev) in
  let sum := float_sum (bands (p_Ml cur) (p_L cur)) in
  set_localEnergy e (set_amplitudeThreshold T
    (set_Vl (replaced 0 1 (p_L cur) (fun l => if fgt (cell zero (p_Ml cur) l) v then 1 else cell 0 (p_Vl cur) l) (p_Vl cur))
    (set_Ml (if fgt sum (f_of_Z T) && fgt sum zero
             then replaced zero 1 (p_L cur) (fun l => fmul (cell zero (p_Ml cur) l) (fdiv (f_of_Z T) sum)) (p_Ml cur)
             else p_Ml cur) cur))).

(* ---- noise ---- *)
(* 256 samples: the overlap and 160 values of the generator; a cold start gives zeros *)
Definition noise_of (seed : f32) (overlap : list f32) : list f32 :=
  if cold seed then repeat zero 256 else overlap ++ map (fun i => f_of_Z (lcg_state (whole_part seed) i)) (seq 0 160).
Definition next_seed (seed : f32) (t : tls) : f32 :=
  if cold seed then f_of_Z (cold_seed t) else f_of_Z (lcg_state (whole_part seed) 160).
(* the thread state without the seed of the next cold start *)
Definition seed_taken (t : tls) : tls :=
  mktls (t_rng t) (t_seed48 t) (t_seeded t) (t_rm0 t) (t_rm0_valid t) (t_rm0_owner t) (t_uv_seed t) false.

(* ---- phases ---- *)
Definition wrap (x : f32) : f32 := let w := ffmod x two_pi in if flt w zero then fadd w two_pi else w.
(* how many of the entries 0 .. L of the voicing array are 0 *)
Definition unvoiced_count (m : parms) : Z := Z.of_nat (length (filter (Z.eqb 0) (firstn (Z.to_nat (p_L m + 1)) (p_Vl m)))).
(* a noise value of 0 .. 53124 as an angle of -pi .. pi *)
Definition noise_angle (u : f32) : f32 := fsub (fmul (fdiv two_pi (f_of_Z 53125)) u) (d2f M_PI).
Definition phase (cur prev : parms) (l : Z) : f32 := advance (p_w0 cur) (p_w0 prev) l (wrap (cell zero (p_PSIl prev) l)).
(* harmonics above a quarter of L get a random part *)
Definition voice_phase (cur prev : parms) (noise : list f32) (l : Z) : f32 :=
  if l <=? p_L cur / 4 then phase cur prev l
  else fadd (phase cur prev l) (fdiv (fmul (f_of_Z (unvoiced_count cur)) (noise_angle (cell zero noise l))) (f_of_Z (p_L cur))).

(* ---- voiced part ---- *)
(* the fading window, in millionths: 0, a ramp over 50 samples, 1, a ramp over 50 samples, 0 *)
Definition fade_micro (i : Z) : Z :=
  if i <=? 55 then 0 else if i <=? 105 then 20000 * (i - 55) else if i <=? 215 then 1000000
  else if i <=? 265 then 20000 * (265 - i) else 0.
Definition fade (i : Z) : f32 := d2f (dlit (fade_micro i) 1000000).
(* one step of a digital oscillator: a rotation of (cosine, sine) *)
Definition rotate (c1 s1 : f32) (p : f32 * f32) : f32 * f32 :=
  (fsub (fmul (fst p) c1) (fmul (snd p) s1), fadd (fmul (snd p) c1) (fmul (fst p) s1)).
Definition oscillator (o : oracle) (start step : f32) (n : nat) : f32 :=
  fst (Nat.iter n (rotate (cosf o step) (sinf o step)) (cosf o start, sinf o start)).
(* twice the product of window, amplitude and oscillator; the scalar and the vector builds multiply in different orders *)
Definition faded (o : oracle) (w amp start step : f32) (n : nat) : f32 :=
  if lanes4 (o_simd o) then fmul (fmul (oscillator o start step n) w) (fmul (f_of_Z 2) amp)
  else fmul (fmul (fmul (f_of_Z 2) w) amp) (oscillator o start step n).
(* both ends voiced and the pitch steady: phase and amplitude interpolated over the frame *)
Definition glide (o : oracle) (l : Z) (cw0 pw0 pc pp mc mp : f32) (n : Z) : f32 :=
  let pi := d2f M_PI in
  let dphi := fsub (fsub pc pp) (fdiv (fmul (fadd pw0 cw0) (f_of_Z (l * 160))) (f_of_Z 2)) in
  let dw := fmul (fdiv (f_of_Z 1) (f_of_Z 160)) (fsub dphi (fmul two_pi (ffloor (fdiv (fadd dphi pi) two_pi)))) in
  let theta := fadd (fadd pp (fmul (fadd (fmul pw0 (f_of_Z l)) dw) (f_of_Z n)))
                    (fdiv (fmul (fsub cw0 pw0) (f_of_Z (l * n * n))) (f_of_Z 320)) in
  let amp := fadd mp (fmul (fdiv (f_of_Z n) (f_of_Z 160)) (fsub mc mp)) in
  fmul (fmul (f_of_Z 2) amp) (cosf o theta).
Definition steady (cw0 pw0 : f32) : bool := flt (fabs (fsub cw0 pw0)) (fmul (flit 1 10) cw0).
(* what harmonic l adds to sample n, in order *)
Definition harmonic_terms (o : oracle) (cur prev : parms) (l : Z) (n : nat) : list f32 :=
  let vc := cell 0 (p_Vl cur) l =? 1 in
  let vp := cell 0 (p_Vl prev) l =? 1 in
  let pc := cell zero (p_PHIl cur) l in
  let pp := cell zero (p_PHIl prev) l in
  let mc := cell zero (p_Ml cur) l in
  let mp := cell zero (p_Ml prev) l in
  let wc := fmul (p_w0 cur) (f_of_Z l) in
  let wp := fmul (p_w0 prev) (f_of_Z l) in
  if (l <? 8) && vc && vp && steady (p_w0 cur) (p_w0 prev) then [glide o l (p_w0 cur) (p_w0 prev) pc pp mc mp (Z.of_nat n)]
  else (if vp then [faded o (fade (Z.of_nat n + 160)) mp pp wp n] else []) ++
       (if vc then [faded o (fade (Z.of_nat n)) mc (fsub pc (fmul wc (f_of_Z 160))) wc n] else []).
Definition voiced_sample (o : oracle) (cur prev : parms) (n : nat) : f32 :=
  fold_left fadd (flat_map (fun l => harmonic_terms o cur prev l n) (upto (Z.max (p_L cur) (p_L prev)))) zero.

(* ---- unvoiced part ---- *)
Definition windowed (noise : list f32) : list f32 := map (fun i => fmul (nth i noise zero) (window (Z.of_nat i - 128))) (seq 0 256).
(* the power of a bin of an ordered real transform: bin 0 is real *)
Definition bin_power (x : list f32) (bin : Z) : f32 :=
  if bin =? 0 then fmul (cell zero x 0) (cell zero x 0)
  else fadd (fmul (cell zero x (2 * bin)) (cell zero x (2 * bin))) (fmul (cell zero x (2 * bin + 1)) (cell zero x (2 * bin + 1))).
Definition band_low (cur : parms) (l : Z) : Z := band_edge (p_w0 cur) (l - 1).
Definition band_high (cur : parms) (l : Z) : Z := Z.min 128 (band_edge (p_w0 cur) l).
Definition bin_powers (x : list f32) (lo hi : Z) : list f32 :=
  map (fun k => bin_power x (lo + Z.of_nat k)) (seq 0 (Z.to_nat (hi - lo))).
(* the power of the bins lo .. hi - 1: added in order, or bin 0 first, then the squares of as many groups of four bins as
   there are in four lanes, then the bins that are left *)
Definition band_power (simd : build) (x : list f32) (lo hi : Z) : f32 :=
  if lanes4 simd then
    let from := Z.max lo 1 in
    let groups := Z.max 0 (hi - from) / 4 in
    let first := fold_left fadd (bin_powers x lo (Z.min hi from)) zero in
    let squares := map (fun k => let y := cell zero x (2 * from + Z.of_nat k) in fmul y y) (seq 0 (Z.to_nat (8 * groups))) in
    fold_left fadd (bin_powers x (from + 4 * groups) hi) (if groups =? 0 then first else fadd first (add_all simd squares))
  else fold_left fadd (bin_powers x lo hi) zero.
(* an unvoiced band is scaled to 146.17696 times its amplitude per root mean square; all else is removed *)
Definition band_gain (simd : build) (x : list f32) (cur : parms) (l : Z) : f32 :=
  let lo := band_low cur l in
  let hi := band_high cur l in
  if (cell 0 (p_Vl cur) l =? 0) && fgt (band_power simd x lo hi) (flit 1 10000000000)
  then fdiv (fmul (flit 14617696 100000) (cell zero (p_Ml cur) l)) (fsqrt (fdiv (band_power simd x lo hi) (f_of_Z (hi - lo))))
  else zero.
Definition bin_gain (simd : build) (x : list f32) (cur : parms) (bin : Z) : f32 :=
  match find (fun l => (band_low cur l <=? bin) && (bin <? band_high cur l)) (upto (p_L cur)) with
  | Some l => band_gain simd x cur l
  | None => zero
  end.
(* the bin held at position i of an ordered real transform of 256 points *)
Definition bin_at (i : Z) : Z := if i =? 0 then 0 else if i =? 1 then 128 else i / 2.
Definition shaped (simd : build) (x : list f32) (cur : parms) : list f32 :=
  map (fun i => fmul (nth i x zero) (bin_gain simd x cur (bin_at (Z.of_nat i)))) (seq 0 256).
Definition noise_wave (o : oracle) (cur : parms) (noise : list f32) : list f32 :=
  map (fun x => fmul x (fdiv (f_of_Z 1) (f_of_Z 256))) (fft_bwd o (shaped (o_simd o) (fft_fwd o (windowed noise)) cur)).

(* ---- the frame ---- *)
Definition clip (x : f32) : f32 :=
  if fgt x sample_limit then sample_limit else if flt x (fopp sample_limit) then fopp sample_limit else x.
(* the two sets as synthesis leaves them; cur is the smoothed set.  Harmonics only the other frame has: amplitude 0, voiced *)
Definition extended (to : Z) (m : parms) : parms :=
  set_Ml (replaced zero (p_L m + 1) to (fun _ => zero) (p_Ml m)) (set_Vl (replaced 0 (p_L m + 1) to (fun _ => 1) (p_Vl m)) m).
Definition spoken_prev (cur prev : parms) : parms :=
  extended (p_L cur) (set_PSIl (replaced zero 1 56 (fun l => wrap (cell zero (p_PSIl prev) l)) (p_PSIl prev)) prev).
Definition spoken_voice (cur prev : parms) (t : tls) : parms :=
  let noise := noise_of (p_noiseSeed cur) (p_noiseOverlap cur) in
  set_PSIl (replaced zero 1 56 (phase cur prev) (p_PSIl cur))
    (set_PHIl (replaced zero 1 56 (voice_phase cur prev noise) (p_PHIl cur))
    (set_noiseOverlap (skipn 160 noise) (set_noiseSeed (next_seed (p_noiseSeed cur) t) (extended (p_L prev) cur)))).
Definition spoken_cur (o : oracle) (cur prev : parms) (t : tls) : parms :=
  let c := spoken_voice cur prev t in
  if o_plan o then set_previousUw (noise_wave o cur (noise_of (p_noiseSeed cur) (p_noiseOverlap cur))) c else c.
Definition spoken_sample (o : oracle) (cur prev : parms) (t : tls) (n : nat) : f32 :=
  let v := voiced_sample o (spoken_voice cur prev t) (spoken_prev cur prev) n in
  clip (if o_plan o then fadd v (overlap_term (p_previousUw prev) (noise_wave o cur (noise_of (p_noiseSeed cur) (p_noiseOverlap cur))) (Z.of_nat n))
        else v).
Definition spoken (o : oracle) (cur prev : parms) (t : tls) : list f32 * parms * parms * tls :=
  (map (spoken_sample o cur prev t) (seq 0 160), spoken_cur o cur prev t, spoken_prev cur prev,
   if cold (p_noiseSeed cur) then seed_taken t else t).

(* the generator's seed: a cold start, or a value of the generator *)
Definition generator_seed (seed : f32) : Prop := cold seed = true \/ exists z, 0 <= z < 53125 /\ seed = f_of_Z z.
