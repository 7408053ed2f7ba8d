(* Tone synthesis when products and additions may be fused (MFma), for frame i of a stream: a choice for every frame and for every sample. *)
From Coq Require Import ZArith List Bool.
From Verif Require Import Res F32 Build MParms MUnvoiced MSynth MFma MRate.
Import ListNotations.
Local Open Scope Z_scope.

(* a b + c in double precision, rounded once; as ffma of MFma *)
Definition dfma (a b c : f64) : f64 :=
  match a, b, c with
  | S754_finite sa ma ea, S754_finite sb mb eb, S754_finite sc mc ec =>
      let e := Z.min (ea + eb) ec in
      let p := (if xorb sa sb then Z.neg (ma * mb) else Z.pos (ma * mb)) * 2 ^ (ea + eb - e) in
      let z := p + (if sc then Z.neg mc else Z.pos mc) * 2 ^ (ec - e) in
      binary_normalize 53 1024 z e false
  | S754_finite _ _ _, S754_finite _ _ _, S754_infinity s => c
  | S754_finite _ _ _, S754_finite _ _ _, S754_zero _ => dmul a b
  | _, _, _ => dadd c (dmul a b)
  end.

(* mbelib.c:531-538, mbe_tonePhaseStep: the product may be fused with the addition of 0.5 *)
Definition mbe_tonePhaseStep_c (fused : bool) (freq : f64) : res Z :=
  let q := ddiv freq (d_of_Z 8000) in
  let step := dmul q TONE_PHASE_SCALE in
  if SFleb step fzero then Ok 0
  else sf_to_u32 (if fused then dfma q TONE_PHASE_SCALE (dlit 1 2) else dadd step (dlit 1 2)).

(* mbelib.c:540-544, mbe_toneSampleFromPhase *)
Definition mbe_toneSampleFromPhase_c (fused : bool) (o : oracle) (phase : Z) : f32 :=
  sinf o (d2f (if fused then dfma (d_of_Z phase) TONE_RAD_PER_TICK (SFopp HALF_PI_D)
               else dsub (dmul (d_of_Z phase) TONE_RAD_PER_TICK) HALF_PI_D)).

(* mbelib.c:716-745, mbe_renderTonef.  Simplification: freq2 - freq1 is not fused with the product 31.25f * tone_id, which is exact *)
Definition mbe_renderTonef_c (k : contraction) (i : Z) (o : oracle) (aout : list f32) (cur : parms) (freq1 freq2 : f32) (ad : Z)
  : res (list f32 * parms) :=
  if fle freq1 fzero then aout <- mbe_synthesizeSilencef aout ;; Ok (aout, cur)
  else
    let dual := is_dual freq1 freq2 in
    let gain := tone_gain ad in
    step1 <- mbe_tonePhaseStep_c (k 30 i) (f2d freq1) ;;
    step2 <- (if dual then mbe_tonePhaseStep_c (k 31 i) (f2d freq2) else Ok 0) ;;
    '(aout, phase1, phase2) <- for_up 0 160 (fun n '(aout, phase1, phase2) =>
      let phase1 := to_u32 (phase1 + step1) in
      let s1 := mbe_toneSampleFromPhase_c (k 32 (160 * i + n)) o phase1 in
      if dual then
        let phase2 := to_u32 (phase2 + step2) in
        let s2 := mbe_toneSampleFromPhase_c (k 33 (160 * i + n)) o phase2 in
        aout <- wr aout n (mix_c k (160 * i + n) (fmul fhalf gain) s1 (fmul fhalf gain) s2) ;;
        Ok (aout, phase1, phase2)
      else aout <- wr aout n (fmul gain s1) ;; Ok (aout, phase1, phase2))
      (aout, to_u32 (p_swn cur), to_u32 (p_un cur)) ;;
    Ok (aout, set_un (to_i32 phase2) (set_swn (to_i32 phase1) cur)).

(* mbelib.c:753-807, mbe_synthesizeTonef: as in MSynth with the rendering above *)
Definition mbe_synthesizeTonef_c (k : contraction) (i : Z) (o : oracle) (aout : list f32) (d : list Z) (cur : parms) : res (list f32 * parms) :=
  if negb (o_tones o) then aout <- mbe_synthesizeSilencef aout ;; Ok (aout, cur) else
  u0 <- load_field d 0 12 ;;
  u1 <- load_field d 12 24 ;;
  _ <- load_field d 24 35 ;;
  u3 <- load_field d 35 49 ;;
  let AD := Z.shiftl (Z.land u0 63) 1 + Z.land (Z.shiftr u3 4) 1 in
  let ID1 := Z.shiftr (Z.land u1 4095) 4 in
  match mbe_lookupToneFreqs ID1 with
  | None => aout <- mbe_synthesizeSilencef aout ;; Ok (aout, cur)
  | Some (f1, f2) => mbe_renderTonef_c k i o aout cur f1 f2 AD
  end.

(* mbelib.c:816-854, mbe_synthesizeTonefdstar *)
Definition mbe_synthesizeTonefdstar_c (k : contraction) (i : Z) (o : oracle) (aout : list f32) (cur : parms) (id : Z) : res (list f32 * parms) :=
  if negb (o_tones o) then aout <- mbe_synthesizeSilencef aout ;; Ok (aout, cur) else
  let f := dstar_freq id in
  if fle f fzero then aout <- mbe_synthesizeSilencef aout ;; Ok (aout, cur)
  else mbe_renderTonef_c k i o aout cur f f 103.

(* consecutive frames from frame i on; not in the source *)
Fixpoint tone_frames_c (k : contraction) (i : Z) (o : oracle) (fs : list (list Z * list f32)) (cur : parms) : res (list (list f32) * parms) :=
  match fs with
  | [] => Ok ([], cur)
  | (d, buf) :: fs => '(b, cur) <- mbe_synthesizeTonef_c k i o buf d cur ;; '(r, cur) <- tone_frames_c k (i + 1) o fs cur ;; Ok (b :: r, cur)
  end.
Fixpoint dstar_frames_c (k : contraction) (i : Z) (o : oracle) (id : Z) (bufs : list (list f32)) (cur : parms) : res (list (list f32) * parms) :=
  match bufs with
  | [] => Ok ([], cur)
  | buf :: bufs => '(b, cur) <- mbe_synthesizeTonefdstar_c k i o buf cur id ;; '(r, cur) <- dstar_frames_c k (i + 1) o id bufs cur ;; Ok (b :: r, cur)
  end.
