(* Model of /repo/src/core/mbelib.c:105-165, 266-1085: spectral enhancement, clipping, tones, silence, speech. *)
From Coq Require Import ZArith List Bool.
From Verif Require Import Res F32 TabSynth MParms MAdaptive MSse MUnvoiced.
Import ListNotations.
Local Open Scope Z_scope.

(* ---- spectral amplitude enhancement, mbelib.c:272-506 ---- *)

(* mbelib.c:281-294: cos(w0*l) by the angle-addition recurrence; mbe_sincosf is (sinf, cosf), mbe_math.h *)
Definition enh_cos_tab (o : oracle) (L : Z) (w0 : f32) : res (list (option f32)) :=
  let s_step := sinf o w0 in
  let c_step := cosf o w0 in
  '(tab, _, _) <- for_up 1 (L + 1) (fun l '(tab, c, s) =>
    let cn := fsub (fmul c c_step) (fmul s s_step) in
    let sn := fadd (fmul s c_step) (fmul c s_step) in
    tab <- wr tab l (Some cn) ;; Ok (tab, cn, sn)) (fresh 57, fone, fzero) ;;
  Ok tab.

(* mbelib.c:327-331, 362-366: from harmonic l on *)
Definition enh_energies_from (l L : Z) (Ml : list f32) (cos_tab : list (option f32)) (s : f32 * f32) : res (f32 * f32) :=
  for_up l (L + 1) (fun l '(rm0, rm1) =>
    m <- rd Ml l ;; c <- rdi cos_tab l ;;
    let m2 := fmul m m in
    Ok (fadd rm0 m2, fadd rm1 (fmul m2 c))) s.
(* mbelib.c:302-332, 334-356; l4 + 3 <= L holds for L / 4 rounds *)
Definition enh_energies_vec (simd : build) (L : Z) (Ml : list f32) (cos_tab : list (option f32)) : res (f32 * f32) :=
  '(vRm0, vRm1) <- loop (Z.to_nat (L / 4)) 1 4 (fun l4 '(vRm0, vRm1) =>
    vMl <- mm_loadu Ml l4 ;; vCos <- mm_loadui cos_tab l4 ;;
    let vMl2 := mm_mul vMl vMl in
    Ok (mm_add vRm0 vMl2, mm_add vRm1 (mm_mul vMl2 vCos))) (mm_setzero, mm_setzero) ;;
  enh_energies_from (1 + 4 * (L / 4)) L Ml cos_tab (hsum simd vRm0, hsum simd vRm1).
(* mbelib.c:298-367 *)
Definition enh_energies (simd : build) (L : Z) (Ml : list f32) (cos_tab : list (option f32)) : res (f32 * f32) :=
  if lanes4 simd && (4 <=? L) then enh_energies_vec simd L Ml cos_tab else enh_energies_from 1 L Ml cos_tab (fzero, fzero).

Definition f_096 : f32 := Eval vm_compute in flit 96 100.
Definition f_1p2 : f32 := Eval vm_compute in flit 12 10.
Definition f_two : f32 := Eval vm_compute in f_of_Z 2.
(* m != 0.0f *)
Definition fnonzero (m : f32) : bool := negb (SFeqb m fzero).

(* mbelib.c:381-383, Wl[l].  (float)0.96 is 0.96 rounded to double and then to float, which is 0.96f. *)
Definition enh_weight (m w0 rm0 rm1 c : f32) : f32 :=
  let r2m0 := fmul rm0 rm0 in
  let r2m1 := fmul rm1 rm1 in
  fmul (fsqrt m)
       (fsqrt (fsqrt (fdiv (fmul (fmul f_096 PI_F) (fsub (fadd r2m0 r2m1) (fmul (fmul (fmul f_two rm0) rm1) c)))
                           (fmul (fmul w0 rm0) (fsub r2m0 r2m1))))).

(* mbelib.c:384-392: the new Ml[l] *)
Definition enh_band (L l : Z) (m w : f32) : f32 :=
  if 8 * l <=? L then m
  else if fgt w f_1p2 then fmul f_1p2 m
  else if flt w fhalf then fmul fhalf m
  else fmul w m.

(* mbelib.c:418-424, 452-458: from harmonic l on *)
Definition enh_sum_from (l L : Z) (Ml : list f32) (s : f32) : res f32 :=
  for_up l (L + 1) (fun l sum =>
    m <- rd Ml l ;;
    let m := if flt m fzero then fopp m else m in
    Ok (fadd sum (fmul m m))) s.
(* mbelib.c:398-459; the vector paths are 401-425 and 427-447 *)
Definition enh_sum (simd : build) (L : Z) (Ml : list f32) : res f32 :=
  if lanes4 simd && (4 <=? L) then
    vsum <- loop (Z.to_nat (L / 4)) 1 4 (fun l4 vsum =>
      vMl <- mm_loadu Ml l4 ;;
      let vMl := mm_abs vMl in
      Ok (mm_add vsum (mm_mul vMl vMl))) mm_setzero ;;
    enh_sum_from (1 + 4 * (L / 4)) L Ml (hsum simd vsum)
  else enh_sum_from 1 L Ml fzero.

(* mbelib.c:480-482, 502-504: from harmonic l on *)
Definition enh_scale_from (l L : Z) (gamma : f32) (Ml : list f32) : res (list f32) :=
  for_up l (L + 1) (fun l Ml => m <- rd Ml l ;; wr Ml l (fmul gamma m)) Ml.
(* mbelib.c:467-505; the vector paths are 471-483 and 486-498 *)
Definition enh_scale (simd : build) (L : Z) (gamma : f32) (Ml : list f32) : res (list f32) :=
  if lanes4 simd && (4 <=? L) then
    Ml <- loop (Z.to_nat (L / 4)) 1 4 (fun l4 Ml => vMl <- mm_loadu Ml l4 ;; mm_storeu Ml l4 (mm_mul vMl (mm_set1 gamma))) Ml ;;
    enh_scale_from (1 + 4 * (L / 4)) L gamma Ml
  else enh_scale_from 1 L gamma Ml.

(* mbelib.c:272-506, mbe_spectralAmpEnhance; a is the address of cur_mp *)
Definition mbe_spectralAmpEnhance (o : oracle) (a : Z) (cur : parms) (t : tls) : res (parms * tls) :=
  let L := p_L cur in
  cos_tab <- enh_cos_tab o L (p_w0 cur) ;;
  '(rm0, rm1) <- enh_energies (o_simd o) L (p_Ml cur) cos_tab ;;
  let t := mbe_setPreEnhRm0 a rm0 t in
  Ml <- for_up 1 (L + 1) (fun l Ml =>
    m <- rd Ml l ;;
    if fnonzero m then
      c <- rdi cos_tab l ;;
      wr Ml l (enh_band L l m (enh_weight m (p_w0 cur) rm0 rm1 c))
    else Ok Ml) (p_Ml cur) ;;
  sum <- enh_sum (o_simd o) L Ml ;;
  let gamma := if SFeqb sum fzero then fone else fsqrt (fdiv rm0 sum) in
  Ml <- enh_scale (o_simd o) L gamma Ml ;;
  Ok (set_Ml Ml cur, t).

(* ---- soft clip, mbelib.c:509-529 ---- *)
Definition SOFT_CLIP : f32 := Eval vm_compute in fdiv (fmul (f_of_Z 32767) (flit 95 100)) (f_of_Z 7).
Definition mbe_clipFloatSample (x : f32) : f32 :=
  if fgt x SOFT_CLIP then SOFT_CLIP else if flt x (fopp SOFT_CLIP) then fopp SOFT_CLIP else x.
Definition mbe_clipFloatBuffer (samples : list f32) (count : Z) : res (list f32) :=
  for_up 0 count (fun i s => x <- rd s i ;; wr s i (mbe_clipFloatSample x)) samples.

(* ---- tones, mbelib.c:531-854 ---- *)

(* mbelib.c:531-538; double arithmetic; (uint32_t)(step + 0.5) *)
Definition TONE_PHASE_SCALE : f64 := Eval vm_compute in d_of_Z 4294967296.
Definition mbe_tonePhaseStep (freq : f64) : res Z :=
  let step := dmul (ddiv freq (d_of_Z 8000)) TONE_PHASE_SCALE in
  if SFleb step fzero then Ok 0 else sf_to_u32 (dadd step (dlit 1 2)).

(* mbelib.c:540-544 *)
Definition TONE_RAD_PER_TICK : f64 := Eval vm_compute in ddiv (dmul (d_of_Z 2) M_PI) TONE_PHASE_SCALE.
Definition HALF_PI_D : f64 := Eval vm_compute in ddiv M_PI (d_of_Z 2).
Definition mbe_toneSampleFromPhase (o : oracle) (phase : Z) : f32 :=
  sinf o (d2f (dsub (dmul (d_of_Z phase) TONE_RAD_PER_TICK) HALF_PI_D)).

(* mbelib.c:559-703, cases 128..163 of the switch: (identifier, (freq1, freq2)) in Hz *)
Definition dual_tones : list (Z * (Z * Z)) :=
[(128, (1336, 941)); (129, (1209, 697)); (130, (1336, 697)); (131, (1477, 697)); (132, (1209, 770)); (133,
  (1336, 770)); (134, (1477, 770)); (135, (1209, 852)); (136, (1336, 852)); (137, (1477, 852)); (138, (1633,
  697)); (139, (1633, 770)); (140, (1633, 852)); (141, (1633, 941)); (142, (1209, 941)); (143, (1477, 941));
  (144, (1162, 820)); (145, (1052, 606)); (146, (1162, 606)); (147, (1279, 606)); (148, (1052, 672)); (149,
  (1162, 672)); (150, (1279, 672)); (151, (1052, 743)); (152, (1162, 743)); (153, (1279, 743)); (154, (1430,
  606)); (155, (1430, 672)); (156, (1430, 743)); (157, (1430, 820)); (158, (1052, 820)); (159, (1279, 820));
  (160, (440, 350)); (161, (480, 440)); (162, (620, 480)); (163, (490, 350))].

Definition f_156p25 : f32 := Eval vm_compute in flit 15625 100.
Definition f_187p5 : f32 := Eval vm_compute in flit 1875 10.
Definition f_31p25 : f32 := Eval vm_compute in flit 3125 100.

(* mbelib.c:546-714, mbe_lookupToneFreqs: None when the function returns 0 *)
Definition tone_freqs (id : Z) : f32 * f32 :=
  if id =? 5 then (f_156p25, f_156p25)
  else if id =? 6 then (f_187p5, f_187p5)
  else match find (fun e => fst e =? id) dual_tones with
       | Some (_, (f1, f2)) => (f_of_Z f1, f_of_Z f2)
       | None =>
           if id =? 255 then (fzero, fzero)
           else if (7 <=? id) && (id <=? 122) then (fmul f_31p25 (f_of_Z id), fmul f_31p25 (f_of_Z id))
           else (fzero, fzero)
       end.
Definition mbe_lookupToneFreqs (id : Z) : option (f32 * f32) :=
  let '(f1, f2) := tone_freqs id in
  if fgt f1 fzero || fgt f2 fzero then Some (f1, f2) else None.

(* mbelib.c:860-865, mbe_synthesizeSilencef: memset of 160 samples *)
Definition mbe_synthesizeSilencef (aout : list f32) : res (list f32) :=
  for_up 0 160 (fun i a => wr a i fzero) aout.
(* mbelib.c:871-878 *)
Definition mbe_synthesizeSilence (aout : list Z) : res (list Z) :=
  for_up 0 160 (fun i a => wr a i 0) aout.

(* mbelib.c:722-723 *)
Definition is_dual (freq1 freq2 : f32) : bool := fgt freq2 fzero && fgt (fabs (fsub freq2 freq1)) f_1em6.
(* mbelib.c:724 *)
Definition tone_gain (ad : Z) : f32 :=
  fmul (fdiv (if ad <? 0 then fzero else f_of_Z ad) (f_of_Z 127)) SOFT_CLIP.

(* mbelib.c:716-745, mbe_renderTonef; (uint32_t)int wraps, (int)uint32_t wraps (gcc, clang, MSVC) *)
Definition mbe_renderTonef (o : oracle) (aout : list f32) (cur : parms) (freq1 freq2 : f32) (ad : Z)
  : res (list f32 * parms) :=
  if fle freq1 fzero then aout <- mbe_synthesizeSilencef aout ;; Ok (aout, cur)
  else
    let dual := is_dual freq1 freq2 in
    let gain := tone_gain ad in
    step1 <- mbe_tonePhaseStep (f2d freq1) ;;
    step2 <- (if dual then mbe_tonePhaseStep (f2d freq2) else Ok 0) ;;
    '(aout, phase1, phase2) <- for_up 0 160 (fun n '(aout, phase1, phase2) =>
      let phase1 := to_u32 (phase1 + step1) in
      let s1 := mbe_toneSampleFromPhase o phase1 in
      if dual then
        let phase2 := to_u32 (phase2 + step2) in
        let s2 := mbe_toneSampleFromPhase o phase2 in
        aout <- wr aout n (fadd (fmul (fmul fhalf gain) s1) (fmul (fmul fhalf gain) s2)) ;;
        Ok (aout, phase1, phase2)
      else aout <- wr aout n (fmul gain s1) ;; Ok (aout, phase1, phase2))
      (aout, to_u32 (p_swn cur), to_u32 (p_un cur)) ;;
    Ok (aout, set_un (to_i32 phase2) (set_swn (to_i32 phase1) cur)).

(* for (i = lo; i < hi; i++) { u = u << 1; u = u | (int)d[i]; }  mbelib.c:766-784, ambe3600x2450.c:199-217 *)
Definition load_field (d : list Z) (lo hi : Z) : res Z :=
  for_up lo hi (fun i u => u <- shl u 1 ;; c <- rd d i ;; Ok (Z.lor u c)) 0.

(* mbelib.c:753-807, mbe_synthesizeTonef; ID0, ID2, ID3 and ID4 are computed and discarded.  A build without tones
   plays silence (755-760) *)
Definition mbe_synthesizeTonef (o : oracle) (aout : list f32) (d : list Z) (cur : parms) : res (list f32 * parms) :=
  if negb (o_tones o) then aout <- mbe_synthesizeSilencef aout ;; Ok (aout, cur) else
  u0 <- load_field d 0 12 ;;
  u1 <- load_field d 12 24 ;;
  u2 <- load_field d 24 35 ;;
  u3 <- load_field d 35 49 ;;
  let AD := Z.shiftl (Z.land u0 63) 1 + Z.land (Z.shiftr u3 4) 1 in
  let ID1 := Z.shiftr (Z.land u1 4095) 4 in
  match mbe_lookupToneFreqs ID1 with
  | None => aout <- mbe_synthesizeSilencef aout ;; Ok (aout, cur)
  | Some (f1, f2) => mbe_renderTonef o aout cur f1 f2 AD
  end.

(* mbelib.c:816-854, mbe_synthesizeTonefdstar; a build without tones plays silence (818-824) *)
Definition dstar_freq (id : Z) : f32 :=
  if id =? 5 then f_156p25 else if id =? 6 then f_187p5
  else if (7 <=? id) && (id <=? 122) then fmul f_31p25 (f_of_Z id) else fzero.
Definition mbe_synthesizeTonefdstar (o : oracle) (aout : list f32) (cur : parms) (id : Z) : res (list f32 * parms) :=
  if negb (o_tones o) then aout <- mbe_synthesizeSilencef aout ;; Ok (aout, cur) else
  let f := dstar_freq id in
  if fle f fzero then aout <- mbe_synthesizeSilencef aout ;; Ok (aout, cur)
  else mbe_renderTonef o aout cur f f 103.

(* ---- voiced synthesis ---- *)

(* mbelib.c:126-165, mbe_add_voiced_block4; Ss starts at sample n, W at window index w.  Simplification: the
   four cosines are used as they are produced, not collected in cblk first; the vector path's lanes are added one by one *)
Definition osc_step (c s sd cd : f32) : f32 * f32 :=
  (fsub (fmul c cd) (fmul s sd), fadd (fmul s cd) (fmul c sd)).
(* what is added to a sample: mbelib.c:145-147, 152-156 (a lane), 161-164 *)
Definition voiced_term (simd : build) (w amp c : f32) : f32 :=
  if lanes4 simd then fmul (fmul c w) (fmul f_two amp) else fmul (fmul (fmul f_two w) amp) c.
Definition mbe_add_voiced_block4 (simd : build) (aout : list f32) (n w : Z) (amp c s sd cd : f32) : res (list f32 * f32 * f32) :=
  for_up 0 4 (fun k '(aout, c, s) =>
    x <- rd aout (n + k) ;; wk <- rd Ws (w + k) ;;
    aout <- wr aout (n + k) (fadd x (voiced_term simd wk amp c)) ;;
    let '(c', s') := osc_step c s sd cd in
    Ok (aout, c', s')) (aout, c, s).

(* for (n = 0; n < 160; n += 4) mbe_add_voiced_block4 (Ss, Ws + n + off, ...), mbelib.c:1029-1032, 1044-1047 *)
Definition add_oscillator (simd : build) (aout : list f32) (off : Z) (amp c s sd cd : f32) : res (list f32) :=
  '(aout, _, _) <- loop 40 0 4 (fun n '(aout, c, s) => mbe_add_voiced_block4 simd aout n (n + off) amp c s sd cd)
                        (aout, c, s) ;;
  Ok aout.

Definition TWO_PI_F : f32 := Eval vm_compute in fmul f_two PI_F.

(* mbelib.c:994-1016: interpolated harmonic l.  The int products l*N and l*n*n are at most 7*159*159. *)
Definition add_interpolated (o : oracle) (aout : list f32) (l : Z) (cw0 pw0 phi_c phi_p m_c m_p : f32)
  : res (list f32) :=
  let fN := f_of_Z 160 in
  let pw0l := fmul pw0 (f_of_Z l) in
  let deltaphil := fsub (fsub phi_c phi_p) (fdiv (fmul (fadd pw0 cw0) (f_of_Z (l * 160))) f_two) in
  let deltawl := fmul (fdiv fone fN)
                      (fsub deltaphil (fmul (fmul f_two PI_F) (ffloor (fdiv (fadd deltaphil PI_F) (fmul f_two PI_F))))) in
  for_up 0 160 (fun n aout =>
    let thetaln := fadd (fadd phi_p (fmul (fadd pw0l deltawl) (f_of_Z n)))
                        (fdiv (fmul (fsub cw0 pw0) (f_of_Z (l * n * n))) (f_of_Z 320)) in
    let aln := fadd m_p (fmul (fdiv (f_of_Z n) fN) (fsub m_c m_p)) in
    x <- rd aout n ;;
    wr aout n (fadd x (fmul (fmul f_two aln) (cosf o thetaln)))) aout.

Definition f_0p1 : f32 := Eval vm_compute in flit 1 10.

(* mbelib.c:981-1051: the contribution of harmonic l *)
Definition add_harmonic (o : oracle) (cw0 pw0 : f32) (cur prev : parms) (l : Z) (aout : list f32) : res (list f32) :=
  let cw0l := fmul cw0 (f_of_Z l) in
  let pw0l := fmul pw0 (f_of_Z l) in
  vc <- rd (p_Vl cur) l ;; vp <- rd (p_Vl prev) l ;;
  let cur_voiced := vc =? 1 in
  let prev_voiced := vp =? 1 in
  if cur_voiced || prev_voiced then
    if (l <? 8) && cur_voiced && prev_voiced && flt (fabs (fsub cw0 pw0)) (fmul f_0p1 cw0) then
      phi_c <- rd (p_PHIl cur) l ;; phi_p <- rd (p_PHIl prev) l ;;
      m_c <- rd (p_Ml cur) l ;; m_p <- rd (p_Ml prev) l ;;
      add_interpolated o aout l cw0 pw0 phi_c phi_p m_c m_p
    else
      aout <- (if prev_voiced then
                 amp <- rd (p_Ml prev) l ;; phi <- rd (p_PHIl prev) l ;;
                 add_oscillator (o_simd o) aout 160 amp (cosf o phi) (sinf o phi) (sinf o pw0l) (cosf o pw0l)
               else Ok aout) ;;
      (if cur_voiced then
         amp <- rd (p_Ml cur) l ;; phi <- rd (p_PHIl cur) l ;;
         let ph := fsub phi (fmul cw0l (f_of_Z 160)) in
         add_oscillator (o_simd o) aout 0 amp (cosf o ph) (sinf o ph) (sinf o cw0l) (cosf o cw0l)
       else Ok aout)
  else Ok aout.

(* mbelib.c:892, 958-975, phase update for band l *)
Definition WHITE_NOISE_SCALAR : f32 := Eval vm_compute in fdiv (fmul f_two PI_F) (f_of_Z 53125).
Definition wrap_phase (x : f32) : f32 :=
  let w := ffmod x TWO_PI_F in if flt w fzero then fadd w TWO_PI_F else w.
Definition update_phase (cw0 pw0 : f32) (numUv : Z) (noise : list f32) (l : Z) (st : parms * parms)
  : res (parms * parms) :=
  let '(cur, prev) := st in
  psi <- rd (p_PSIl prev) l ;;
  let w := wrap_phase psi in
  ppsi <- wr (p_PSIl prev) l w ;;
  let psi' := fadd w (fmul (fadd pw0 cw0) (fdiv (f_of_Z (l * 160)) f_two)) in
  cpsi <- wr (p_PSIl cur) l psi' ;;
  phi <- (if l <=? Z.quot (p_L cur) 4 then Ok psi'
          else
            u <- rd noise l ;;
            let pl := fsub (fmul WHITE_NOISE_SCALAR u) PI_F in
            Ok (fadd psi' (fdiv (fmul (f_of_Z numUv) pl) (f_of_Z (p_L cur))))) ;;
  cphi <- wr (p_PHIl cur) l phi ;;
  Ok (set_PHIl cphi (set_PSIl cpsi cur), set_PSIl ppsi prev).

(* mbelib.c:941-954: bands that exist in only one of the two frames *)
Definition extend_bands (from to : Z) (m : parms) : res parms :=
  for_up (from + 1) (to + 1) (fun l m =>
    a <- wr (p_Ml m) l fzero ;; b <- wr (p_Vl m) l 1 ;; Ok (set_Vl b (set_Ml a m))) m.

(* mbelib.c:928-933 *)
Definition count_unvoiced (L : Z) (Vl : list Z) : res Z :=
  for_up 0 (L + 1) (fun l n => v <- rd Vl l ;; Ok (if v =? 0 then n + 1 else n)) 0.

(* mbelib.c:915-916: the frame is muted *)
Definition speech_muted (cur : parms) : bool :=
  mbe_isMaxFrameRepeat cur ||
  (fgt (fabs (fsub (p_mutingThreshold cur) MUTING_AMBE)) f_1em6 && mbe_requiresMuting cur).

(* mbelib.c:894-1062, mbe_synthesizeSpeechf; a is the address of cur_mp; uvquality is ignored by the code.
   Result: samples, cur, prev, thread state. *)
Definition mbe_synthesizeSpeechf (o : oracle) (aout : list f32) (a : Z) (cur prev : parms) (uvquality : Z) (t : tls)
  : res (list f32 * parms * parms * tls) :=
  '(cur, t) <- mbe_applyAdaptiveSmoothing o a cur prev t ;;
  if speech_muted cur then
    '(aout, t) <- mbe_synthesizeComfortNoisef aout t ;; Ok (aout, cur, prev, t)
  else
    '(noise, seed, overlap, t) <- mbe_generate_noise_with_overlap (p_noiseSeed cur) (p_noiseOverlap cur) t ;;
    let cur := set_noiseOverlap overlap (set_noiseSeed seed cur) in
    numUv <- count_unvoiced (p_L cur) (p_Vl cur) ;;
    let cw0 := p_w0 cur in
    let pw0 := p_w0 prev in
    aout <- for_up 0 160 (fun i a => wr a i fzero) aout ;;
    '(cur, prev, maxl) <-
      (if p_L prev <? p_L cur then p <- extend_bands (p_L prev) (p_L cur) prev ;; Ok (cur, p, p_L cur)
       else c <- extend_bands (p_L cur) (p_L prev) cur ;; Ok (c, prev, p_L prev)) ;;
    '(cur, prev) <- for_up 1 57 (update_phase cw0 pw0 numUv noise) (cur, prev) ;;
    aout <- for_up 1 (maxl + 1) (add_harmonic o cw0 pw0 cur prev) aout ;;
    '(aout, cur) <- (if o_plan o then
                       '(aout, uw) <- mbe_synthesizeUnvoicedFFTWithNoise o aout cur prev noise ;;
                       Ok (aout, set_previousUw uw cur)
                     else Ok (aout, cur)) ;;
    aout <- mbe_clipFloatBuffer aout 160 ;;
    Ok (aout, cur, prev, t).

(* mbelib.c:1071-1077, mbe_synthesizeSpeech: a float buffer on the stack, then conversion *)
Definition mbe_synthesizeSpeech (o : oracle) (aout : list Z) (a : Z) (cur prev : parms) (uvquality : Z) (t : tls)
  : res (list Z * parms * parms * tls) :=
  '(fb, cur, prev, t) <- mbe_synthesizeSpeechf o (repeat fzero 160) a cur prev uvquality t ;;
  aout <- mbe_floattoshort o fb aout ;; Ok (aout, cur, prev, t).
