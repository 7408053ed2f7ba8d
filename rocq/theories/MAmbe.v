(* Model of /repo/src/ambe/ambe3600x2450.c:34-91, 167-802 and /repo/src/ambe/ambe3600x2400.c:34-75, 150-733. *)
From Coq Require Import ZArith List Bool.
From Verif Require Import Res F32 TabAmbe2450 TabAmbe2400 MFrame MParms MAdaptive MUnvoiced MSynth MImbe.
Import ListNotations.
Local Open Scope Z_scope.

(* b = 0; b |= d[p0] << n-1; ...; b |= d[p(n-1)]: the bits at the given positions, most significant first *)
Fixpoint bits_msb (d : list Z) (ps : list Z) : res Z :=
  match ps with
  | [] => Ok 0
  | p :: t =>
      c <- rd d p ;;
      x <- (match t with [] => Ok c | _ => shl c (Z.of_nat (length t)) end) ;;
      r <- bits_msb d t ;; Ok (Z.lor x r)
  end.

(* ---- the part of the two parameter decoders that differs only in tables ---- *)
Record ambe_tables := mkambe_tables {
  at_Dg : list f32; at_PRBA24 : list (list f32); at_PRBA58 : list (list f32);
  at_HOC5 : list (list f32); at_HOC6 : list (list f32); at_HOC7 : list (list f32); at_HOC8 : list (list f32);
  at_Lmprbl : list (list Z)
}.
Definition tables2450 : ambe_tables :=
  mkambe_tables AmbeDg AmbePRBA24 AmbePRBA58 AmbeHOCb5 AmbeHOCb6 AmbeHOCb7 AmbeHOCb8 AmbeLmprbl.
Definition tables2400 : ambe_tables :=
  mkambe_tables AmbePlusDg AmbePlusPRBA24 AmbePlusPRBA58 AmbePlusHOCb5 AmbePlusHOCb6 AmbePlusHOCb7 AmbePlusHOCb8
                AmbePlusLmprbl.

(* ambe3600x2450.c:56-61, ambe3600x2400.c:57-62; the per-block cosines are MImbe.idct_cos *)
Definition ambe_ri_cos (o : oracle) (m i : Z) : f32 :=
  cosf o (d2f (ddiv (dmul (dmul M_PI (f2d (f_of_Z (m - 1)))) (f2d (fsub (f_of_Z i) fhalf))) (f2d (f_of_Z 8)))).

(* ambe3600x2450.c:349-379, ambe3600x2400.c:330-360: Gm[1..8] *)
Definition ambe_gm (T : ambe_tables) (b3 b4 : Z) : res (list (option f32)) :=
  g2 <- rd2 (at_PRBA24 T) b3 0 ;; g3 <- rd2 (at_PRBA24 T) b3 1 ;; g4 <- rd2 (at_PRBA24 T) b3 2 ;;
  g5 <- rd2 (at_PRBA58 T) b4 0 ;; g6 <- rd2 (at_PRBA58 T) b4 1 ;;
  g7 <- rd2 (at_PRBA58 T) b4 2 ;; g8 <- rd2 (at_PRBA58 T) b4 3 ;;
  Ok [None; Some fzero; Some g2; Some g3; Some g4; Some g5; Some g6; Some g7; Some g8].

(* ambe3600x2450.c:386-402, ambe3600x2400.c:367-383 *)
Definition ambe_ri (o : oracle) (Gm : list (option f32)) : res (list (option f32)) :=
  for_up 1 9 (fun i Ri =>
    sum <- for_up 1 9 (fun m sum =>
      g <- rdi Gm m ;;
      let am := if m =? 1 then 1 else 2 in
      Ok (fadd sum (fmul (fmul (f_of_Z am) g) (ambe_ri_cos o m i)))) fzero ;;
    wr Ri i (Some sum)) (fresh 9).

(* (float)1 / ((float)2 * M_SQRT2), a double expression rounded to float; M_SQRT2 = 1.41421356237309504880 as a double:
   0x3FF6A09E667F3BCD *)
Definition M_SQRT2 : f64 := S754_finite false 6369051672525773 (-52).
Definition rconst : f32 := Eval vm_compute in d2f (ddiv (d_of_Z 1) (dmul (d_of_Z 2) M_SQRT2)).

(* ambe3600x2450.c:407-416, ambe3600x2400.c:388-397: the first two elements of block i *)
Definition ambe_cik12 (Ri : list (option f32)) (i : Z) (Cik : list (list (option f32)))
  : res (list (list (option f32))) :=
  a <- rdi Ri (2 * i - 1) ;; b <- rdi Ri (2 * i) ;;
  Cik <- wr2 Cik i 1 (Some (fmul fhalf (fadd a b))) ;;
  wr2 Cik i 2 (Some (fmul rconst (fsub a b))).

(* ambe3600x2450.c:461-500, ambe3600x2400.c:442-481: one of the four loops over a higher order table row *)
Definition ambe_hoc (tab : list (list f32)) (b i ji : Z) (Cik : list (list (option f32)))
  : res (list (list (option f32))) :=
  for_up 3 (ji + 1) (fun k Cik =>
    if 6 <? k then wr2 Cik i k (Some fzero)
    else h <- rd2 tab b (k - 3) ;; wr2 Cik i k (Some h)) Cik.

(* ambe3600x2450.c:505-528, ambe3600x2400.c:486-509: Tl[57] = {0} *)
Definition ambe_tl (o : oracle) (Ji : Z -> Z) (Cik : list (list (option f32))) : res (list f32) :=
  '(Tl, _) <- for_up 1 5 (fun i '(Tl, l) =>
    let ji := Ji i in
    for_up 1 (ji + 1) (fun j '(Tl, l) =>
      sum <- for_up 1 (ji + 1) (fun k sum =>
        c <- rdi2 Cik i k ;;
        let ak := if k =? 1 then 1 else 2 in
        Ok (fadd sum (fmul (fmul (f_of_Z ak) c) (idct_cos o ji j k)))) fzero ;;
      Tl <- wr Tl l sum ;; Ok (Tl, l + 1)) (Tl, l)) (repeat fzero 57, 1) ;;
  Ok Tl.

(* ambe3600x2450.c:532-540, ambe3600x2400.c:513-521 *)
Definition ambe_extend_prev (L : Z) (prev : parms) : res parms :=
  prev <- imbe_extend_prev L prev ;;
  g <- rd (p_log2Ml prev) 1 ;; lg <- wr (p_log2Ml prev) 0 g ;;
  m <- rd (p_Ml prev) 1 ;; ml <- wr (p_Ml prev) 0 m ;;
  Ok (set_Ml ml (set_log2Ml lg prev)).

(* (float)0.65 *)
Definition f_065 : f32 := Eval vm_compute in d2f (dlit 65 100).

(* ambe3600x2450.c:542-561, ambe3600x2400.c:523-542 *)
Definition ambe_sum43 (L : Z) (prev : parms) : res f32 :=
  s <- for_up 1 (L + 1) (fun l s =>
    '(k, dl) <- interp (p_L prev) L l ;;
    a <- rd (p_log2Ml prev) k ;; b <- rd (p_log2Ml prev) (k + 1) ;;
    Ok (fadd s (fadd (fmul (fsub fone dl) a) (fmul dl b)))) fzero ;;
  Ok (fmul (fdiv f_065 (f_of_Z L)) s).

(* ambe3600x2450.c:567-573, ambe3600x2400.c:548-554 *)
Definition ambe_big_gamma (o : oracle) (L : Z) (gamma : f32) (Tl : list f32) : res f32 :=
  s <- for_up 1 (L + 1) (fun l s => x <- rd Tl l ;; Ok (fadd s x)) fzero ;;
  Ok (fsub (fsub gamma (fmul fhalf (log2f o (f_of_Z L)))) (fdiv s (f_of_Z L))).

(* ambe3600x2450.c:578-580, ambe3600x2400.c:559-561: log2Ml[l] *)
Definition ambe_log2 (L : Z) (sum43 bigGamma : f32) (prev : parms) (Tl : list f32) (l : Z) : res f32 :=
  '(k, dl) <- interp (p_L prev) L l ;;
  a <- rd (p_log2Ml prev) k ;; b <- rd (p_log2Ml prev) (k + 1) ;;
  tl <- rd Tl l ;;
  let c1 := fmul (fmul f_065 (fsub fone dl)) a in
  let c2 := fmul (fmul f_065 dl) b in
  Ok (fadd (fsub (fadd (fadd tl c1) c2) sum43) bigGamma).

(* ambe3600x2450.c:576-587, ambe3600x2400.c:557-568 *)
Definition ambe_predict (o : oracle) (unvc : f32) (L : Z) (prev : parms) (Tl : list f32) (cur : parms) : res parms :=
  sum43 <- ambe_sum43 L prev ;;
  bigGamma <- ambe_big_gamma o L (p_gamma cur) Tl ;;
  for_up 1 (L + 1) (fun l cur =>
    g <- ambe_log2 L sum43 bigGamma prev Tl l ;;
    lg <- wr (p_log2Ml cur) l g ;;
    v <- rd (p_Vl cur) l ;;
    ml <- wr (p_Ml cur) l (if v =? 1 then exp2f o g else fmul unvc (exp2f o g)) ;;
    Ok (set_Ml ml (set_log2Ml lg cur))) cur.

(* (float)0.2046 / sqrtf(w0) *)
Definition f_02046 : f32 := Eval vm_compute in d2f (dlit 2046 10000).
Definition unvoiced_scale (w0 : f32) : f32 := fdiv f_02046 (fsqrt w0).

(* ambe3600x2450.c:334-596, ambe3600x2400.c:314-577: gain, spectral vectors, prediction.  L is cur->L. *)
Definition ambe_amplitudes (o : oracle) (T : ambe_tables) (unvc : f32) (L b2 b3 b4 b5 b6 b7 b8 : Z) (cur prev : parms)
  : res (parms * parms) :=
  dg <- rd (at_Dg T) b2 ;;
  let cur := set_gamma (fadd dg (fmul fhalf (p_gamma prev))) cur in
  Gm <- ambe_gm T b3 b4 ;;
  Ri <- ambe_ri o Gm ;;
  Cik <- for_up 1 5 (ambe_cik12 Ri) (fresh2 5 18) ;;
  j1 <- rd2 (at_Lmprbl T) L 0 ;; j2 <- rd2 (at_Lmprbl T) L 1 ;;
  j3 <- rd2 (at_Lmprbl T) L 2 ;; j4 <- rd2 (at_Lmprbl T) L 3 ;;
  Cik <- ambe_hoc (at_HOC5 T) b5 1 j1 Cik ;;
  Cik <- ambe_hoc (at_HOC6 T) b6 2 j2 Cik ;;
  Cik <- ambe_hoc (at_HOC7 T) b7 3 j3 Cik ;;
  Cik <- ambe_hoc (at_HOC8 T) b8 4 j4 Cik ;;
  Tl <- ambe_tl o (fun i => if i =? 1 then j1 else if i =? 2 then j2 else if i =? 3 then j3 else j4) Cik ;;
  prev <- ambe_extend_prev L prev ;;
  cur <- ambe_predict o unvc L prev Tl cur ;;
  Ok (cur, prev).

(* (int)((float)l * (float)16.0 * f0) *)
Definition vuv_index (f0 : f32) (l : Z) : res Z := sf_to_int (fmul (fmul (f_of_Z l) (f_of_Z 16)) f0).

(* f0 * (float)2 * M_PI: float product, then a double product rounded to float *)
Definition ambe_w0 (f0 : f32) : f32 := d2f (dmul (f2d (fmul f0 f_two)) M_PI).

(* for (l = 1; l <= L; l++) Vl[l] = 0 *)
Definition clear_vl (L : Z) (Vl : list Z) : res (list Z) := for_up 1 (L + 1) (fun l Vl => wr Vl l 0) Vl.

(* ---- AMBE 3600x2450 ---- *)

(* ambe3600x2450.c:76-91, ambe2450_is_valid_tone_id *)
Definition ambe2450_is_valid_tone_id (d : list Z) : res bool :=
  id1 <- load_field d 12 20 ;;
  Ok ((id1 =? 5) || (id1 =? 6) || ((7 <=? id1) && (id1 <=? 122)) || ((128 <=? id1) && (id1 <=? 163))).

(* ambe3600x2450.c:195-222: tone_verified *)
Definition tone_verified (d : list Z) : res bool :=
  u0 <- load_field d 0 12 ;; u1 <- load_field d 12 24 ;;
  u2 <- load_field d 24 35 ;; u3 <- load_field d 35 49 ;;
  Ok ((Z.land (Z.shiftr u0 6) 63 =? 63) &&
      ((Z.land u3 15 =? 0) || (Z.land (Z.shiftr u1 8) 15 =? Z.land u1 15))).

(* ambe3600x2450.c:266-267 *)
Definition silence_f0 : f32 := Eval vm_compute in fdiv PI_F (f_of_Z 32).
Definition silence_w0_2450 : f32 := Eval vm_compute in fmul silence_f0 (d2f (dmul (d_of_Z 2) M_PI)).

(* ambe3600x2450.c:259-328: pitch, harmonics and voicing of a voice or silence frame; the unvoiced scale *)
Definition ambe2450_pitch (d : list Z) (b0 : Z) (cur : parms) : res (parms * f32) :=
  let silence := (b0 =? 124) || (b0 =? 125) in
  '(cur, f0, L) <-
    (if silence then
       let L := if b0 =? 124 then 15 else 14 in
       Vl <- clear_vl L (p_Vl cur) ;;
       Ok (set_Vl Vl (set_L L (set_w0 silence_w0_2450 cur)), silence_f0, L)
     else
       f0 <- rd AmbeW0table b0 ;;
       lf <- rd AmbeLtable b0 ;; L <- sf_to_int lf ;;
       Ok (set_L L (set_w0 (ambe_w0 f0) cur), f0, L)) ;;
  let unvc := unvoiced_scale (p_w0 cur) in
  b1 <- bits_msb d [4; 5; 6; 7; 35] ;;
  Vl <- for_up 1 (L + 1) (fun l Vl =>
    jl <- vuv_index f0 l ;;
    if silence then Ok Vl else v <- rd2 AmbeVuv b1 jl ;; wr Vl l v) (p_Vl cur) ;;
  Ok (set_Vl Vl cur, unvc).

(* ambe3600x2450.c:176-597, mbe_decodeAmbe2450ParmsInternal: the return value, cur and prev *)
Definition mbe_decodeAmbe2450ParmsInternal (o : oracle) (d : list Z) (cur prev : parms) (total_errors : Z)
  : res (Z * parms * parms) :=
  tv <- tone_verified d ;;
  let cur := set_repeat (p_repeat prev) cur in
  b0 <- bits_msb d [0; 1; 2; 3; 37; 38; 39] ;;
  if tv && (total_errors <? 6) then Ok (7, cur, prev)
  else if (120 <=? b0) && (b0 <=? 123) then Ok (2, cur, prev)
  else if (b0 =? 126) || (b0 =? 127) then Ok (2, cur, prev)
  else
    '(cur, unvc) <- ambe2450_pitch d b0 cur ;;
    b2 <- bits_msb d [8; 9; 10; 11; 36] ;;
    b3 <- bits_msb d [12; 13; 14; 15; 16; 17; 18; 19; 40] ;;
    b4 <- bits_msb d [20; 21; 22; 23; 41; 42; 43] ;;
    b5 <- bits_msb d [24; 25; 26; 27; 44] ;;
    b6 <- bits_msb d [28; 29; 30; 45] ;;
    b7 <- bits_msb d [31; 32; 33; 46] ;;
    b8 <- bits_msb d [34; 47; 48] ;;
    '(cur, prev) <- ambe_amplitudes o tables2450 unvc (p_L cur) b2 b3 b4 b5 b6 b7 b8 cur prev ;;
    Ok (0, cur, prev).

(* ambe3600x2450.c:606-609, mbe_decodeAmbe2450Parms *)
Definition mbe_decodeAmbe2450Parms (o : oracle) (d : list Z) (cur prev : parms) : res (Z * parms * parms) :=
  mbe_decodeAmbe2450ParmsInternal o d cur prev (-1).

(* ambe3600x2450.c:636-642 / ambe3600x2400.c:610-620: threshold and error metrics *)
Definition ambe_set_errors (errs2 : Z) (cur prev : parms) : parms :=
  let cur := set_mutingThreshold MUTING_AMBE cur in
  let cur := set_errorCount4 0 (set_errorCountTotal errs2 cur) in
  set_errorRate (error_rate f_1064em6 (p_errorRate prev) (p_errorCountTotal cur)) cur.

Definition clear_repeat (m : parms) : parms := set_repeatCount 0 (set_repeat 0 m).
(* mbe_useLastMbeParms; repeat++; repeatCount++ *)
Definition repeat_last (prev : parms) : res parms :=
  let cur := mbe_useLastMbeParms prev in
  r <- to_int (p_repeat cur + 1) ;; rc <- to_int (p_repeatCount cur + 1) ;;
  Ok (set_repeatCount rc (set_repeat r cur)).

(* ambe3600x2450.c:667-674 *)
Definition ambe2450_repeat_required (errs2 c0_errors : Z) (c0_valid : bool) : bool :=
  if c0_valid then (4 <=? c0_errors) || ((2 <=? c0_errors) && (6 <=? errs2)) else 3 <? errs2.

(* move to prev, enhance, synthesise, move to enh: ambe3600x2450.c:690-693, ambe3600x2400.c:660-663 *)
Definition ambe_speak (o : oracle) (a : Z) (aout : list f32) (cur enh : parms) (uvquality : Z) (t : tls)
  : res (list f32 * dstate * tls) :=
  let prev := mbe_moveMbeParms cur in
  '(cur, t) <- mbe_spectralAmpEnhance o a cur t ;;
  '(aout, cur, enh, t) <- mbe_synthesizeSpeechf o aout a cur enh uvquality t ;;
  Ok (aout, (cur, prev, mbe_moveMbeParms cur), t).

(* comfort noise and re-initialisation: ambe3600x2450.c:697-698, 713-714, 723-724, ambe3600x2400.c:667-668, 675-676 *)
Definition ambe_noise_reset (aout : list f32) (st : dstate) (t : tls) : res (list f32 * dstate * tls) :=
  let '(cur, prev, enh) := st in
  '(aout, t) <- mbe_synthesizeComfortNoisef aout t ;;
  st <- mbe_initAmbeParms_common cur prev enh ;;
  Ok (aout, st, t).

(* the address of the local synth_mp, ambe3600x2450.c:707: different from every parameter set of the caller *)
Definition local_addr : Z := -1.

(* ambe3600x2450.c:626-727, mbe_processAmbe2450Dataf_internal *)
Definition mbe_processAmbe2450Dataf_internal (o : oracle) (a : Z) (aout : list f32) (errs2 : Z) (d : list Z)
    (st : dstate) (uvquality : Z) (c0_errors : Z) (c0_valid : bool) (t : tls)
  : res (list f32 * list Z * dstate * tls) :=
  let '(cur, prev, enh) := st in
  '(cur, prev, enh) <- mbe_ensureAmbeDefaults_common cur prev enh ;;
  let cur := ambe_set_errors errs2 cur prev in
  '(bad, cur, prev) <- mbe_decodeAmbe2450ParmsInternal o d cur prev errs2 ;;
  '(cur, mark) <-
    (if bad =? 2 then cur <- mbe_setAmbeErasureParms_common (clear_repeat cur) prev ;; Ok (cur, [ch_E])
     else if (bad =? 3) || (bad =? 7) then Ok (clear_repeat cur, [ch_T])
     else if ambe2450_repeat_required errs2 c0_errors c0_valid then cur <- repeat_last prev ;; Ok (cur, [ch_R])
     else Ok (clear_repeat cur, [])) ;;
  '(aout, mark, st, t) <-
    (if bad =? 0 then
       if p_repeat cur <=? 3 then '(aout, st, t) <- ambe_speak o a aout cur enh uvquality t ;; Ok (aout, mark, st, t)
       else '(aout, st, t) <- ambe_noise_reset aout (cur, prev, enh) t ;; Ok (aout, mark ++ [ch_M], st, t)
     else if bad =? 7 then
       valid <- ambe2450_is_valid_tone_id d ;;
       if valid then '(aout, cur) <- mbe_synthesizeTonef o aout d cur ;; Ok (aout, mark, (cur, prev, enh), t)
       else if negb (mbe_isMaxFrameRepeat prev) then
         '(aout, synth, enh, t) <-
            mbe_synthesizeSpeechf o aout local_addr (mbe_moveMbeParms enh) enh uvquality t ;;
         Ok (aout, mark, (cur, prev, mbe_moveMbeParms synth), t)
       else '(aout, st, t) <- ambe_noise_reset aout (cur, prev, enh) t ;; Ok (aout, mark, st, t)
     else if bad =? 2 then
       '(aout, t) <- mbe_synthesizeComfortNoisef aout t ;;
       Ok (aout, mark, (cur, mbe_moveMbeParms cur, mbe_moveMbeParms cur), t)
     else '(aout, st, t) <- ambe_noise_reset aout (cur, prev, enh) t ;; Ok (aout, mark, st, t)) ;;
  Ok (aout, eq_run errs2 ++ mark ++ [0], st, t).

(* ambe3600x2450.c:741-747, mbe_processAmbe2450Dataf *)
Definition mbe_processAmbe2450Dataf (o : oracle) (a : Z) (aout : list f32) (errs errs2 : Z) (d : list Z)
    (st : dstate) (uvquality : Z) (t : tls) : res (list f32 * list Z * dstate * tls) :=
  mbe_processAmbe2450Dataf_internal o a aout errs2 d st uvquality 0 false t.

(* ambe3600x2450.c:753-759 *)
Definition mbe_processAmbe2450Data (o : oracle) (a : Z) (aout : list Z) (errs errs2 : Z) (d : list Z)
    (st : dstate) (uvquality : Z) (t : tls) : res (list Z * list Z * dstate * tls) :=
  '(fb, str, st, t) <- mbe_processAmbe2450Dataf o a (repeat fzero 160) errs errs2 d st uvquality t ;;
  aout <- mbe_floattoshort o fb aout ;; Ok (aout, str, st, t).

(* ambe3600x2450.c:773-802, mbe_processAmbe3600x2450Framef *)
Definition mbe_processAmbe3600x2450Framef (o : oracle) (a : Z) (aout : list f32) (fr : list (list Z)) (d : list Z)
    (st : dstate) (uvquality : Z) (t : tls) : res (frame_out f32) :=
  '(fr, errs, errs2, d) <- ambe_frame_ecc fr d ;;
  '(aout, str, st, t) <- mbe_processAmbe2450Dataf_internal o a aout errs2 d st uvquality errs true t ;;
  Ok (mkframe_out aout errs errs2 str fr d st t).
Definition mbe_processAmbe3600x2450Frame (o : oracle) (a : Z) (aout : list Z) (fr : list (list Z)) (d : list Z)
    (st : dstate) (uvquality : Z) (t : tls) : res (frame_out Z) :=
  to_short_out o aout (mbe_processAmbe3600x2450Framef o a (repeat fzero 160) fr d st uvquality t).

(* ---- AMBE 3600x2400 ---- *)

(* ambe3600x2400.c:204-216: the tone index *)
Definition t7tab : list Z := [1; 0; 0; 0; 0; 1; 1; 1].
Definition t6tab : list Z := [0; 0; 0; 1; 1; 1; 1; 0].
Definition t5tab : list Z := [0; 0; 1; 0; 1; 1; 0; 1].
Definition ambe2400_tone_index (d : list Z) : res Z :=
  x <- bits_msb d [6; 7; 8] ;;
  t7 <- rd t7tab x ;; t6 <- rd t6tab x ;; t5 <- rd t5tab x ;;
  low <- bits_msb d [9; 42; 43; 10; 11] ;;
  Ok (Z.lor (Z.shiftl t7 7) (Z.lor (Z.shiftl t6 6) (Z.lor (Z.shiftl t5 5) low))).

(* ambe3600x2400.c:249: ((float)2 * M_PI) / (float)32 in double *)
Definition silence_w0_2400 : f32 := Eval vm_compute in d2f (ddiv (dmul (d_of_Z 2) M_PI) (d_of_Z 32)).

(* ambe3600x2400.c:273: exp2f(-4.311767578125f - (2.1336e-2f * ((float)b0 + 0.5f))); 4.311767578125 = 17661 / 4096 *)
Definition f_4p31 : f32 := Eval vm_compute in flit 17661 4096.
Definition f_pitch_step : f32 := Eval vm_compute in flit 21336 1000000.
Definition ambe2400_f0 (o : oracle) (b0 : Z) : f32 :=
  exp2f o (fsub (fopp f_4p31) (fmul f_pitch_step (fadd (f_of_Z b0) fhalf))).

(* ambe3600x2400.c:273-309 *)
Definition ambe2400_pitch (o : oracle) (d : list Z) (b0 : Z) (cur : parms) : res (parms * f32) :=
  let f0 := ambe2400_f0 o b0 in
  let cur := set_w0 (ambe_w0 f0) cur in
  let unvc := unvoiced_scale (p_w0 cur) in
  lf <- rd AmbePlusLtable b0 ;; L <- sf_to_int lf ;;
  let cur := set_L L cur in
  b1 <- bits_msb d [38; 39; 40; 41] ;;
  Vl <- for_up 1 (L + 1) (fun l Vl =>
    jl <- vuv_index f0 l ;; v <- rd2 AmbePlusVuv b1 jl ;; wr Vl l v) (p_Vl cur) ;;
  Ok (set_Vl Vl cur, unvc).

(* ambe3600x2400.c:157-578, mbe_decodeAmbe2400Parms *)
Definition mbe_decodeAmbe2400Parms (o : oracle) (d : list Z) (cur prev : parms) : res (Z * parms * parms) :=
  let cur := set_repeat (p_repeat prev) cur in
  b0 <- bits_msb d [0; 1; 2; 3; 4; 5; 48] ;;
  if Z.land b0 126 =? 126 then
    b1 <- ambe2400_tone_index d ;;
    if (5 <=? b1) && (b1 <=? 122) then Ok (b1, cur, prev)
    else if (128 <=? b1) && (b1 <=? 163) then Ok (3, cur, prev)
    else
      Vl <- clear_vl 14 (p_Vl cur) ;;
      Ok (3, set_Vl Vl (set_L 14 (set_w0 silence_w0_2400 cur)), prev)
  else
    '(cur, unvc) <- ambe2400_pitch o d b0 cur ;;
    b2 <- bits_msb d [6; 7; 8; 9; 42; 43] ;;
    b3 <- bits_msb d [10; 11; 12; 13; 14; 15; 16; 44; 45] ;;
    b4 <- bits_msb d [17; 18; 19; 20; 21; 46; 47] ;;
    b5 <- bits_msb d [22; 23; 25; 26] ;;
    b6 <- bits_msb d [27; 28; 29; 30] ;;
    b7 <- bits_msb d [31; 32; 33; 34] ;;
    b8h <- bits_msb d [35; 36; 37] ;;
    '(cur, prev) <- ambe_amplitudes o tables2400 unvc (p_L cur) b2 b3 b4 b5 b6 b7 (2 * b8h) cur prev ;;
    Ok (0, cur, prev).

(* ambe3600x2400.c:601-679, mbe_processAmbe2400Dataf *)
Definition mbe_processAmbe2400Dataf (o : oracle) (a : Z) (aout : list f32) (errs errs2 : Z) (d : list Z)
    (st : dstate) (uvquality : Z) (t : tls) : res (list f32 * list Z * dstate * tls) :=
  let '(cur, prev, enh) := st in
  '(cur, prev, enh) <- mbe_ensureAmbeDefaults_common cur prev enh ;;
  let cur := ambe_set_errors errs2 cur prev in
  '(bad, cur, prev) <- mbe_decodeAmbe2400Parms o d cur prev ;;
  '(aout, cur, prev, mark) <-
    (if bad =? 2 then cur <- mbe_setAmbeErasureParms_common (clear_repeat cur) prev ;; Ok (aout, cur, prev, [ch_E])
     else if bad =? 3 then Ok (aout, clear_repeat cur, prev, [ch_T])
     else if (7 <=? bad) && (bad <=? 122) && (errs <? 2) && (errs2 <? 3) then
       '(aout, cur) <- mbe_synthesizeTonefdstar o aout cur bad ;; Ok (aout, cur, mbe_moveMbeParms cur, [])
     else if 3 <? errs2 then cur <- repeat_last prev ;; Ok (aout, cur, prev, [ch_R])
     else Ok (aout, clear_repeat cur, prev, [])) ;;
  '(aout, mark, st, t) <-
    (if bad =? 0 then
       if p_repeat cur <=? 3 then '(aout, st, t) <- ambe_speak o a aout cur enh uvquality t ;; Ok (aout, mark, st, t)
       else '(aout, st, t) <- ambe_noise_reset aout (cur, prev, enh) t ;; Ok (aout, mark ++ [ch_M], st, t)
     else if bad =? 2 then
       '(aout, t) <- mbe_synthesizeComfortNoisef aout t ;;
       Ok (aout, mark, (cur, mbe_moveMbeParms cur, mbe_moveMbeParms cur), t)
     else '(aout, st, t) <- ambe_noise_reset aout (cur, prev, enh) t ;; Ok (aout, mark, st, t)) ;;
  Ok (aout, eq_run errs2 ++ mark ++ [0], st, t).

(* ambe3600x2400.c:685-692 *)
Definition mbe_processAmbe2400Data (o : oracle) (a : Z) (aout : list Z) (errs errs2 : Z) (d : list Z)
    (st : dstate) (uvquality : Z) (t : tls) : res (list Z * list Z * dstate * tls) :=
  '(fb, str, st, t) <- mbe_processAmbe2400Dataf o a (repeat fzero 160) errs errs2 d st uvquality t ;;
  aout <- mbe_floattoshort o fb aout ;; Ok (aout, str, st, t).

(* ambe3600x2400.c:705-733, mbe_processAmbe3600x2400Framef *)
Definition mbe_processAmbe3600x2400Framef (o : oracle) (a : Z) (aout : list f32) (fr : list (list Z)) (d : list Z)
    (st : dstate) (uvquality : Z) (t : tls) : res (frame_out f32) :=
  '(fr, errs, errs2, d) <- ambe_frame_ecc fr d ;;
  '(aout, str, st, t) <- mbe_processAmbe2400Dataf o a aout errs errs2 d st uvquality t ;;
  Ok (mkframe_out aout errs errs2 str fr d st t).
Definition mbe_processAmbe3600x2400Frame (o : oracle) (a : Z) (aout : list Z) (fr : list (list Z)) (d : list Z)
    (st : dstate) (uvquality : Z) (t : tls) : res (frame_out Z) :=
  to_short_out o aout (mbe_processAmbe3600x2400Framef o a (repeat fzero 160) fr d st uvquality t).
