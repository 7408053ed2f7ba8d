(* Model of /repo/src/imbe/imbe7200x4400.c:29-119 and 268-529 (parameter decoding), 575-729 (processing), and of
   /repo/src/imbe/imbe7100x4400.c:330-365. *)
From Coq Require Import ZArith List Bool.
From Verif Require Import Res F32 TabImbe MFrame MParms MAdaptive MUnvoiced MSynth.
Import ListNotations.
Local Open Scope Z_scope.

(* imbe7200x4400.c:55-81, imbe_reset_headroom_defaults *)
Definition imbe_reset_headroom_defaults (mp : parms) : res parms :=
  let mp := set_w0 default_w0 (set_un 0 (set_swn 0 mp)) in
  L <- L_of_w0 (p_w0 mp) ;;
  let mp := set_gamma fzero (set_K 12 (set_L L mp)) in
  mp <- for_up 0 57 (fun l mp =>
    a <- wr (p_Vl mp) l 0 ;; b <- wr (p_Ml mp) l fone ;; c <- wr (p_log2Ml mp) l fzero ;;
    Ok (set_log2Ml c (set_Ml b (set_Vl a mp)))) mp ;;
  Ok (set_mutingThreshold MUTING_IMBE (set_amplitudeThreshold 20480 (set_localEnergy (f_of_Z 75000)
       (set_repeatCount 0 (set_repeat 0 mp))))).

(* imbe7200x4400.c:97-112: the cached cosines.  The argument is a double expression rounded to float. *)
Definition ri_cos (o : oracle) (m i : Z) : f32 :=
  cosf o (d2f (ddiv (dmul (dmul M_PI (f2d (f_of_Z (m - 1)))) (f2d (fsub (f_of_Z i) fhalf))) (f2d (f_of_Z 6)))).
Definition idct_cos (o : oracle) (ji j k : Z) : f32 :=
  cosf o (d2f (ddiv (dmul (dmul M_PI (f2d (f_of_Z (k - 1)))) (f2d (fsub (f_of_Z j) fhalf))) (f2d (f_of_Z ji)))).

(* tmpstr is a local char[13].  Every use writes a prefix and a NUL before strtol reads it; the model starts each use
   from an uninitialised array, so reading anything left over from an earlier use would be UB. *)
Definition tmp13 : list (option Z) := fresh 13.

(* tmpstr[k] = row[j] + 48; k++  for j = n-1 .. 0, tmpstr[n] = 0, strtol: an n-bit field of bb
   (imbe7200x4400.c:370-377, 392-399, 438-445) *)
Definition bb_field (bb : list (list (option Z))) (row n : Z) : res Z :=
  s <- wr tmp13 n (Some 0) ;;
  '(s, _) <- for_down (n - 1) 0 (fun j '(s, k) =>
    c <- rdi2 bb row j ;; s <- wr s k (Some (to_char (c + 48))) ;; Ok (s, k + 1)) (s, 0) ;;
  strtol2 s.

(* imbe7200x4400.c:339-349: scatter the 79 payload bits into bb[58][12] *)
Definition imbe_bb (d : list Z) (L9 : Z) : res (list (list (option Z))) :=
  pos <- rd bo L9 ;;
  for_up 6 85 (fun i bb =>
    bo1 <- rd2 pos (i - 6) 0 ;; bo2 <- rd2 pos (i - 6) 1 ;;
    c <- rd d i ;; wr2 bb bo1 bo2 (Some c)) (fresh2 58 12).

(* imbe7200x4400.c:351-367: the voicing decisions; (int)(unsigned char) *)
Definition imbe_vl (bb : list (list (option Z))) (L K : Z) (Vl : list Z) : res (list Z) :=
  '(Vl, _, _) <- for_up 1 (L + 1) (fun i '(Vl, j, k) =>
    c <- rdi2 bb 1 k ;; Vl <- wr Vl i (c mod 256) ;;
    Ok (if j =? 3 then (Vl, 1, if 0 <? k then k - 1 else 0) else (Vl, j + 1, k))) (Vl, 1, K - 1) ;;
  Ok Vl.

(* imbe7200x4400.c:369-406: the gain vector *)
Definition imbe_gm (o : oracle) (bb : list (list (option Z))) (L9 : Z) : res (list (option f32)) :=
  b2 <- bb_field bb 2 6 ;;
  g1 <- rd B2 b2 ;;
  Gm <- wr (fresh 7) 1 (Some g1) ;;
  bas <- rd ba L9 ;;
  for_up 2 7 (fun i Gm =>
    ba1 <- rd2 bas (i - 2) 0 ;; ba2 <- rd2 bas (i - 2) 1 ;;
    n <- sf_to_int ba1 ;;
    bm <- bb_field bb (i + 1) n ;;
    wr Gm i (Some (fmul ba2 (fadd (fsub (f_of_Z bm) (exp2f o (fsub ba1 fone))) fhalf)))) Gm.

(* imbe7200x4400.c:408-427 *)
Definition imbe_ri (o : oracle) (Gm : list (option f32)) : res (list (option f32)) :=
  for_up 1 7 (fun i Ri =>
    sum <- for_up 1 7 (fun m sum =>
      g <- rdi Gm m ;;
      let am := if m =? 1 then 1 else 2 in
      Ok (fadd sum (fmul (fmul (f_of_Z am) g) (ri_cos o m i)))) fzero ;;
    wr Ri i (Some sum)) (fresh 7).

(* imbe7200x4400.c:432-450: the higher order coefficients *)
Definition imbe_cik (o : oracle) (bb : list (list (option Z))) (L9 : Z) (Ri : list (option f32))
  : res (list (list (option f32))) :=
  '(Cik, _) <- for_up 1 7 (fun i '(Cik, m) =>
    r <- rdi Ri i ;;
    Cik <- wr2 Cik i 1 (Some r) ;;
    ji <- rd2 ImbeJi L9 (i - 1) ;;
    for_up 2 (ji + 1) (fun k '(Cik, m) =>
      Bm <- rd2 hoba L9 (m - 8) ;;
      c <- (if Bm =? 0 then Ok fzero
            else
              bm <- bb_field bb m Bm ;;
              q <- rd quantstep (Bm - 1) ;; s <- rd standdev (k - 2) ;;
              Ok (fmul (fmul q s)
                       (fadd (fsub (f_of_Z bm) (exp2f o (fsub (f_of_Z Bm) fone))) fhalf))) ;;
      Cik <- wr2 Cik i k (Some c) ;; Ok (Cik, m + 1)) (Cik, m)) (fresh2 7 11, 8) ;;
  Ok Cik.

(* imbe7200x4400.c:452-469: Tl[57] = {0.0f} *)
Definition imbe_tl (o : oracle) (L9 : Z) (Cik : list (list (option f32))) : res (list f32) :=
  '(Tl, _) <- for_up 1 7 (fun i '(Tl, l) =>
    ji <- rd2 ImbeJi L9 (i - 1) ;;
    for_up 1 (ji + 1) (fun j '(Tl, l) =>
      sum <- for_up 1 (ji + 1) (fun k sum =>
        c <- rdi2 Cik i k ;;
        let ak := if k =? 1 then 1 else 2 in
        Ok (fadd sum (fmul (fmul (f_of_Z ak) c) (idct_cos o ji j k)))) fzero ;;
      Tl <- wr Tl l sum ;; Ok (Tl, l + 1)) (Tl, l)) (repeat fzero 57, 1) ;;
  Ok Tl.

(* imbe7200x4400.c:475-481; double expressions rounded to float *)
Definition imbe_rho (L : Z) : f32 :=
  if L <=? 15 then d2f (dlit 4 10)
  else if L <=? 24 then d2f (dsub (dmul (dlit 3 100) (f2d (f_of_Z L))) (dlit 5 100))
  else d2f (dlit 7 10).

(* imbe7200x4400.c:483-489: when the frame has more harmonics than the previous one *)
Definition imbe_extend_prev (L : Z) (prev : parms) : res parms :=
  let pL := p_L prev in
  if pL <? L then
    for_up (pL + 1) (L + 1) (fun l prev =>
      m <- rd (p_Ml prev) pL ;; ml <- wr (p_Ml prev) l m ;;
      g <- rd (p_log2Ml prev) pL ;; lg <- wr (p_log2Ml prev) l g ;;
      Ok (set_log2Ml lg (set_Ml ml prev))) prev
  else Ok prev.

(* imbe7200x4400.c:495-504, also ambe3600x2450.c:546-555 and ambe3600x2400.c:527-536: flokl[l], intkl[l], deltal[l].
   The code stores them in local arrays indexed by l; the model recomputes them. *)
Definition interp (pL cL l : Z) : res (Z * f32) :=
  let flokl := fmul (fdiv (f_of_Z pL) (f_of_Z cL)) (f_of_Z l) in
  intkl <- sf_to_int flokl ;;
  Ok (intkl, fsub flokl (f_of_Z intkl)).

(* imbe7200x4400.c:491-510 *)
Definition imbe_sum77 (L : Z) (rho : f32) (prev : parms) : res f32 :=
  s <- for_up 1 (L + 1) (fun l s =>
    '(k, dl) <- interp (p_L prev) L l ;;
    a <- rd (p_log2Ml prev) k ;; b <- rd (p_log2Ml prev) (k + 1) ;;
    Ok (fadd s (fadd (fmul (fsub fone dl) a) (fmul dl b)))) fzero ;;
  Ok (fmul (fdiv rho (f_of_Z L)) s).

(* imbe7200x4400.c:518-520: log2Ml[l] *)
Definition imbe_log2 (L : Z) (rho sum77 : f32) (prev : parms) (Tl : list f32) (l : Z) : res f32 :=
  '(k, dl) <- interp (p_L prev) L l ;;
  a <- rd (p_log2Ml prev) k ;; b <- rd (p_log2Ml prev) (k + 1) ;;
  tl <- rd Tl l ;;
  let c1 := fmul (fmul rho (fsub fone dl)) a in
  let c2 := fmul (fmul rho dl) b in
  Ok (fsub (fadd (fadd tl c1) c2) sum77).
Definition imbe_predict (o : oracle) (L : Z) (prev : parms) (Tl : list f32) (cur : parms) : res parms :=
  let rho := imbe_rho L in
  sum77 <- imbe_sum77 L rho prev ;;
  for_up 1 (L + 1) (fun l cur =>
    g <- imbe_log2 L rho sum77 prev Tl l ;;
    lg <- wr (p_log2Ml cur) l g ;;
    ml <- wr (p_Ml cur) l (exp2f o g) ;;
    Ok (set_Ml ml (set_log2Ml lg cur))) cur.

(* imbe7200x4400.c:275-529, mbe_decodeImbe4400Parms: the return value, cur and prev *)
Definition mbe_decodeImbe4400Parms (o : oracle) (d : list Z) (cur prev : parms) : res (Z * parms * parms) :=
  let cur := set_repeat (p_repeat prev) cur in
  b0 <- read_b0 d [0; 1; 2; 3; 4; 5; 85; 86] ;;
  if 207 <? b0 then Ok (1, cur, prev)
  else
    let cur := set_w0 (imbe_w0_of_b0 b0) cur in
    L <- imbe_L_of_w0 (p_w0 cur) ;;
    if (56 <? L) || (L <? 9) then Ok (1, cur, prev)
    else
      let cur := set_L L cur in
      let L9 := L - 9 in
      K <- imbe_K_of_L L ;;
      let cur := set_K K cur in
      bb <- imbe_bb d L9 ;;
      Vl <- imbe_vl bb L K (p_Vl cur) ;;
      let cur := set_Vl Vl cur in
      Gm <- imbe_gm o bb L9 ;;
      Ri <- imbe_ri o Gm ;;
      Cik <- imbe_cik o bb L9 Ri ;;
      Tl <- imbe_tl o L9 Cik ;;
      prev <- imbe_extend_prev L prev ;;
      cur <- imbe_predict o L prev Tl cur ;;
      Ok (0, cur, prev).

(* ---- processing ---- *)

(* characters of the status string *)
Definition ch_eq : Z := 61.   (* '=' *)
Definition ch_R : Z := 82.
Definition ch_M : Z := 77.
Definition ch_E : Z := 69.
Definition ch_T : Z := 84.
(* for (i = 0; i < *errs2; i++) *err_str++ = '=' *)
Definition eq_run (errs2 : Z) : list Z := repeat ch_eq (Z.to_nat errs2).

(* The three parameter sets of a decoder. *)
Definition dstate : Type := parms * parms * parms.

(* 0.95f * prev->errorRate + coef * (float)errs2; coef is 0.000365f at imbe7200x4400.c:596 and 0.001064f at
   ambe3600x2450.c:642, ambe3600x2400.c:620 *)
Definition f_095 : f32 := Eval vm_compute in flit 95 100.
Definition f_365em6 : f32 := Eval vm_compute in flit 365 1000000.
Definition f_1064em6 : f32 := Eval vm_compute in flit 1064 1000000.
Definition error_rate (coef rate : f32) (errs2 : Z) : f32 := fadd (fmul f_095 rate) (fmul coef (f_of_Z errs2)).

(* imbe7200x4400.c:608-618: is the frame to be repeated? *)
Definition imbe_repeat_required (bad : Z) (errs2 : Z) (rate : f32) (c0_errors : Z) (c0_valid : bool) : bool :=
  if bad =? 1 then true
  else if c0_valid then
    (2 <=? c0_errors) && fge (f_of_Z errs2) (fadd (f_of_Z 10) (fmul (f_of_Z 40) rate))
  else 5 <? errs2.

(* imbe7200x4400.c:620-634: cur after the repeat decision *)
Definition imbe_conceal (repeat_required : bool) (cur prev : parms) : res parms :=
  if repeat_required then
    if MAX_FRAME_REPEATS - 1 <? p_repeatCount prev then imbe_reset_headroom_defaults cur
    else
      let cur := mbe_useLastMbeParms prev in
      r <- to_int (p_repeat cur + 1) ;; rc <- to_int (p_repeatCount cur + 1) ;;
      Ok (set_repeatCount rc (set_repeat r cur))
  else Ok (set_repeatCount 0 (set_repeat 0 cur)).

(* imbe7200x4400.c:588-636: parameters, before synthesis.  Result: cur, prev, repeat_required, frame_muted *)
Definition imbe_parameters (o : oracle) (d : list Z) (errs2 : Z) (cur prev : parms) (c0_errors : Z) (c0_valid : bool)
  : res (parms * parms * bool * bool) :=
  let cur := set_mutingThreshold MUTING_IMBE cur in
  let cur := set_errorRate (error_rate f_365em6 (p_errorRate prev) errs2) (set_errorCountTotal errs2 cur) in
  let cur := if c0_valid then cur else set_errorCount4 0 cur in
  '(bad, cur, prev) <- mbe_decodeImbe4400Parms o d cur prev ;;
  let rep := imbe_repeat_required bad errs2 (p_errorRate cur) c0_errors c0_valid in
  cur <- imbe_conceal rep cur prev ;;
  Ok (cur, prev, rep, mbe_isMaxFrameRepeat cur || mbe_requiresMuting cur).

(* imbe7200x4400.c:581-649, mbe_processImbe4400Dataf_withC0.  The bytes written to err_str are returned; the caller's
   buffer is not modelled (its required size is the length of this list). *)
Definition mbe_processImbe4400Dataf_withC0 (o : oracle) (a : Z) (aout : list f32) (errs2 : Z) (d : list Z)
    (st : dstate) (uvquality : Z) (c0_errors : Z) (c0_valid : bool) (t : tls)
  : res (list f32 * list Z * dstate * tls) :=
  let '(cur, prev, enh) := st in
  '(cur, prev, rep, muted) <- imbe_parameters o d errs2 cur prev c0_errors c0_valid ;;
  let prev := mbe_moveMbeParms cur in
  '(cur, t) <- mbe_spectralAmpEnhance o a cur t ;;
  '(aout, cur, enh, t) <- mbe_synthesizeSpeechf o aout a cur enh uvquality t ;;
  let enh := mbe_moveMbeParms cur in
  Ok (aout, eq_run errs2 ++ (if rep then [ch_R] else []) ++ (if muted then [ch_M] else []) ++ [0],
      (cur, prev, enh), t).

(* imbe7200x4400.c:663-669, mbe_processImbe4400Dataf *)
Definition mbe_processImbe4400Dataf (o : oracle) (a : Z) (aout : list f32) (errs errs2 : Z) (d : list Z)
    (st : dstate) (uvquality : Z) (t : tls) : res (list f32 * list Z * dstate * tls) :=
  mbe_processImbe4400Dataf_withC0 o a aout errs2 d st uvquality 0 false t.

(* imbe7200x4400.c:675-682, mbe_processImbe4400Data *)
Definition mbe_processImbe4400Data (o : oracle) (a : Z) (aout : list Z) (errs errs2 : Z) (d : list Z)
    (st : dstate) (uvquality : Z) (t : tls) : res (list Z * list Z * dstate * tls) :=
  '(fb, str, st, t) <- mbe_processImbe4400Dataf o a (repeat fzero 160) errs errs2 d st uvquality t ;;
  aout <- mbe_floattoshort o fb aout ;; Ok (aout, str, st, t).

(* What a frame entry point leaves behind: samples, errs, errs2, status string, frame, parameter bits, state *)
Record frame_out (S : Type) := mkframe_out {
  fo_aout : list S; fo_errs : Z; fo_errs2 : Z; fo_str : list Z; fo_fr : list (list Z); fo_d : list Z;
  fo_st : dstate; fo_tls : tls
}.
Arguments mkframe_out {S}. Arguments fo_aout {S}. Arguments fo_errs {S}. Arguments fo_errs2 {S}.
Arguments fo_str {S}. Arguments fo_fr {S}. Arguments fo_d {S}. Arguments fo_st {S}. Arguments fo_tls {S}.

Definition set_cur_errorCount4 (e : Z) (st : dstate) : dstate :=
  let '(cur, prev, enh) := st in (set_errorCount4 e cur, prev, enh).

(* imbe7200x4400.c:695-714, mbe_processImbe7200x4400Framef *)
Definition mbe_processImbe7200x4400Framef (o : oracle) (a : Z) (aout : list f32) (fr : list (list Z)) (d : list Z)
    (st : dstate) (uvquality : Z) (t : tls) : res (frame_out f32) :=
  '(fr, errs, errs2, c4, d) <- imbe7200_frame_ecc fr d ;;
  '(aout, str, st, t) <- mbe_processImbe4400Dataf_withC0 o a aout errs2 d (set_cur_errorCount4 c4 st) uvquality
                           errs true t ;;
  Ok (mkframe_out aout errs errs2 str fr d st t).

(* imbe7200x4400.c:720-729 *)
Definition to_short_out (o : oracle) (aout : list Z) (f : res (frame_out f32)) : res (frame_out Z) :=
  r <- f ;;
  aout <- mbe_floattoshort o (fo_aout r) aout ;;
  Ok (mkframe_out aout (fo_errs r) (fo_errs2 r) (fo_str r) (fo_fr r) (fo_d r) (fo_st r) (fo_tls r)).
Definition mbe_processImbe7200x4400Frame (o : oracle) (a : Z) (aout : list Z) (fr : list (list Z)) (d : list Z)
    (st : dstate) (uvquality : Z) (t : tls) : res (frame_out Z) :=
  to_short_out o aout (mbe_processImbe7200x4400Framef o a (repeat fzero 160) fr d st uvquality t).

(* imbe7100x4400.c:330-350, mbe_processImbe7100x4400Framef *)
Definition mbe_processImbe7100x4400Framef (o : oracle) (a : Z) (aout : list f32) (fr : list (list Z)) (d : list Z)
    (st : dstate) (uvquality : Z) (t : tls) : res (frame_out f32) :=
  '(fr, errs, errs2, c4, d) <- imbe7100_frame_ecc fr d ;;
  '(aout, str, st, t) <- mbe_processImbe4400Dataf_withC0 o a aout errs2 d (set_cur_errorCount4 c4 st) uvquality
                           errs true t ;;
  Ok (mkframe_out aout errs errs2 str fr d st t).
(* imbe7100x4400.c:356-365 *)
Definition mbe_processImbe7100x4400Frame (o : oracle) (a : Z) (aout : list Z) (fr : list (list Z)) (d : list Z)
    (st : dstate) (uvquality : Z) (t : tls) : res (frame_out Z) :=
  to_short_out o aout (mbe_processImbe7100x4400Framef o a (repeat fzero 160) fr d st uvquality t).
