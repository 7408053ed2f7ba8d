(* Model of the forward-error-correction and demodulation part of
   /repo/src/ambe/ambe_common.c, /repo/src/imbe/imbe7200x4400.c, /repo/src/imbe/imbe7100x4400.c.
   A frame char fr[R][C] is a list of R rows of C chars. *)
From Coq Require Import ZArith List Bool.
From Verif Require Import Res F32 MEcc.
Import ListNotations.
Local Open Scope Z_scope.

Notation frame := (list (list Z)).

(* for (j = 0; j < n; j++) in[j] = fr[row][j + off];  in has n cells *)
Definition copy_in (fr : frame) (row off n : Z) : res (list Z) :=
  l <- for_up 0 n (fun j inp => c <- rd2 fr row (j + off) ;; wr inp j (Some c)) (fresh n) ;;
  all_init l.

(* for (j = 0; j < n; j++) fr[row][j + off] = out[j]; *)
Definition copy_out (fr : frame) (row off n : Z) (out : list Z) : res frame :=
  for_up 0 n (fun j fr => c <- rd out j ;; wr2 fr row (j + off) c) fr.

(* *d = src[j]; d++;  for j = hi .. lo, where d is the number of cells already written *)
Definition emit_down (src : list Z) (hi lo : Z) (st : list (option Z) * Z) : res (list (option Z) * Z) :=
  for_down hi lo (fun j '(d, p) => c <- rd src j ;; d' <- wr d p (Some c) ;; Ok (d', p + 1)) st.

(* The scrambler recurrence, ambe_common.c:58-60 / imbe7200x4400.c:551-554 / imbe7100x4400.c:222-225:
   pr[0] = 16*seed; pr[i] = 173*pr[i-1] + 13849 - 65536*((173*pr[i-1]+13849)/65536), i < n.
   The products are int: 173*65535+13849 < 2^31. *)
Definition pr_fill (seed n : Z) : res (list (option Z)) :=
  p0 <- to_int (16 * seed) ;;
  pr <- wr (fresh 115) 0 (Some (to_u16 p0)) ;;
  for_up 1 n (fun i pr =>
    x <- rdi pr (i - 1) ;;
    t <- to_int (173 * x + 13849) ;;
    v <- to_int (t - 65536 * Z.quot t 65536) ;;
    wr pr i (Some (to_u16 v))) pr.

(* fr[row][j] = (char)(fr[row][j] ^ pr[k]); k++   for j = hi .. 0 *)
Definition demod_row (pr : list (option Z)) (row hi : Z) (st : frame * Z) : res (frame * Z) :=
  for_down hi 0 (fun j '(fr, k) =>
    c <- rd2 fr row j ;; p <- rdi pr k ;;
    fr' <- wr2 fr row j (to_char (Z.lxor c p)) ;; Ok (fr', k + 1)) st.

(* ---- AMBE 3600 (2400 and 2450 share this code) ---- *)

(* ambe_common.c:21-45, mbe_eccAmbe3600C0_common *)
Definition mbe_eccAmbe3600C0_common (fr : frame) : res (frame * Z) :=
  inp <- copy_in fr 0 1 23 ;;
  '(out, errs) <- mbe_golay2312 inp ;;
  fr <- copy_out fr 0 1 23 out ;;
  if errs =? 0 then
    ones <- for_up 0 24 (fun j ones => c <- rd2 fr 0 j ;; Ok (ones + Z.land c 1)) 0 ;;
    if negb (Z.land ones 1 =? 0) then
      c <- rd2 fr 0 0 ;; fr <- wr2 fr 0 0 (to_char (Z.lxor c 1)) ;; Ok (fr, 1)
    else Ok (fr, errs)
  else Ok (fr, errs).

(* ambe_common.c:47-72, mbe_demodulateAmbe3600Data_common *)
Definition mbe_demodulateAmbe3600Data_common (fr : frame) : res frame :=
  foo <- for_down 23 12 (fun i foo =>
      c <- rd2 fr 0 i ;; Ok (to_u16 (Z.lor (to_u16 (Z.shiftl foo 1)) c))) 0 ;;
  pr <- pr_fill foo 24 ;;
  (* pr[i] = pr[i] / 32768, i = 1..23 *)
  pr <- for_up 1 24 (fun i pr => x <- rdi pr i ;; wr pr i (Some (to_u16 (Z.quot x 32768)))) pr ;;
  '(fr, _) <- demod_row pr 1 22 (fr, 1) ;;
  Ok fr.

(* ambe_common.c:74-104, mbe_eccAmbe3600Data_common; the frame is not modified *)
Definition mbe_eccAmbe3600Data_common (fr : frame) (out49 : list Z) : res (list Z * Z) :=
  r0 <- rd fr 0 ;; r2 <- rd fr 2 ;; r3 <- rd fr 3 ;;
  st <- emit_down r0 23 12 (map Some out49, 0) ;;
  gin <- copy_in fr 1 0 23 ;;
  '(gout, errs) <- mbe_golay2312 gin ;;
  st <- emit_down gout 22 11 st ;;
  st <- emit_down r2 10 0 st ;;
  '(d, _) <- emit_down r3 13 0 st ;;
  d <- all_init d ;;
  Ok (d, errs).

(* ---- IMBE 7200x4400 ---- *)

(* imbe7200x4400.c:185-200, mbe_eccImbe7200x4400C0 *)
Definition mbe_eccImbe7200x4400C0 (fr : frame) : res (frame * Z) :=
  inp <- copy_in fr 0 0 23 ;;
  '(out, errs) <- mbe_golay2312 inp ;;
  fr <- copy_out fr 0 0 23 out ;;
  Ok (fr, errs).

(* imbe7200x4400.c:535-573, mbe_demodulateImbe7200x4400Data.  tmpstr holds 24 chars; seed is the
   unsigned short the strtol result is stored in. *)
Definition mbe_demodulateImbe7200x4400Data (fr : frame) : res frame :=
  tmpstr <- wr (fresh 24) 12 (Some 0) ;;
  '(tmpstr, _) <- for_down 22 11 (fun i '(s, j) =>
      c <- rd2 fr 0 i ;; s' <- wr s j (Some (to_char (c + 48))) ;; Ok (s', j + 1)) (tmpstr, 0) ;;
  v <- strtol2 tmpstr ;;
  pr <- pr_fill (to_u16 v) 115 ;;
  pr <- for_up 1 115 (fun i pr => x <- rdi pr i ;; wr pr i (Some (Z.shiftr x 15))) pr ;;
  st <- for_up 1 4 (fun i st => demod_row pr i 22 st) (fr, 1) ;;
  '(fr, _) <- for_up 4 7 (fun i st => demod_row pr i 14 st) st ;;
  Ok fr.

(* imbe7200x4400.c:209-255, mbe_eccImbe7200x4400DataInternal with errs_c4 != NULL; returns the
   parameter bits, the error count and the C4 error count.  The frame is not modified. *)
Definition mbe_eccImbe7200x4400DataInternal (fr : frame) (imbe_d : list Z) : res (list Z * Z * Z) :=
  '(st, errs) <- for_up 0 4 (fun i '(st, errs) =>
      if 0 <? i then
        gin <- copy_in fr i 0 23 ;;
        '(gout, e) <- mbe_golay2312 gin ;;
        st' <- emit_down gout 22 11 st ;; Ok (st', errs + e)
      else
        r <- rd fr i ;; st' <- emit_down r 22 11 st ;; Ok (st', errs)) ((map Some imbe_d, 0), 0) ;;
  '(st, errs, c4) <- for_up 4 7 (fun i '(st, errs, c4) =>
      hin <- copy_in fr i 0 15 ;;
      '(hout, e) <- mbe_hamming1511 hin ;;
      st' <- emit_down hout 14 4 st ;;
      Ok (st', errs + e, if i =? 4 then e else c4)) (st, errs, 0) ;;
  r7 <- rd fr 7 ;;
  '(d, _) <- emit_down r7 6 0 st ;;
  d <- all_init d ;;
  Ok (d, errs, c4).

(* ---- IMBE 7100x4400 ---- *)

(* imbe7100x4400.c:100-119, mbe_eccImbe7100x4400C0 *)
Definition mbe_eccImbe7100x4400C0 (fr : frame) : res (frame * Z) :=
  inp <- for_up 0 18 (fun j inp => c <- rd2 fr 0 (j + 1) ;; wr inp j (Some c)) (fresh 23) ;;
  inp <- for_up 18 23 (fun j inp => wr inp j (Some 0)) inp ;;
  inp <- all_init inp ;;
  '(out, errs) <- mbe_golay2312 inp ;;
  fr <- copy_out fr 0 1 18 out ;;
  Ok (fr, errs).

(* imbe7100x4400.c:205-250, mbe_demodulateImbe7100x4400Data *)
Definition mbe_demodulateImbe7100x4400Data (fr : frame) : res frame :=
  tmpstr <- wr (fresh 24) 7 (Some 0) ;;
  '(tmpstr, _) <- for_down 18 12 (fun i '(s, j) =>
      c <- rd2 fr 0 i ;; s' <- wr s j (Some (to_char (c + 48))) ;; Ok (s', j + 1)) (tmpstr, 0) ;;
  v <- strtol2 tmpstr ;;
  pr <- pr_fill (to_u16 v) 101 ;;
  pr <- for_up 1 101 (fun i pr => x <- rdi pr i ;; wr pr i (Some (Z.shiftr x 15))) pr ;;
  st <- demod_row pr 1 23 (fr, 1) ;;
  st <- for_up 2 4 (fun i st => demod_row pr i 22 st) st ;;
  '(fr, _) <- for_up 4 6 (fun i st => demod_row pr i 14 st) st ;;
  Ok fr.

(* imbe7100x4400.c:128-188, mbe_eccImbe7100x4400DataInternal with errs_c4 != NULL *)
Definition mbe_eccImbe7100x4400DataInternal (fr : frame) (imbe_d : list Z) : res (list Z * Z * Z) :=
  r0 <- rd fr 0 ;;
  st <- emit_down r0 18 12 (map Some imbe_d, 0) ;;
  gin <- copy_in fr 1 1 23 ;;
  '(gout, errs) <- mbe_golay2312 gin ;;
  st <- emit_down gout 22 11 st ;;
  '(st, errs) <- for_up 2 4 (fun i '(st, errs) =>
      gin <- copy_in fr i 0 23 ;;
      '(gout, e) <- mbe_golay2312 gin ;;
      st' <- emit_down gout 22 11 st ;; Ok (st', errs + e)) (st, errs) ;;
  '(st, errs, c4) <- for_up 4 6 (fun i '(st, errs, c4) =>
      hin <- copy_in fr i 0 15 ;;
      '(hout, e) <- mbe_7100x4400hamming1511 hin ;;
      st' <- emit_down hout 14 4 st ;;
      Ok (st', errs + e, if i =? 4 then e else c4)) (st, errs, 0) ;;
  r6 <- rd fr 6 ;;
  '(d, _) <- emit_down r6 22 0 st ;;
  d <- all_init d ;;
  Ok (d, errs, c4).

(* tmpstr[k] = d[pos_k] + 48; tmpstr[8] = 0; strtol (tmpstr, NULL, 2)
   (imbe7200x4400.c:292-301, imbe7100x4400.c:265-274) *)
Definition read_b0 (d : list Z) (pos : list Z) : res Z :=
  s <- (fix go (ps : list Z) : res (list (option Z)) :=
          match ps with
          | [] => Ok [Some 0]
          | p :: t => c <- rd d p ;; r <- go t ;; Ok (Some (to_char (c + 48)) :: r)
          end) pos ;;
  strtol2 s.

(* w0 = (float)(4 * M_PI) / (float)((float)b0 + 39.5)
   (imbe7200x4400.c:313, imbe7100x4400.c:275); 39.5 is a double, so the sum is a double *)
Definition imbe_w0_of_b0 (b0 : Z) : f32 :=
  fdiv (d2f (dmul (d_of_Z 4) M_PI)) (d2f (dadd (f2d (f_of_Z b0)) (dlit 79 2))).

(* L = (int)(0.9254 * (int)((M_PI / w0) + 0.25))   (imbe7200x4400.c:316 and 66, imbe7100x4400.c:278) *)
Definition imbe_L_of_w0 (w0 : f32) : res Z :=
  a <- sf_to_int (dadd (ddiv M_PI (f2d w0)) (dlit 1 4)) ;;
  sf_to_int (dmul (dlit 9254 10000) (d_of_Z a)).

(* K = L < 37 ? (int)((float)(L + 2) / (float)3) : 12   (imbe7200x4400.c:327-333, imbe7100x4400.c:281-285) *)
Definition imbe_K_of_L (L : Z) : res Z :=
  if L <? 37 then sf_to_int (fdiv (f_of_Z (L + 2)) (f_of_Z 3)) else Ok 12.

(* imbe7100x4400.c:256-317, mbe_convertImbe7100to7200.  The while loop is run with fuel 88; it
   executes at most 87 times because j grows by at least one each time, and running out of fuel is
   reported as UB so that it cannot be mistaken for a result. *)
Fixpoint convert_while (fuel : nat) (K : Z) (d : list Z) (tmp : list (option Z)) (j k : Z) : res (list (option Z)) :=
  match fuel with
  | O => UB OOB
  | S fuel' =>
      if j <? 87 then
        c <- rd d k ;; tmp <- wr tmp j (Some c) ;;
        let j := j + 1 in
        let j := if j =? 48 then j + (K + 2) else j in
        let k := k + 1 in
        let k := if k =? 42 then k + (K + 2) else k in
        convert_while fuel' K d tmp j k
      else Ok tmp
  end.

Definition mbe_convertImbe7100to7200 (d : list Z) : res (list Z) :=
  b0 <- read_b0 d [1; 2; 3; 4; 5; 6; 86; 87] ;;
  L <- imbe_L_of_w0 (imbe_w0_of_b0 b0) ;;
  K <- imbe_K_of_L L ;;
  let tmp := fresh 88 in
  c <- rd d 0 ;; tmp <- wr tmp 87 (Some c) ;;
  c <- rd d 42 ;; tmp <- wr tmp (48 + K) (Some c) ;;
  c <- rd d 43 ;; tmp <- wr tmp (49 + K) (Some c) ;;
  '(tmp, _, _) <- for_up 0 K (fun _ '(tmp, j, k) =>
      c <- rd d k ;; tmp <- wr tmp j (Some c) ;; Ok (tmp, j + 1, k + 1)) (tmp, 48, 44) ;;
  tmp <- convert_while 88 K d tmp 0 1 ;;
  t <- for_up 0 88 (fun i d => c <- rdi tmp i ;; wr d i c) d ;;
  Ok t.

(* ---- the error-correction half of the frame entry points ---- *)

(* ambe3600x2450.c:773-787 / ambe3600x2400.c:705-718 up to the Dataf call: returns the frame as
   modified, errs, errs2 and ambe_d *)
Definition ambe_frame_ecc (fr : frame) (ambe_d : list Z) : res (frame * Z * Z * list Z) :=
  '(fr, errs) <- mbe_eccAmbe3600C0_common fr ;;
  fr <- mbe_demodulateAmbe3600Data_common fr ;;
  '(d, e) <- mbe_eccAmbe3600Data_common fr ambe_d ;;
  Ok (fr, errs, errs + e, d).

(* imbe7200x4400.c:700-710: returns the frame, errs, errs2, errs_c4 and imbe_d *)
Definition imbe7200_frame_ecc (fr : frame) (imbe_d : list Z) : res (frame * Z * Z * Z * list Z) :=
  '(fr, errs) <- mbe_eccImbe7200x4400C0 fr ;;
  fr <- mbe_demodulateImbe7200x4400Data fr ;;
  '(d, e, c4) <- mbe_eccImbe7200x4400DataInternal fr imbe_d ;;
  Ok (fr, errs, errs + e, c4, d).

(* imbe7100x4400.c:335-346 *)
Definition imbe7100_frame_ecc (fr : frame) (imbe_d : list Z) : res (frame * Z * Z * Z * list Z) :=
  '(fr, errs) <- mbe_eccImbe7100x4400C0 fr ;;
  fr <- mbe_demodulateImbe7100x4400Data fr ;;
  '(d, e, c4) <- mbe_eccImbe7100x4400DataInternal fr imbe_d ;;
  d <- mbe_convertImbe7100to7200 d ;;
  Ok (fr, errs, errs + e, c4, d).
